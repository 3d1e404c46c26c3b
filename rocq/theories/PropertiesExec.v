(** Properties C47-C53, C65, C66: execution control. *)
From Coq Require Import Bool Arith Lia List.
From Verif Require Import Base ModelExec SpecExec ModelExecTree ProofsExecProps ProofsExecAny ProofsExecSeen DemoExec.
From Verif Require ModelTree SpecTree ProofsWhole Demo.
Import ListNotations.

(** ** C47 ERROR is left only by SHUTDOWN *)

(** From any state in which no request is being handled and the tree state is ERROR:
    whatever requests arrive, concurrently, other than SHUTDOWN, the state stays ERROR,
    the nodes stay as they are, every handler makes at most seven accesses, is never
    stuck, and answers failure. *)
Theorem C47_error : forall W (P : plant W) y0 es y, reachable P y0 -> calm y0 -> y_state y0 = TERROR ->
  runs anything P y0 es y -> ~ arrives (KControl SHUT_DOWN) es ->
  y_state y = TERROR /\ y_world y = y_world y0 /\
  (forall p a, In (EAct p a) es -> harmless a \/ a = ASetState TERROR) /\
  forall p k c, at_code y p k c -> k <> KTick -> length (y_procs y0) <= p ->
    acts p es <= 7 /\
    (ended c = true -> exists ts, c = Done false ts) /\
    (ended c = false -> exists a y', step P y (EAct p a) y').
Proof. exact @error_stays. Qed.
Print Assumptions C47_error.

(** A tick fails; then RESET is refused. *)
Example C47_example : exists y0 es y,
  reachable demo y0 /\ calm y0 /\ y_state y0 = TERROR /\
  runs anything demo y0 es y /\ ~ arrives (KControl SHUT_DOWN) es /\ answered y 2 false None.
Proof.
  destruct (play2 true (idle_root [Err EGuard])
    (inl (KControl TICK_PERIODICALLY) :: acc 0 15 ++ acc 1 9)
    (inl (KControl RESET) :: acc 2 7)
    (fun y0 es y => calmb y0 = true /\ y_state y0 = TERROR /\ answer_of y 2 = Some (false, None) /\
       filter (fun e => match e with EArrive _ => true | _ => false end) es = [EArrive (KControl RESET)]))
    as (es0 & y0 & es & y & R0 & R & C & S & A & F); [vm_compute; repeat split; fail|].
  exists y0, es, y. split; [exists (idle_root [Err EGuard]), es0; exact R0|]. split; [apply calmb_calm; exact C|].
  split; [exact S|]. split; [exact (runs_any _ _ _ _ _ R)|]. split; [|apply answer_answered; exact A].
  intros X. assert (Y : In (EArrive (KControl SHUT_DOWN)) (filter (fun e => match e with EArrive _ => true | _ => false end) es))
    by (apply filter_In; split; [exact X|reflexivity]).
  rewrite F in Y. destruct Y as [Y|[]]. discriminate.
Qed.

(** Without the condition that no request is being handled it is false, even if no two
    requests overlap: a STOP that read TICKING overwrites an ERROR the tick thread
    reports at that moment. *)
Theorem C47_race_refuted : exists (P : plant dw) y0 es y,
  reachable P y0 /\ y_state y0 = TERROR /\
  runs one_at_a_time P y0 es y /\ no_arrivals es /\ (forall p c, ~ at_code y0 p (KControl SHUT_DOWN) c) /\
  y_state y = STOP_REQUESTED.
Proof.
  destruct (play2 true (idle_root [Err EGuard])
    (inl (KControl TICK_PERIODICALLY) :: acc 0 15 ++ acc 1 8 ++ inl (KControl STOP) :: acc 2 6 ++ acc 1 1)
    (acc 2 1)
    (fun y0 es y => y_state y0 = TERROR /\ quiet_list es = true /\
       map fst (y_procs y0) = [KControl TICK_PERIODICALLY; KTick; KControl STOP] /\ y_state y = STOP_REQUESTED))
    as (es0 & y0 & es & y & R0 & R & S & Q & K & S1); [vm_compute; repeat split; fail|].
  exists demo, y0, es, y. split; [exists (idle_root [Err EGuard]), es0; exact R0|]. split; [exact S|].
  split; [exact R|]. split; [apply quiet_no_arrivals; exact Q|]. split; [|exact S1].
  intros p c A. unfold at_code in A. apply (map_nth_error fst) in A. rewrite K in A.
  destruct p as [|[|[|[]]]]; cbn in A; discriminate.
Qed.
Print Assumptions C47_race_refuted.

(** ** C48 One ticking thread, and STOP stops it *)

(** Partial: for requests that do not overlap; see C48_two_threads_refuted. *)
Theorem C48_one_thread_partial : forall W (P : plant W) y, reachable P y ->
  (forall t1 t2, tick_thread_alive y t1 -> tick_thread_alive y t2 -> t1 = t2) /\
  (forall p, ticking y p -> tick_thread_alive y p).
Proof. exact @one_tick_thread. Qed.
Print Assumptions C48_one_thread_partial.

(** After the answer to STOP, be it success or failure, no tick is going on and none
    begins as long as no TICK command arrives. *)
Theorem C48_stop_partial : forall W (P : plant W) y0 p es y ok ts es' y', reachable P y0 ->
  handled P y0 (KControl STOP) p es y ok ts ->
  runs one_at_a_time P y es' y' -> no_tick_command es' ->
  ~ tick_begins es' /\ forall q, ~ ticking y q.
Proof. exact @stop_quiet. Qed.
Print Assumptions C48_stop_partial.

(** In general no tick begins without a TICK command unless the state is TICKING. *)
Theorem C48_quiet_partial : forall W (P : plant W) y es' y', reachable P y -> calm y -> y_state y <> TICKING ->
  runs one_at_a_time P y es' y' -> no_tick_command es' -> ~ tick_begins es'.
Proof. exact @not_ticking_quiet. Qed.
Print Assumptions C48_quiet_partial.

(** With full concurrency, and even if ROS goes down meanwhile: a STOP or SHUTDOWN that
    asks the tick thread to stop answers success only after it has found the thread ended;
    so does a TICK_ONCE that starts a thread. *)
Theorem C48_stop_seen : forall W (P : plant W) c y0 y1 es y ts, c = STOP \/ c = SHUT_DOWN ->
  step P y0 (EArrive (KControl c)) y1 -> runs anything P y1 es y -> answered y (length (y_procs y0)) true ts ->
  In (EAct (length (y_procs y0)) (ASetState STOP_REQUESTED)) es ->
  ended_after (length (y_procs y0)) (ASetState STOP_REQUESTED) es.
Proof. exact @stop_seen. Qed.
Print Assumptions C48_stop_seen.

Theorem C48_once_seen : forall W (P : plant W) y0 y1 es y ts t,
  step P y0 (EArrive (KControl TICK_ONCE)) y1 -> runs anything P y1 es y -> answered y (length (y_procs y0)) true ts ->
  In (EAct (length (y_procs y0)) (AStart t true)) es ->
  exists t', ended_after (length (y_procs y0)) (AStart t' true) es.
Proof. exact @once_seen. Qed.
Print Assumptions C48_once_seen.

(** A periodically ticked tree is stopped between two ticks. *)
Example C48_example : exists y0 es y, reachable demo y0 /\ ticking y0 1 /\
  handled demo y0 (KControl STOP) 2 es y true (Some TIDLE) /\
  ticks es = [(1, OTick, Ok RUNNING)] /\ y_state y = TIDLE /\ no_tick_thread y.
Proof.
  destruct (play_handled (idle_root []) (inl (KControl TICK_PERIODICALLY) :: acc 0 15 ++ acc 1 7) STOP
    (acc 2 7 ++ acc 1 8 ++ acc 2 3) true (Some TIDLE)
    (fun y0 es y => tickingb y0 1 = true /\ length (y_procs y0) = 2 /\ ticks es = [(1, OTick, Ok RUNNING)] /\
       y_state y = TIDLE /\ none_alive y = true)) as (y0 & es & y & R & H & T & L & C & S & N); [vm_compute; repeat split; fail|].
  exists y0, es, y. rewrite L in H. auto 12 using tickingb_ticking, none_alive_none.
Qed.

(** In the same run the request to stop is made, and answered with success. *)
Example C48_seen_example : exists y0 y1 es y,
  step demo y0 (EArrive (KControl STOP)) y1 /\ runs anything demo y1 es y /\
  answered y (length (y_procs y0)) true (Some TIDLE) /\ In (EAct (length (y_procs y0)) (ASetState STOP_REQUESTED)) es.
Proof.
  destruct (play_handled (idle_root []) (inl (KControl TICK_PERIODICALLY) :: acc 0 15 ++ acc 1 7) STOP
    (acc 2 7 ++ acc 1 8 ++ acc 2 3) true (Some TIDLE)
    (fun y0 es y => existsb (fun e => match e with EAct 2 (ASetState STOP_REQUESTED) => true | _ => false end) es = true /\
       length (y_procs y0) = 2)) as (y0 & es & y & R & H & T & L); [vm_compute; repeat split; fail|].
  destruct H as [(C & _ & _ & y1 & S1 & R1) A]. exists y0, y1, es, y. split; [exact S1|].
  split; [exact (runs_any _ _ _ _ _ R1)|]. split; [exact A|]. rewrite L.
  apply existsb_exists in T. destruct T as (e & I & E).
  destruct e as [|[|[|[|]]] a]; try discriminate; destruct a as [|[]| | | | | | | | | | | | | | | | | | | | | | | | ]; try discriminate. exact I.
Qed.

(** If two TICK commands overlap, two threads may tick the tree at the same time. *)
Theorem C48_two_threads_refuted : exists (P : plant dw) y t1 t2,
  reachable_any P y /\ t1 <> t2 /\ ticking y t1 /\ ticking y t2 /\ answered y 0 true (Some TICKING) /\
  answered y 1 true (Some TICKING).
Proof.
  destruct (play2 false (idle_root [])
    (inl (KControl TICK_PERIODICALLY) :: inl (KControl TICK_PERIODICALLY) :: acc 1 2 ++ acc 0 15 ++ acc 1 13)
    (acc 2 7 ++ acc 3 7)
    (fun _ _ y => tickingb y 2 = true /\ tickingb y 3 = true /\ answer_of y 0 = Some (true, Some TICKING) /\
      answer_of y 1 = Some (true, Some TICKING)))
    as (es0 & y0 & es & y & R0 & R & T2 & T3 & A0 & A1); [vm_compute; repeat split; fail|].
  exists demo, y, 2, 3. split; [exists (idle_root []), (es0 ++ es); exact (runs_trans _ _ _ _ _ _ _ R0 R)|].
  split; [discriminate|]. auto 12 using tickingb_ticking, answer_answered.
Qed.
Print Assumptions C48_two_threads_refuted.

(** ** C49 TICK_ONCE ticks once, TICK_UNTIL_RESULT ticks until a result *)

(** A successful TICK_ONCE of a tree with nodes has ticked the root once, by a new thread,
    which has ended; the state is WAITING_FOR_TICK.  If no thread was ticking before,
    this is the only tick. *)
Theorem C49_once : forall W (P : plant W) y0 p es y ts, reachable P y0 ->
  handled P y0 (KControl TICK_ONCE) p es y true ts ->
  no_tick_thread y /\ ts = Some (y_state y) /\
  ((p_root P (y_world y) = REmpty /\ (no_tick_thread y0 -> ticks es = [])) \/
   (y_state y = WAITING_FOR_TICK /\
    exists t x, starts t es /\ ticks_of t es = [Ok x] /\
      (no_tick_thread y0 -> ticks es = [(t, OTick, Ok x)]))).
Proof. exact @tick_once_ok. Qed.
Print Assumptions C49_once.

(** After a successful TICK_UNTIL_RESULT, as long as no other request arrives: all ticks but the
    last have no result; when the state is IDLE the last one has; and when the thread has
    ended, the last tick was followed by an untick and the state is IDLE, or the state is
    ERROR, or an exception has ended the thread. *)
Theorem C49_until_result : forall W (P : plant W) y0 p es y ts, reachable P y0 ->
  handled P y0 (KControl TICK_UNTIL_RESULT) p es y true ts ->
  (p_root P (y_world y) = REmpty /\ no_tick_thread y /\ ts = Some (y_state y) /\ (no_tick_thread y0 -> ticks es = [])) \/
  exists t, starts t es /\
    (no_tick_thread y0 -> ticks es = map (fun r => (t, OTick, r)) (ticks_of t es)) /\
    (exists l0 rest, ticks_of t es = l0 ++ rest /\ Forall going l0 /\ length rest <= 1 /\
       (y_state y = TIDLE -> exists r, rest = [r] /\ result r)) /\
    (~ tick_thread_alive y t ->
       y_state y = TIDLE /\ (exists l r r', calls_of t es = l ++ [(OTick, r); (OUntick, r')] /\ result r) \/
       y_state y = TERROR \/
       at_code y t KTick Crash /\ y_state y = TICKING).
Proof. exact @until_result_ok. Qed.
Print Assumptions C49_until_result.

(** TICK_PERIODICALLY goes on unless a tick reports an error or an exception ends the
    thread. *)
Theorem C49_periodically : forall W (P : plant W) y0 p es y ts, reachable P y0 ->
  handled P y0 (KControl TICK_PERIODICALLY) p es y true ts ->
  (p_root P (y_world y) = REmpty /\ no_tick_thread y /\ ts = Some (y_state y) /\ (no_tick_thread y0 -> ticks es = [])) \/
  exists t, starts t es /\
    (no_tick_thread y0 -> ticks es = map (fun r => (t, OTick, r)) (ticks_of t es)) /\
    (~ tick_thread_alive y t -> y_state y = TERROR \/ at_code y t KTick Crash /\ y_state y = TICKING).
Proof. exact @periodically_ok. Qed.
Print Assumptions C49_periodically.

Example C49_once_example : exists y0 es y, reachable demo y0 /\
  handled demo y0 (KControl TICK_ONCE) 0 es y true (Some WAITING_FOR_TICK) /\
  ticks es = [(1, OTick, Ok RUNNING)].
Proof.
  destruct (play_handled (idle_root []) [] TICK_ONCE
    (acc 0 17 ++ acc 1 12 ++ acc 0 5) true (Some WAITING_FOR_TICK)
    (fun y0 es y => length (y_procs y0) = 0 /\ ticks es = [(1, OTick, Ok RUNNING)]))
    as (y0 & es & y & R & H & L & C); [vm_compute; repeat split; fail|].
  exists y0, es, y. rewrite L in H. auto 12.
Qed.
Example C49_until_example : exists y0 es y, reachable demo y0 /\
  handled demo y0 (KControl TICK_UNTIL_RESULT) 0 es y true (Some TICKING) /\
  calls_of 1 es = [(OTick, Ok RUNNING); (OTick, Ok FAILED); (OUntick, Ok IDLE)] /\ y_state y = TIDLE /\
  ~ tick_thread_alive y 1.
Proof.
  destruct (play_handled (idle_root [Ok RUNNING; Ok FAILED]) [] TICK_UNTIL_RESULT
    (acc 0 16 ++ acc 1 11 ++ acc 1 8) true (Some TICKING)
    (fun y0 es y => length (y_procs y0) = 0 /\ y_state y = TIDLE /\ none_alive y = true /\
       calls_of 1 es = [(OTick, Ok RUNNING); (OTick, Ok FAILED); (OUntick, Ok IDLE)]))
    as (y0 & es & y & R & H & L & S & N & C); [vm_compute; repeat split; fail|].
  exists y0, es, y. rewrite L in H. repeat (split; [assumption|]). exact (none_alive_none _ N 1).
Qed.

(** The exception case occurs: the thread is gone and the state still says TICKING. *)
Theorem C49_crash_refuted : exists (P : plant dw) y0 p es y,
  reachable P y0 /\ handled P y0 (KControl TICK_UNTIL_RESULT) p es y true (Some TICKING) /\
  p_root P (y_world y) = ROne /\ no_tick_thread y /\ y_state y = TICKING.
Proof.
  destruct (play_handled (idle_root [Raise]) [] TICK_UNTIL_RESULT
    (acc 0 16 ++ acc 1 8) true (Some TICKING)
    (fun y0 es y => d_root (y_world y) = ROne /\ y_state y = TICKING /\ none_alive y = true))
    as (y0 & es & y & R & H & O & S & N); [vm_compute; repeat split; fail|].
  exists demo, y0, (length (y_procs y0)), es, y. auto 12 using none_alive_none.
Qed.
Print Assumptions C49_crash_refuted.

(** With full concurrency: only tick threads tick the root.  Before its first tick such a
    thread has found the root in a state other than UNINITIALIZED and SHUTDOWN, and if it
    has called setup, it has found the root IDLE after that. *)
Theorem C49_after_setup : forall W (P : plant W) w es1 t es2 y,
  runs anything P (fresh w) (es1 ++ EAct t (ABegin OTick) :: es2) y ->
  (exists c, at_code y t KTick c) /\
  exists e1 s e2, es1 = e1 ++ EAct t (ARootState s) :: e2 /\ s <> UNINITIALIZED /\ s <> SHUTDOWN /\
    (In (EAct t (ABegin OSetup)) es1 -> In (EAct t (ABegin OSetup)) e1 /\ s = IDLE).
Proof. exact @tick_after_setup. Qed.
Print Assumptions C49_after_setup.

(** A root that is not set up yet. *)
Example C49_setup_example : exists es1 es2 y,
  runs anything demo (fresh (mkDw [] UNINITIALIZED ROne)) (es1 ++ EAct 1 (ABegin OTick) :: es2) y /\
  In (EAct 1 (ABegin OSetup)) es1.
Proof.
  destruct (play2 true (mkDw [] UNINITIALIZED ROne) [] (inl (KControl TICK_PERIODICALLY) :: acc 0 15 ++ acc 1 12)
    (fun y0 es _ => y0 = fresh (mkDw [] UNINITIALIZED ROne) /\ nth_error es 26 = Some (EAct 1 (ABegin OTick)) /\
       nth_error (firstn 26 es) 20 = Some (EAct 1 (ABegin OSetup))))
    as (es0 & y0 & es & y & R0 & R & -> & C & S); [vm_compute; repeat split; fail|].
  exists (firstn 26 es), (skipn 27 es), y. split; [|exact (nth_error_In _ _ S)].
  assert (E : es = firstn 26 es ++ EAct 1 (ABegin OTick) :: skipn 27 es).
  { rewrite <- (firstn_skipn 26 es) at 1. f_equal. clear -C. revert C. generalize 26 as k.
    induction es as [|e es IH]; intros [|k] C; cbn in *; try discriminate; [congruence|auto]. }
  rewrite E in R. exact (runs_any _ _ _ _ _ R).
Qed.

(** ** C50 No edit is applied while the tree is ticking *)

(** Partial: for requests that do not overlap; see C50_refuted. *)
Theorem C50_no_edit_partial : forall W (P : plant W) y p t, reachable P y -> editing y p -> ticking y t -> False.
Proof. exact @no_edit_ticking. Qed.
Print Assumptions C50_no_edit_partial.

(** Both do occur. *)
Example C50_example : exists y1 y2, reachable demo y1 /\ editing y1 0 /\ reachable demo y2 /\ ticking y2 2.
Proof.
  destruct (play2 true (idle_root [])
    (inl (KEdit false) :: acc 0 3) (acc 0 2 ++ inl (KControl TICK_PERIODICALLY) :: acc 1 15 ++ acc 2 7)
    (fun y0 _ y => editingb y0 0 = true /\ tickingb y 2 = true))
    as (es0 & y0 & es & y & R0 & R & A & B); [vm_compute; repeat split; fail|].
  exists y0, y. split; [exists (idle_root []), es0; exact R0|]. split; [apply editingb_editing; exact A|].
  split; [|apply tickingb_ticking; exact B].
  exists (idle_root []), (es0 ++ es). exact (runs_trans _ _ _ _ _ _ _ R0 R).
Qed.

(** An edit that has found the tree EDITABLE goes on while a TICK command starts the
    thread. *)
Theorem C50_refuted : exists (P : plant dw) y p t, reachable_any P y /\ editing y p /\ ticking y t.
Proof.
  destruct (play2 false (idle_root [])
    (inl (KEdit false) :: acc 0 3) (inl (KControl TICK_PERIODICALLY) :: acc 1 15 ++ acc 2 7)
    (fun y0 _ y => editingb y 0 = true /\ tickingb y 2 = true))
    as (es0 & y0 & es & y & R0 & R & A & B); [vm_compute; repeat split; fail|].
  exists demo, y, 0, 2. split; [exists (idle_root []), (es0 ++ es); exact (runs_trans _ _ _ _ _ _ _ R0 R)|].
  auto using editingb_editing, tickingb_ticking.
Qed.
Print Assumptions C50_refuted.

(** ** C51 SHUTDOWN makes the tree editable again *)

(** Partial: no thread was ticking when the request came, or the request stopped it;
    see C51_refuted for the remaining case. *)
Theorem C51_shutdown_partial : forall W (P : plant W) y0 p es y ts, reachable P y0 ->
  handled P y0 (KControl SHUT_DOWN) p es y true ts ->
  no_tick_thread y0 \/ In (EAct p (ASetState STOP_REQUESTED)) es ->
  y_state y = EDITABLE /\ ts = Some EDITABLE /\ no_tick_thread y /\ shut_down P (y_world y).
Proof. exact @shutdown_ok. Qed.
Print Assumptions C51_shutdown_partial.

(** For the trees of ModelTree.v: every node of the tree is SHUTDOWN, if the leaves report
    success when they are shut down. *)
Theorem C51_nodes_partial : forall E (ev : ModelTree.env E) orphan init push subclear edits y0 p es y ts t,
  let P := tree_plant ev orphan init push subclear edits in
  reachable P y0 -> handled P y0 (KControl SHUT_DOWN) p es y true ts ->
  no_tick_thread y0 \/ In (EAct p (ASetState STOP_REQUESTED)) es ->
  n_trees (y_world y) = [t] -> SpecTree.wf t ->
  (forall n name cs w, In (ModelTree.T n ModelTree.KLeaf name cs) (SpecTree.subtrees t) ->
     snd (ModelTree.leaf_act ev OShutdown n w) = Ok SHUTDOWN) ->
  y_state y = EDITABLE /\ no_tick_thread y /\
  forall m, In m (ModelTree.ids t) -> ModelTree.w_st (n_world (y_world y)) m = SHUTDOWN.
Proof.
  intros E ev orphan init push subclear edits y0 p es y ts t P R H C HT WF LF.
  destruct (C51_shutdown_partial _ _ _ _ _ _ _ R H C) as (S & _ & N & D). split; [exact S|]. split; [exact N|].
  destruct D as [(w0 & s & RT & (T1 & CA))|[RT|(w0 & RT & T1 & W1)]].
  - rewrite <- T1, HT in CA.
    destruct (ProofsWhole.shutdown_tree_ok E ev t WF) with (w := n_world w0) as (w' & CA' & ALL).
    { intros n k name cs Hin -> w. eapply LF; eauto. }
    assert (X : w' = n_world (y_world y)) by congruence. rewrite <- X. exact ALL.
  - cbn in RT. unfold the_root in RT. rewrite HT in RT. discriminate.
  - cbn in RT. unfold the_root in RT. rewrite HT in T1. exfalso.
    destruct (n_trees w0) as [|a [|b l]]; try discriminate.
    destruct a as [? ? ? ca], b as [? ? ? cb]. cbn in T1. injection T1 as _ T1.
    destruct (concat (map all_nodes ca)); discriminate.
Qed.
Print Assumptions C51_nodes_partial.

Example C51_example : exists y0 es y, reachable demo y0 /\ ticking y0 1 /\
  handled demo y0 (KControl SHUT_DOWN) 2 es y true (Some EDITABLE) /\
  In (EAct 2 (ASetState STOP_REQUESTED)) es /\ d_state (y_world y) = SHUTDOWN.
Proof.
  destruct (play_handled (idle_root []) (inl (KControl TICK_PERIODICALLY) :: acc 0 15 ++ acc 1 7) SHUT_DOWN
    (acc 2 7 ++ acc 1 8 ++ acc 2 8) true (Some EDITABLE)
    (fun y0 es y => tickingb y0 1 = true /\ length (y_procs y0) = 2 /\
       nth_error es 6 = Some (EAct 2 (ASetState STOP_REQUESTED)) /\ d_state (y_world y) = SHUTDOWN))
    as (y0 & es & y & R & H & T & L & I & S); [vm_compute; repeat split; fail|].
  exists y0, es, y. rewrite L in H. apply nth_error_In in I. auto 12 using tickingb_ticking.
Qed.

(** The tree of Demo.v is set up, ticked and, during its first tick, shut down. *)
Definition dnodes : nodes Demo.dE := mkN [Demo.dtree] (Demo.dworld (Demo.all_st UNINITIALIZED) (Demo.says [])).
Definition dplant : plant (nodes Demo.dE) := tree_plant Demo.denv (fun _ => false) (fun w w' b => w' = w /\ b = true)
  (fun w w' r => w' = w /\ r = Ok tt) (fun w w' => w' = w) (fun w w' b => w' = w /\ b = true).
Definition dplant_op (o : op) (w : nodes Demo.dE) : option (nodes Demo.dE * res state) :=
  match n_trees w with
  | [t] => let (w', r) := ModelTree.call o (ModelTree.obj_of Demo.denv t) (n_world w) in Some (mkN [t] w', r)
  | _ => None
  end.
Example C51_nodes_example : exists y0 es y, reachable dplant y0 /\ ticking y0 1 /\
  handled dplant y0 (KControl SHUT_DOWN) (length (y_procs y0)) es y true (Some EDITABLE) /\
  In (EAct 2 (ASetState STOP_REQUESTED)) es /\ n_trees (y_world y) = [Demo.dtree] /\
  SpecTree.wf Demo.dtree /\
  (forall n name cs w, In (ModelTree.T n ModelTree.KLeaf name cs) (SpecTree.subtrees Demo.dtree) ->
     snd (ModelTree.leaf_act Demo.denv OShutdown n w) = Ok SHUTDOWN).
Proof.
  assert (OK : forall o w w' r, dplant_op o w = Some (w', r) -> p_op dplant o w w' r).
  { intros o w w' r H. unfold dplant_op in H. destruct (n_trees w) as [|t [|]] eqn:E; try discriminate.
    destruct (ModelTree.call o _ _) as [w1 r1] eqn:C. injection H as <- <-. split; [auto|]. rewrite E. exact C. }
  destruct (gplay_handled dplant dplant_op OK (fun w => conj eq_refl eq_refl) (fun w => conj eq_refl eq_refl)
    (fun w => eq_refl) (fun w => conj eq_refl eq_refl) dnodes
    (inl (KControl TICK_PERIODICALLY) :: acc 0 15 ++ acc 1 11) SHUT_DOWN
    (acc 2 7 ++ acc 1 8 ++ acc 2 8) true (Some EDITABLE)
    (fun y0 es y => tickingb y0 1 = true /\ n_trees (y_world y) = [Demo.dtree] /\
       nth_error es 6 = Some (EAct 2 (ASetState STOP_REQUESTED))))
    as (y0 & es & y & R & H & T & L & I); [vm_compute; repeat split; fail|].
  exists y0, es, y. split; [exact R|]. split; [apply tickingb_ticking; exact T|]. split; [exact H|].
  split; [eapply nth_error_In; exact I|]. split; [exact L|]. split; [exact Demo.dtree_wf|]. intros. reflexivity.
Qed.

(** A thread that has just found its result and is about to untick the root is not waited
    for: SHUTDOWN succeeds, and afterwards the root is unticked and no longer SHUTDOWN. *)
Theorem C51_refuted : exists (P : plant dw) y0 p es y t es' y',
  reachable P y0 /\ handled P y0 (KControl SHUT_DOWN) p es y true (Some EDITABLE) /\
  tick_thread_alive y t /\ runs one_at_a_time P y es' y' /\ no_arrivals es' /\
  In (EAct t (AEnd OUntick (Ok IDLE))) es' /\
  y_state y' = EDITABLE /\ p_state P (y_world y') = IDLE.
Proof.
  set (l0 := inl (KControl TICK_UNTIL_RESULT) :: acc 0 16 ++ acc 1 9).
  set (l1 := acc 2 5 ++ acc 1 1 ++ acc 2 6).
  destruct (play_handled (idle_root [Ok SUCCEEDED]) l0 SHUT_DOWN l1 true (Some EDITABLE)
    (fun y0 es y => aliveb y 1 = true /\
       match play demo demo_op true y (acc 1 2) with
       | Some (es', y') => quiet_list es' = true /\ nth_error es' 1 = Some (EAct 1 (AEnd OUntick (Ok IDLE))) /\
           y_state y' = EDITABLE /\ d_state (y_world y') = IDLE
       | None => False
       end)) as (y0 & es & y & R & H & A & X); [vm_compute; repeat split; fail|].
  destruct (play demo demo_op true y (acc 1 2)) as [[es' y']|] eqn:PL; [|destruct X]. destruct X as (Q & I & S & D).
  exists demo, y0, (length (y_procs y0)), es, y, 1, es', y'. split; [exact R|]. split; [exact H|].
  split; [apply aliveb_alive; exact A|]. split; [exact (demo_runs true _ _ _ _ PL)|].
  split; [apply quiet_no_arrivals; exact Q|]. split; [eapply nth_error_In; exact I|]. auto.
Qed.
Print Assumptions C51_refuted.

(** ** C52 The answer of a control command names the actual tree state *)

(** Partial: these are the cases in which it is right. *)
Theorem C52_state_partial : forall W (P : plant W) y0 c p es y ts, reachable P y0 ->
  handled P y0 (KControl c) p es y true ts ->
  c = TICK_ONCE \/ c = RESET \/
  (c = SHUT_DOWN /\ (no_tick_thread y0 \/ In (EAct p (ASetState STOP_REQUESTED)) es)) \/
  (c = STOP /\ In (EAct p (ASetState STOP_REQUESTED)) es) ->
  ts = Some (y_state y).
Proof.
  intros W P y0 c p es y ts R H [->|[->|[[-> C]|[-> C]]]].
  - apply (C49_once _ _ _ _ _ _ _ R H).
  - destruct (reset_ok _ _ _ _ _ _ R H) as (X & -> & _). congruence.
  - destruct (C51_shutdown_partial _ _ _ _ _ _ _ R H C) as (X & -> & _). congruence.
  - destruct (stop_seg _ _ _ _ _ _ _ R H) as (_ & _ & K & _ & _ & X). destruct (X eq_refl C) as (Y & -> & _). congruence.
Qed.
Print Assumptions C52_state_partial.

(** STOP of a tree WAITING_FOR_TICK answers IDLE and leaves it WAITING_FOR_TICK. *)
Theorem C52_stop_refuted : exists (P : plant dw) y0 p es y,
  reachable P y0 /\ handled P y0 (KControl STOP) p es y true (Some TIDLE) /\
  no_tick_thread y /\ y_state y = WAITING_FOR_TICK.
Proof.
  destruct (play_handled (idle_root []) (inl (KControl TICK_ONCE) :: acc 0 17 ++ acc 1 12 ++ acc 0 5) STOP
    (acc 2 11) true (Some TIDLE)
    (fun y0 es y => y_state y = WAITING_FOR_TICK /\ none_alive y = true))
    as (y0 & es & y & R & H & S & N); [vm_compute; repeat split; fail|].
  exists demo, y0, (length (y_procs y0)), es, y. auto 12 using none_alive_none.
Qed.
Print Assumptions C52_stop_refuted.

(** Some answers name no state at all: a refused command in state ERROR. *)
Theorem C52_empty_refuted : exists (P : plant dw) y0 p es y,
  reachable P y0 /\ handled P y0 (KControl RESET) p es y false None /\ y_state y = TERROR.
Proof.
  destruct (play_handled (idle_root [Err EGuard]) (inl (KControl TICK_PERIODICALLY) :: acc 0 15 ++ acc 1 9) RESET
    (acc 2 7) false None (fun y0 es y => y_state y = TERROR)) as (y0 & es & y & R & H & S); [vm_compute; repeat split; fail|].
  exists demo, y0, (length (y_procs y0)), es, y. auto.
Qed.
Print Assumptions C52_empty_refuted.

(** ** C53 SETUP_AND_SHUTDOWN sets up the tree *)

(** It never does: under every interleaving its handler neither calls setup nor starts a
    thread that would. *)
Theorem C53_never : forall W (P : plant W) y0 y1 es y, step P y0 (EArrive (KControl SETUP_AND_SHUTDOWN)) y1 ->
  runs anything P y1 es y -> let p := length (y_procs y0) in
  ~ In (EAct p (ABegin OSetup)) es /\ forall t b, ~ In (EAct p (AStart t b)) es.
Proof. exact @setup_never. Qed.
Print Assumptions C53_never.

(** And it answers success, having shut down a root that was never set up. *)
Theorem C53_refuted : exists (P : plant dw) y0 p es y,
  reachable P y0 /\ handled P y0 (KControl SETUP_AND_SHUTDOWN) p es y true (Some EDITABLE) /\
  p_root P (y_world y) = ROne /\ p_state P (y_world y0) = UNINITIALIZED /\
  calls es = [(p, OShutdown, Ok SHUTDOWN)].
Proof.
  destruct (play_handled (mkDw [] UNINITIALIZED ROne) [] SETUP_AND_SHUTDOWN (acc 0 13) true (Some EDITABLE)
    (fun y0 es y => d_root (y_world y) = ROne /\ d_state (y_world y0) = UNINITIALIZED /\
       calls es = [(length (y_procs y0), OShutdown, Ok SHUTDOWN)]))
    as (y0 & es & y & R & H & A & B & C); [vm_compute; repeat split; fail|].
  exists demo, y0, (length (y_procs y0)), es, y. auto.
Qed.
Print Assumptions C53_refuted.

(** ** C65 Edits are applied one at a time *)

(** Under every interleaving of requests. *)
Theorem C65_one_edit : forall W (P : plant W) y p q, reachable_any P y -> editing y p -> editing y q -> p = q.
Proof. exact @edits_exclude. Qed.
Print Assumptions C65_one_edit.

(** Two editing requests at the same time: one edits, the other waits for the lock. *)
Example C65_example : exists y, reachable_any demo y /\ editing y 0 /\
  exists k, at_code y 1 (KEdit true) (Lock k).
Proof.
  destruct (play2 false (idle_root [])
    (inl (KEdit false) :: inl (KEdit true) :: acc 0 1 ++ acc 1 1 ++ acc 0 2) []
    (fun _ _ y => editingb y 0 = true /\ (match nth_error (y_procs y) 1 with Some (KEdit true, Some (Lock _)) => true | _ => false end = true)))
    as (es0 & y0 & es & y & R0 & R & A & B); [vm_compute; repeat split; fail|].
  exists y. split; [exists (idle_root []), (es0 ++ es); exact (runs_trans _ _ _ _ _ _ _ R0 R)|].
  split; [apply editingb_editing; exact A|]. unfold at_code.
  destruct (nth_error (y_procs y) 1) as [[[| |[]] [[]|]]|]; try discriminate. eauto.
Qed.

(** ** C66 A successful RESET leaves the tree reset, IDLE and not ticked *)
Theorem C66_reset : forall W (P : plant W) y0 p es y ts, reachable P y0 ->
  handled P y0 (KControl RESET) p es y true ts ->
  y_state y = TIDLE /\ ts = Some TIDLE /\ no_tick_thread y /\ was_reset P (y_world y).
Proof. exact @reset_ok. Qed.
Print Assumptions C66_reset.

Example C66_example : exists y0 es y, reachable demo y0 /\ d_state (y_world y0) = RUNNING /\
  handled demo y0 (KControl RESET) 2 es y true (Some TIDLE) /\ d_state (y_world y) = IDLE.
Proof.
  destruct (play_handled (idle_root []) (inl (KControl TICK_ONCE) :: acc 0 17 ++ acc 1 12 ++ acc 0 5) RESET
    (acc 2 15) true (Some TIDLE)
    (fun y0 es y => length (y_procs y0) = 2 /\ d_state (y_world y0) = RUNNING /\ d_state (y_world y) = IDLE))
    as (y0 & es & y & R & H & L & S0 & S); [vm_compute; repeat split; fail|].
  exists y0, es, y. rewrite L in H. auto 12.
Qed.
