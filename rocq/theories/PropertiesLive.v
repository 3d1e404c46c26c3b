(** C104: requests are answered. *)
From Coq Require Import List Bool Arith Lia.
From Verif Require Import Base ModelExec ModelExecTree SpecExec SpecLive ProofsLive ProofsLive4 ProofsLive5 DemoExec DemoLive.
Import ListNotations.

(** ** C104 Every request is answered *)

(** With full concurrency nobody waits for nothing: a process that has not come to its end
    can make its next access, or waits for the lock and its holder can go on. *)
Theorem C104_no_deadlock : forall W (P : plant W) y p, responsive P -> reachable_any P y -> unfinished y p ->
  can_act P y p \/ exists q, q <> p /\ y_lock y = Some q /\ unfinished y q /\ can_act P y q.
Proof. exact @no_deadlock. Qed.
Print Assumptions C104_no_deadlock.

(** When requests are made one at a time and no process is passed over for ever, every
    request comes to its end. *)
Theorem C104_answered : forall W (P : plant W) h n k, responsive P -> history_of P h -> fair P h ->
  h_event h n = Some (EArrive k) ->
  exists m c, n < m /\ at_code (h_sys h m) (length (y_procs (h_sys h n))) k c /\ ended c = true.
Proof. intros W P h n k R H F E. exact (answered_at_last P h R H F n k E). Qed.
Print Assumptions C104_answered.

(** Once a handler has asked the thread to stop, at most one more tick begins and the
    thread makes at most 13 more accesses. *)
Theorem C104_stop_soon : forall W (P : plant W) y0 k p es1 es2 y, reachable P y0 ->
  handling P y0 k p (es1 ++ EAct p (ASetState STOP_REQUESTED) :: es2) y ->
  ticks_begun es2 <= 1 /\ acts_of_others p es2 <= 13.
Proof. intros W P y0 k p es1 es2 y R H. destruct (stop_obeyed P _ _ _ _ _ _ R H). auto. Qed.
Print Assumptions C104_stop_soon.

(** The trees of ModelTree.v meet the hypothesis, whatever their nodes do and answer, if the
    data flow and the edits come to an end. *)
Theorem C104_tree : forall E (ev : ModelTree.env E) orphan init push subclear edits,
  (forall w, exists w' b, init w w' b) -> (forall w, exists w' r, push w w' r) ->
  (forall w, exists w', subclear w w') -> (forall w, exists w' b, edits w w' b) ->
  responsive (tree_plant ev orphan init push subclear edits).
Proof.
  intros E ev orphan init push subclear edits I P S D. repeat split; auto; cbn.
  - intros o w. unfold root_op. destruct (n_trees w) as [|t [|t' l]] eqn:N.
    + exists w, (Ok IDLE). auto.
    + destruct (ModelTree.call o (ModelTree.obj_of ev t) (n_world w)) as [w' r] eqn:C. exists (mkN [t] w'), r. auto.
    + exists w, (Ok IDLE). auto.
  - intros w. exists (mkN (concat (map all_nodes (n_trees w))) (n_world w)). split; reflexivity.
Qed.
Print Assumptions C104_tree.

(** A handler waits for the lock and its holder can go on. *)
Example C104_lock : exists y q, reachable_any demo y /\ unfinished y 1 /\ ~ can_act demo y 1 /\
  q <> 1 /\ y_lock y = Some q /\ can_act demo y q.
Proof.
  destruct (play2 false (idle_root [])
    (inl (KEdit false) :: inl (KEdit true) :: acc 0 1 ++ acc 1 1 ++ acc 0 2) []
    (fun _ _ y => (match nth_error (y_procs y) 1 with Some (KEdit true, Some (Lock _)) => true | _ => false end = true) /\
       y_lock y = Some 0))
    as (es0 & y0 & es & y & R0 & R & A & B); [vm_compute; repeat split; fail|].
  assert (RA : reachable_any demo y) by (exists (idle_root []), (es0 ++ es); exact (runs_trans _ _ _ _ _ _ _ R0 R)).
  assert (U : unfinished y 1 /\ ~ can_act demo y 1).
  { unfold unfinished, at_code. destruct (nth_error (y_procs y) 1) as [[k [c|]]|] eqn:E; [|destruct k as [| |[]]; discriminate|discriminate].
    destruct k as [| |[]]; try discriminate. destruct c; try discriminate. split; [eauto|].
    intros (a & y' & S). inversion S as [|z q k c2 a0 c' y1 Aq LS EF]; subst. rewrite E in Aq. injection Aq as <- <-.
    inversion LS; subst. inversion EF; congruence. }
  destruct U as [U N]. exists y, 0. split; [exact RA|]. split; [exact U|]. split; [exact N|]. split; [discriminate|]. split; [exact B|].
  destruct (C104_no_deadlock _ _ _ _ demo_responsive RA U) as [X|(q & _ & L & _ & X)]; [destruct (N X)|]. congruence.
Qed.

(** The tree is being ticked when STOP is requested; STOP waits for the tick and is answered. *)
Definition a_day : list (kind + nat) :=
  inl (KControl TICK_PERIODICALLY) :: acc 0 15 ++ acc 1 5 ++
  inl (KControl STOP) :: acc 2 13 ++ acc 1 2 ++ acc 2 1 ++ acc 1 1 ++ acc 2 5 ++ acc 1 7 ++ acc 2 4.
Example C104_history : exists h, responsive demo /\ history_of demo h /\ fair demo h /\
  h_event h 21 = Some (EArrive (KControl STOP)) /\ tick_thread_alive (h_sys h 21) 1 /\ ticking (h_sys h 38) 1 /\
  length (y_procs (h_sys h 21)) = 2 /\ answered (h_sys h 55) 2 true (Some TIDLE).
Proof.
  exists (played (idle_root []) a_day).
  destruct (play demo demo_op true (fresh (idle_root [])) a_day) as [[es y]|] eqn:E; [|vm_compute in E; discriminate].
  destruct (played_history _ _ _ _ E) as [H F]; [vm_compute in E; injection E as <- <-; vm_compute; reflexivity|].
  split; [exact demo_responsive|]. split; [exact H|]. split; [exact F|]. clear.
  split; [vm_compute; reflexivity|]. split; [apply aliveb_alive; vm_compute; reflexivity|].
  split; [apply tickingb_ticking; vm_compute; reflexivity|]. split; [vm_compute; reflexivity|].
  apply answer_answered. vm_compute. reflexivity.
Qed.

(** A tick begins after the request to stop. *)
Example C104_stop_late : exists y0 es1 es2 y, reachable demo y0 /\
  handling demo y0 (KControl STOP) 2 (es1 ++ EAct 2 (ASetState STOP_REQUESTED) :: es2) y /\
  ticks_begun es2 = 1 /\ acts_of_others 2 es2 = 10.
Proof.
  destruct (play_handled (idle_root []) (inl (KControl TICK_PERIODICALLY) :: acc 0 15 ++ acc 1 5) STOP
    (acc 2 7 ++ acc 2 6 ++ acc 1 2 ++ acc 2 1 ++ acc 1 1 ++ acc 2 5 ++ acc 1 7 ++ acc 2 4) true (Some TIDLE)
    (fun y0 es y => length (y_procs y0) = 2 /\
      es = firstn 6 es ++ EAct 2 (ASetState STOP_REQUESTED) :: skipn 7 es /\
      ticks_begun (skipn 7 es) = 1 /\ acts_of_others 2 (skipn 7 es) = 10))
    as (y0 & es & y & R & (H & _) & L & E & T1 & T2); [vm_compute; repeat split; fail|].
  exists y0, (firstn 6 es), (skipn 7 es), y. rewrite L in H. split; [exact R|]. rewrite <- E. auto.
Qed.

(** Not so when requests overlap: two TICK_PERIODICALLY both find that nothing is ticking;
    the one starts the thread, STOP asks it to stop, and the other overwrites the request
    (and then fails, because the thread has been started).  The tree is ticked and STOP waits:
    everyone who is not at the end makes accesses, and the system is where it was before. *)
Theorem C104_overlap_refuted : exists W (P : plant W) y p es c, responsive P /\ reachable_any P y /\
  at_code y p (KControl STOP) c /\ ended c = false /\
  runs anything P y es y /\ no_arrivals es /\ (forall q, unfinished y q -> 0 < acts q es) /\
  0 < length (ticks es).
Proof.
  destruct (play2 false (idle_root [])
    (inl (KControl TICK_PERIODICALLY) :: inl (KControl TICK_PERIODICALLY) :: acc 0 9 ++ acc 1 12 ++ acc 0 6 ++ acc 3 4
     ++ inl (KControl STOP) :: acc 4 7 ++ acc 1 5 ++ acc 4 4 ++ acc 3 7)
    (acc 3 7 ++ acc 4 6)
    (fun y0 es y => y0 = y /\ match nth_error (y_procs y) 4 with Some (KControl STOP, Some c) => ended c = false | _ => False end /\
       quiet_list es = true /\ length (y_procs y) = 5 /\
       match nth_error (y_procs y) 0, nth_error (y_procs y) 1, nth_error (y_procs y) 2 with
       | Some (_, Some c0), Some (_, Some c1), Some (_, None) => ended c0 = true /\ ended c1 = true | _, _, _ => False end /\
       acts 3 es = 7 /\ acts 4 es = 6 /\ length (ticks es) = 1))
    as (es0 & y0 & es & y & R0 & R & -> & A & Q & L & E & A3 & A4 & T); [vm_compute; repeat split; fail|].
  destruct (nth_error (y_procs y) 4) as [[[|[]|] [c|]]|] eqn:X; try (destruct A; fail).
  exists dw, demo, y, 4, es, c. split; [exact demo_responsive|]. split; [exists (idle_root []), es0; exact R0|].
  split; [exact X|]. split; [exact A|]. split; [exact R|]. split; [apply quiet_no_arrivals, Q|]. split; [|lia].
  intros q (k & d & Z & LZ). unfold at_code in Z.
  destruct q as [|[|[|[|[|q]]]]]; try lia; rewrite ?Z in E.
  - destruct (nth_error (y_procs y) 1) as [[? [?|]]|]; try (destruct E; fail). destruct (nth_error (y_procs y) 2) as [[? [?|]]|]; try (destruct E; fail). destruct E; congruence.
  - destruct (nth_error (y_procs y) 0) as [[? [?|]]|]; try (destruct E; fail). destruct (nth_error (y_procs y) 2) as [[? [?|]]|]; try (destruct E; fail). destruct E; congruence.
  - destruct (nth_error (y_procs y) 0) as [[? [?|]]|]; try (destruct E; fail). destruct (nth_error (y_procs y) 1) as [[? [?|]]|]; destruct E.
  - assert (Y : nth_error (y_procs y) (S (S (S (S (S q))))) = None) by (apply nth_error_None; lia). congruence.
Qed.
Print Assumptions C104_overlap_refuted.

(** The end is a response and not an exception if nothing called on the nodes raises one,
    unless a TICK command comes while a thread is ticking. *)
Theorem C104_response : forall W (P : plant W) y0 k p es y, reachable P y0 -> handling P y0 k p es y ->
  no_tick_thread y0 \/ no_tick_command [EArrive k] -> (forall o r, In (p, o, r) (calls es) -> r <> Raise) ->
  ~ at_code y p k Crash.
Proof. exact @no_crash. Qed.
Print Assumptions C104_response.

(** RESET comes while the tree is being ticked and is refused. *)
Example C104_response_case : exists y0 es y, reachable demo y0 /\ tick_thread_alive y0 1 /\
  handled demo y0 (KControl RESET) (length (y_procs y0)) es y false (Some TICKING) /\ no_tick_command [EArrive (KControl RESET)].
Proof.
  destruct (play_handled (idle_root []) (inl (KControl TICK_PERIODICALLY) :: acc 0 15 ++ acc 1 5) RESET (acc 2 10) false (Some TICKING)
    (fun y0 es y => aliveb y0 1 = true)) as (y0 & es & y & R & H & A); [vm_compute; repeat split; fail|].
  exists y0, es, y. split; [exact R|]. split; [apply aliveb_alive, A|]. split; [exact H|].
  intros c [X|[]]. injection X as <-. repeat split; discriminate.
Qed.

(** The remaining case: TICK_PERIODICALLY finds the thread of TICK_UNTIL_RESULT alive, so it
    makes no new one; then that thread ends, and it is started a second time.  There is no
    response, and the manager says TICKING although nothing ticks. *)
Theorem C104_response_refuted : exists W (P : plant W) y0 p es y,
  reachable P y0 /\ handling P y0 (KControl TICK_PERIODICALLY) p es y /\
  (forall q o r, In (q, o, r) (calls es) -> exists s, r = Ok s) /\
  at_code y p (KControl TICK_PERIODICALLY) Crash /\ y_state y = TICKING /\ no_tick_thread y.
Proof.
  destruct (play2 true (idle_root [Ok SUCCEEDED]) (inl (KControl TICK_UNTIL_RESULT) :: acc 0 16 ++ acc 1 7)
    (inl (KControl TICK_PERIODICALLY) :: acc 2 8 ++ acc 1 5 ++ acc 2 8)
    (fun y0 es y => calmb y0 = true /\ length (y_procs y0) = 2 /\ hd_error es = Some (EArrive (KControl TICK_PERIODICALLY)) /\
      quiet_list (tl es) = true /\ calls (tl es) = [(1, OTick, Ok SUCCEEDED); (1, OUntick, Ok IDLE)] /\
      at_code y 2 (KControl TICK_PERIODICALLY) Crash /\ y_state y = TICKING /\ none_alive y = true))
    as (es0 & y0 & es & y & R0 & R & C & L & E & Q & K & A & S & N); [vm_compute; repeat split; fail|].
  destruct es as [|e es]; [discriminate|]. cbn in E, Q, K. injection E as ->.
  destruct (runs_cut _ _ _ [_] _ _ R) as (y1 & R1 & R2).
  exists dw, demo, y0, 2, es, y. split; [exists (idle_root [Ok SUCCEEDED]), es0; exact R0|]. split.
  - split; [apply calmb_calm, C|]. split; [auto|]. split; [apply quiet_no_arrivals, Q|]. exists y1. split; [|exact R2].
    inversion R1 as [|z es1 z1 e z2 R3 G S1 E1 E2 E3]; subst. destruct es1 as [|x l]; [|destruct l; discriminate].
    cbn in E2. injection E2 as ->. inversion R3 as [z0|v l v1 e v2 R4 G4 S4 E4 E5 E6]; subst; [exact S1|destruct l; discriminate].
  - split; [|split; [exact A|split; [exact S|apply none_alive_none, N]]].
    rewrite K. intros q o r [X|[X|[]]]; injection X as <- <- <-; eauto.
Qed.
Print Assumptions C104_response_refuted.
