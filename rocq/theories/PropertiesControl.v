(** Properties C10-C16: flow control nodes. *)
From Coq Require Import List String Ascii ZArith Bool.
From Verif Require Import Base ModelData ModelUtility ModelTree SpecTree SpecControl ProofsTree ProofsLife
  ProofsWhole ProofsControl ProofsMemory ProofsParallel ProofsDeco ProofsRun Demo.
Import ListNotations.
Local Open Scope string_scope.

(** The theorems below are about a node with arbitrary objects as children.  In
    a tree with distinct node ids the objects made of the child trees meet the
    assumptions used: no child touches the state and memory of its parent, and
    children do not touch each other. *)
Theorem control_children : forall E (ev : env E) n k name ts,
  NoDup (ids (T n k name ts)) ->
  Forall (blind n) (map (obj_of ev) ts) /\ independent (map (obj_of ev) ts) /\
  ~ In n (map (fun c => o_id c) (map (obj_of ev) ts)).
Proof.
  intros E ev n k name ts H. destruct (tree_independent E ev n k name ts H) as [A B].
  split; [exact (tree_blind E ev n k name ts H)|auto].
Qed.
Print Assumptions control_children.

(** ** C10 Sequence semantics *)
Theorem C10_sequence : forall E (ev : env E) n name cs w w' r,
  live (w_st w n) -> inputs_set w n ->
  call OTick (make_obj ev n KSequence name cs) w = (w', r) ->
  exists l b, ticks_with n w l b w' r /\
    reset_first (has_result (w_st w n)) cs l b (fun l1 => sequence_plan cs l1 b).
Proof. intros E. exact (@sequence_tick_spec E). Qed.
Print Assumptions C10_sequence.

Example C10_example : let w := dworld (all_st SUCCEEDED) (says [(3, Ok FAILED); (4, Ok FAILED)]) in
  live (w_st w 0) /\ inputs_set w 0 /\ snd (call OTick (obj_of denv dtree) w) = Ok FAILED.
Proof. repeat split; [intros [H|[H|H]]; discriminate|intros k c []]. Qed.

(** ** C11 Fallback semantics *)
Theorem C11_fallback : forall E (ev : env E) n name cs w w' r,
  live (w_st w n) -> inputs_set w n ->
  call OTick (make_obj ev n KFallback name cs) w = (w', r) ->
  exists l b, ticks_with n w l b w' r /\
    reset_first (has_result (w_st w n)) cs l b (fun l1 => fallback_plan cs l1 b).
Proof. intros E. exact (@fallback_tick_spec E). Qed.
Print Assumptions C11_fallback.

Example C11_example : let w := dworld (all_st IDLE) (says [(3, Ok FAILED); (4, Ok RUNNING)]) in
  live (w_st w 2) /\ inputs_set w 2 /\
  snd (call OTick (obj_of denv (T 2 KFallback "fb" [leaf 3; leaf 4])) w) = Ok RUNNING.
Proof. repeat split; [intros [H|[H|H]]; discriminate|intros k c []]. Qed.

(** ** C12 MemorySequence resumes where it left off *)

(** A tick after a result starts over: all children are reset, then scanned from
    the first one like a Sequence. *)
Theorem C12_after_result : forall E (ev : env E) n name cs w w' r,
  Forall (blind n) cs -> has_result (w_st w n) -> inputs_set w n ->
  call OTick (make_obj ev n KMemorySequence name cs) w = (w', r) ->
  exists l b, ticks_own n w l b w' r /\ reset_first True cs l b (fun l1 => sequence_plan cs l1 b).
Proof.
  intros E ev n name cs w w' r.
  exact (memory_after_result KMemorySequence ev n name cs w w' r (or_introl eq_refl)).
Qed.
Print Assumptions C12_after_result.

(** After RUNNING because of child number [i], the next tick scans the children
    from [i] on, and touches no other child. *)
Theorem C12_resume : forall E (ev : env E) n name cs w w1 w2 w3 r,
  Forall (blind n) cs -> live (w_st w n) -> inputs_set w n ->
  call OTick (make_obj ev n KMemorySequence name cs) w = (w1, Ok RUNNING) ->
  meanwhile n w1 w2 -> inputs_set w2 n ->
  call OTick (make_obj ev n KMemorySequence name cs) w2 = (w3, r) ->
  exists i c l1 l2 b, nth_error cs i = Some c /\
    ticks_own n w (l1 ++ [(c, OTick, Ok RUNNING)]) (Ok RUNNING) w1 (Ok RUNNING) /\
    ticks_own n w2 l2 b w3 r /\ sequence_plan (skipn i cs) l2 b.
Proof.
  intros E ev n name cs w w1 w2 w3 r.
  exact (memory_resume KMemorySequence ev n name cs w w1 w2 w3 r (or_introl eq_refl)).
Qed.
Print Assumptions C12_resume.

(** The first tick after setup, untick or reset scans all children. *)
Theorem C12_restart : forall E (ev : env E) n name cs o w w1 w2 w3 s r,
  Forall (blind n) cs -> o = OSetup \/ o = OReset \/ o = OUntick ->
  call o (make_obj ev n KMemorySequence name cs) w = (w1, Ok s) ->
  meanwhile n w1 w2 -> inputs_set w2 n ->
  call OTick (make_obj ev n KMemorySequence name cs) w2 = (w3, r) ->
  exists l b, ticks_own n w2 l b w3 r /\ sequence_plan cs l b.
Proof.
  intros E ev n name cs o w w1 w2 w3 s r Hb Ho.
  apply (memory_restart KMemorySequence ev n name cs o w w1 w2 w3 s r (or_introl eq_refl) Hb). intuition.
Qed.
Print Assumptions C12_restart.

(** A run of ticks from such a start (setup, reset, untick, or a result) that is
    RUNNING throughout and ends with SUCCEEDED: over the whole run each child has
    been ticked to SUCCEEDED exactly once, and in order. *)
Theorem C12_run : forall E (ev : env E) n name cs w0 run w w',
  Forall (blind n) cs ->
  (has_result (w_st w0 n) \/ exists o wb s,
     (o = OSetup \/ o = OReset \/ o = OUntick) /\
     call o (make_obj ev n KMemorySequence name cs) wb = (w0, Ok s)) ->
  tick_run (make_obj ev n KMemorySequence name cs) w0 (run ++ [(w, Ok SUCCEEDED, w')]) ->
  Forall (fun x => snd (fst x) = Ok RUNNING) run ->
  exists ls, Forall2 (tick_calls n) (run ++ [(w, Ok SUCCEEDED, w')]) ls /\
    succ_calls (List.concat ls) = map (fun c => (c, OTick)) cs.
Proof. intros E. exact (@sequence_run_fresh E). Qed.
Print Assumptions C12_run.

(** Setup, a RUNNING tick at child 2, then SUCCEEDED. *)
Definition mseq := T 0 KMemorySequence "ms" [leaf 1; leaf 2; leaf 3].
Example C12_example :
  snd (play (obj_of denv mseq) (dworld (all_st UNINITIALIZED) (says []))
     [(OSetup, says []); (OTick, says [(2, Ok RUNNING)]); (OTick, says [(1, Ok FAILED)])])
  = [Ok IDLE; Ok RUNNING; Ok SUCCEEDED].
Proof. vm_compute. reflexivity. Qed.

Example C12_run_example : exists w0 run w w',
  (exists s wb, call OSetup (obj_of denv mseq) wb = (w0, Ok s)) /\
  Forall (blind 0) (map (obj_of denv) (t_children mseq)) /\
  tick_run (obj_of denv mseq) w0 (run ++ [(w, Ok SUCCEEDED, w')]) /\ List.length run = 1 /\
  Forall (fun x => snd (fst x) = Ok RUNNING) run.
Proof.
  pose (w0 := fst (call OSetup (obj_of denv mseq) (dworld (all_st UNINITIALIZED) (says [])))).
  pose (wa := set_ext w0 (says [(2, Ok RUNNING)])).
  pose (wa' := fst (call OTick (obj_of denv mseq) wa)).
  pose (w := set_ext wa' (says [(1, Ok FAILED)])).
  pose (w' := fst (call OTick (obj_of denv mseq) w)).
  exists w0, [(wa, Ok RUNNING, wa')], w, w'.
  split; [exists IDLE, (dworld (all_st UNINITIALIZED) (says [])); apply call_is; vm_compute; reflexivity|].
  split.
  - apply (tree_blind dE denv 0 KMemorySequence "ms" (t_children mseq)). vm_compute. repeat constructor; simpl; intuition discriminate.
  - split; [|split; [reflexivity|repeat constructor]]. simpl app.
    apply tr_tick with (w := wa); [split; reflexivity|vm_compute; intros k c []|apply call_is; vm_compute; reflexivity|].
    apply tr_tick with (w := w); [split; reflexivity|vm_compute; intros k c []|apply call_is; vm_compute; reflexivity|]. constructor.
Qed.

(** ** C13 MemoryFallback resumes where it left off and starts over after a result *)

Theorem C13_after_result : forall E (ev : env E) n name cs w w' r,
  Forall (blind n) cs -> has_result (w_st w n) -> inputs_set w n ->
  call OTick (make_obj ev n KMemoryFallback name cs) w = (w', r) ->
  exists l b, ticks_own n w l b w' r /\ reset_first True cs l b (fun l1 => fallback_plan cs l1 b).
Proof.
  intros E ev n name cs w w' r.
  exact (memory_after_result KMemoryFallback ev n name cs w w' r (or_intror eq_refl)).
Qed.
Print Assumptions C13_after_result.

Theorem C13_resume : forall E (ev : env E) n name cs w w1 w2 w3 r,
  Forall (blind n) cs -> live (w_st w n) -> inputs_set w n ->
  call OTick (make_obj ev n KMemoryFallback name cs) w = (w1, Ok RUNNING) ->
  meanwhile n w1 w2 -> inputs_set w2 n ->
  call OTick (make_obj ev n KMemoryFallback name cs) w2 = (w3, r) ->
  exists i c l1 l2 b, nth_error cs i = Some c /\
    ticks_own n w (l1 ++ [(c, OTick, Ok RUNNING)]) (Ok RUNNING) w1 (Ok RUNNING) /\
    ticks_own n w2 l2 b w3 r /\ fallback_plan (skipn i cs) l2 b.
Proof.
  intros E ev n name cs w w1 w2 w3 r.
  exact (memory_resume KMemoryFallback ev n name cs w w1 w2 w3 r (or_intror eq_refl)).
Qed.
Print Assumptions C13_resume.

(** The part of "starts again" that holds: after setup and after reset, and (see
    [C13_after_result]) when ticked again with its result still in place. *)
Theorem C13_restart_partial : forall E (ev : env E) n name cs o w w1 w2 w3 s r,
  Forall (blind n) cs -> o = OSetup \/ o = OReset ->
  call o (make_obj ev n KMemoryFallback name cs) w = (w1, Ok s) ->
  meanwhile n w1 w2 -> inputs_set w2 n ->
  call OTick (make_obj ev n KMemoryFallback name cs) w2 = (w3, r) ->
  exists l b, ticks_own n w2 l b w3 r /\ fallback_plan cs l b.
Proof.
  intros E ev n name cs o w w1 w2 w3 s r Hb Ho.
  apply (memory_restart KMemoryFallback ev n name cs o w w1 w2 w3 s r (or_intror eq_refl) Hb). intuition.
Qed.
Print Assumptions C13_restart_partial.

(** What fails: setup, a RUNNING tick at the second child, SUCCEEDED, untick.  The
    next tick goes straight to the second child and returns FAILED, although the
    first child would succeed. *)
Definition mfb := T 0 KMemoryFallback "mf" [leaf 1; leaf 2].
Theorem C13_untick_refuted : exists w rs,
  play (obj_of denv mfb) (dworld (all_st UNINITIALIZED) (says []))
    [(OSetup, says []); (OTick, says [(1, Ok FAILED); (2, Ok RUNNING)]);
     (OTick, says [(1, Ok FAILED); (2, Ok SUCCEEDED)]); (OUntick, says []);
     (OTick, says [(1, Ok SUCCEEDED); (2, Ok FAILED)])] = (w, rs) /\
  rs = [Ok IDLE; Ok RUNNING; Ok SUCCEEDED; Ok IDLE; Ok FAILED] /\ w_st w 1 = IDLE.
Proof. eexists. eexists. split; [vm_compute; reflexivity|split; reflexivity]. Qed.
Print Assumptions C13_untick_refuted.

Example C13_example :
  snd (play (obj_of denv mfb) (dworld (all_st UNINITIALIZED) (says []))
     [(OSetup, says []); (OTick, says [(1, Ok FAILED); (2, Ok RUNNING)]); (OTick, says [(1, Ok SUCCEEDED)]);
      (OReset, says []); (OTick, says [])])
  = [Ok IDLE; Ok RUNNING; Ok SUCCEEDED; Ok IDLE; Ok SUCCEEDED].
Proof. vm_compute. reflexivity. Qed.

(** ** C14 Parallel success and failure thresholds *)

(** Every tick, in every history after a setup with needed_successes = [i]. *)
Theorem C14_parallel : forall E (ev : env E) n name cs wb w0 s recs w r w' c i,
  Forall (blind n) cs -> independent cs ->
  dget "needed_successes" (w_ins wb n) = Some c -> c_static c = true -> c_val c = Some (VInt i) ->
  call OSetup (make_obj ev n KParallel name cs) wb = (w0, Ok s) ->
  op_run (make_obj ev n KParallel name cs) w0 recs -> In (OTick, w, r, w') recs -> live (w_st w n) ->
  (i <= Z.of_nat (List.length cs))%Z /\
  parallel_plan n cs i (Z.of_nat (List.length cs) - i) w w' r.
Proof. intros E. exact (@parallel_run E). Qed.
Print Assumptions C14_parallel.

Theorem C14_decided : forall E (ev : env E) n name cs w w' r,
  ~ In n (map (fun c => o_id c) cs) ->
  live (w_st w n) -> inputs_set w n -> Forall (blind n) cs -> independent cs ->
  call OTick (make_obj ev n KParallel name cs) w = (w', r) ->
  (forall c, In c cs -> has_result (w_st w' (o_id c))) -> r <> Ok RUNNING.
Proof.
  intros E ev n name cs w w' r. exact (parallel_decided KParallel ev n name cs w w' r (or_introl eq_refl)).
Qed.
Print Assumptions C14_decided.

Definition par k := T 0 k "par" [leaf 1; leaf 2; leaf 3].
Definition parw (i j : Z) := set_ins (dworld (all_st UNINITIALIZED) (says [])) 0
  [("needed_successes", static_in (TInt 0 10) (VInt i)); ("tolerate_failures", static_in (TInt 0 10) (VInt j))].

Example C14_example :
  map snd [play (obj_of denv (par KParallel)) (parw 2 0)
    [(OSetup, says []); (OTick, says [(1, Ok RUNNING); (2, Ok RUNNING)]); (OTick, says [(2, Ok RUNNING)])];
   play (obj_of denv (par KParallel)) (parw 2 0)
    [(OSetup, says []); (OTick, says [(1, Ok FAILED); (2, Ok RUNNING)]); (OTick, says [(2, Ok FAILED)])]]
  = [[Ok IDLE; Ok RUNNING; Ok SUCCEEDED]; [Ok IDLE; Ok RUNNING; Ok FAILED]].
Proof. vm_compute. reflexivity. Qed.

(** ** C15 ParallelFailureTolerance thresholds *)

Theorem C15_tolerance : forall E (ev : env E) n name cs wb w0 s recs w r w' c i d j,
  Forall (blind n) cs -> independent cs ->
  dget "needed_successes" (w_ins wb n) = Some c -> c_static c = true -> c_val c = Some (VInt i) ->
  dget "tolerate_failures" (w_ins wb n) = Some d -> c_static d = true -> c_val d = Some (VInt j) ->
  call OSetup (make_obj ev n KParallelTolerance name cs) wb = (w0, Ok s) ->
  op_run (make_obj ev n KParallelTolerance name cs) w0 recs -> In (OTick, w, r, w') recs -> live (w_st w n) ->
  (i <= Z.of_nat (List.length cs))%Z /\ parallel_plan n cs i j w w' r.
Proof. intros E. exact (@tolerance_run E). Qed.
Print Assumptions C15_tolerance.

(** It does not stay RUNNING with all children finished if the thresholds leave
    no gap between success and failure. *)
Theorem C15_decided_partial : forall E (ev : env E) n name cs w w' r,
  (a_needed (w_mem w n) + a_tol (w_mem w n) <= Z.of_nat (List.length cs))%Z ->
  ~ In n (map (fun c => o_id c) cs) ->
  live (w_st w n) -> inputs_set w n -> Forall (blind n) cs -> independent cs ->
  call OTick (make_obj ev n KParallelTolerance name cs) w = (w', r) ->
  (forall c, In c cs -> has_result (w_st w' (o_id c))) -> r <> Ok RUNNING.
Proof.
  intros E ev n name cs w w' r H.
  exact (parallel_decided KParallelTolerance ev n name cs w w' r (or_intror (conj eq_refl H))).
Qed.
Print Assumptions C15_decided_partial.

(** What fails: with needed_successes = 2, tolerate_failures = 1 and one child
    SUCCEEDED, one FAILED, every further tick returns RUNNING and ticks nobody. *)
Definition pft2 := T 0 KParallelTolerance "p" [leaf 1; leaf 2].
Theorem C15_stuck_refuted : exists w0,
  play (obj_of denv pft2) (parw 2 1) [(OSetup, says []); (OTick, says [(2, Ok FAILED)])] = (w0, [Ok IDLE; Ok RUNNING]) /\
  (forall k, In k [1; 2] -> has_result (w_st w0 k)) /\
  forall l, (forall x, In x l -> fst x = OTick) -> Forall (fun r => r = Ok RUNNING) (snd (play (obj_of denv pft2) w0 l)).
Proof.
  eexists. split; [vm_compute; reflexivity|]. split.
  { intros k [<-|[<-|[]]]; [left|right]; reflexivity. }
  match goal with |- forall l, _ -> Forall _ (snd (play _ ?w l)) => set (w0 := w) end.
  assert (Hinv : forall l w, w_st w 0 = RUNNING -> w_st w 1 = SUCCEEDED -> w_st w 2 = FAILED ->
     a_needed (w_mem w 0) = 2%Z -> a_tol (w_mem w 0) = 1%Z -> inputs_set w 0 -> w_conns w 0 = Some [] -> w_outs w 0 = [] ->
     (forall x, In x l -> fst x = OTick) -> Forall (fun r => r = Ok RUNNING) (snd (play (obj_of denv pft2) w l))).
  { induction l as [|[o e] l IH]; intros w H0 H1 H2 Hn Ht Hi Hc Ho Hl; [constructor|].
    assert (o = OTick) by (apply (Hl (o, e)); left; reflexivity). subst o. cbn [play].
    set (w1 := set_ext w e).
    assert (Hcall : exists w2, call OTick (obj_of denv pft2) w1 = (w2, Ok RUNNING) /\
      w_st w2 0 = RUNNING /\ w_st w2 1 = SUCCEEDED /\ w_st w2 2 = FAILED /\ w_mem w2 = w_mem w /\
      inputs_set w2 0 /\ w_conns w2 = w_conns w /\ w_outs w2 0 = []).
    { unfold pft2. cbn [obj_of map]. unfold call. cbn [o_tick make_obj].
      unfold node_tick. change (w_st w1 0) with (w_st w 0). rewrite H0.
      change (w_ins w1 0) with (w_ins w 0).
      assert (Hfb : forallb (fun kc => has_value (snd kc)) (w_ins w 0) = true).
      { apply forallb_forall. intros [k0 c0] Hin. specialize (Hi k0 c0 Hin). simpl. unfold has_value. destruct (c_val c0); congruence. }
      rewrite Hfb. cbn [negb].
      unfold do_tick, parallel_tick, reset_if_finished.
      cbn [set_outs w_st w1 set_ext]. rewrite H0. cbn [finished state_in existsb state_eqb orb bind].
      cbn [parallel_loop o_id make_obj obj_of leaf map]. cbn [set_outs w_st w1 set_ext].
      rewrite H1. cbn [finished state_in existsb state_eqb orb negb bind].
      cbn [set_outs w_st w1 set_ext]. rewrite H1, H2. cbn [finished state_in existsb state_eqb orb negb bind].
      cbn [set_outs w_st w1 set_ext w_mem]. rewrite H2. cbn [state_eqb fst snd].
      rewrite Hn, Ht. cbn. unfold push_outputs. cbn. rewrite Hc. cbn.
      rewrite Ho. cbn.
      eexists. split; [reflexivity|]. cbn. repeat split; auto; try (unfold upd; cbn; rewrite ?Ho; auto; fail).
      intros k0 c0. cbn. unfold upd. cbn. unfold map_io. rewrite in_map_iff. intros [[k1 c1] [Heq Hin]]. inversion Heq; subst.
      specialize (Hi k0 c1 Hin). exact Hi. }
    destruct Hcall as [w2 [-> [A [B [C [D [F [G I]]]]]]]].
    destruct (play (obj_of denv pft2) w2 l) as [w3 xs] eqn:Ep. simpl. constructor; auto.
    specialize (IH w2 A B C). rewrite Ep in IH. apply IH; try (rewrite ?D, ?G; auto; fail); auto.
    intros x Hx. apply Hl. right. auto. }
  intros l Hl. apply Hinv; try reflexivity; auto.
  intros k c. vm_compute. intros [H|[H|[]]]; inversion H; discriminate.
Qed.
Print Assumptions C15_stuck_refuted.

Example C15_example :
  snd (play (obj_of denv (par KParallelTolerance)) (parw 2 1)
    [(OSetup, says []); (OTick, says [(1, Ok FAILED); (2, Ok RUNNING)]); (OTick, says [(2, Ok FAILED)])])
  = [Ok IDLE; Ok RUNNING; Ok FAILED].
Proof. vm_compute. reflexivity. Qed.

(** ** C16 Switch nodes run only the selected child *)

(** NameSwitch with distinct child names: every other child is unticked, then the
    selected one is ticked.  A name nobody has: FAILED, no call at all. *)
Theorem C16_name_switch_partial : forall E (ev : env E) n name cs w w' r s,
  live (w_st w n) -> inputs_set w n -> in_value_as as_str w n "name" = Ok s ->
  call OTick (make_obj ev n KNameSwitch name cs) w = (w', r) ->
  ((forall c, In c cs -> o_name c <> s) -> ticks_with n w [] (Ok FAILED) w' r) /\
  (forall c, NoDup (map (fun c => o_name c) cs) -> In c cs -> o_name c = s ->
     exists l b, ticks_with n w l b w' r /\ reset_first (has_result (w_st w n)) cs l b
       (fun l1 => switch_plan c (others (fun c => o_name c) s cs) l1 b)).
Proof. intros E. exact (@name_switch_spec E). Qed.
Print Assumptions C16_name_switch_partial.

(** EnumSwitch: the input is looked up among the constants of the message (the
    last constant equal to it wins), and children are named by what follows the
    last dot of their names. *)
Theorem C16_enum_switch_partial : forall E (ev : env E) n pd name cs w w' r v s,
  live (w_st w n) -> inputs_set w n -> in_value w n "case" = Ok v ->
  match s with
  | Some x => exists p q u, pd = (p ++ (u, x) :: q)%list /\ py_eq u v = true /\ (forall y, In y q -> py_eq (fst y) v = false)
  | None => forall y, In y pd -> py_eq (fst y) v = false
  end ->
  call OTick (make_obj ev n (KEnumSwitch pd) name cs) w = (w', r) ->
  ((forall c, In c cs -> Some (after_last_dot (o_name c)) <> s) -> ticks_with n w [] (Ok FAILED) w' r) /\
  (forall c, NoDup (map (fun c => after_last_dot (o_name c)) cs) -> In c cs -> s = Some (after_last_dot (o_name c)) ->
     exists l b, ticks_with n w l b w' r /\ reset_first (has_result (w_st w n)) cs l b
       (fun l1 => switch_plan c (others (fun c => after_last_dot (o_name c)) (after_last_dot (o_name c)) cs) l1 b)).
Proof.
  intros E ev n pd name cs w w' r v s Hl Hi Hv Hs. apply (enum_switch_spec ev n pd name cs w w' r v s Hl Hi Hv).
  assert (Hnone : forall q, (forall y, In y q -> py_eq (fst y) v = false) -> enum_lookup v q = None).
  { induction q as [|[a b] q IH]; intros H; auto. simpl. rewrite IH by (intros y Hy; apply H; right; auto).
    pose proof (H (a, b) (or_introl eq_refl)) as Hab. simpl in Hab. rewrite Hab. reflexivity. }
  destruct s as [x|]; [|apply Hnone; auto]. destruct Hs as [p [q [u [-> [Hu Hq]]]]].
  induction p as [|[a b] p IH]; simpl.
  - rewrite Hnone by auto. rewrite Hu. reflexivity.
  - rewrite IH. reflexivity.
Qed.
Print Assumptions C16_enum_switch_partial.

(** The text after the last dot. *)
Theorem C16_after_last_dot : forall a b, (forall x y, b <> x ++ "." ++ y) ->
  after_last_dot b = b /\ after_last_dot (a ++ "." ++ b) = b.
Proof.
  intros a b Hb.
  assert (Haux : forall b acc, (forall x y, b <> x ++ "." ++ y) -> after_last_dot_aux acc b = acc).
  { induction b0 as [|c r IH]; intros acc H; auto. simpl.
    destruct (Ascii.eqb c "."%char) eqn:Ec.
    - apply Ascii.eqb_eq in Ec. subst. exfalso. apply (H "" r). reflexivity.
    - apply IH. intros x y He. apply (H (String c x) y). rewrite He. reflexivity. }
  split; [apply Haux; auto|].
  assert (Hg : forall a acc, after_last_dot_aux acc (a ++ "." ++ b) = b).
  { induction a0 as [|c r IH]; intros acc; simpl; [apply Haux; auto|]. destruct (Ascii.eqb c "."%char); apply IH. }
  apply Hg.
Qed.
Print Assumptions C16_after_last_dot.

(** What fails: a name nobody has leaves a RUNNING child running. *)
Definition nsw (a b : string) := T 0 KNameSwitch "sw" [T 1 KLeaf a []; T 2 KLeaf b []].
Definition nsw_in (s : string) : iomap := [("name", dynamic_in (TStr 100 None) (VStr s))].
Theorem C16_unknown_name_refuted : exists w0 w1 w2,
  call OSetup (obj_of denv (nsw "a" "b")) (set_ins (dworld (all_st UNINITIALIZED) (says [(1, Ok RUNNING)])) 0 (nsw_in "a")) = (w0, Ok IDLE) /\
  call OTick (obj_of denv (nsw "a" "b")) (set_ins w0 0 (nsw_in "a")) = (w1, Ok RUNNING) /\
  call OTick (obj_of denv (nsw "a" "b")) (set_ins w1 0 (nsw_in "c")) = (w2, Ok FAILED) /\
  w_st w2 1 = RUNNING.
Proof. do 3 eexists. repeat (split; [vm_compute; reflexivity|]). reflexivity. Qed.
Print Assumptions C16_unknown_name_refuted.

(** What fails: of two children with the name that is asked for, the first is neither ticked
    nor unticked, in no tick. *)
Theorem C16_same_name_refuted : forall E (ev : env E) n name c1 c2 w w' r s,
  live (w_st w n) -> inputs_set w n -> in_value_as as_str w n "name" = Ok s ->
  o_name c1 = s -> o_name c2 = s -> c1 <> c2 ->
  call OTick (make_obj ev n KNameSwitch name [c1; c2]) w = (w', r) ->
  exists l b, ticks_with n w l b w' r /\ forall o x, In (c1, o, x) l -> o = OReset.
Proof.
  intros E ev n name c1 c2 w w' r s Hl Hi Hin N1 N2 D H. apply tick_api in H; auto. destruct H as [w2 [b [Hd He]]].
  cbn [do_tick] in Hd. unfold name_switch_tick in Hd.
  change (in_value_as as_str (begin_tick n w) n "name") with (in_value_as as_str w n "name") in Hd. rewrite Hin in Hd.
  assert (M : name_map [c1; c2] = [(s, c2)]).
  { unfold name_map, py_dict. cbn. rewrite N1, N2, String.eqb_refl. reflexivity. }
  rewrite M in Hd. apply (switch_spec n [c1; c2] [(s, c2)] s _ _ _ c2) in Hd; [|cbn; now rewrite String.eqb_refl].
  destruct Hd as [l [Hr Hp]]. exists l, b. split; [exists w2; auto|]. intros o x I.
  destruct Hp as (l0 & r0 & P & Q).
  assert (A : forall o x, In (c1, o, x) l0 -> o = OReset).
  { intros o' x' I'. destruct P as [[_ P] | (_ & -> & _)]; [|destruct I'].
    destruct P as [l1 (P & _) | cs1 c cs2 l1 e _ (P & _) | cs1 c cs2 l1 _ (P & _)].
    - apply (in_map fst) in I'. rewrite P in I'. apply in_map_iff in I'. destruct I' as (c & X & _). cbn in X. congruence.
    - apply in_app_or in I'. destruct I' as [I' | [I' | []]]; [|congruence].
      apply (in_map fst) in I'. rewrite P in I'. apply in_map_iff in I'. destruct I' as (c' & X & _). cbn in X. congruence.
    - apply in_app_or in I'. destruct I' as [I' | [I' | []]]; [|congruence].
      apply (in_map fst) in I'. rewrite P in I'. apply in_map_iff in I'. destruct I' as (c' & X & _). cbn in X. congruence. }
  destruct r0 as [u | e |]; [| destruct Q as [-> _]; eauto | destruct Q as [-> _]; eauto].
  destruct Q as (l1 & -> & l2 & r1 & P1 & P2). apply in_app_or in I. destruct I as [I | I]; [eauto|]. exfalso.
  cbn in P1. rewrite String.eqb_refl in P1. cbn in P1.
  assert (Z : l2 = [] /\ r1 = Ok tt).
  { destruct P1 as [l3 (P1 & _) | cs1 c cs2 l3 e X _ | cs1 c cs2 l3 X _]; [| destruct cs1; discriminate | destruct cs1; discriminate].
    destruct l3; [now split | discriminate]. }
  destruct Z as [-> ->]. destruct P2 as (y & -> & _). destruct I as [I | []]. injection I. congruence.
Qed.
Print Assumptions C16_same_name_refuted.
Example C16_same_name_example : exists w0 w1,
  call OSetup (obj_of denv (nsw "a" "a")) (set_ins (dworld (all_st UNINITIALIZED) (says [])) 0 (nsw_in "a")) = (w0, Ok IDLE) /\
  in_value_as as_str (set_ins w0 0 (nsw_in "a")) 0 "name" = Ok "a" /\
  call OTick (obj_of denv (nsw "a" "a")) (set_ins w0 0 (nsw_in "a")) = (w1, Ok SUCCEEDED) /\
  w_st w1 1 = IDLE /\ w_st w1 2 = SUCCEEDED.
Proof. do 2 eexists. repeat (split; [vm_compute; reflexivity|]). split; reflexivity. Qed.

Example C16_example : exists w w', in_value_as as_str w 0 "name" = Ok "b" /\ live (w_st w 0) /\ inputs_set w 0 /\
  call OTick (obj_of denv (nsw "a" "b")) w = (w', Ok SUCCEEDED) /\ w_st w' 1 = IDLE /\ w_st w' 2 = SUCCEEDED.
Proof.
  exists (set_ins (dworld (all_st RUNNING) (says [])) 0 (nsw_in "b")). eexists.
  split; [reflexivity|]. split; [intros [H|[H|H]]; discriminate|].
  split; [intros k c [H|[]]; inversion H; discriminate|]. split; [vm_compute; reflexivity|]. split; reflexivity.
Qed.

Example C16_enum_example : exists w w',
  call OTick (obj_of denv (T 0 (KEnumSwitch [(VInt 1, "UP"); (VInt 2, "DOWN")]) "sw" [T 1 KLeaf "Msg.UP" []; T 2 KLeaf "Msg.DOWN" []])) w = (w', Ok FAILED) /\
  in_value w 0 "case" = Ok (VInt 2) /\ w_st w' 2 = FAILED /\ w_st w' 1 = IDLE.
Proof.
  exists (set_ins (dworld (all_st RUNNING) (says [(2, Ok FAILED)])) 0 [("case", dynamic_in (TInt 0 10) (VInt 2))]).
  eexists. split; [vm_compute; reflexivity|]. repeat split; reflexivity.
Qed.
