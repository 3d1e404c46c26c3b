(** Properties C01-C09: the life cycle of nodes and trees. *)
From Coq Require Import List String ZArith Bool.
From Verif Require Import Base ModelData ModelUtility ModelTree SpecTree ProofsTree ProofsLife ProofsWhole Demo.
Import ListNotations.

(** ** C01 Operations on a dead node are refused without side effects *)
Theorem C01_dead_refused : forall E (ev : env E) n k name cs o w,
  (dead (w_st w n) /\ (o = OTick \/ o = OUntick \/ o = OReset)) \/
  (w_st w n <> UNINITIALIZED /\ w_st w n <> SHUTDOWN /\ o = OSetup) ->
  call o (make_obj ev n k name cs) w = (w, Err EGuard).
Proof. exact refuse_dead. Qed.
Print Assumptions C01_dead_refused.

Example C01_example :
  dead (w_st (dworld (all_st BROKEN) (says [])) 0) /\
  w_st (dworld (all_st RUNNING) (says [])) 0 <> UNINITIALIZED /\
  w_st (dworld (all_st RUNNING) (says [])) 0 <> SHUTDOWN.
Proof. vm_compute. repeat split; try discriminate. auto. Qed.

(** ** C02 Result contract of the node operations *)
Theorem C02_result : forall E (ev : env E) n k name cs o w w' s,
  o <> OShutdown ->
  call o (make_obj ev n k name cs) w = (w', Ok s) -> op_states o s /\ w_st w' n = s.
Proof. exact node_result. Qed.
Print Assumptions C02_result.

Theorem C02_shutdown_result : forall E (ev : env E) t w w' s,
  NoDup (ids t) -> call OShutdown (obj_of ev t) w = (w', Ok s) ->
  s = SHUTDOWN /\ w_st w' (t_id t) = SHUTDOWN.
Proof. exact shutdown_result. Qed.
Print Assumptions C02_shutdown_result.

Theorem C02_failure : forall E (ev : env E) n k name cs o w w' e,
  o <> OShutdown ->
  (o = OSetup -> w_st w n = UNINITIALIZED \/ w_st w n = SHUTDOWN) ->
  (o <> OSetup -> live (w_st w n)) ->
  call o (make_obj ev n k name cs) w = (w', Err e) ->
  w_st w' n = BROKEN \/ (e = EState /\ ~ op_states o (w_st w' n)).
Proof. exact failure_breaks. Qed.
Print Assumptions C02_failure.

Example C02_example : exists w' w'' w3,
  call OTick (obj_of denv dtree) (dworld (all_st IDLE) (says [(3, Ok FAILED)])) = (w', Ok FAILED) /\
  call OTick (obj_of denv dtree) (dworld (all_st IDLE) (says [(4, Err (ELeaf 7)); (3, Ok FAILED)]))
    = (w'', Err (ELeaf 7)) /\ w_st w'' 0 = BROKEN /\
  call OShutdown (obj_of denv dtree) (dworld (all_st RUNNING) (says [])) = (w3, Ok SHUTDOWN).
Proof. eexists. eexists. eexists. vm_compute. repeat split. Qed.

(** ** C03 A BROKEN node stays BROKEN until it is shut down *)
Theorem C03_broken_sticky : forall E (ev : env E) w l w' m,
  history ev w l w' -> Forall (fun x => snd (fst x) <> OShutdown) l ->
  w_st w m = BROKEN -> w_st w' m = BROKEN.
Proof. intros E ev w l w' m H HF. exact (kb_history E ev w l w' H HF m). Qed.
Print Assumptions C03_broken_sticky.

Example C03_example : exists w' r1 r2,
  history denv (dworld (fun n => if Nat.eqb n 4 then BROKEN else IDLE) (says [(3, Ok FAILED)]))
    [(dtree, OTick, r1); (leaf 4, OReset, r2)] w' /\ w_st w' 4 = BROKEN /\ w_st w' 0 = BROKEN.
Proof.
  eexists. eexists. eexists. split.
  - eapply h_call; [vm_compute; reflexivity|]. eapply h_call; [vm_compute; reflexivity|]. apply h_nil.
  - vm_compute. auto.
Qed.

(** ** C04 Operations stay inside their subtree *)
Theorem C04_stays_inside : forall E (ev : env E) t o w,
  stays_inside (ids t) w (fst (call o (obj_of ev t) w)).
Proof. exact frame_tree. Qed.
Print Assumptions C04_stays_inside.

(** ** C05 Shutdown reaches every node of the tree *)
Theorem C05_shutdown_all : forall E (ev : env E) t, wf t ->
  (forall n name cs w, In (T n KLeaf name cs) (subtrees t) ->
     snd (leaf_act ev OShutdown n w) = Ok SHUTDOWN) ->
  forall w, exists w', call OShutdown (obj_of ev t) w = (w', Ok SHUTDOWN) /\
    forall m, In m (ids t) -> w_st w' m = SHUTDOWN.
Proof.
  intros E ev t Hwf H. apply shutdown_tree_ok; auto.
  intros n k name cs Hin -> w. eapply H; eauto.
Qed.
Print Assumptions C05_shutdown_all.

(** Only failing leaves can miss SHUTDOWN: everything else is reached, whatever
    errors leaves report, as long as they do not raise. *)
Theorem C05_failing_leaves : forall E (ev : env E) t, wf t ->
  (forall n name cs w, In (T n KLeaf name cs) (subtrees t) ->
     snd (leaf_act ev OShutdown n w) <> Raise) ->
  forall w w' r, call OShutdown (obj_of ev t) w = (w', r) ->
  forall n k name cs, In (T n k name cs) (subtrees t) ->
    (k <> KLeaf \/ forall w0, snd (leaf_act ev OShutdown n w0) = Ok SHUTDOWN) ->
    w_st w' n = SHUTDOWN.
Proof.
  intros E ev t Hwf Hl w w' r H n k name cs Hin Hk.
  eapply shutdown_tree; eauto. intros ->. destruct Hk as [Hk|Hk]; [congruence|auto].
Qed.
Print Assumptions C05_failing_leaves.

(** A child that fails to shut down does not keep its siblings from it: every
    child is called exactly once, in order (children are arbitrary objects). *)
Theorem C05_children_called : forall E (ev : env E) n k name cs w w' r,
  k <> KLeaf ->
  call OShutdown (make_obj ev n k name cs) w = (w', r) ->
  exists w1 l, ran w1 l w' /\ (forall m, m <> n -> w_st w1 m = w_st w m) /\ w_st w1 n = SHUTDOWN /\
    ((map fst l = map (fun c => (c, OShutdown)) cs /\ Forall (fun x => snd x <> Raise) l) \/
     (r = Raise /\ exists l0 c rest, cs = map (fun x => fst (fst x)) l0 ++ c :: rest /\
        l = l0 ++ [(c, OShutdown, Raise)])).
Proof.
  intros E ev n k name cs w w' r Hk H. simpl in H. unfold node_shutdown in H.
  assert (Ho : exists w1, (match w_st w n with SHUTDOWN => (w, Ok SHUTDOWN) | _ =>
      match do_shutdown ev n k w with
      | (w1, Err e) => (set_st w1 n BROKEN, Err EState)
      | (w1, Raise) => (w1, Raise)
      | (w1, Ok s) => if state_in s [SHUTDOWN] then (set_st w1 n s, Ok s) else (set_st w1 n s, Err EState)
      end end) = (w1, Ok SHUTDOWN) /\ w_st w1 n = SHUTDOWN /\ forall m, m <> n -> w_st w1 m = w_st w m).
  { destruct (do_shutdown_nonleaf E ev n k w Hk) as [w1 [Hd Hst]]. rewrite Hd.
    destruct (w_st w n) eqn:Es; try (eexists; split; [reflexivity|]; split; [simpl; apply upd_eq|];
      intros m Hm; simpl; rewrite upd_neq; [congruence|auto]).
    exists w. auto. }
  destruct Ho as [w1 [Ho [Hs Hm]]]. rewrite Ho in H. simpl in H.
  destruct (shutdown_children cs w1 None) as [w2 rc] eqn:Ec.
  destruct (shutdown_children_ran E cs w1 None w2 rc Ec) as [l [Hr Hl]].
  exists w1, l. destruct rc as [e1|e1|].
  - assert (w2 = w') by (destruct e1; inversion H; auto). subst w2. repeat split; auto. left. intuition.
  - destruct Hl.
  - inversion H; subst. repeat split; auto. right. split; auto.
    destruct Hl as [l0 [c [Hl [_ [rest [Hc _]]]]]]. eauto.
Qed.
Print Assumptions C05_children_called.

Definition fail_env : env dE := mkEnv dE
  (fun o n _ _ e => (e, [], match o with OShutdown => Err (ELeaf 0) | _ => Ok IDLE end))
  (fun _ _ _ => Ok bounds_free) (fun e => (e, 0%Z)).

(** The gap named in the property: when the own shutdown code [d] of a node fails, none of
    its children [cs] is shut down; they stay as that code left them.  (Only user-defined
    classes with children can have failing shutdown code.) *)
Theorem C05_gap_refuted : forall E n (cs : list (obj E)) (d : act E) w w1 e,
  w_st w n <> SHUTDOWN -> d w = (w1, Err e) ->
  exists w', node_shutdown n cs d w = (w', Err EState) /\ w_st w' n = BROKEN /\
    forall m, m <> n -> w_st w' m = w_st w1 m.
Proof.
  intros E n cs d w w1 e H D. exists (set_st w1 n BROKEN). split; [|split].
  - unfold node_shutdown. rewrite D. destruct (w_st w n); try reflexivity. contradiction.
  - cbn. unfold upd. now rewrite Nat.eqb_refl.
  - intros m X. cbn. unfold upd. apply Nat.eqb_neq in X. now rewrite X.
Qed.
Print Assumptions C05_gap_refuted.
(** A node whose shutdown code fails, above a leaf that is running. *)
Example C05_gap_example : forall w' r,
  node_shutdown 0 [obj_of denv (leaf 1)] (leaf_act fail_env OShutdown 0) (dworld (all_st RUNNING) (says [])) = (w', r) ->
  r = Err EState /\ w_st w' 1 = RUNNING.
Proof. intros w' r H. vm_compute in H. injection H as <- <-. split; reflexivity. Qed.

Example C05_example : wf dtree /\
  (forall n name cs w, In (T n KLeaf name cs) (subtrees dtree) ->
     snd (leaf_act denv OShutdown n w) = Ok SHUTDOWN).
Proof. split; [exact dtree_wf|]. intros. reflexivity. Qed.

(** ** C06 Setup brings the whole tree to IDLE *)
Theorem C06_setup_idle : forall E (ev : env E) t w w' s,
  wf t -> call OSetup (obj_of ev t) w = (w', Ok s) ->
  forall n k name cs, In (T n k name cs) (active w' t) ->
    w_st w' n = IDLE /\ fresh_memory k (w_mem w' n).
Proof. exact setup_tree. Qed.
Print Assumptions C06_setup_idle.

Theorem C06_failing_leaf : forall E (ev : env E) t n name cs,
  wf t -> In (T n KLeaf name cs) (unconditional t) ->
  (forall w, snd (leaf_act ev OSetup n w) <> Ok IDLE) ->
  forall w s, snd (call OSetup (obj_of ev t) w) <> Ok s.
Proof.
  intros E ev t n name cs Hwf Hin Hf w s H.
  destruct (call OSetup (obj_of ev t) w) as [w' r] eqn:Ec. simpl in H. subst r.
  destruct (setup_leaves E ev t w w' s Hwf Ec n name cs) as [w1 [w2 Hl]].
  - apply unconditional_active. exact Hin.
  - apply (Hf w1). rewrite Hl. reflexivity.
Qed.
Print Assumptions C06_failing_leaf.

Example C06_example : exists w',
  call OSetup (obj_of denv dtree) (dworld (all_st UNINITIALIZED) (says [])) = (w', Ok IDLE) /\
  map (w_st w') (ids dtree) = [IDLE; IDLE; IDLE; IDLE; IDLE; IDLE; IDLE] /\
  In (leaf 6) (unconditional dtree).
Proof. eexists. vm_compute. repeat split. auto 10. Qed.

(** ** C07 Untick stops everything below *)
Theorem C07_untick_stops : forall E (ev : env E) t w w' s,
  wf t -> call OUntick (obj_of ev t) w = (w', Ok s) ->
  forall n k name cs, In (T n k name cs) (active w' t) -> w_st w' n = IDLE \/ w_st w' n = PAUSED.
Proof. exact untick_tree. Qed.
Print Assumptions C07_untick_stops.

Example C07_example : exists w',
  call OUntick (obj_of denv dtree) (dworld (all_st RUNNING) (says [])) = (w', Ok IDLE).
Proof. eexists. vm_compute. reflexivity. Qed.

(** ** C08 Reset returns the whole subtree to the state right after setup *)
Theorem C08_reset_partial : forall E (ev : env E) t w w' s,
  wf t -> (forall n name cs, ~ In (T n KRepeatNoAutoReset name cs) (subtrees t)) ->
  call OReset (obj_of ev t) w = (w', Ok s) ->
  forall n k name cs, In (T n k name cs) (active w' t) ->
    w_st w' n = IDLE /\ (k <> KThrottle -> fresh_memory k (w_mem w' n)).
Proof. exact reset_tree. Qed.
Print Assumptions C08_reset_partial.

(** Options read at setup are not changed by any other operation. *)
Theorem C08_options_kept : forall E (ev : env E) t o w m,
  o <> OSetup -> same_options (w_mem (fst (call o (obj_of ev t) w)) m) (w_mem w m).
Proof. intros E ev t o w m Ho. exact (options_tree E ev t o w Ho m). Qed.
Print Assumptions C08_options_kept.

Example C08_example : exists w',
  call OReset (obj_of denv dtree) (dworld (all_st FAILED) (says [])) = (w', Ok IDLE) /\
  (forall n name cs, ~ In (T n KRepeatNoAutoReset name cs) (subtrees dtree)).
Proof.
  eexists. split; [vm_compute; reflexivity|]. intros n name cs H. vm_compute in H.
  repeat match goal with H : _ \/ _ |- _ => destruct H end; try contradiction; discriminate.
Qed.

(** ** C09 No tick without input data *)
Theorem C09_no_tick_without_inputs : forall E (ev : env E) n k name cs w,
  live (w_st w n) -> ~ inputs_set w n ->
  call OTick (make_obj ev n k name cs) w = (set_st w n BROKEN, Err EUnset).
Proof. exact no_tick_without_inputs. Qed.
Print Assumptions C09_no_tick_without_inputs.

Example C09_example : exists w : world dE,
  live (w_st w 0) /\ ~ inputs_set w 0.
Proof.
  exists (mkW (all_st IDLE) (fun _ => attrs0)
    (fun _ => [("x"%string, mkC TBool true false false None false)]) (fun _ => []) (fun _ => Some []) [] (says [])).
  split.
  - intros [H|[H|H]]; discriminate.
  - intros H. apply (H _ _ (or_introl eq_refl)). reflexivity.
Qed.
