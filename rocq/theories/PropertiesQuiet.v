(** Property C17: what is left running when a tick reports a result. *)
From Coq Require Import List String ZArith Bool.
From Verif Require Import Base ModelData ModelUtility ModelTree SpecTree SpecQuiet ProofsTree ProofsLife ProofsWhole
  ProofsQuiet Demo.
Import ListNotations.
Local Open Scope string_scope.

(** ** C17 A finished subtree has nothing running in it

    For trees built of every class but IgnoreRunning, NameSwitch, EnumSwitch,
    Throttle, ThrottleSuccess and IterateList, for all leaves, and for every
    history of operations on a new tree, including operations in which user code
    raised an exception that went up through the tree: a tick that does not report
    RUNNING leaves no node of the tree RUNNING.
    Missing: the six classes, for which it is false (C17_kinds_refuted below). *)
Theorem C17_partial : forall E (ev : env E) t w0 l w w' s,
  wf t -> all_settling t ->
  (forall m, In m (ids t) -> w_st w0 m = UNINITIALIZED) ->
  history ev w0 l w -> (forall t' o r, In (t', o, r) l -> t' = t) ->
  call OTick (obj_of ev t) w = (w', Ok s) -> s <> RUNNING ->
  nothing_running w' t.
Proof. exact settling_quiet. Qed.
Print Assumptions C17_partial.

(** For trees of all classes: what is still running lies below a node of one of
    the six classes. *)
Theorem C17_below : forall E (ev : env E) t w0 l w w' s,
  wf t ->
  (forall m, In m (ids t) -> w_st w0 m = UNINITIALIZED) ->
  history ev w0 l w -> (forall t' o r, In (t', o, r) l -> t' = t) ->
  call OTick (obj_of ev t) w = (w', Ok s) -> s <> RUNNING ->
  forall x, In x (active w' t) -> w_st w' (t_id x) = RUNNING -> below_unsettling w' t x.
Proof.
  intros E ev t w0 l w w' s Hwf H0 Hh Hl Hc Hr x Hx Hrun.
  destruct (running_below E ev t w0 l w w' s Hwf H0 Hh Hl Hc Hr x Hx Hrun) as [n [k [name [cs [H1 [H2 H3]]]]]].
  exists (T n k name cs). auto.
Qed.
Print Assumptions C17_below.

(** *** Concrete runs

    Before each operation the outside world, the clock and the inputs of node 0
    may change. *)
Definition qE := ((nid -> res state) * Z)%type.
Definition qenv : env qE := mkEnv qE
  (fun o n _ _ e => (e, [], match o with
     | OSetup | OReset | OUntick => Ok IDLE | OTick => fst e n | OShutdown => Ok SHUTDOWN end))
  (fun _ _ _ => Ok bounds_free) (fun e => (e, snd e)).
Definition qworld (outs : iomap) : world qE :=
  mkW (all_st UNINITIALIZED) (fun _ => attrs0) (fun _ => []) (fun n => match n with 0 => outs | _ => [] end)
    (fun _ => Some []) [] (says [], 0%Z).
Definition qset (w : world qE) (x : qE * iomap) : world qE := set_ins (set_ext w (fst x)) 0 (snd x).
Fixpoint qplay (t : tree) (w : world qE) (l : list (op * (qE * iomap))) : world qE * list (tree * op * res state) :=
  match l with
  | [] => (w, [])
  | (o, x) :: l' =>
      let (w1, r) := call o (obj_of qenv t) (qset w x) in
      let (w2, h) := qplay t w1 l' in (w2, (t, o, r) :: h)
  end.
Lemma qplay_history : forall t l w, history qenv w (snd (qplay t w l)) (fst (qplay t w l)).
Proof.
  intros t. induction l as [|[o x] l IH]; intros w; cbn [qplay]; [apply h_nil|].
  destruct (call o (obj_of qenv t) (qset w x)) as [w1 r] eqn:Ec. specialize (IH w1).
  destruct (qplay t w1 l) as [w2 h]. simpl in *.
  eapply (h_env _ _ (qset w x)); auto. eapply h_call; eauto.
Qed.
Lemma qplay_same : forall t l w, forallb (fun y => match snd y with Raise => false | _ => true end) (snd (qplay t w l)) = true ->
  forall t' o r, In (t', o, r) (snd (qplay t w l)) -> t' = t /\ r <> Raise.
Proof.
  intros t l w H t' o r Hin. split.
  - clear H. revert w Hin. induction l as [|[o' x] l IH]; intros w; cbn [qplay]; [intros []|].
    destruct (call o' (obj_of qenv t) (qset w x)) as [w1 r']. specialize (IH w1).
    destruct (qplay t w1 l) as [w2 h]. simpl in *. intros [Hx|Hx]; [congruence|auto].
  - rewrite forallb_forall in H. specialize (H _ Hin). simpl in H. destruct r; [discriminate|discriminate|congruence].
Qed.

Lemma h_then_env : forall E (ev : env E) w0 l w, history ev w0 l w -> forall w',
  (forall m, w_st w' m = w_st w m) -> (forall m, w_mem w' m = w_mem w m) -> history ev w0 l w'.
Proof.
  intros E ev w0 l w H. induction H as [w|w t o r w1 l w2 Hc H IH|w w1 l w2 H1 H2 H IH]; intros w' Q1 Q2.
  - eapply (h_env _ _ w'); auto. apply h_nil.
  - eapply h_call; eauto.
  - eapply (h_env _ _ w1); eauto.
Qed.
Lemma h_then_ext : forall E (ev : env E) w0 l w e, history ev w0 l w -> history ev w0 l (set_ext w e).
Proof. intros. eapply h_then_env; [eassumption| |]; reflexivity. Qed.

(** Parallel of a MemorySequence and a Retry: a run in which leaf 5 raises in the
    second tick, and a third tick after which everything has ended although leaf 2
    was running. *)
Definition qtree : tree :=
  T 0 KParallel "p" [T 1 KMemorySequence "m" [leaf 2; leaf 3]; T 4 KRetry "r" [leaf 5]; leaf 6].
Example C17_example : exists w0 l w w',
  wf qtree /\ all_settling qtree /\ (forall m, In m (ids qtree) -> w_st w0 m = UNINITIALIZED) /\
  history denv w0 l w /\ (forall t' o r, In (t', o, r) l -> t' = qtree) /\ In (qtree, OTick, Raise) l /\
  w_st w 2 = RUNNING /\ w_st w 5 = RUNNING /\
  call OTick (obj_of denv qtree) w = (w', Ok SUCCEEDED) /\ w_st w' 2 = IDLE.
Proof.
  set (opts := fun n => match n with
    | 0 => [("needed_successes", static_in (TInt 0 10) (VInt 2))]
    | 4 => [("num_retries", static_in (TInt 0 10) (VInt 3))]
    | _ => [] end).
  set (w0 := mkW (all_st UNINITIALIZED) (fun _ => attrs0) opts (fun _ => []) (fun _ => Some []) []
               (says [(2, Ok RUNNING); (5, Ok RUNNING); (6, Ok SUCCEEDED)])).
  set (w1 := fst (call OSetup (obj_of denv qtree) w0)).
  set (w2 := fst (call OTick (obj_of denv qtree) w1)).
  set (w3 := fst (call OTick (obj_of denv qtree) (set_ext w2 (says [(2, Ok RUNNING); (5, Raise)])))).
  exists w0, [(qtree, OSetup, Ok IDLE); (qtree, OTick, Ok RUNNING); (qtree, OTick, Raise)], (set_ext w3 (says [(2, Ok RUNNING)])).
  eexists. split.
  { split.
    - vm_compute. repeat constructor; simpl; intuition discriminate.
    - intros n k name cs H. vm_compute in H.
      repeat match goal with H : _ \/ _ |- _ => destruct H end; try contradiction; inversion H; subst; simpl; auto. }
  split.
  { intros n k name cs H. vm_compute in H.
    repeat match goal with H : _ \/ _ |- _ => destruct H end; try contradiction; inversion H; subst; simpl; auto. }
  split; [intros m _; reflexivity|].
  split.
  { apply h_then_ext. apply (h_call denv w0 qtree OSetup (Ok IDLE) w1); [apply call_is; vm_compute; reflexivity|].
    apply (h_call denv w1 qtree OTick (Ok RUNNING) w2); [apply call_is; vm_compute; reflexivity|].
    apply (h_env denv w2 (set_ext w2 (says [(2, Ok RUNNING); (5, Raise)]))); [reflexivity|reflexivity|].
    apply (h_call denv (set_ext w2 (says [(2, Ok RUNNING); (5, Raise)])) qtree OTick Raise w3);
      [apply call_is; vm_compute; reflexivity|apply h_nil]. }
  split.
  { intros t' o r [H|[H|[H|[]]]]; inversion H; subst; reflexivity. }
  split; [simpl; auto|].
  split; [vm_compute; reflexivity|]. split; [vm_compute; reflexivity|].
  split; [vm_compute; reflexivity|vm_compute; reflexivity].
Qed.

(** *** What fails

    A tree of which a tick reports SUCCEEDED or FAILED after a history without
    exceptions, while a node in it is RUNNING. *)
Definition leaves_running (t : tree) : Prop :=
  exists w0 l w w' s,
    (forall m, In m (ids t) -> w_st w0 m = UNINITIALIZED) /\
    history qenv w0 l w /\ (forall t' o r, In (t', o, r) l -> t' = t /\ r <> Raise) /\
    call OTick (obj_of qenv t) w = (w', Ok s) /\ has_result s /\ ~ nothing_running w' t.

Definition runs_child (k : kind) : tree := T 0 k "d" [leaf 1].
Definition sw_child (k : kind) : tree := T 0 k "d" [T 1 KLeaf "a" []].

Definition left_running_check (t : tree) (outs : iomap) (l : list (op * (qE * iomap))) (x : qE * iomap) (s : state) : bool :=
  let (w, h) := qplay t (qworld outs) l in
  let (w', r) := call OTick (obj_of qenv t) (qset w x) in
  forallb (fun y => match snd y with Raise => false | _ => true end) h &&
  match r with Ok s' => state_eqb s' s | _ => false end &&
  existsb (fun k => state_eqb (w_st w' (t_id k)) RUNNING) (active w' t).
Lemma leaves_running_by : forall t outs l x s, has_result s -> left_running_check t outs l x s = true ->
  leaves_running t.
Proof.
  intros t outs l x s Hs H. unfold left_running_check in H.
  pose proof (qplay_history t l (qworld outs)) as H1. pose proof (qplay_same t l (qworld outs)) as H2.
  destruct (qplay t (qworld outs) l) as [w h]. simpl in H1, H2.
  destruct (call OTick (obj_of qenv t) (qset w x)) as [w' r] eqn:Ec.
  apply andb_prop in H. destruct H as [H Hk]. apply andb_prop in H. destruct H as [Hr Hok].
  destruct r as [s'| |]; try discriminate. apply state_eqb_true in Hok. subst s'.
  apply existsb_exists in Hk. destruct Hk as [k [Hin Hk]]. apply state_eqb_true in Hk.
  exists (qworld outs), h, (qset w x), w', s.
  split; [reflexivity|]. split; [eapply h_then_env; [exact H1| |]; reflexivity|].
  split; [apply H2; exact Hr|]. split; [exact Ec|]. split; [exact Hs|]. intros Hn. exact (Hn k Hin Hk).
Qed.

Definition run1 : nid -> res state := fun _ => Ok RUNNING.
Definition at_s (f : nid -> res state) (t : Z) (i : iomap) : qE * iomap := ((f, (t * 1000000000)%Z), i).
Definition ris_in := [("running_is_success", static_in TBool (VBool true))].
Definition name_in (s : string) := [("name", dynamic_in (TStr 100 None) (VStr s))].
Definition case_in (i : Z) := [("case", dynamic_in (TInt 0 10) (VInt i))].
Definition sec_in := [("tick_interval", static_in (TFloat DBL_MIN DBL_MAX) (VFloat (float_of_Z 1)))].
Definition list_in (l : list value) := [("list", dynamic_in (TList (TInt 0 10) true 10 false) (VList l))].
Definition item_out := [("list_item", dynamic_in (TInt 0 10) (VInt 0))].

Theorem C17_kinds_refuted :
  leaves_running (runs_child KIgnoreRunning) /\
  leaves_running (sw_child KNameSwitch) /\
  leaves_running (sw_child (KEnumSwitch [(VInt 1, "a")])) /\
  leaves_running (runs_child KThrottle) /\
  leaves_running (runs_child KThrottleSuccess) /\
  leaves_running (runs_child KIterateList).
Proof.
  split; [|split; [|split; [|split; [|split]]]].
  - apply (leaves_running_by _ [] [(OSetup, at_s run1 0 ris_in)] (at_s run1 0 ris_in) SUCCEEDED); [left; reflexivity|vm_compute; reflexivity].
  - apply (leaves_running_by _ [] [(OSetup, at_s run1 0 (name_in "a")); (OTick, at_s run1 0 (name_in "a"))]
             (at_s run1 0 (name_in "b")) FAILED); [right; reflexivity|vm_compute; reflexivity].
  - apply (leaves_running_by _ [] [(OSetup, at_s run1 0 (case_in 1)); (OTick, at_s run1 0 (case_in 1))]
             (at_s run1 0 (case_in 2)) FAILED); [right; reflexivity|vm_compute; reflexivity].
  - (* the clock is set back *)
    apply (leaves_running_by _ [] [(OSetup, at_s run1 0 sec_in); (OTick, at_s (says []) 10 sec_in); (OTick, at_s run1 12 sec_in)]
             (at_s run1 10 sec_in) SUCCEEDED); [left; reflexivity|vm_compute; reflexivity].
  - apply (leaves_running_by _ [] [(OSetup, at_s run1 0 sec_in)] (at_s run1 0 sec_in) FAILED); [right; reflexivity|vm_compute; reflexivity].
  - apply (leaves_running_by _ item_out [(OSetup, at_s run1 0 (list_in [VInt 1])); (OTick, at_s run1 0 (list_in [VInt 1]));
             (OTick, at_s run1 0 (list_in [VInt 1]))] (at_s run1 0 (list_in [])) SUCCEEDED); [left; reflexivity|vm_compute; reflexivity].
Qed.
Print Assumptions C17_kinds_refuted.

(** A tree that meets the hypotheses of C17_below and has a running node left. *)
Definition btree : tree := T 2 KMemorySequence "m" [runs_child KIgnoreRunning; leaf 3].
Definition bget (l : list (op * (qE * iomap))) : world qE := fst (qplay btree (qworld []) l).
Lemma qset_history : forall t l x w, history qenv w (snd (qplay t w l)) (qset (fst (qplay t w l)) x).
Proof. intros t l x w. eapply h_then_env; [apply qplay_history| |]; intros m; reflexivity. Qed.
Lemma qcall_is : forall (c : obj qE) o w r, snd (call o c w) = r -> call o c w = (fst (call o c w), r).
Proof. intros c o w r H. rewrite <- H. apply surjective_pairing. Qed.
Example C17_below_example : exists l w w',
  wf btree /\ history qenv (qworld []) l w /\ (forall t' o r, In (t', o, r) l -> t' = btree) /\
  call OTick (obj_of qenv btree) w = (w', Ok SUCCEEDED) /\ w_st w' 1 = RUNNING /\ w_st w' 0 = SUCCEEDED.
Proof.
  set (run := [(OSetup, at_s run1 0 ris_in)]).
  set (f := fun n => match n with 1 => Ok RUNNING | _ => Ok SUCCEEDED end).
  exists (snd (qplay btree (qworld []) run)), (qset (bget run) (at_s f 0 ris_in)),
    (fst (call OTick (obj_of qenv btree) (qset (bget run) (at_s f 0 ris_in)))).
  split.
  { split.
    - vm_compute. repeat constructor; simpl; intuition discriminate.
    - intros n k name cs H. vm_compute in H.
      repeat match goal with H : _ \/ _ |- _ => destruct H end; try contradiction; inversion H; subst; simpl; auto. }
  split.
  { exact (qset_history btree run (at_s f 0 ris_in) (qworld [])). }
  split.
  { intros t' o r Hin. refine (proj1 (qplay_same btree run (qworld []) _ t' o r Hin)). vm_compute. reflexivity. }
  split; [apply qcall_is; vm_compute; reflexivity|]. split; vm_compute; reflexivity.
Qed.
