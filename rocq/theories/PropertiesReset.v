(** Property C08, continued: reset of trees with the two classes that remember. *)
From Coq Require Import List String ZArith Bool.
From Verif Require Import Base ModelData ModelUtility ModelTree SpecTree ProofsTree ProofsLife ProofsWhole ProofsReset Demo
  PropertiesQuiet.
Import ListNotations.
Local Open Scope string_scope.

(** ** C08 Reset returns the whole subtree to the state right after setup

    For trees of all classes: every node that is not below a RepeatNoAutoReset is
    IDLE and has, unless it is a Throttle or a RepeatNoAutoReset itself, the
    memory of a node that was just set up. *)
Theorem C08_above : forall E (ev : env E) t w w' s,
  wf t -> call OReset (obj_of ev t) w = (w', Ok s) ->
  forall n k name cs, In (T n k name cs) (active w' t) ->
    (w_st w' n = IDLE /\ (k <> KThrottle -> k <> KRepeatNoAutoReset -> fresh_memory k (w_mem w' n))) \/
    (exists m nm ds, In (T m KRepeatNoAutoReset nm ds) (active w' t) /\ In (T n k name cs) (flat_map subtrees ds)).
Proof.
  intros E ev t w w' s Hwf H n k name cs Hin.
  destruct (ractive_split E w' t _ Hin) as [Hr|Hr]; [left|right; exact Hr].
  exact (reset_above E ev t w w' s Hwf H n k name cs Hr).
Qed.
Print Assumptions C08_above.

(** A tree that was set up, used and reset, all with success, behaves otherwise
    than the same tree just set up, in the same world: the next tick of the one
    says [s], of the other [s0]. *)
Definition remembers (t : tree) (s s0 : state) : Prop :=
  exists w0 l x w w' v v',
    (forall m, In m (ids t) -> w_st w0 m = UNINITIALIZED) /\
    history qenv w0 l w /\ (forall t' o r, In (t', o, r) l -> t' = t /\ r <> Raise) /\
    last l (t, OTick, Raise) = (t, OReset, Ok IDLE) /\
    call OTick (obj_of qenv t) (qset w x) = (w', Ok s) /\
    call OSetup (obj_of qenv t) (qset w0 x) = (v, Ok IDLE) /\
    call OTick (obj_of qenv t) (qset v x) = (v', Ok s0).

Definition remembers_check (t : tree) (l : list (op * (qE * iomap))) (x : qE * iomap) (s s0 : state) : bool :=
  let w0 := qworld [] in
  let (w, h) := qplay t w0 l in
  let (w', r) := call OTick (obj_of qenv t) (qset w x) in
  let (v, r1) := call OSetup (obj_of qenv t) (qset w0 x) in
  let (v', r2) := call OTick (obj_of qenv t) (qset v x) in
  forallb (fun y => match snd y with Raise => false | _ => true end) h &&
  match last (map (fun y => (snd (fst y), snd y)) h) (OTick, Raise) with (OReset, Ok IDLE) => true | _ => false end &&
  match r with Ok s' => state_eqb s' s | _ => false end &&
  match r1 with Ok s' => state_eqb s' IDLE | _ => false end &&
  match r2 with Ok s' => state_eqb s' s0 | _ => false end.
Lemma last_map : forall A B (f : A -> B) l d, last (map f l) (f d) = f (last l d).
Proof. induction l as [|a [|b l] IH]; intros d; auto. exact (IH d). Qed.
Lemma last_in : forall A (l : list A) d, l <> [] -> In (last l d) l.
Proof. induction l as [|a [|b l] IH]; intros d H; [congruence|left; reflexivity|right; apply IH; discriminate]. Qed.
Lemma remembers_by : forall t l x s s0, remembers_check t l x s s0 = true -> remembers t s s0.
Proof.
  intros t l x s s0 H. unfold remembers_check in H.
  pose proof (qplay_history t l (qworld [])) as H1. pose proof (qplay_same t l (qworld [])) as H2.
  cbv zeta in H.
  destruct (qplay t (qworld []) l) as [w h]. simpl in H1, H2.
  destruct (call OTick (obj_of qenv t) (qset w x)) as [w' r] eqn:E1.
  destruct (call OSetup (obj_of qenv t) (qset (qworld []) x)) as [v r1] eqn:E2.
  destruct (call OTick (obj_of qenv t) (qset v x)) as [v' r2] eqn:E3.
  apply andb_prop in H. destruct H as [H C5]. apply andb_prop in H. destruct H as [H C4].
  apply andb_prop in H. destruct H as [H C3]. apply andb_prop in H. destruct H as [C1 C2].
  destruct r as [r| |], r1 as [r1| |], r2 as [r2| |]; try discriminate.
  apply state_eqb_true in C3. apply state_eqb_true in C4. apply state_eqb_true in C5. subst.
  exists (qworld []), h, x, w, w', v, v'. split; [reflexivity|]. split; [exact H1|]. split; [apply H2; exact C1|].
  split; [|auto]. specialize (H2 C1).
  pose proof (last_map _ _ (fun y : tree * op * res state => (snd (fst y), snd y)) h (t, OTick, Raise)) as Q.
  simpl in Q. rewrite Q in C2. clear Q.
  destruct h as [|y h]; [discriminate|]. pose proof (last_in _ (y :: h) (t, OTick, Raise) ltac:(discriminate)) as Hl.
  destruct (last (y :: h) (t, OTick, Raise)) as [[t' o'] r'].
  destruct (H2 t' o' r' Hl) as [-> _]. simpl in C2. destruct o'; try discriminate. destruct r' as [[]| |]; try discriminate. reflexivity.
Qed.

(** The last result of a Throttle and the count of a RepeatNoAutoReset survive a
    reset: the node repeats an old result without asking its child. *)
Definition nar_in := [("num_repeats", static_in (TInt 0 10) (VInt 1)); ("reset", static_in TBool (VBool false))].
Definition fail1 : nid -> res state := fun _ => Ok FAILED.
Theorem C08_memory_refuted :
  remembers (runs_child KThrottle) SUCCEEDED FAILED /\
  remembers (runs_child KRepeatNoAutoReset) SUCCEEDED FAILED.
Proof.
  split.
  - apply (remembers_by _ [(OSetup, at_s (says []) 10 sec_in); (OTick, at_s (says []) 10 sec_in); (OReset, at_s (says []) 10 sec_in)]
             (at_s fail1 10 sec_in)). vm_compute. reflexivity.
  - apply (remembers_by _ [(OSetup, at_s (says []) 10 nar_in); (OTick, at_s (says []) 10 nar_in); (OReset, at_s (says []) 10 nar_in)]
             (at_s fail1 10 nar_in)). vm_compute. reflexivity.
Qed.
Print Assumptions C08_memory_refuted.

Definition ntree : tree := T 0 KSequence "s" [T 1 KRepeatNoAutoReset "n" [leaf 2]; T 3 KRetry "r" [leaf 4]].
Example C08_above_example : exists w',
  wf ntree /\
  call OReset (obj_of denv ntree) (dworld (all_st FAILED) (says [])) = (w', Ok IDLE) /\
  In (T 3 KRetry "r" [leaf 4]) (active w' ntree).
Proof.
  eexists. split.
  { split.
    - vm_compute. repeat constructor; simpl; intuition discriminate.
    - intros n k name cs H. vm_compute in H.
      repeat match goal with H : _ \/ _ |- _ => destruct H end; try contradiction; inversion H; subst; simpl; auto. }
  split; [vm_compute; reflexivity|]. vm_compute. auto 10.
Qed.
