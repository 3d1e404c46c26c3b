(** A concrete environment and concrete trees, used by the examples that show
    that the hypotheses of the property theorems can be met. *)
From Coq Require Import List String ZArith Bool.
From Coq.Floats Require Import SpecFloat.
From Verif Require Import Base ModelData ModelUtility ModelTree SpecTree.
Import ListNotations.
Local Open Scope string_scope.

(** The outside world says what each leaf returns when ticked. *)
Definition dE := nid -> res state.

Definition denv : env dE := mkEnv dE
  (fun o n _ _ e => (e, [], match o with
     | OSetup | OReset | OUntick => Ok IDLE
     | OTick => e n
     | OShutdown => Ok SHUTDOWN
     end))
  (fun _ _ _ => Ok bounds_free)
  (fun e => (e, 0%Z)).

Definition attrs0 : attrs :=
  mkA 0 0 0 0 0 false false None (Ok FAILED) (S754_zero false) 0 false false.

(** No inputs, no outputs, no wirings. *)
Definition dworld (st : nid -> state) (e : dE) : world dE :=
  mkW st (fun _ => attrs0) (fun _ => []) (fun _ => []) (fun _ => Some []) [] e.

Definition leaf (n : nid) : tree := T n KLeaf "leaf" [].

(** A Sequence of a leaf, a Fallback of two leaves, and an inverted leaf. *)
Definition dtree : tree :=
  T 0 KSequence "root" [leaf 1; T 2 KFallback "fb" [leaf 3; leaf 4]; T 5 KInverter "inv" [leaf 6]].

Definition all_st (s : state) : nid -> state := fun _ => s.
Definition says (l : list (nid * res state)) : dE := fun n =>
  match find (fun x => Nat.eqb (fst x) n) l with Some (_, r) => r | None => Ok SUCCEEDED end.

Lemma dtree_wf : wf dtree.
Proof.
  split.
  - vm_compute. repeat constructor; simpl; intuition discriminate.
  - intros n k name cs H. vm_compute in H.
    repeat match goal with H : _ \/ _ |- _ => destruct H end; try contradiction; inversion H; subst;
      simpl; auto.
Qed.

(** Call operations on a node one after the other, changing what the outside
    world says before each. *)
Fixpoint play (c : obj dE) (w : world dE) (l : list (op * dE)) : world dE * list (res state) :=
  match l with
  | [] => (w, [])
  | (o, e) :: r =>
      let (w1, x) := call o c (set_ext w e) in
      let (w2, xs) := play c w1 r in (w2, x :: xs)
  end.

(** Inputs holding [v]. *)
Definition static_in (t : ctype) (v : value) : container := mkC t false true true (Some v) false.
Definition dynamic_in (t : ctype) (v : value) : container := mkC t true false false (Some v) false.

(** [call o c w = (w', r)] for a concrete world [w] when [w'] is its result. *)
Lemma call_is : forall (c : obj dE) o w r, snd (call o c w) = r -> call o c w = (fst (call o c w), r).
Proof. intros c o w r H. rewrite <- H. apply surjective_pairing. Qed.
