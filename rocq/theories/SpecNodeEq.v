(** What the comparison of nodes should say. *)
From Coq Require Import List.
From Verif Require Import ModelNodeEq.
Set Implicit Arguments.

Section Eq.
Variable A : Type.
Variables front back : A -> A -> bool.
Variable h : heap A.

(** The objects form trees: parents and children agree, and going up ends. *)
Definition forest : Prop :=
  (forall a p, n_parent (h a) = Some p -> In a (n_kids (h p))) /\
  (forall p a, In a (n_kids (h p)) -> n_parent (h a) = Some p) /\
  exists depth, forall a p, n_parent (h a) = Some p -> depth p < depth a.
(** The answer, if there is one, and that there is none. *)
Definition answers (a b : nat) (r : answer) : Prop := exists fuel, node_eq front back fuel h a b = Some r.
Definition never_ends (a b : nat) : Prop := forall fuel, node_eq front back fuel h a b = None.

Definition same_attributes (a b : nat) : Prop :=
  front (n_attr (h a)) (n_attr (h b)) = true /\ back (n_attr (h a)) (n_attr (h b)) = true.
(** [copy] relates the nodes of a tree to those of another that is equal in all attributes. *)
Definition copies (copy : nat -> nat -> Prop) : Prop := forall a b, copy a b ->
  a <> b /\ same_attributes a b /\
  (n_parent (h a) = None /\ n_parent (h b) = None \/
   exists p q, n_parent (h a) = Some p /\ n_parent (h b) = Some q /\ copy p q) /\
  Forall2 copy (n_kids (h a)) (n_kids (h b)).
(** A node that is a tree of its own. *)
Definition alone (a : nat) : Prop := n_parent (h a) = None /\ n_kids (h a) = nil.
End Eq.
