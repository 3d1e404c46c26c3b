(** Model of the comparison of nodes, Node.__eq__ and __ne__
    (/repo/ros_bt_py/ros_bt_py/node.py:851-869).  Node objects have addresses.  What is compared
    besides parents and children are two parts of the attributes [A]: [front] compares id and
    name, [back] state, module, class, inputs and outputs, which have no nodes in them; neither
    raises.  No proofs in this file. *)
From Coq Require Import Bool List Arith.
Import ListNotations.
Set Implicit Arguments.

Section NodeEq.
Variable A : Type.
Variables front back : A -> A -> bool.

(** A node object (node.py:138-228): its attributes, parent and children. *)
Record node_obj : Type := mkNode { n_attr : A; n_parent : option nat; n_kids : list nat }.
(** The objects.  Python. *)
Definition heap : Type := nat -> node_obj.
(** What a comparison does.  [AttributeError]: None has no attributes. *)
Inductive answer : Set := Yes | No | AttributeError.

(** [==] of lists: elements that are the same object are not compared.  Python. *)
Fixpoint lists_eq (eq : nat -> nat -> option answer) (l m : list nat) : option answer :=
  match l, m with
  | x :: l, y :: m =>
      if (x =? y)%nat then lists_eq eq l m
      else match eq x y with Some Yes => lists_eq eq l m | r => r end
  | _, _ => Some Yes
  end.
(** __eq__ (852-864); [None]: more than [fuel] calls within each other, for every [fuel] a
    RecursionError.  Lists of different lengths are not equal. *)
Fixpoint node_eq (fuel : nat) (h : heap) (a b : nat) : option answer :=
  match fuel with
  | O => None
  | S fuel =>
      if front (n_attr (h a)) (n_attr (h b)) then
        match (match n_parent (h a), n_parent (h b) with
               | None, None => Some Yes
               | Some p, Some q => node_eq fuel h p q
               | _, _ => Some AttributeError
               end) with
        | Some Yes =>
            if back (n_attr (h a)) (n_attr (h b)) then
              if (length (n_kids (h a)) =? length (n_kids (h b)))%nat
              then lists_eq (node_eq fuel h) (n_kids (h a)) (n_kids (h b))
              else Some No
            else Some No
        | r => r
        end
      else Some No
  end.
(** __ne__ (867-869). *)
Definition node_ne (fuel : nat) (h : heap) (a b : nat) : option answer :=
  match node_eq fuel h a b with Some Yes => Some No | Some No => Some Yes | r => r end.
End NodeEq.
