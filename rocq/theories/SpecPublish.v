(** Vocabulary for what is published about the data of a tree (C89, C90). *)
From Coq Require Import List String ZArith Bool.
From Coq.Floats Require Import SpecFloat.
From Verif Require Import Base ModelData ModelTree ModelSubtreeNode ModelJson ModelPublish.
Import ListNotations.

(** The wiring an entry is about; the same for wirings of the tree. *)
Definition about (d : wdata) : nid * string * nid * string := (wd_src d, wd_skey d, wd_tgt d, wd_tkey d).
Definition as_wiring (x : iwire) : option (nid * string * nid * string) :=
  match iw_src x, iw_tgt x with
  | Some s, Some t => Some (s, iw_skey x, t, iw_tkey x)
  | _, _ => None
  end.

(** The container holds nothing, or a value in the form in which the container keeps it:
    offered the value again, it would take it as it is. *)
Definition in_form (c : container) : Prop := forall v, c_val c = Some v -> check (c_ty c) v = Ok v.

(** [v] has only one form among the values a container of type [t] keeps: there is no other
    one that Python considers equal to it. *)
Definition one_form (t : ctype) (v : value) : Prop :=
  forall x, check t x = Ok x -> py_eq x v = true -> x = v.

(** Values of which this is easy to see: strings, bytes, names, types, messages, booleans,
    integers that are not also booleans, floats that are not zero, and lists of those that
    are not lists of floats (which may contain integers). *)
Fixpoint plain (t : ctype) (v : value) : Prop :=
  match t, v with
  | TBool, VBool _ | TStr _ _, VStr _ | TPath _ _, VStr _ | TRosName _ _, VStr _ | TBytes _ _, VBytes _
  | TRosMsg _ _, VMsg _ _ | TRosType _ _, VType _ _ => True
  | TInt _ _, VInt z => z <> 0%Z /\ z <> 1%Z
  | TFloat _ _, VFloat f => forall s, f <> S754_zero s
  | TList elt _ _ _, VList l => (forall a b, elt <> TFloat a b) /\ Forall (plain elt) l
  | _, _ => False
  end.

(** Steps in which nobody asks for publishing to be switched on. *)
Definition idle_on {M} (s : pubsys M) : Prop :=
  forall v, In (PSet v) (p_threads s) -> v = false.
(** Nobody but thread [i] switches publishing. *)
Definition only_switch {M} (i : nat) (s : pubsys M) : Prop :=
  forall j x, nth_error (p_threads s) j = Some x -> j <> i -> x = PData \/ x = PSend \/ x = PEnd.
(** Nobody is in the middle of anything. *)
Definition at_rest {M} (s : pubsys M) : Prop := forall x, In x (p_threads s) -> x = PEnd.
(** Many steps, each of which leads to a state with [Q]. *)
Inductive steps {M} (Q : pubsys M -> Prop) : pubsys M -> pubsys M -> Prop :=
| steps_none : forall s, steps Q s s
| steps_one : forall s s1 s2, pubs s s1 -> Q s1 -> steps Q s1 s2 -> steps Q s s2.
