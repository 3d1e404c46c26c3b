(** Vocabulary for C100. *)
From Coq Require Import String Ascii Bool Arith List.
From Verif Require Import Base ModelData ModelEdit ModelSubtreeNode ModelSubtreeMake.
Import ListNotations.
Local Open Scope string_scope.

(** The tree in the file [p] has a Subtree node for the file [q]. *)
Definition refers (file : string -> option (list (nid * desc))) (p q : string) : Prop :=
  exists l n pc given, file p = Some l /\ In (n, ASubtree pc (Some q) given) l.
(** [p] contains itself, perhaps through other trees. *)
Inductive reaches (file : string -> option (list (nid * desc))) (p : string) : string -> Prop :=
| reaches_one : forall q, refers file p q -> reaches file p q
| reaches_more : forall q r, reaches file p q -> refers file q r -> reaches file p r.

(** The inputs [ins] and outputs [outs] are the interface of the tree made of [nodes]: the
    path, one input for each IOInput and one output for each IOOutput, named after the
    node, with its type.  An input may come from the message ([given]) instead, if it is
    compatible with that type. *)
Definition interface (u : uuids) (given : ios) (nodes : list (nid * made)) (ins outs : ios) : Prop :=
  (forall k, In k (map fst ins) <-> k = "subtree_path" \/ exists m c, In (m, MInput c) nodes /\ k = public_name u m "in") /\
  (forall m c, In (m, MInput c) nodes -> exists t, dget (public_name u m "in") ins = Some t /\
     (dget (public_name u m "in") given = None -> t = runtime_type c) /\
     (forall g, dget (public_name u m "in") given = Some g -> t = g /\ is_compatible (runtime_type c) g = true)) /\
  (forall k, In k (map fst outs) <-> exists m c, In (m, MOutput c) nodes /\ k = public_name u m "out") /\
  (forall m c, In (m, MOutput c) nodes -> dget (public_name u m "out") outs = Some (force_output (runtime_type c))).

(** The message gives inputs once, and only inputs that the tree has, or its path. *)
Definition known_inputs (u : uuids) (given : ios) (nodes : list (nid * made)) : Prop :=
  forall k g, In (k, g) given -> exists m c, In (m, MInput c) nodes /\ k = public_name u m "in" /\
    is_compatible (runtime_type c) g = true.
