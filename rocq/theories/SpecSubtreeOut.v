(** Vocabulary of C74: what the outputs of a Subtree node show. *)
From Coq Require Import List String Bool.
From Verif Require Import Base ModelData ModelTree ModelSubtreeNode SpecTree SpecFlow SpecSubtreeNode.
Import ListNotations.
Local Open Scope string_scope.

(** Leaf [m] behaves like an IOOutput node (nodes/io.py): a tick may write its output
    "out", and has succeeded when it did; nothing else writes anything. *)
Definition io_output {E} (ev : env E) (m : nid) : Prop :=
  forall o s ins e, let '(_, ws, r) := ev_leaf ev o m s ins e in
    ws = [] \/ (o = OTick /\ r = Ok SUCCEEDED /\ exists v, ws = [("out", v)]).

(** All nodes of the tree called [m] are leaves. *)
Definition leaf_only (m : nid) (t : tree) : Prop :=
  forall k name cs, In (T m k name cs) (subtrees t) -> k = KLeaf /\ cs = [].

(** Every node of the tree is set up and reset together with its parent: no Optional (which
    may leave out its child) and no RepeatNoAutoReset (C08). *)
Definition resets_all (t : tree) : Prop :=
  forall n k name cs, In (T n k name cs) (subtrees t) -> k <> KOptional /\ k <> KRepeatNoAutoReset.

(** The only output of the inner node [m] is "out"; it is not a constant, nothing inside is
    wired to it, and the Subtree node has an output of the same type for it. *)
Definition public_output {X F} (u : uuids) (d : subdef) (n m : nid) (w : world (X * sub F)) : Prop :=
  (exists o g, w_outs (below w) m = [("out", o)] /\ c_static o = false /\
     output w n (public_name u m "out") = Some g /\ c_static g = false /\ c_ty g = c_ty o) /\
  (w_conns (below w) m = None \/ w_conns (below w) m = Some []) /\
  In m (sd_ids d) /\ forall x, In x (sd_wires d) -> iw_src x <> Some m.

(** The value the inner node [m] has written to its output "out" (and not taken back by a
    reset of its own). *)
Definition written {X F} (w : world (X * sub F)) (m : nid) (v : value) : Prop :=
  exists o, output (below w) m "out" = Some o /\ c_val o = Some v.

(** The output of the Subtree node for it holds [v], or a value Python considers equal. *)
Definition shown {X F} (u : uuids) (n m : nid) (w : world (X * sub F)) (v : value) : Prop :=
  exists g x, output w n (public_name u m "out") = Some g /\ c_val g = Some x /\ (x = v \/ py_eq x v = true).
