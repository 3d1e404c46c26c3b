(** Vocabulary of the properties of the Subtree node. *)
From Coq Require Import List String Ascii ZArith Bool.
From Verif Require Import Base ModelData ModelTree ModelSubtreeNode SpecTree SpecFlow.
Import ListNotations.
Local Open Scope string_scope.

(** Printing a UUID and reading it again gives the same UUID; UUIDs contain no dot. *)
Definition uuids_ok (u : uuids) : Prop :=
  forall n, u_of u (u_str u n) = Some n /\ ~ In "."%char (list_ascii_of_string (u_str u n)).

(** The world of the tree of a Subtree node. *)
Definition below {X F} (w : world (X * sub F)) : world F := sb_w (inner w).

(** The operation is one the node accepts (see C01 and C09). *)
Definition accepted {E} (w : world E) (n : nid) (o : op) : Prop :=
  match o with
  | OSetup => w_st w n = UNINITIALIZED \/ w_st w n = SHUTDOWN
  | OTick => live (w_st w n) /\ inputs_set w n
  | OUntick | OReset => live (w_st w n)
  | OShutdown => w_st w n <> SHUTDOWN
  end.

(** The same nodes in the same states with the same memory and outputs; only inputs, wirings
    and outgoing data may differ. *)
Definition same_nodes {F} (a b : world F) : Prop :=
  w_st a = w_st b /\ w_mem a = w_mem b /\ w_outs a = w_outs b /\ w_ext a = w_ext b.

(** Histories of a Subtree node: operations on it, and in between anything may happen to
    the rest of the outer tree, to the outside worlds of both trees, and, as far as [given_in]
    allows, to the inputs of the node.  [ok] holds whenever an operation is called. *)
Section History.
  Context {X F : Type}.
  Variable ev : env F.
  Variable u : uuids.
  Variable d : subdef.
  Variable n : nid.
  Variable name : string.
  Variable given_in : iomap -> iomap -> Prop.
  Variable ok : world (X * sub F) -> Prop.
  Inductive sub_history : world (X * sub F) -> list (op * res state) -> world (X * sub F) -> Prop :=
  | sh_nil : forall w, sub_history w [] w
  | sh_call : forall w o r w1 l w2, sub_history w l w1 -> ok w1 ->
      call o (subtree_obj ev u d n name) w1 = (w2, r) -> sub_history w (l ++ [(o, r)]) w2
  | sh_env : forall w l w1 w2 f, sub_history w l w1 ->
      w_st w2 n = w_st w1 n -> w_outs w2 n = w_outs w1 n -> given_in (w_ins w1 n) (w_ins w2 n) ->
      inner w2 = mkSub (sb_root (inner w1)) (set_ext (below w1) f) ->
      sub_history w l w2.
End History.

(** New data for the inputs: the same inputs; each is untouched, or flagged as updated.
    (What [set_value] does, except writing a value equal to one not yet seen: C33.) *)
Definition flagged (a b : iomap) : Prop :=
  map fst a = map fst b /\
  forall key c, dget key b = Some c -> dget key a = Some c \/ (c_upd c = true /\ c_static c = false).
(** Any new data. *)
Definition any_data (a b : iomap) : Prop := True.
(** No output of the node is wired to one of its own inputs. *)
Definition not_wired_to_itself {E} (n : nid) (w : world E) : Prop := forall k, wired w n k -> k_tid k <> n.

(** A Subtree node that has just been constructed, [t] the tree it has loaded. *)
Definition sub_fresh {X F} (n : nid) (t : tree) (w : world (X * sub F)) : Prop :=
  w_st w n = UNINITIALIZED /\ sb_root (inner w) = None /\ w_st (below w) (t_id t) = UNINITIALIZED.

(** Node [m] of the inner tree is a public input: the Subtree node has an input named after
    its input "in" (IOInput, subtree.py:170-176), and nothing inside is wired to that. *)
Definition public_input (u : uuids) (d : subdef) (ins : iomap) (m : nid) : Prop :=
  In m (sd_ids d) /\ In (public_name u m "in") (map fst ins) /\
  forall x, In x (sd_wires d) -> ~ (iw_tgt x = Some m /\ iw_tkey x = "in").

(** The inputs of the Subtree node: distinct names, each either of the form
    "uuid.key" as the node makes them, or without a readable UUID. *)
Definition sub_inputs_ok (u : uuids) (ins : iomap) : Prop :=
  NoDup (map fst ins) /\
  forall k, In k (map fst ins) ->
    match split_key u k with
    | Some (m, key) => k = public_name u m key
    | None => True
    end.

(** The inner tree cannot be prepared: a wiring that names no UUID or no node (setup), or
    an updated input whose value the input inside refuses (tick). *)
Definition bad_wiring (d : subdef) : Prop :=
  exists x, In x (sd_wires d) /\
    (iw_src x = None \/ iw_tgt x = None \/ exists s, iw_src x = Some s /\ ~ In s (sd_ids d)).
Definition refused_input {X F} (u : uuids) (w : world (X * sub F)) (n : nid) : Prop :=
  exists k c v m key t, In (k, c) (w_ins w n) /\ c_upd c = true /\ c_val c = Some v /\
    split_key u k = Some (m, key) /\ input (below w) m key = Some t /\
    (c_static t = true \/ forall v', check (c_ty t) v <> Ok v').

(** What the Subtree node makes of the answer [ri] of the root of its tree.  (After a tick,
    passing on its outputs to the outer tree may still fail.) *)
Definition node_ends {E} (n : nid) (o : op) (w' : world E) (ri r : res state) : Prop :=
  match ri with
  | Ok s => (r = Ok s /\ w_st w' n = s) \/
            (o = OTick /\ (r = Raise \/ exists e, r = Err e /\ w_st w' n = BROKEN))
  | Err _ => exists e, r = Err e /\ w_st w' n = BROKEN
  | Raise => r = Raise
  end.

(** The input "in" of the inner node [m] holds [v]. *)
Definition holds {F} (wi : world F) (m : nid) (v : value) : Prop :=
  exists ti, input wi m "in" = Some ti /\ given ti v.
