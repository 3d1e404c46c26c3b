(** Vocabulary for C109: what is ticked is one tree. *)
From Coq Require Import List Bool Arith String.
From Verif Require Import Base ModelTree SpecTree ModelSubtreeNode ModelEdit SpecEdit ModelExec SpecExec ModelServer.
Import ListNotations.

(** [r] is the only node without a parent. *)
Definition only_root (g : mgr) (r : nid) : Prop :=
  present g r /\ par g r = None /\ forall j, present g j -> par g j = None -> j = r.

(** No node, or exactly one without a parent. *)
Definition whole (g : mgr) : Prop := g_nodes g = [] \/ exists r, only_root g r.

Section Spec.
Context {E : Type}.
Implicit Types (s : server E).

(** [t] is the tree of nodes that a client sees below [r]: these nodes and no others, each
    once, each with its class, its name and its children in order. *)
Definition shows_tree s (r : nid) (t : tree) : Prop :=
  t_id t = r /\ NoDup (ids t) /\
  (forall i, In i (ids t) <-> i = r \/ below (sv_mgr s) r i) /\
  (forall n k name cs, In (T n k name cs) (subtrees t) ->
     map t_id cs = kids (sv_mgr s) n /\ sv_class s n = (k, name)).

(** Where the outputs of [n] go, in the order of the wirings. *)
Definition passes_along (n : nid) (l : list wiring) : list conn :=
  flat_map (fun x => match ros_to_uuid (wi_src x), ros_to_uuid (wi_tgt x) with
                     | Some a, Some b => if (a =? n)%nat then [mkConn (wi_skey x) b (wi_tkey x)] else []
                     | _, _ => []
                     end) l.

(** The data flow manager knows the nodes and passes their outputs on as the wirings say. *)
Definition wires_flow s : Prop :=
  (forall n, present (sv_mgr s) n ->
     w_conns (sv_world s) n = Some (passes_along n (g_wires (sv_mgr s)))) /\
  (forall n, ~ present (sv_mgr s) n -> w_conns (sv_world s) n = None).

(** A new manager: no nodes. *)
Definition new_server s : Prop := exists pub, sv_mgr s = empty_mgr pub.

(** No edit comes to its end. *)
Definition no_edits (es : list event) : Prop := forall p b, ~ In (EAct p (AEditEnd b)) es.
End Spec.
