(** Vocabulary for C108: the data flow that runs is the one that is shown. *)
From Coq Require Import List Bool Arith.
From Verif Require Import Base ModelTree SpecTree ModelExec SpecExec ModelExecTree ModelSubtreeNode ModelFlowExec.
Import ListNotations.

Section Spec.
Context {E : Type}.
Implicit Types (w : wired_nodes E).

(** What node [n] passes on according to the wirings [l]: output key, target, input key. *)
Definition passes_on (n : nid) (l : list iwire) : list conn :=
  flat_map (fun x => match iw_src x, iw_tgt x with
                     | Some s, Some t => if (s =? n)%nat then [mkConn (iw_skey x) t (iw_tkey x)] else []
                     | _, _ => []
                     end) l.

(** The data flow manager knows the nodes of the tree and no others, and passes their
    outputs on as the wirings say. *)
Definition flows_as_shown w : Prop :=
  (forall n, In n (node_ids w) -> w_conns (n_world (wn_nodes w)) n = Some (passes_on n (wn_wires w))) /\
  (forall n, ~ In n (node_ids w) -> w_conns (n_world (wn_nodes w)) n = None).

(** Trees with distinct nodes and allowed numbers of children; every wiring leaves a node
    of the tree (C64). *)
Definition well_built w : Prop :=
  (forall t, In t (n_trees (wn_nodes w)) -> wf t) /\
  (forall x, In x (wn_wires w) -> (exists s, iw_src x = Some s /\ In s (node_ids w)) /\ iw_tgt x <> None).

(** The node has not been set up, or was shut down. *)
Definition at_rest w (n : nid) : Prop :=
  w_st (n_world (wn_nodes w)) n = UNINITIALIZED \/ w_st (n_world (wn_nodes w)) n = SHUTDOWN.

(** Editing services: they leave a well-built tree (C41, C64), and the nodes that are there
    afterwards are new, were shut down, or are as before. *)
Definition builds (edits : wired_nodes E -> wired_nodes E -> bool -> Prop) : Prop :=
  forall w w' b, edits w w' b -> well_built w ->
    well_built w' /\
    forall n, In n (node_ids w') ->
      at_rest w' n \/ (In n (node_ids w) /\ w_st (n_world (wn_nodes w')) n = w_st (n_world (wn_nodes w)) n).

(** Leaf nodes can be shut down. *)
Definition leaves_stop (ev : env E) : Prop := forall n (w : world E), snd (leaf_act ev OShutdown n w) = Ok SHUTDOWN.

(** No node at all. *)
Definition empty_tree w : Prop := n_trees (wn_nodes w) = [] /\ wn_wires w = [].
End Spec.

(** One request at a time, and editing requests only while no thread ticks the tree. *)
Definition patient {W} (y : sys W) (e : event) : Prop :=
  one_at_a_time y e /\
  match e with EArrive (KEdit _) => no_tick_thread y | _ => True end.
