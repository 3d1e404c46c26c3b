(** The nodes and the wirings a TreeExecManager holds, as a plant of ModelExec.v: the
    trees of ModelTree.v with the connections of the data flow manager, and the wirings of
    the published structure.  No proofs in this file. *)
From Coq Require Import List Bool Arith.
From Verif Require Import Base ModelTree ModelExec ModelExecTree ModelSubtreeNode.
Import ListNotations.

(** self.nodes and self.wirings
    (/repo/ros_bt_py/ros_bt_py/tree_exec_manager.py:359-371, 454-462).  The connections of
    the data flow manager are [w_conns] of the nodes' world (ModelTree.v). *)
Record wired_nodes (E : Type) : Type := mkWN { wn_nodes : nodes E; wn_wires : list iwire }.
Arguments mkWN {E}. Arguments wn_nodes {E}. Arguments wn_wires {E}.

(** The keys of self.nodes.  tree_exec_manager.py:242-385. *)
Definition node_ids {E} (w : wired_nodes E) : list nid := flat_map ids (n_trees (wn_nodes w)).

(** [self.data_flow_manager.initialize(self.nodes, self.wirings)] (677,
    data_flow_manager.py:85-112).  The result is not looked at; a source that is no node is
    a KeyError. *)
Definition init_flow {E} (w w' : wired_nodes E) (b : bool) : Prop :=
  let (c, r) := connect (wn_wires w) (fun n => if existsb (Nat.eqb n) (node_ids w) then Some [] else None) in
  w' = mkWN (mkN (n_trees (wn_nodes w)) (set_conns (n_world (wn_nodes w)) c)) (wn_wires w) /\
  b = match r with Raise => false | _ => true end.

(** [self.data_flow_manager.push_incoming_data()] (689): the manager of the main tree has
    no incoming data (289, data_flow_manager.py:74-79). *)
Definition push_nothing {E} (w w' : wired_nodes E) (r : res unit) : Prop := w' = w /\ r = Ok tt.

(** A call on the root (root_op, ModelExecTree.v) and 971-973 leave the wirings alone. *)
Definition wired_op {E} (ev : env E) (o : op) (w w' : wired_nodes E) (r : res state) : Prop :=
  wn_wires w' = wn_wires w /\ root_op ev o (wn_nodes w) (wn_nodes w') r.
Definition wired_unlink {E} (w w' : wired_nodes E) : Prop :=
  wn_wires w' = wn_wires w /\ unlink_all (wn_nodes w) (wn_nodes w').

(** Editing services and the test for missing parents are arbitrary here; the information
    about subtrees (clear_subtrees) is not part of the nodes.
    What tree_exec_manager.py:623-1340 calls. *)
Definition wired_plant {E} (ev : env E) (orphan : wired_nodes E -> bool)
  (edits : wired_nodes E -> wired_nodes E -> bool -> Prop) : plant (wired_nodes E) := {|
  p_root := fun w => the_root (wn_nodes w); p_state := fun w => root_state (wn_nodes w);
  p_orphan := orphan; p_op := wired_op ev; p_init := init_flow; p_push := push_nothing;
  p_unlink := wired_unlink; p_subclear := fun w w' => w' = w; p_edit := edits |}.
