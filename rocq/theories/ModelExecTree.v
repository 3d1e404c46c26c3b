(** The nodes a TreeExecManager holds, as a plant of ModelExec.v: the trees of
    ModelTree.v.  No proofs in this file. *)
From Coq Require Import List Bool Arith.
From Verif Require Import Base ModelTree ModelExec.
Import ListNotations.

(** self.nodes (/repo/ros_bt_py/ros_bt_py/tree_exec_manager.py:359-371): the trees whose
    roots have no parent, and the attributes of the nodes.  Simplification: nodes on a
    cycle of parent links, which have no root, are left out. *)
Record nodes (E : Type) : Type := mkN { n_trees : list tree; n_world : world E }.
Arguments mkN {E}. Arguments n_trees {E}. Arguments n_world {E}.

(** find_root (585-621). *)
Definition the_root {E} (w : nodes E) : rootres :=
  match n_trees w with [] => REmpty | [_] => ROne | _ => RBad end.
(** A call of an operation on the root.  The handlers and the tick thread call it on the
    node find_root gave them; if that is not the only root any more when the call ends (it
    was removed meanwhile, for example), anything may have happened to the attributes, and
    the result is arbitrary. *)
Definition root_op {E} (ev : env E) (o : op) (w w' : nodes E) (r : res state) : Prop :=
  n_trees w' = n_trees w /\
  match n_trees w with
  | [t] => call o (obj_of ev t) (n_world w) = (n_world w', r)
  | _ => True
  end.
Definition root_state {E} (w : nodes E) : state :=
  match n_trees w with t :: _ => w_st (n_world w) (t_id t) | [] => UNINITIALIZED end.

(** 971-973: every node loses its parent and its children. *)
Fixpoint all_nodes (t : tree) : list tree :=
  match t with T n k name cs => T n k name [] :: concat (map all_nodes cs) end.
Definition unlink_all {E} (w w' : nodes E) : Prop :=
  n_trees w' = concat (map all_nodes (n_trees w)) /\ n_world w' = n_world w.

(** Editing, data flow and subtree information are arbitrary here.
    What tree_exec_manager.py:623-1340 calls on the nodes. *)
Definition tree_plant {E} (ev : env E) (orphan : nodes E -> bool) (init : nodes E -> nodes E -> bool -> Prop)
  (push : nodes E -> nodes E -> res unit -> Prop) (subclear : nodes E -> nodes E -> Prop)
  (edits : nodes E -> nodes E -> bool -> Prop) : plant (nodes E) := {|
  p_root := the_root; p_state := root_state; p_orphan := orphan; p_op := root_op ev;
  p_init := init; p_push := push; p_unlink := unlink_all; p_subclear := subclear; p_edit := edits |}.
