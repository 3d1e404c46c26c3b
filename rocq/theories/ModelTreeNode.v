(** The start and the end of the tree node: TreeNode.load_default_tree and
    TreeNode.shutdown (/repo/ros_bt_py/ros_bt_py/tree_node.py), as requests to the manager
    of ModelExec.v.  No proofs in this file. *)
From Coq Require Import List Bool Arith.
From Verif Require Import Base ModelTree ModelExec SpecExec.
Import ListNotations.

(** The numbers of the commands (/repo/ros_bt_py_interfaces/srv/ControlTreeExecution.srv:32-39). *)
Definition command_of (n : nat) : cmd :=
  match n with
  | 0 => DO_NOTHING | 1 => TICK_ONCE | 2 => TICK_PERIODICALLY | 3 => TICK_UNTIL_RESULT
  | 4 => STOP | 5 => RESET | 6 => SHUT_DOWN | 7 => SETUP_AND_SHUTDOWN | _ => UNKNOWN_COMMAND n
  end.

(** The parameters default_tree.load_default_tree and default_tree.control_command
    (/repo/ros_bt_py/config/tree_node_parameters.yaml:64-97).  Simplification: the path,
    the permissive flag and the frequency only matter inside the two requests. *)
Record default_tree : Set := mkDefault { df_load : bool; df_command : nat }.
(** The validation of control_command (yaml:95-97) and its default value (93). *)
Definition valid_default (d : default_tree) : Prop := df_command d <= 7.
(** yaml:65-69, 91-93. *)
Definition standard_default : default_tree := mkDefault false 2.

(** What became of the start. *)
Inductive started : Set := NotLoading | LoadFailed | Commanded (success : bool).

(** load_default_tree (tree_node.py:447-478), called by main (510) before the executor
    spins (518-523): no request of a client is handled meanwhile, but a tick thread that
    was started runs.  The system is described when the call has ended. *)
Inductive node_start {W} (P : plant W) (d : default_tree) (w : W) : sys W -> started -> Prop :=
| start_none : df_load d = false -> node_start P d w (fresh w) NotLoading
| start_failed es y ts : df_load d = true ->
    handled P (fresh w) (KEdit true) 0 es y false ts -> node_start P d w y LoadFailed
| start_command es1 y1 ts1 es2 y ok ts : df_load d = true ->
    handled P (fresh w) (KEdit true) 0 es1 y1 true ts1 ->
    handled P y1 (KControl (command_of (df_command d))) 1 es2 y ok ts ->
    node_start P d w y (Commanded ok).

(** The states in which shutdown does nothing (tree_node.py:483-487). *)
Definition rests (s : tstate) : bool :=
  match s with TIDLE | EDITABLE | TERROR => true | _ => false end.

(** shutdown (tree_node.py:480-498), called while no request is handled.  [None]: it did
    nothing; else the success of the command SHUTDOWN.  Simplification: the state does not
    change between 483 and the start of the command. *)
Inductive node_stop {W} (P : plant W) (y0 : sys W) : list event -> sys W -> option bool -> Prop :=
| stop_rests : calm y0 -> rests (y_state y0) = true -> node_stop P y0 [] y0 None
| stop_command es y ok ts : rests (y_state y0) = false ->
    handled P y0 (KControl SHUT_DOWN) (length (y_procs y0)) es y ok ts -> node_stop P y0 es y (Some ok).
