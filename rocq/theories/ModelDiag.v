(** Model of the node diagnostics (/repo/ros_bt_py/ros_bt_py/debug_manager.py) around the
    operations of nodes (/repo/ros_bt_py/ros_bt_py/node.py:334-713).  No proofs in this
    file. *)
From Coq Require Import Bool Arith List.
From Verif Require Import Base ModelData ModelEdit.
Import ListNotations.

(** The operations that are reported (node.py:350, 420, 528, 590, 666). *)
Inductive opk : Set := KSetup | KTick | KUntick | KReset | KShutdown.

(** One operation on a node, as it runs without diagnostics: the operations on other nodes
    that it calls, in order, and then its answer or ([ends = false]) an exception of its
    own.  An exception of an inner operation passes through: no operation catches it.
    node.py:334-713. *)
Inductive run : Set := Run (n : nid) (k : opk) (inner : list run) (ends : bool).

(** DiagnosticStatus: the node, its path and the state.  Simplification: the values that
    are the same in all messages of a node, and the time stamp, are left out.
    debug_manager.py:55-71, 114-121, 160-168. *)
Inductive dstate : Set := DNothing | DPreTick | DPost (k : opk).
(** debug_manager.py:84-96. *)
Record dmsg : Set := mkD { d_node : nid; d_path : list nid; d_state : dstate }.

(** A DebugManager.  [dm_flag i] is what the [i]-th look at [_collect_node_diagnostics]
    finds: the service that sets it (75-82) can run at any moment. *)
Record dman : Set := mkDM { dm_flag : nat -> bool; dm_looks : nat; dm_log : list dmsg }.
Definition look (d : dman) : bool * dman := (dm_flag d (dm_looks d), mkDM (dm_flag d) (S (dm_looks d)) (dm_log d)).
Definition publish (m : dmsg) (d : dman) : dman := mkDM (dm_flag d) (dm_looks d) (dm_log d ++ [m]).

(** The path of a node (123-128, 173-178): the loop over the parents.  Simplification:
    identifiers instead of names.  [None]: not at its end after [fuel] steps. *)
Fixpoint path_from (fuel : nat) (h : oid -> nobj) (o : option oid) (acc : list nid) : option (list nid) :=
  match o, fuel with
  | None, _ => Some acc                    (* the list is reversed at the end *)
  | Some _, 0 => None
  | Some o, S fuel => path_from fuel h (n_parent (h o)) (n_id (h o) :: acc)
  end.
Definition path_of (fuel : nat) (h : oid -> nobj) (o : oid) : option (list nid) := path_from fuel h (Some o) [].

Section Report.
(** Whether there is a callback for publishing, and the path of every node. *)
Variable pub : bool.
Variable path : nid -> list nid.

(** report_state (98-143) and report_tick (145-189) as context managers: what is behind the
    [yield] runs if the body returns, and not if it raises.  [false]: an exception. *)
Definition report (n : nid) (k : opk) (body : dman -> dman * bool) (d : dman) : dman * bool :=
  let (on, d) := look d in                                              (* 113, 159 *)
  let first := match k with KTick => DPreTick | _ => DNothing end in    (* 114-121, 160-168 *)
  let d := if on && pub then publish (mkD n (path n) first) d else d in
  match body d with
  | (d, false) => (d, false)
  | (d, true) =>
      let (on', d) := look d in                                         (* 136, 184 *)
      if on' && pub then
        (* without the dictionary made above there is no key "name": KeyError (86) *)
        if on then (publish (mkD n (path n) (DPost k)) d, true) else (d, false)
      else (d, true)
  end.

(** An operation with everything it calls.  node.py:350-351, 420-421, 528-529, 590-591, 666-667. *)
Fixpoint exec (r : run) (d : dman) : dman * bool :=
  match r with
  | Run n k inner ends =>
      report n k (fun d =>
        (fix all (l : list run) (d : dman) : dman * bool :=
           match l with
           | [] => (d, ends)
           | x :: l => match exec x d with (d, true) => all l d | (d, false) => (d, false) end
           end) inner d) d
  end.
End Report.
