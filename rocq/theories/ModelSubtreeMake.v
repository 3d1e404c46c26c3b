(** Model of how Subtree nodes are made: the constructor of nodes (node.py:207-242), as it
    runs for Subtree (ros_nodes/subtree.py:86-194), and the loop over the nodes in load_tree
    (tree_exec_manager.py:854-865, 1347-1371), which it calls.  Files are below
    /repo/ros_bt_py/ros_bt_py.

    Simplifications: of a node that is no Subtree only the container of the input "in"
    (IOInput) or of the output "out" (IOOutput) is kept; whether the other steps of load_tree
    succeed is a parameter.  No proofs in this file. *)
From Coq Require Import String Ascii Bool Arith List.
From Verif Require Import Base ModelData ModelEdit ModelSubtreeNode.
Import ListNotations.
Local Open Scope string_scope.
Local Open Scope list_scope.

(** The nodes in a tree message.  A Subtree node: the container of its input "subtree_path"
    and the text in it ([None]: no value), and the other inputs in the message.
    subtree.py:86-160. *)
Inductive desc : Set :=
| AnInput (c : container) | AnOutput (c : container) | Another
| ASubtree (pc : container) (path : option string) (given : ios).
(** The node objects; a Subtree node has inputs, outputs and the nodes of its tree.
    subtree.py:86-160. *)
Inductive made : Set :=
| MInput (c : container) | MOutput (c : container) | MOther
| MSubtree (ins outs : ios) (nodes : list (nid * made)).

Section Make.
Variable u : uuids.
(** The nodes of the tree in a file ([None]: an error), and the other steps of load_tree. *)
Variable file : string -> option (list (nid * desc)).
Variable finish : string -> list (nid * made) -> res unit.

(** add_extra_inputs and add_extra_outputs (subtree.py:162-194). *)
Definition extra_inputs (nodes : list (nid * made)) : ios :=
  flat_map (fun x => match snd x with MInput c => [(public_name u (fst x) "in", runtime_type c)] | _ => [] end) nodes.
Definition extra_outputs (nodes : list (nid * made)) : ios :=
  flat_map (fun x => match snd x with MOutput c => [(public_name u (fst x) "out", runtime_type c)] | _ => [] end) nodes.

(** The inputs in the message that the class does not have (node.py:229-242). *)
Fixpoint take_given (given ins : ios) : res ios :=
  match given with
  | [] => Ok ins
  | (k, c) :: given =>
      match dget k ins with
      | None => Err EConfig
      | Some t => if is_compatible t c then take_given given (dset k c ins) else Err EConfig
      end
  end.

(** The constructor, once the tree is loaded (node.py:211-242); NodeConfig(...) raises
    NodeConfigError, which from_msg catches (node.py:1050-1062). *)
Definition subtree_ios (pc : container) (given : ios) (nodes : list (nid * made)) : res (ios * ios) :=
  match make_config (py_dict (extra_inputs nodes)) (py_dict (extra_outputs nodes)) (Some 0) with
  | None => Err EConfig
  | Some x =>
      match extend (mkCfg [("subtree_path", pc)] [] (Some 0)) x with
      | (c, Ok _) => match take_given given (f_ins c) with
                     | Ok ins => Ok (ins, f_outs c)
                     | Err e => Err e
                     | Raise => Raise
                     end
      | (_, Err e) => Err e
      | (_, Raise) => Raise
      end
  end.

(** The loop over the nodes (tree_exec_manager.py:854-865), [make] instantiates one. *)
Fixpoint make_nodes (make : desc -> res made) (l : list (nid * desc)) (nodes : list (nid * made)) : res (list (nid * made)) :=
  match l with
  | [] => Ok nodes
  | (n, x) :: l => match make x with
                   | Ok m => make_nodes make l (nset n m nodes)
                   | Err e => Err e
                   | Raise => Raise
                   end
  end.

(** load_tree for a file.  [depth]: how deep calls may be nested; beyond there is a
    RecursionError, which nobody catches. *)
Fixpoint load (depth : nat) (p : string) : res (list (nid * made)) :=
  match depth with
  | 0 => Raise
  | S depth =>
      match file p with
      | None => Err EConfig
      | Some l =>
          let make x :=
            match x with
            | AnInput c => Ok (MInput c)
            | AnOutput c => Ok (MOutput c)
            | Another => Ok MOther
            | ASubtree _ None _ => Err EConfig                          (* subtree.py:139-143 *)
            | ASubtree pc (Some q) given =>
                match load depth q with                                 (* 120-124, 144-158 *)
                | Ok nodes => match subtree_ios pc given nodes with
                              | Ok (ins, outs) => Ok (MSubtree ins outs nodes)
                              | Err e => Err e
                              | Raise => Raise
                              end
                | Err e => Err e
                | Raise => Raise
                end
            end in
          match make_nodes make l [] with
          | Ok nodes => match finish p nodes with Ok _ => Ok nodes | Err e => Err e | Raise => Raise end
          | Err e => Err e
          | Raise => Raise
          end
      end
  end.
End Make.
