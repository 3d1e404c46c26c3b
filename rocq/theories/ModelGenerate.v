(** Model of generate_subtree
    (/repo/ros_bt_py/ros_bt_py/tree_edit_manager.py:1015-1090).  No proofs in this file. *)
From Coq Require Import String ZArith Bool Arith List.
From Verif Require Import Base ModelData ModelEdit ModelMsg.
Import ListNotations.
Local Open Scope string_scope.
Local Open Scope bool_scope.

Section Generate.
Variable describe : nobj -> instance.
Variable depth : nat.
(** The order in which Python goes through a set of identifiers. *)
Variable shuffle : list idtext -> list idtext.

(** The temporary TreeEditManager (1054-1058): nothing is published. *)
Definition temporary : smgr :=
  mkS (mkG (fun _ => mkN 0 (mkCfg [] [] None) None []) 0 [] [] [] EDITABLE None "temporary_tree_manager" false)
      [] "" [] [] 10 [].

(** 1040-1043: identifiers are compared as texts. *)
Definition wanted (req : list idtext) (m : nmsg) : bool :=
  existsb (fun q => idtext_eqb (ms_id m) q || existsb (idtext_eqb q) (ms_children m)) req.

(** 1036-1050.  Simplification: a set is a list, in the order in which its elements were
    added first, until it is iterated over. *)
Definition to_drop (req : list idtext) (nodes : list nmsg) : list idtext :=
  let keep := map ms_id (filter (wanted req) nodes) in
  filter (fun i => negb (existsb (idtext_eqb i) keep)) (map ms_id nodes).

(** 1067-1071: the answers are not looked at.  The temporary manager has no publisher, so
    that removing changes nothing of its message but the wirings. *)
Definition remove_all (l : list idtext) (g : mgr) : mgr :=
  fold_left (fun g i => fst (remove_node i false g)) l g.

(** [None]: loading did not return, see [load_tree_from_file].  tree_edit_manager.py:1014-1092. *)
Definition generate_subtree (n : nat) (w : world) (req : list idtext) (s : smgr) : smgr * option (res tmsg) :=
  let whole := own_msg s in                                             (* 1024: before find_root *)
  let (g, r) := find_root (s_g s) in
  let s := set_g s g in
  match r with
  | Ok (Some _) =>
      (s, match load_tree_msg describe depth n w (Given whole) temporary with
          | None => None
          | Some (m, Ok _) =>
              let (g1, r1) := find_root (remove_all (shuffle (to_drop req (t_nodes whole))) (s_g m)) in
              match r1 with
              | Ok _ => Some (snd (structure_to_msg describe depth (set_g m g1)))
              | Err e => Some (Err e)
              | Raise => Some Raise
              end
          | Some (_, Err e) => Some (Err e)
          | Some (_, Raise) => Some Raise
          end)
  | Ok None => (s, Some (Err EKey))
  | Err e => (s, Some (Err e))
  | Raise => (s, Some Raise)
  end.
End Generate.
