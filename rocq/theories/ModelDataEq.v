(** Model of the comparison of inputs and outputs: DataContainer.__eq__
    (/repo/ros_bt_py/ros_bt_py/data_types.py:129-145), which the references inherit, and
    NodeConfig.__eq__ (/repo/ros_bt_py/ros_bt_py/node_config.py:200-207).  Simplifications: no
    numpy arrays, for which [==] gives several truth values; containers that are compared are
    different objects.  No proofs in this file. *)
From Coq Require Import String ZArith Bool List.
From Verif Require Import Base ModelData ModelDataLeaf.
Import ListNotations.

(** [self._value == other._value] (138). *)
Definition value_eq (a b : option value) : bool :=
  match a, b with
  | None, None => true
  | Some v, Some w => py_eq v w
  | _, _ => false
  end.
(** DataContainer.__eq__ (129-145).  The [_value] of a reference is always None (1528): its
    value is in [_inner_type]. *)
Definition slot_eq (a b : slot) : bool :=
  slot_compat a b && slot_compat b a &&
  match a, b with
  | SPlain c, SPlain d => Bool.eqb (c_static c) (c_static d) && value_eq (c_val c) (c_val d)
  | SRef _ _ _ _ static _, SRef _ _ _ _ static' _ => Bool.eqb static static' && value_eq None None
  | _, _ => false
  end.
(** [==] on dictionaries of containers.  Python, node_config.py:203-204. *)
Definition smap_eq (a b : smap) : bool :=
  Nat.eqb (length a) (length b) &&
  forallb (fun kc => match dget (fst kc) b with Some t => slot_eq (snd kc) t | None => false end) a.
(** NodeConfig.__eq__ (200-207); [max] is max_children. *)
Definition config_eq (i o : smap) (max : option Z) (i' o' : smap) (max' : option Z) : bool :=
  smap_eq i i' && smap_eq o o' &&
  match max, max' with None, None => true | Some n, Some n' => Z.eqb n n' | _, _ => false end.
