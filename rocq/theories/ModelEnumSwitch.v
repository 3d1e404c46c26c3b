(** Model of how EnumSwitch nodes are made (ros_nodes/enum_switch.py:48-102, below
    /repo/ros_bt_py/ros_bt_py).  What their ticks do is in ModelTree.v ([KEnumSwitch]).
    No proofs in this file. *)
From Coq Require Import String ZArith Bool List.
From Verif Require Import Base ModelData ModelEdit ModelDataLeaf ModelParam.
From Verif Require ModelFields.
Import ListNotations.
Local Open Scope string_scope.

(** [type(a) == type(b)]; for values of other types than the builtin ones, which constants of
    messages never have, nothing is said.  enum_switch.py:73-77. *)
Definition same_type (a b : value) : bool :=
  match builtin_type a, builtin_type b with
  | Some x, Some y => bty_eqb x y
  | None, None => true
  | _, _ => false
  end.

Section EnumSwitch.
Variable known : string -> bool.

(** add_extra_inputs (enum_switch.py:56-95).  [cs]: the constants of the message class
    (get_message_constant_fields, ros_helpers.py:78-92) and their values, in the order of the
    names.  Lines 73-77 count the different types. *)
Definition switch_extra (cs : list (string * value)) : res ios :=
  match cs with
  | [] => Err EConfig                                                    (* 68-69 *)
  | (_, v) :: _ =>
      if existsb (fun fv => negb (same_type (snd fv) v)) cs then Err EConfig   (* 77-82 *)
      else
        match builtin_type v with
        | None => Err EConfig                                            (* 84-87 *)
        | Some b =>
            match iotype_of known (VDict (generic_map b)) with
            | Ok t =>
                match construct t true true None None with
                | Some c => Ok [("case", mkC (c_ty c) (c_dyn c) (c_sta c) false (c_val c) (c_upd c))]   (* 93-95 *)
                | None => Raise
                end
            | Err _ => Err EConfig
            | Raise => Raise
            end
        end
  end.
(** Node.__init__ of the node. *)
Definition switch_config (base : config) (cs : list (string * value)) : option config :=
  ModelFields.build base (switch_extra cs) (Ok []).
(** pchild_dict (enum_switch.py:100-102): the name for a value; of equal values the last one. *)
Definition pchild_dict (cs : list (string * value)) : list (value * string) :=
  map (fun fv => (snd fv, fst fv)) cs.
End EnumSwitch.
