(** Model of the leaves that read from the ROS node or from a message class: RosParam
    (ros_nodes/param.py:45-100), GetTimeNow (ros_nodes/time.py:42-72) and EnumFields
    (ros_nodes/enum.py:47-103).  Files are below /repo/ros_bt_py/ros_bt_py.

    Simplification: the node has a reference to a ROS node (otherwise setup is an error).
    No proofs in this file. *)
From Coq Require Import String ZArith Bool SpecFloat Arith List.
From Verif Require Import Base ModelData ModelEdit ModelUtility ModelTree ModelLeaf ModelDataLeaf.
From Verif Require ModelFields.
Import ListNotations.
Local Open Scope string_scope.
Local Open Scope list_scope.

(** ** RosParam *)

(** The declared parameters of the ROS node; [None]: declared without a value
    (Parameter.value is None).  param.py:44-100. *)
Definition params : Set := list (string * option value).

(** param.py:45-55. *)
Definition param_types : list bty := [BBool; BInt; BFloat; BBytes; BList].
Definition param_ins : smap :=
  [("param_name", static_of any_str); ("param_type", generic param_types); ("default_value", ref RefItem "param_type")].
Definition param_outs : smap := [("param", ref RefItem "param_type")].
(** _do_tick (param.py:68-88). *)
Definition param_tick (x : params) (ins : iomap) : list (string * value) * res state :=
  get (io_value_as as_str ins "param_name") (fun s =>
    match dget s x with
    | None => ([], Ok FAILED)
    | Some None => get (io_value ins "default_value") (put_out "param")
    | Some (Some v) => put_out "param" v
    end).
(** The other methods (59-66, 90-100) are those of [tick_only]. *)
Definition param_leaf : leafcode params := tick_only param_tick.

(** ** GetTimeNow *)

Definition TIME : string := "builtin_interfaces/msg/Time".
(** time.py:42-48. *)
Definition time_outs : smap := [("current_time", static_of (TRosMsg TIME 0))].
(** _do_tick (time.py:59-63); the private state is [get_clock().now().to_msg()] at the
    time of the tick. *)
Definition time_tick (x : nat) (ins : iomap) : list (string * value) * res state :=
  put_out "current_time" (VMsg TIME x).
Definition time_leaf : leafcode nat := tick_only time_tick.

(** ** EnumFields *)

(** [type(v)], if it is a key of GENERIC_TYPE_MAP (data_types.py:926-961). *)
Definition builtin_type (v : value) : option bty :=
  match v with
  | VBool _ => Some BBool | VInt _ => Some BInt | VFloat _ => Some BFloat | VStr _ => Some BStr
  | VBytes _ => Some BBytes | VList _ => Some BList | VDict _ => Some BDict | VMsg _ _ | VType _ _ => None
  end.
(** [field == t] for a key [t] of GENERIC_TYPE_MAP: [field] is a str, the keys are types. *)
Definition equals_type (field : string) (t : bty) : bool := false.

Section Enum.
Variable known : string -> bool.
(** The loop in add_extra_outputs (enum.py:75-84) over the constants of the message class
    (get_message_constant_fields, ros_helpers.py:78-92) and their values.  Line 77 looks
    for the name of the field, not for its type, among the keys. *)
Fixpoint enum_extra (cs : list (string * value)) (d : ios) : res ios :=
  match cs with
  | [] => Ok d
  | (f, v) :: r =>
      if negb (existsb (equals_type f) all_types) then Err EConfig
      else
        match builtin_type v with
        | None => Raise                                     (* 79: KeyError *)
        | Some b =>
            match iotype_of known (VDict (generic_map b)) with
            | Ok t => match construct t true true None None with Some c => enum_extra r (dset f c d) | None => Raise end
            | Err _ => Err EConfig
            | Raise => Raise
            end
        end
  end.
(** Node.__init__ of the node. *)
Definition enum_config (base : config) (cs : list (string * value)) : option config :=
  ModelFields.build base (Ok []) (enum_extra cs []).
(** _do_tick (enum.py:90-93); the private state are the constants. *)
Definition enum_tick (x : list (string * value)) (ins : iomap) : list (string * value) * res state := (x, Ok SUCCEEDED).
Definition enum_leaf : leafcode (list (string * value)) := tick_only enum_tick.
End Enum.
