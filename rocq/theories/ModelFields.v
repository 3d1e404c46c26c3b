(** Model of the nodes whose inputs and outputs are the fields of ROS messages:
    get_message_field_io_type (data_types.py:1755-1823), MessageToFields and
    FieldsToMessage (ros_nodes/message_converters.py:44-156), the general Service
    node (ros_nodes/service.py:264-353) and the general Action node
    (ros_nodes/action.py:431-537).  No proofs in this file.

    Files are below /repo/ros_bt_py/ros_bt_py.  Outside of the code, and given as
    parameters: the classes that rosidl generates for messages ([msgtype], [cls]). *)
From Coq Require Import String ZArith NArith Bool Ascii List.
From Coq Require Import Floats.SpecFloat.
From Verif Require Import Base ModelData ModelEdit ModelFiles.
Import ListNotations.
Local Open Scope string_scope.
Local Open Scope bool_scope.

(** ** Regular expressions (data_types.py:1762-1764, 1792)

    Characters beyond ASCII are left out: the names in ROS interfaces have none. *)

(** [[\w]].  Python: re. *)
Definition is_word (c : ascii) : bool :=
  let n := nat_of_ascii c in
  is_digit c || (Nat.leb 65 n && Nat.leb n 90) || (Nat.leb 97 n && Nat.leb n 122) || Ascii.eqb c "_".
(** [[\w\/<>]].  Python: re. *)
Definition in_class (c : ascii) : bool :=
  is_word c || Ascii.eqb c "/" || Ascii.eqb c "<" || Ascii.eqb c ">".

(** A literal at the beginning of [s]: the rest.  Python: re. *)
Fixpoint strip (p s : string) : option string :=
  match p with
  | "" => Some s
  | String a p' => match s with
                   | String b s' => if Ascii.eqb a b then strip p' s' else None
                   | "" => None
                   end
  end.
(** The longest prefix of characters of the class, and the rest.  Python: re. *)
Fixpoint span_class (s : string) : string * string :=
  match s with
  | "" => ("", "")
  | String c r => if in_class c then let (d, t) := span_class r in (String c d, t) else ("", s)
  end.
(** [(\d+)] followed by the literal [e]: the digits.  Fewer digits than there are
    cannot be followed by [e], so there is nothing to go back to.  Python: re. *)
Definition number_then (e s : string) : option string :=
  match span_digits s with
  | ("", _) => None
  | (d, t) => match strip e t with Some _ => Some d | None => None end
  end.

(** [(?:, (\d+))?>]: the group. *)
Definition seq_tail (s : string) : option (option string) :=
  match (match strip ", " s with Some r => number_then ">" r | None => None end) with
  | Some d => Some (Some d)
  | None => match strip ">" s with Some _ => Some None | None => None end
  end.
(** [([\w\/<>]+)(?:, (\d+))?>]: as many characters of the class as possible, going
    back one by one when the rest does not match. *)
Fixpoint seq_body (s : string) : option (string * option string) :=
  match s with
  | "" => None
  | String c r =>
      if in_class c then
        match seq_body r with
        | Some (g, n) => Some (String c g, n)
        | None => match seq_tail r with Some n => Some (String c "", n) | None => None end
        end
      else None
  end.
(** [re.match(r"sequence<([\w\/<>]+)(?:, (\d+))?>", s)]: the groups. *)
Definition match_sequence (s : string) : option (string * option string) :=
  match strip "sequence<" s with Some r => seq_body r | None => None end.
(** The expression of line 1764: any number of characters of the class, then digits
    in square brackets; the groups.  The class has no bracket, so there is nothing to
    go back to. *)
Definition match_array (s : string) : option (string * string) :=
  let (g, t) := span_class s in
  match strip "[" t with
  | Some r => match number_then "]" r with Some d => Some (g, d) | None => None end
  | None => None
  end.
(** [re.match(r"w?string(?:<(\d+)>)?", s)]: the group. *)
Definition match_string (s : string) : option (option string) :=
  match (match strip "wstring" s with Some r => Some r | None => strip "string" s end) with
  | Some r => Some (match strip "<" r with Some r' => number_then ">" r' | None => None end)
  | None => None
  end.

(** [s.find(sub) != -1].  Python. *)
Fixpoint contains (sub s : string) : bool :=
  match strip sub s with
  | Some _ => true
  | None => match s with "" => false | String _ r => contains sub r end
  end.

(** ** get_message_field_io_type (data_types.py:1755-1823) *)

(** helpers.py:64-73. *)
Definition INT_LIMITS : list (string * (Z * Z)) :=
  [("int8", (- 2 ^ 7, 2 ^ 7 - 1)%Z); ("int16", (- 2 ^ 15, 2 ^ 15 - 1)%Z);
   ("int32", (- 2 ^ 31, 2 ^ 31 - 1)%Z); ("int64", (- 2 ^ 63, 2 ^ 63 - 1)%Z);
   ("uint8", (0, 2 ^ 8 - 1)%Z); ("uint16", (0, 2 ^ 16 - 1)%Z);
   ("uint32", (0, 2 ^ 32 - 1)%Z); ("uint64", (0, 2 ^ 64 - 1)%Z)].
(** The literal 3.4028235e38 as a double. *)
Definition FLT_LIMIT : spec_float := S754_finite false 9007198806847480 75.
Definition FLT_LIMIT_NEG : spec_float := S754_finite true 9007198806847480 75.
(** helpers.py:81-84. *)
Definition FLOAT_LIMITS : list (string * (spec_float * spec_float)) :=
  [("float", (FLT_LIMIT_NEG, FLT_LIMIT)); ("double", (DBL_MIN, DBL_MAX))].

(** [int(max_len_str)], or the default of the container
    (data_types.py:595-596, 739-740). *)
Definition bound_of (d : option string) : Z :=
  match d with Some d => Z.of_N (int_of d) | None => INT_FLOAT_MAX end.

Section Fields.
  (** rosidl_runtime_py.utilities.get_message: the name of the class for a text such
      as "geometry_msgs/Point", or an exception. *)
  Variable cls : string -> option string.

  (** Lines 1791-1823: everything that is no sequence and no array. *)
  Definition base_type (ft : string) : res ctype :=
    match match_string ft with
    | Some d => Ok (TStr (bound_of d) None)
    | None =>
        if contains "/" ft then match cls ft with Some t => Ok (TRosMsg t 0) | None => Raise end
        else if String.eqb ft "boolean" then Ok TBool
        else if String.eqb ft "octet" then Ok (TBytes 1 None)
        else if contains "int" ft then
          match dget ft INT_LIMITS with Some (a, b) => Ok (TInt a b) | None => Err EConfig end
        else if contains "float" ft || contains "double" ft then
          match dget ft FLOAT_LIMITS with Some (a, b) => Ok (TFloat a b) | None => Err EConfig end
        else Err EConfig
    end.

  (** Lines 1762-1789; an array overrides a sequence.  [fuel] bounds the recursion,
      whose argument gets shorter each time. *)
  Fixpoint field_type (fuel : nat) (ft : string) : res ctype :=
    match fuel with
    | O => Raise
    | S k =>
        match match match_array ft with
              | Some (g, d) => Some (g, Some d, true)
              | None => match match_sequence ft with
                        | Some (g, d) => Some (g, d, false)
                        | None => None
                        end
              end with
        | Some (g, d, strict) =>
            match field_type k g with
            | Ok t => Ok (TList t true (bound_of d) strict)
            | Err e => Err e
            | Raise => Raise
            end
        | None => base_type ft
        end
    end.

  (** The container: every constructor is called without the static and dynamic
      flags and without a value.  data_types.py:1755-1823. *)
  Definition get_message_field_io_type (ft : string) : res container :=
    match field_type (S (String.length ft)) ft with
    | Ok t => match construct t true true None None with Some c => Ok c | None => Raise end
    | Err e => Err e
    | Raise => Raise
    end.

  (** ** Messages *)

  (** What an attribute of a message object holds: a value as elsewhere in the
      model, an array.array (sequences of numbers), or a numpy.ndarray (arrays of
      numbers of fixed length).  Python: attributes of messages. *)
  Inductive pyobj : Set := PVal (v : value) | PArray (l : list value) | PNumpy (l : list value).
  (** Python: attributes of messages. *)
  Definition attrs := list (string * pyobj).

  (** A class generated by rosidl: get_fields_and_field_types(), the attributes of
      [T()], and what [setattr(msg, field, value)] stores ([None]: it raises
      AssertionError).  Python: classes made by rosidl. *)
  Record msgtype : Set := mkMT {
    mt_fields : list (string * string);
    mt_new : attrs;
    mt_set : string -> value -> option pyobj
  }.
  (** Python: get_fields_and_field_types().keys(). *)
  Definition names (m : msgtype) : list string := map fst (mt_fields m).

  (** [container.set_value(o)].  ListType takes lists and array.array, which it
      turns into a list (data_types.py:849-858); for anything else the type check
      raises.  For the other containers all three are values of a wrong type. *)
  Definition py_set (c : container) (o : pyobj) : container * res unit :=
    match o with
    | PVal v => set_value c v
    | PArray l => set_value c (VList l)
    | PNumpy l => match c_ty c with TList _ _ _ _ => (c, Raise) | _ => set_value c (VList l) end
    end.

  (** ** Inputs and outputs from fields *)

  (** The loops over the fields (message_converters.py:58-68, 115-125,
      service.py:308-318, 330-340, action.py:481-491, 514-520). *)
  Fixpoint extra (fs : list (string * string)) (d : ios) : res ios :=
    match fs with
    | [] => Ok d
    | (f, ft) :: r => match get_message_field_io_type ft with
                      | Ok c => extra r (dset f c d)
                      | Err e => Err e
                      | Raise => Raise
                      end
    end.

  (** Node.__init__, extra inputs and outputs (node.py:213-227); [extras] is
      NodeConfig(...), whose error raises, and so does an Err. *)
  Definition build (base : config) (ei eo : res ios) : option config :=
    match ei with
    | Ok i => match eo with
              | Ok o => match make_config i o (f_max base) with
                        | Some c => match extend base c with (c', Ok _) => Some c' | _ => None end
                        | None => None
                        end
              | _ => None
              end
    | _ => None
    end.

  (** MessageToFields, FieldsToMessage. *)
  Definition to_fields_config (base : config) (m : msgtype) : option config :=
    build base (Ok []) (extra (mt_fields m) []).
  Definition from_fields_config (base : config) (m : msgtype) : option config :=
    build base (extra (mt_fields m) []) (Ok []).
  (** Service (service.py:298-341). *)
  Definition service_config (base : config) (req resp : msgtype) : option config :=
    build base (extra (mt_fields req) []) (extra (mt_fields resp) []).
  (** Action (action.py:474-521).  Both loops go over the fields of the result. *)
  Definition result_key (f : string) : string := "result." ++ f.
  Definition feedback_key (f : string) : string := "feedback." ++ f.
  Definition combined (result feedback : msgtype) : list (string * string) :=
    py_dict (map (fun f => (result_key (fst f), snd f)) (mt_fields result)
             ++ map (fun f => (feedback_key (fst f), snd f)) (mt_fields result)).
  Definition action_config (base : config) (goal result feedback : msgtype) : option config :=
    build base (extra (mt_fields goal) []) (extra (combined result feedback) []).

  (** ** Reading the inputs, writing the outputs *)

  (** FieldsToMessage._do_tick without the output, Service.get_request,
      Action.get_goal (message_converters.py:131-141, service.py:271-279,
      action.py:439-447). *)
  Fixpoint fill (m : msgtype) (ins : ios) (fs : list string) (a : attrs) : res attrs :=
    match fs with
    | [] => Ok a
    | f :: r =>
        match dget f ins with
        | None => Err EConfig
        | Some c => match c_val c with
                    | None => Err EConfig
                    | Some v => match mt_set m f v with
                                | Some o => fill m ins r (dset f o a)
                                | None => Raise
                                end
                    end
        end
    end.
  Definition make_message (m : msgtype) (ins : ios) : res attrs := fill m ins (names m) (mt_new m).

  (** NodeOutputMap.set_multiple_values (node_config.py:125-132). *)
  Fixpoint set_multiple (outs : ios) (l : attrs) : ios * res unit :=
    match l with
    | [] => (outs, Ok tt)
    | (k, o) :: r =>
        match dget k outs with
        | None => (outs, Err EConfig)
        | Some c =>
            match py_set c o with
            | (c', Ok _) => set_multiple (dset k c' outs) r
            | (c', Err _) => (dset k c' outs, Err EConfig)
            | (c', Raise) => (dset k c' outs, Raise)
            end
        end
    end.
  (** The call [set_multiple_values] with the fields as keywords: a keyword "self" is
      a TypeError. *)
  Definition set_fields (key : string -> string) (fs : list string) (a : attrs) (outs : ios) : ios * res unit :=
    match (fix go (fs : list string) : option attrs :=
             match fs with
             | [] => Some []
             | f :: r => match dget f a with
                         | Some o => match go r with Some l => Some ((key f, o) :: l) | None => None end
                         | None => None
                         end
             end) fs with
    | None => (outs, Err (ELeaf 0))
    | Some l => if existsb (String.eqb "self") (map fst l) then (outs, Raise) else set_multiple outs l
    end.

  (** MessageToFields._do_tick and Service.set_outputs (message_converters.py:74-83,
      service.py:285-294), Action.set_result_outputs and set_feedback_outputs
      (action.py:453-472).  An attribute that the message does not have is an
      exception in the first and an error in the others; messages of the type have
      all. *)
  Definition show_message (m : msgtype) (a : attrs) (outs : ios) : ios * res unit :=
    set_fields (fun f => f) (names m) a outs.
  Definition set_result (result : msgtype) (a : attrs) (outs : ios) : ios * res unit :=
    set_fields result_key (names result) a outs.
  Definition set_feedback (feedback : msgtype) (a : attrs) (outs : ios) : ios * res unit :=
    set_fields feedback_key (names feedback) a outs.
  (** The end of ActionBase._do_tick_wait_for_action_complete (action.py:207-212): the
      result of set_feedback_outputs is dropped. *)
  Definition feedback_tick (feedback : msgtype) (a : attrs) (outs : ios) : ios * res unit :=
    match set_feedback feedback a outs with
    | (o, Raise) => (o, Raise)
    | (o, _) => (o, Ok tt)
    end.
End Fields.
