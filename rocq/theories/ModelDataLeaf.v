(** Model of reference types, of the construction of a node's inputs and outputs, and of
    the leaf nodes that compute with data (/repo/ros_bt_py/ros_bt_py/nodes: constant.py,
    io.py, passthrough_node.py, compare.py, list.py, setters.py, format.py, maths.py,
    random_number.py, file.py).

    Simplifications: [==] between values ignores object identity (it matters for NaN
    only); logging is left out.  No proofs in this file. *)
From Coq Require Import String Ascii ZArith Bool SpecFloat Arith List.
From Verif Require Import Base ModelData ModelUtility ModelTree ModelLeaf.
Import ListNotations.
Local Open Scope string_scope.
Local Open Scope list_scope.

(** ** Reference types (data_types.py:981-1012, 1519-1730) *)

(** ReferenceType, ReferenceListType, ReferenceDictType.  data_types.py:1667-1760. *)
Inductive refkind : Set := RefItem | RefList | RefDict.

(** An input or output as it is declared: a container, or a reference to a type input with
    its flags and, once resolved, the container it stands for (_inner_type).
    data_types.py:1519-1730. *)
Inductive slot : Set :=
| SPlain (c : container)
| SRef (k : refkind) (target : string) (dyn sta static : bool) (inner : option container).
(** The maps of NodeConfig (node_config.py:135-189). *)
Definition smap : Set := list (string * slot).

(** get_iotype_for_dict (data_types.py:981-1012).  [known]: whether a message type of this
    name is installed; get_message raises an exception if not.  [Err]: no identifier, or
    none that matches, or a parameter is missing (KeyError, TypeError); [Raise]: other
    exceptions, from typeguard or the constructors.  Simplification: the keys are those of
    GENERIC_TYPE_MAP, which GenericType.set_value ensures. *)
Section Types.
Variable known : string -> bool.

(** data_types.py:981-1012. *)
Definition has_id (b : bty) (i : value) : bool :=
  match dget IDENTIFIER_KEY (generic_map b) with Some j => py_eq j i | None => false end.

(** data_types.py:981-1012. *)
Fixpoint iotype_of (v : value) {struct v} : res ctype :=
  match v with
  | VDict d =>
      match dget IDENTIFIER_KEY d with
      | None => Err EData
      | Some i =>
          if has_id BObject i then
            match dget MESSAGE_KEY d with
            | None => Err EData
            | Some (VStr s) => if known s then Ok (TRosMsg s 0) else Raise
            | Some _ => Raise
            end
          else if has_id BBool i then Ok TBool
          else if has_id BInt i then
            match dget "min_value" d, dget "max_value" d with
            | Some (VInt a), Some (VInt b) => if Z.leb a b then Ok (TInt a b) else Raise
            | _, _ => Raise
            end
          else if has_id BFloat i then
            match dget "min_value" d, dget "max_value" d with
            | Some (VFloat a), Some (VFloat b) => if SFltb b a then Raise else Ok (TFloat a b)
            | _, _ => Raise
            end
          else if has_id BStr i then
            match dget "max_length" d with Some (VInt n) => Ok (TStr n None) | _ => Raise end
          else if has_id BBytes i then
            match dget "max_length" d with Some (VInt n) => Ok (TBytes n None) | _ => Raise end
          else if has_id BList i || has_id BDict i then
            match (fix element (l : list (string * value)) : res ctype :=
                     match l with
                     | [] => Err EData
                     | (k, x) :: r => if String.eqb ELEMENT_KEY k then iotype_of x else element r
                     end) d, dget "max_length" d, dget "strict_length" d with
            | Ok e, Some (VInt n), Some (VBool s) =>
                Ok (if has_id BList i then TList e true n s else TDict e true n s)
            | Err x, _, _ => Err x
            | _, _, _ => Raise
            end
          else Err EData
      end
  | _ => Raise
  end.

(** get_value_field of GenericType (1168-1174) and RosTypeContainer (1441-1447). *)
Definition value_field (c : container) : res ctype :=
  match c_ty c, c_val c with
  | TGeneric _, Some v => iotype_of v
  | TRosType _ _, Some (VType _ n) => Ok (TRosMsg n 0)
  | _, _ => Err EData
  end.

(** What a reference of kind [k] makes of the type (1551-1566, 1700-1711, 1723-1734). *)
Definition ref_type (k : refkind) (sta : bool) (t : ctype) : ctype :=
  match k with
  | RefItem => t
  | RefList => TList t sta INT_FLOAT_MAX false
  | RefDict => TDict t sta INT_FLOAT_MAX false
  end.
(** The container is constructed with the default flags, which are then overwritten. *)
Definition ref_inner (k : refkind) (dyn sta static : bool) (t : ctype) : option container :=
  match construct (ref_type k sta t) true true None None with
  | Some c => Some (mkC (c_ty c) dyn sta static (c_val c) (c_upd c))
  | None => None
  end.

(** set_type_map (1568-1575). *)
Definition set_type_map (m : smap) (s : slot) : res slot :=
  match s with
  | SPlain _ => Ok s
  | SRef k r dyn sta static _ =>
      match dget r m with
      | Some (SPlain c) =>
          if is_type_container (c_ty c) then
            match value_field c with
            | Ok t => match ref_inner k dyn sta static t with
                      | Some i => Ok (SRef k r dyn sta static (Some i))
                      | None => Raise
                      end
            | Err e => Err e
            | Raise => Raise
            end
          else Err EData
      | _ => Err EData
      end
  end.

(** Resolve the references of a map, except those in [skip]; [Err] becomes a
    NodeConfigError.  node_config.py:160-186. *)
Fixpoint resolve (m : smap) (skip : string -> bool) (l : smap) : res smap :=
  match l with
  | [] => Ok []
  | (k, s) :: r =>
      match (if skip k then Ok s else set_type_map m s) with
      | Ok s' => match resolve m skip r with
                 | Ok r' => Ok ((k, s') :: r')
                 | e => e
                 end
      | Err _ => Err EConfig
      | Raise => Raise
      end
  end.

(** Outputs are forced to be dynamic (node_config.py:170-175).  A type container as an
    output is refused (171-172). *)
Definition force_dynamic (s : slot) : slot :=
  match s with
  | SPlain c => SPlain (mkC (c_ty c) true false false (c_val c) (c_upd c))
  | SRef k r _ _ _ i => SRef k r true false false i
  end.
Definition out_slots (l : smap) : smap := map (fun ks => (fst ks, force_dynamic (snd ks))) l.
Definition type_slot (s : slot) : bool :=
  match s with SPlain c => is_type_container (c_ty c) | SRef _ _ _ _ _ _ => false end.

(** NodeConfig.__init__ (node_config.py:160-186), also called by copy (236-247). *)
Definition node_config (ins outs : smap) : res (smap * smap) :=
  if existsb (fun ks => type_slot (snd ks)) outs then Err EConfig
  else
    match resolve ins (fun _ => false) ins, resolve ins (fun _ => false) (out_slots outs) with
    | Ok i, Ok o => Ok (i, o)
    | Raise, _ => Raise
    | Err e, _ => Err e
    | _, Raise => Raise
    | _, Err e => Err e
    end.

(** is_compatible (data_types.py:189-213, 1590-1599). *)
Definition slot_compat (a b : slot) : bool :=
  match a, b with
  | SPlain c, SPlain d => is_compatible c d
  | SRef k r dyn sta _ _, SRef k' r' dyn' sta' _ _ =>
      match k, k' with RefItem, RefItem | RefList, RefList | RefDict, RefDict => true | _, _ => false end &&
      (negb dyn || dyn') && (negb sta || sta') && String.eqb r r'
  | _, _ => false
  end.

(** Node.__init__ (node.py:196-262) for classes without extra inputs and outputs: the
    inputs that are given replace those of the class. *)
Fixpoint replace_inputs (given ins : smap) : res smap :=
  match given with
  | [] => Ok ins
  | (k, s) :: r =>
      match dget k ins with
      | None => Err EConfig
      | Some t => if slot_compat t s then replace_inputs r (dset k s ins) else Err EConfig
      end
  end.
Definition is_given (given : smap) (k : string) : bool :=
  match dget k given with Some _ => true | None => false end.
Definition node_new (ins outs given : smap) : res (smap * smap) :=
  match node_config ins outs with
  | Ok (ins1, outs1) =>
      match replace_inputs given ins1 with
      | Ok ins2 =>
          match resolve ins2 (is_given given) ins2, resolve ins2 (fun _ => false) outs1 with
          | Ok i, Ok o => Ok (i, o)
          | Raise, _ => Raise
          | Err e, _ => Err e
          | _, Raise => Raise
          | _, Err e => Err e
          end
      | Err e => Err e
      | Raise => Raise
      end
  | Err e => Err e
  | Raise => Raise
  end.

(** Node.from_msg (node.py:1022-1043): the containers of the message, references resolved
    among themselves, with the values of those that are static.  The value is a text: not
    JSON (json.loads raises an exception), refused by _deserialize_value, or decoded.
    Errors are ignored, exceptions are not (data_types.py:343-351). *)
Inductive text : Set := TNoJson | TRefused | TValue (v : value).
Definition put_value (s : slot) (v : text) : res slot :=
  let put (c : container) (mk : container -> slot) :=
    match v with
    | TNoJson => Raise
    | TRefused => Ok s
    | TValue x => match set_value c x with
                  | (_, Raise) => Raise
                  | (c', _) => Ok (mk c')
                  end
    end in
  match s with
  | SPlain c => if c_static c then put c SPlain else Ok s
  | SRef k r dyn sta static (Some c) => if static then put c (fun c' => SRef k r dyn sta static (Some c')) else Ok s
  | SRef _ _ _ _ static None => if static then match v with TNoJson => Raise | _ => Ok s end else Ok s
  end.
Fixpoint put_plain (l : list (string * slot * text)) : res smap :=
  match l with
  | [] => Ok []
  | (k, s, v) :: r =>
      match (match s with SPlain _ => put_value s v | SRef _ _ _ _ _ _ => Ok s end), put_plain r with
      | Ok s', Ok r' => Ok ((k, s') :: r')
      | Raise, _ | _, Raise => Raise
      | Err e, _ => Err e
      | _, Err e => Err e
      end
  end.
Fixpoint put_refs (m : smap) (l : list (string * slot * text)) : res smap :=
  match l with
  | [] => Ok []
  | (k, s, v) :: r =>
      match s with
      | SPlain _ => match dget k m with
                    | Some s' => res_map (cons (k, s')) (put_refs m r)
                    | None => put_refs m r                   (* not reachable *)
                    end
      | SRef _ _ _ _ _ _ =>
          match (match set_type_map m s with Ok s' => Ok s' | Err _ => Ok s | Raise => Raise end) with
          | Ok s' => match put_value s' v with
                     | Ok s'' => res_map (cons (k, s'')) (put_refs m r)
                     | Err e => Err e
                     | Raise => Raise
                     end
          | Err e => Err e
          | Raise => Raise
          end
      end
  end.
Definition inputs_of_msg (l : list (string * slot * text)) : res smap :=
  match put_plain l with Ok m => put_refs m l | e => e end.
Definition node_of_msg (ins outs : smap) (l : list (string * slot * text)) : res (smap * smap) :=
  match inputs_of_msg l with
  | Ok given => node_new ins outs given
  | Err e => Err e
  | Raise => Raise
  end.
End Types.

(** The containers of a node whose references are all resolved.  Node.__init__ (node.py:196-262). *)
Fixpoint containers (l : smap) : option iomap :=
  match l with
  | [] => Some []
  | (k, s) :: r =>
      match (match s with SPlain c => Some c | SRef _ _ _ _ _ i => i end), containers r with
      | Some c, Some m => Some ((k, c) :: m)
      | _, _ => None
      end
  end.

(** ** Declarations *)

(** All keys of GENERIC_TYPE_MAP, the default of valid_types (1107). *)
Definition all_types : list bty := [BBool; BInt; BFloat; BStr; BBytes; BList; BDict; BObject].
Definition plain (t : ctype) (dyn static : bool) (v : option value) : slot :=
  SPlain (mkC t dyn true static v false).
(** GenericType(valid_types=l); a container with the class defaults. *)
Definition generic (l : list bty) : slot := plain (TGeneric l) false true (class_default (TGeneric l)).
Definition static_of (t : ctype) : slot := plain t true true (class_default t).
(** ReferenceType(r), with is_static=False, with allow_dynamic=False. *)
Definition ref (k : refkind) (r : string) : slot := SRef k r true true true None.
Definition ref_dynamic (k : refkind) (r : string) : slot := SRef k r true true false None.
Definition ref_static (k : refkind) (r : string) : slot := SRef k r false true true None.
Definition any_int : ctype := TInt INT64_MIN UINT64_MAX.
Definition any_str : ctype := TStr INT_FLOAT_MAX None.

(** ** Leaves without attributes *)

(** The five methods of a leaf that only has a tick (for example constant.py:62-79). *)
Definition tick_only {X} (f : X -> iomap -> list (string * value) * res state) : leafcode X := fun o st ins x =>
  match o with
  | OSetup => (x, [], Ok IDLE)
  | OTick => let (ws, r) := f x ins in (x, ws, r)
  | OUntick => (x, [], Ok IDLE)
  | OReset => (x, [], Ok IDLE)
  | OShutdown => (x, [], Ok SHUTDOWN)
  end.
(** [for v in r]: the first [Err] ends the computation (vendor/result: do). *)
Definition get {A} (r : res A) (k : A -> list (string * value) * res state) : list (string * value) * res state :=
  match r with Ok a => k a | Err e => ([], Err e) | Raise => ([], Raise) end.
(** [.and_then(lambda val: outputs.set_value(key, val)).map(lambda _: SUCCEEDED)]. *)
Definition put_out (key : string) (v : value) : list (string * value) * res state := ([(key, v)], Ok SUCCEEDED).
Definition decide (b : bool) : list (string * value) * res state := ([], Ok (if b then SUCCEEDED else FAILED)).

(** Constant (constant.py:40-79). *)
Definition constant_ins : smap := [("constant_type", generic all_types); ("constant_value", ref_static RefItem "constant_type")].
Definition constant_outs : smap := [("constant", ref RefItem "constant_type")].
Definition constant_tick (ins : iomap) := get (io_value ins "constant_value") (put_out "constant").

(** IO, IOInput, IOOutput (io.py:40-105), PassthroughNode (passthrough_node.py:38-74). *)
Definition io_ins : smap := [("io_type", generic all_types); ("in", ref_dynamic RefItem "io_type")].
Definition io_outs : smap := [("out", ref RefItem "io_type")].
Definition pass_ins : smap := [("passthrough_type", generic all_types); ("in", ref_dynamic RefItem "passthrough_type")].
Definition pass_outs : smap := [("out", ref RefItem "passthrough_type")].
Definition pass_tick (ins : iomap) := get (io_value ins "in") (put_out "out").

(** Compare (compare.py:41-82), CompareNewOnly (85-126). *)
Definition compare_ins : smap :=
  [("compare_type", generic all_types); ("a", ref_dynamic RefItem "compare_type"); ("b", ref RefItem "compare_type")].
Definition compare_tick (ins : iomap) :=
  get (io_value ins "a") (fun a => get (io_value ins "b") (fun b => decide (py_eq a b))).
Definition compare_new_tick (ins : iomap) :=
  get (io_any_updated ins ["a"; "b"]) (fun u => if u then compare_tick ins else ([], Ok RUNNING)).

(** ALessThanB (compare.py:129-168).  [<] on bools and integers, and on floats; other
    types are not possible here (an exception). *)
Definition py_lt (a b : value) : res bool :=
  match a, b with
  | VFloat x, VFloat y => Ok (SFltb x y)
  | _, _ => match as_int a, as_int b with Some x, Some y => Ok (Z.ltb x y) | _, _ => Raise end
  end.
Definition less_ins : smap :=
  [("operand_type", generic [BInt; BFloat]); ("a", ref_dynamic RefItem "operand_type"); ("b", ref RefItem "operand_type")].
Definition less_tick (ins : iomap) :=
  get (io_value ins "a") (fun a => get (io_value ins "b") (fun b => get (py_lt a b) decide)).

(** ListLength (list.py:43-73). *)
Definition length_ins : smap := [("element_type", generic all_types); ("list", ref RefList "element_type")].
Definition length_outs : smap := [("length", static_of any_int)].
Definition length_tick (ins : iomap) :=
  get (io_value_as as_list ins "list") (fun l => put_out "length" (VInt (Z.of_nat (List.length l)))).

(** InsertInList (list.py:76-117); list.insert counts a negative index from the end. *)
Definition py_insert (l : list value) (i : Z) (v : value) : list value :=
  let n := Z.to_nat (if Z.ltb i 0 then Z.max 0 (i + Z.of_nat (List.length l)) else Z.min i (Z.of_nat (List.length l))) in
  firstn n l ++ v :: skipn n l.
Definition insert_ins : smap :=
  [("element_type", generic all_types); ("index", static_of (TInt 0 UINT64_MAX));
   ("list", ref RefList "element_type"); ("element", ref RefItem "element_type")].
Definition insert_outs : smap := [("list", ref RefList "element_type")].
Definition insert_tick (ins : iomap) :=
  get (io_value_as as_list ins "list") (fun l => get (io_value_as as_int ins "index") (fun i =>
    get (io_value ins "element") (fun e => put_out "list" (VList (py_insert l i e))))).

(** IsInList (list.py:120-155). *)
Definition isin_ins : smap :=
  [("compare_type", generic all_types); ("list", ref RefList "compare_type"); ("in", ref RefItem "compare_type")].
Definition isin_tick (ins : iomap) :=
  get (io_value ins "in") (fun e => get (io_value_as as_list ins "list") (fun l => decide (existsb (fun x => py_eq x e) l))).

(** AppendListItem (setters.py:46-81). *)
Definition append_ins : smap :=
  [("list_type", generic all_types); ("list", ref RefList "list_type"); ("value", ref RefItem "list_type")].
Definition append_outs : smap := [("new_list", ref RefList "list_type")].
Definition append_tick (ins : iomap) :=
  get (io_value_as as_list ins "list") (fun l => get (io_value ins "value") (fun v => put_out "new_list" (VList (l ++ [v])))).

(** SetDictItem (setters.py:129-170). *)
Definition setdict_ins : smap :=
  [("attr_type", generic all_types); ("attr_name", static_of any_str);
   ("object", ref RefDict "attr_type"); ("attr_value", ref RefItem "attr_type")].
Definition setdict_outs : smap := [("new_object", ref RefDict "attr_type")].
Definition setdict_tick (ins : iomap) :=
  get (io_value_as as_dict ins "object") (fun d => get (io_value_as as_str ins "attr_name") (fun k =>
    get (io_value ins "attr_value") (fun v => put_out "new_object" (VDict (dset k v d))))).

(** SetAttr (setters.py:84-126); [rsetattr] is arbitrary ([None]: an exception). *)
Definition setattr_ins : smap :=
  [("object_type", plain (TRosType RTopic 0) false true (class_default (TRosType RTopic 0)));
   ("attr_type", generic all_types); ("attr_name", static_of any_str);
   ("object", ref RefItem "object_type"); ("attr_value", ref RefItem "attr_type")].
Definition setattr_outs : smap := [("new_object", ref RefItem "object_type")].
Definition setattr_tick (rsetattr : value -> string -> value -> option value) (ins : iomap) :=
  get (io_value ins "object") (fun ob => get (io_value_as as_str ins "attr_name") (fun k =>
    get (io_value ins "value") (fun v =>
      match rsetattr ob k v with Some x => put_out "new_object" x | None => ([], Raise) end))).

(** StringConcatenation (format.py:78-109). *)
Definition concat_ins : smap := [("a", static_of any_str); ("b", static_of any_str)].
Definition concat_outs : smap := [("formatted_string", static_of any_str)].
Definition concat_tick (ins : iomap) :=
  get (io_value_as as_str ins "a") (fun a => get (io_value_as as_str ins "b") (fun b =>
    put_out "formatted_string" (VStr (a ++ b)%string))).

(** FormatString (format.py:112-159); [fmt]: the formatter, [None] for an exception.  The
    exception becomes FAILED (148-150). *)
Definition format_ins : smap := [("format_string", static_of any_str); ("dict", static_of (TDict any_int true INT_FLOAT_MAX false))].
Definition format_outs : smap := [("formatted_string", static_of any_str)].
Definition format_tick (fmt : string -> list (string * value) -> option string) (ins : iomap) :=
  get (io_value_as as_str ins "format_string") (fun s => get (io_value_as as_dict ins "dict") (fun d =>
    match fmt s d with Some r => put_out "formatted_string" (VStr r) | None => ([], Ok FAILED) end)).

(** FormatStringList (format.py:162-212).  The generator asks for the type [list[str]]
    first, with which isinstance raises a TypeError (data_types.py:294), unless the input
    is missing or has no value; the exception becomes FAILED. *)
Definition format_list_ins : smap :=
  [("format_strings", static_of (TList any_str true INT_FLOAT_MAX false));
   ("dict", static_of (TDict any_int true INT_FLOAT_MAX false))].
Definition format_list_outs : smap := [("formatted_strings", static_of (TList any_str true INT_FLOAT_MAX false))].
Definition format_list_tick (ins : iomap) : list (string * value) * res state :=
  get (io_value ins "format_strings") (fun _ => ([], Ok FAILED)).

(** GetFileExtension (format.py:215-247).  os.path.splitext: the last dot counts if it is
    in the last component and not all characters before it there are dots. *)
Definition is_dot (c : ascii) : bool := Ascii.eqb c ".".
Definition is_slash (c : ascii) : bool := Ascii.eqb c "/".
(** Length of the part of [l] (reversed text) before the first character satisfying [p]. *)
Fixpoint span (p : ascii -> bool) (l : list ascii) : list ascii * list ascii :=
  match l with
  | [] => ([], [])
  | c :: r => if p c then ([], l) else let (a, b) := span p r in (c :: a, b)
  end.
Definition splitext (s : string) : string * string :=
  let r := rev (list_ascii_of_string s) in
  let (ext, rest) := span (fun c => is_dot c || is_slash c) r in
  match rest with
  | c :: stem =>
      if is_dot c && existsb (fun c => negb (is_dot c)) (fst (span is_slash stem))
      then (string_of_list_ascii (rev stem), string_of_list_ascii (rev (ext ++ [c])))
      else (s, "")
  | [] => (s, "")
  end.
Definition ext_ins : smap := [("path", static_of any_str)].
Definition ext_outs : smap := [("filename", static_of any_str); ("extension", static_of any_str)].
Definition ext_tick (ins : iomap) :=
  get (io_value_as as_str ins "path") (fun p =>
    ([("filename", VStr (fst (splitext p))); ("extension", VStr (snd (splitext p)))], Ok SUCCEEDED)).

(** RandomInt (random_number.py:40-83).  [x a b]: what random.randrange(a, b) returns now. *)
Definition random_ins : smap := [("min", static_of any_int); ("max", static_of any_int)].
Definition random_outs : smap := [("random_number", static_of any_int)].
Definition random_tick (x : Z -> Z -> Z) (ins : iomap) :=
  get (io_value_as as_int ins "min") (fun mi => get (io_value_as as_int ins "max") (fun ma =>
    if Z.leb ma mi then ([], Err EConfig) else put_out "random_number" (VInt (x mi (ma + 1)%Z)))).

(** ** Arithmetic (maths.py:140-225) *)

(** The operators, with their two spellings (140-166). *)
Inductive binop : Set := OpAdd | OpAnd | OpDiv | OpFloorDiv | OpLshift | OpMod | OpMul | OpOr | OpPow | OpRshift | OpSub | OpXor.
Definition binops : list (string * binop) :=
  [("add", OpAdd); ("+", OpAdd); ("and", OpAnd); ("&", OpAnd); ("div", OpDiv); ("/", OpDiv);
   ("floordiv", OpFloorDiv); ("//", OpFloorDiv); ("lshift", OpLshift); ("<<", OpLshift); ("mod", OpMod); ("%", OpMod);
   ("mul", OpMul); ("*", OpMul); ("or", OpOr); ("|", OpOr); ("pow", OpPow); ("**", OpPow);
   ("rshift", OpRshift); (">>", OpRshift); ("sub", OpSub); ("-", OpSub); ("truediv", OpDiv); ("xor", OpXor); ("^", OpXor)].

(** What is not computed here but given by the C library: the doubles that integer division
    and powers give, floor division, remainder and power of doubles, and the functions of
    the module math with a double as result.  [None]: an exception (OverflowError,
    ValueError), or a complex number, on which float() raises one.  maths.py:140-225. *)
Record mathlib : Set := mkMath {
  ml_quot : Z -> Z -> option spec_float; ml_zpow : Z -> Z -> option spec_float;
  ml_float : binop -> spec_float -> spec_float -> option spec_float;
  ml_fun : string -> value -> option spec_float }.
Section Maths.
Variable lib : mathlib.

(** maths.py:140-225. *)
Definition int_op (o : binop) (a b : Z) : option value :=
  match o with
  | OpAdd => Some (VInt (a + b))
  | OpSub => Some (VInt (a - b))
  | OpMul => Some (VInt (a * b))
  | OpAnd => Some (VInt (Z.land a b))
  | OpOr => Some (VInt (Z.lor a b))
  | OpXor => Some (VInt (Z.lxor a b))
  | OpDiv => if Z.eqb b 0 then None else option_map VFloat (ml_quot lib a b)
  | OpFloorDiv => if Z.eqb b 0 then None else Some (VInt (a / b))
  | OpMod => if Z.eqb b 0 then None else Some (VInt (a mod b))
  | OpLshift => if Z.ltb b 0 then None else Some (VInt (Z.shiftl a b))
  | OpRshift => if Z.ltb b 0 then None else Some (VInt (Z.shiftr a b))
  | OpPow => if Z.ltb b 0 then (if Z.eqb a 0 then None else option_map VFloat (ml_zpow lib a b)) else Some (VInt (a ^ b))
  end.
(** Helper; no code of its own. *)
Definition is_zero (f : spec_float) : bool := match f with S754_zero _ => true | _ => false end.
(** maths.py:140-225. *)
Definition float_op (o : binop) (a b : spec_float) : option value :=
  match o with
  | OpAdd => Some (VFloat (SFadd prec emax a b))
  | OpSub => Some (VFloat (SFsub prec emax a b))
  | OpMul => Some (VFloat (SFmul prec emax a b))
  | OpDiv => if is_zero b then None else Some (VFloat (SFdiv prec emax a b))
  | OpFloorDiv | OpMod | OpPow => option_map VFloat (ml_float lib o a b)
  | OpAnd | OpOr | OpXor | OpLshift | OpRshift => None
  end.
(** Simplification: operands of different kinds do not occur, as both have the type
    operand_type (an exception).  maths.py:140-225. *)
Definition bin_value (o : binop) (a b : value) : option value :=
  match a, b with
  | VFloat x, VFloat y => float_op o x y
  | VBool x, VBool y =>
      match o with
      | OpAnd => Some (VBool (x && y))
      | OpOr => Some (VBool (x || y))
      | OpXor => Some (VBool (xorb x y))
      | _ => int_op o (Z_of_bool x) (Z_of_bool y)
      end
  | _, _ => match as_int a, as_int b with Some x, Some y => int_op o x y | _, _ => None end
  end.
(** maths.py:140-225. *)
Definition number_types : list bty := [BBool; BInt; BFloat].
(** maths.py:140-225. *)
Definition operation_ins : smap :=
  [("operand_type", generic number_types); ("operator", static_of (TStr INT_FLOAT_MAX (Some (map fst binops))));
   ("a", ref RefItem "operand_type"); ("b", ref RefItem "operand_type")].
(** maths.py:140-225. *)
Definition operation_outs : smap := [("result", ref RefItem "operand_type")].
(** A KeyError for an unknown operator.  maths.py:140-225. *)
Definition operation_tick (ins : iomap) :=
  get (io_value_as as_str ins "operator") (fun s => get (io_value ins "a") (fun a => get (io_value ins "b") (fun b =>
    match dget s binops with
    | None => ([], Raise)
    | Some o => match bin_value o a b with Some v => put_out "result" v | None => ([], Raise) end
    end))).

(** UnaryOperation (maths.py:228-324): not, inv, neg, pos, ceil and floor, factorial, and
    the functions of math whose result is a double. *)
Inductive unop : Set := UNot | UInv | UNeg | UPos | UCeil | UFloor | UFactorial | UFun (name : string).
Definition math_funs : list string :=
  ["exp"; "expm1"; "log"; "log1p"; "log10"; "fabs"; "sqrt"; "acos"; "asin"; "atan"; "acosh"; "asinh"; "atanh";
   "cos"; "sin"; "tan"; "cosh"; "sinh"; "tanh"; "degrees"; "radians"; "erf"; "erfc"; "gamma"; "lgamma"].
Definition unops : list (string * unop) :=
  [("not", UNot); ("inv", UInv); ("~", UInv); ("neg", UNeg); ("-", UNeg); ("pos", UPos); ("+", UPos);
   ("ceil", UCeil); ("floor", UFloor); ("factorial", UFactorial)] ++ map (fun s => (s, UFun s)) math_funs.
(** math.ceil ([up]) and math.floor of a double: OverflowError for infinite numbers,
    ValueError for NaN. *)
Definition round_float (up : bool) (f : spec_float) : option Z :=
  match f with
  | S754_zero _ => Some 0%Z
  | S754_finite neg m e =>
      let v := if neg then Zneg m else Zpos m in
      Some (if Z.leb 0 e then v * 2 ^ e else if up then - ((- v) / 2 ^ (- e)) else v / 2 ^ (- e))%Z
  | _ => None
  end.
(** math.factorial: ValueError for negative numbers, TypeError for doubles (since Python
    3.10).  Simplification: integers are not limited by the memory. *)
Fixpoint factorial (n : nat) : Z := match n with O => 1 | S k => Z.of_nat n * factorial k end%Z.
Definition py_factorial (a : value) : option Z :=
  match as_int a with Some x => if Z.ltb x 0 then None else Some (factorial (Z.to_nat x)) | None => None end.
Definition un_value (o : unop) (a : value) : option value :=
  match o, a with
  | UNot, VFloat x => Some (VBool (is_zero x))
  | UNot, _ => match as_int a with Some x => Some (VBool (Z.eqb x 0)) | None => None end
  | UInv, _ => match as_int a with Some x => Some (VInt (Z.lnot x)) | None => None end
  | UNeg, VFloat x => Some (VFloat (SFopp x))
  | UNeg, _ => match as_int a with Some x => Some (VInt (- x)) | None => None end
  | UPos, VFloat x => Some (VFloat x)
  | UPos, _ => match as_int a with Some x => Some (VInt x) | None => None end
  | UCeil, VFloat x => option_map VInt (round_float true x)
  | UFloor, VFloat x => option_map VInt (round_float false x)
  | UCeil, _ | UFloor, _ => match as_int a with Some x => Some (VInt x) | None => None end
  | UFactorial, _ => option_map VInt (py_factorial a)
  | UFun s, _ => option_map VFloat (ml_fun lib s a)
  end.
Definition unary_ins : smap :=
  [("operand_type", generic number_types); ("operator", static_of (TStr INT_FLOAT_MAX (Some (map fst unops))));
   ("in", ref RefItem "operand_type")].
Definition unary_outs : smap := [("result", ref RefItem "operand_type")].
Definition unary_tick (ins : iomap) :=
  get (io_value_as as_str ins "operator") (fun s => get (io_value ins "in") (fun a =>
    match dget s unops with
    | None => ([], Raise)
    | Some o => match un_value o a with Some v => put_out "result" v | None => ([], Raise) end
    end)).
End Maths.

(** ** Convert (maths.py:48-137)

    _do_setup asks for an input named clamp (97), which the class does not declare, and
    for types where the values are dictionaries.  [conv]: the conversion, if there is one. *)
Definition convert_ins : smap :=
  [("input_type", generic all_types); ("output_type", generic all_types); ("in", ref RefItem "input_type")].
Definition convert_outs : smap := [("out", ref RefItem "output_type")].
(** [isinstance(v, type)]. *)
Definition as_type (v : value) : option value := match v with VType _ _ => Some v | _ => None end.
Definition convert_leaf (conv : value -> value -> option (value -> option value)) : leafcode (option (value -> option value)) :=
  fun o st ins x =>
  match o with
  | OSetup =>
      onok (io_value_as as_type ins "input_type") x (fun i =>
      onok (io_value_as as_type ins "output_type") x (fun t =>
      onok (io_value_as as_bool ins "clamp") x (fun _ =>
        match conv i t with
        | Some f => (Some f, [], Ok IDLE)
        | None => (x, [], Err EConfig)
        end)))
  | OTick =>
      match x with
      | None => (x, [], Raise)
      | Some f => onok (io_value ins "in") x (fun v =>
          match f v with Some w => (x, [("out", w)], Ok SUCCEEDED) | None => (x, [], Raise) end)
      end
  | OUntick => (x, [], Ok IDLE)
  | OReset => (x, [], Ok IDLE)
  | OShutdown => (x, [], Ok SHUTDOWN)
  end.

(** ** YamlList and YamlDict (file.py:87-249) *)

(** What load_file (58-84) finds at a path: data, a LoadFileError with its text, or another
    exception (for example an unknown package). *)
Inductive loaded : Set := LData (v : value) | LError (msg : string) | LRaise.
(** [ya_cache]: _cached_result; [ya_ty]: the type of the output content; [ya_files]: the
    files as they are now; [ya_reads]: the paths read so far. *)
Record yaml : Type := mkYaml {
  ya_cache : option state; ya_ty : ctype; ya_files : string -> loaded; ya_reads : list string }.
Definition ya_with (x : yaml) (c : option state) (r : list string) : yaml := mkYaml c (ya_ty x) (ya_files x) r.
(** [data and isinstance(data, list)]. *)
Definition good_data (is_list : bool) (v : value) : bool :=
  match v, is_list with
  | VList (_ :: _), true => true
  | VDict (_ :: _), false => true
  | _, _ => false
  end.
Definition data_len (v : value) : Z :=
  match v with VList l => Z.of_nat (List.length l) | VDict d => Z.of_nat (List.length d) | _ => 0%Z end.
Definition yaml_outs (is_list : bool) (d : loaded) : list (string * value) * bool :=
  match d with
  | LData v =>
      if good_data is_list v then
        ([("load_success", VBool true); ("load_error_msg", VStr ""); ("content", v)] ++
         (if is_list then [("line_count", VInt (data_len v))] else []), true)
      else ([("load_success", VBool false);
             ("load_error_msg", VStr (if is_list then "Yaml file should be a list" else "Yaml file should be a dict"))], false)
  | LError m => ([("load_success", VBool false); ("load_error_msg", VStr m)], false)
  | LRaise => ([], false)
  end.
(** The cached result is set only if the outputs could be written (147-156): the type of
    the content is checked here. *)
Definition yaml_leaf (is_list : bool) : leafcode yaml := fun o st ins x =>
  match o with
  | OSetup => (ya_with x None (ya_reads x), [], Ok IDLE)
  | OTick =>
      onok (io_any_updated ins ["file_path"]) x (fun u =>
        let x := if u then ya_with x None (ya_reads x) else x in
        match ya_cache x with
        | Some s => (x, [], Ok s)
        | None =>
            onok (io_value_as as_str ins "file_path") x (fun p =>
              let x := ya_with x None (ya_reads x ++ [p]) in
              match ya_files x p with
              | LRaise => (x, [], Raise)
              | d =>
                  let (ws, good) := yaml_outs is_list d in
                  let s := if good then SUCCEEDED else FAILED in
                  match d, good with
                  | LData v, true =>
                      match check (ya_ty x) v with
                      | Ok _ => (ya_with x (Some s) (ya_reads x), ws, Ok s)
                      | _ => (x, ws, Ok s)
                      end
                  | _, _ => (ya_with x (Some s) (ya_reads x), ws, Ok s)
                  end
              end)
        end)
  | OUntick => (x, [], Ok IDLE)
  | OReset => (ya_with x None (ya_reads x), [], Ok IDLE)
  | OShutdown => (x, [], Ok SHUTDOWN)
  end.
(** Files change. *)
Definition yaml_out (x x' : yaml) : Prop :=
  ya_cache x' = ya_cache x /\ ya_ty x' = ya_ty x /\ ya_reads x' = ya_reads x.
Definition yaml_ins : smap :=
  [("file_path", static_of (TPath INT_FLOAT_MAX None)); ("element_type", generic [BBool; BInt; BFloat; BStr; BList; BDict])].
Definition yaml_list_outs : smap :=
  [("load_success", static_of TBool); ("load_error_msg", static_of any_str);
   ("content", ref RefList "element_type"); ("line_count", static_of any_int)].
Definition yaml_dict_outs : smap :=
  [("load_success", static_of TBool); ("load_error_msg", static_of any_str); ("content", ref RefDict "element_type")].
