(** Model of the data containers of
    /repo/ros_bt_py/ros_bt_py/data_types.py.  No proofs in this file. *)
From Coq Require Import List String Ascii ZArith Bool Arith.
From Coq.Floats Require Import SpecFloat.
From Verif Require Import Base.
Import ListNotations.
Local Open Scope bool_scope.

(** Kinds of ROS interface ([is_message], [is_service], [is_action] of
    rosidl_runtime_py.utilities).  data_types.py:1177-1518. *)
Inductive iface : Set := IMsg | ISrv | IAct | INone.

(** Python values that travel through data containers.
    Simplifications: characters are 8-bit; dictionary keys are strings (the
    [str(k)] coercion of DictType.set_value, data_types.py:892, is then the
    identity); [array.array] is a list; ROS messages are opaque, with a type
    name and a payload. *)
Inductive value : Set :=
| VBool (b : bool)
| VInt (z : Z)
| VFloat (f : spec_float)
| VStr (s : string)
| VBytes (s : string)
| VList (l : list value)
| VDict (d : list (string * value))
| VMsg (ty : string) (payload : nat)
| VType (k : iface) (name : string).

(** IEEE double precision.  Python floats. *)
Definition prec : Z := 53.
(** Python floats. *)
Definition emax : Z := 1024.

(** [float(z)] before the overflow check: rounding to nearest even.  Python. *)
Definition float_of_Z (z : Z) : spec_float := binary_normalize prec emax z 0 false.

(** [float(z)]: OverflowError if the integer is too large.  Python. *)
Definition py_float (z : Z) : option spec_float :=
  match float_of_Z z with
  | S754_infinity _ => None
  | f => Some f
  end.

(** [z == f] in Python: exact comparison of an int with a float. *)
Definition Z_eq_float (z : Z) (f : spec_float) : bool :=
  match f with
  | S754_zero _ => Z.eqb z 0
  | S754_finite s m e =>
      let sm := if s then Z.neg m else Z.pos m in
      if Z.leb 0 e then Z.eqb z (sm * 2 ^ e)
      else Z.eqb (z * 2 ^ (- e)) sm
  | _ => false
  end.

(** Python: a bool is an integer. *)
Definition Z_of_bool (b : bool) : Z := if b then 1%Z else 0%Z.

(** Helper; no code of its own. *)
Definition iface_eqb (a b : iface) : bool :=
  match a, b with
  | IMsg, IMsg | ISrv, ISrv | IAct, IAct | INone, INone => true
  | _, _ => false
  end.

(** Python [==] on values (used by DataContainer.set_value, data_types.py:261).
    bool, int and float compare across types. *)
Fixpoint py_eq (a b : value) {struct a} : bool :=
  match a, b with
  | VBool x, VBool y => Bool.eqb x y
  | VBool x, VInt y => Z.eqb (Z_of_bool x) y
  | VInt x, VBool y => Z.eqb x (Z_of_bool y)
  | VInt x, VInt y => Z.eqb x y
  | VBool x, VFloat y => Z_eq_float (Z_of_bool x) y
  | VFloat x, VBool y => Z_eq_float (Z_of_bool y) x
  | VInt x, VFloat y => Z_eq_float x y
  | VFloat x, VInt y => Z_eq_float y x
  | VFloat x, VFloat y => SFeqb x y
  | VStr x, VStr y => String.eqb x y
  | VBytes x, VBytes y => String.eqb x y
  | VList x, VList y =>
      (fix go (l1 l2 : list value) : bool :=
         match l1, l2 with
         | [], [] => true
         | v1 :: r1, v2 :: r2 => py_eq v1 v2 && go r1 r2
         | _, _ => false
         end) x y
  | VDict x, VDict y =>
      Nat.eqb (List.length x) (List.length y) &&
      (fix go (d : list (string * value)) : bool :=
         match d with
         | [] => true
         | (k, v) :: r =>
             match dget k y with
             | Some v' => py_eq v v' && go r
             | None => false
             end
         end) x
  | VMsg t p, VMsg t' p' => String.eqb t t' && Nat.eqb p p'
  | VType k n, VType k' n' => iface_eqb k k' && String.eqb n n'
  | _, _ => false
  end.

(** Builtin types that a GenericType may name (keys of GENERIC_TYPE_MAP,
    data_types.py:926-963). *)
Inductive bty : Set := BBool | BInt | BFloat | BStr | BBytes | BList | BDict | BObject.

(** Flavours of the ROS containers: topic, service, action, and message
    component (data_types.py:1241-1290, 1451-1516). *)
Inductive roskind : Set := RTopic | RService | RAction | RComponent.

(** The class of a container with its type parameters (data_types.py:451-1516).
    [TList]/[TDict] carry the element type and the element's [allow_static]
    flag; the element's [allow_dynamic] and [is_static] are forced to True and
    False (data_types.py:757-759). *)
Inductive ctype : Set :=
| TBool
| TInt (mn mx : Z)
| TFloat (mn mx : spec_float)
| TStr (maxlen : Z) (valid : option (list string))
| TPath (maxlen : Z) (valid : option (list string))
| TBytes (maxlen : Z) (valid : option (list string))
| TList (elt : ctype) (elt_static_ok : bool) (maxlen : Z) (strict : bool)
| TDict (elt : ctype) (elt_static_ok : bool) (maxlen : Z) (strict : bool)
| TGeneric (valid : list bty)
| TRosName (k : roskind) (iid : Z)
| TRosMsg (mt : string) (iid : Z)
| TRosType (k : roskind) (iid : Z).

(** A DataContainer object (data_types.py:65-127). *)
Record container : Set := mkC {
  c_ty : ctype;
  c_dyn : bool;      (* allow_dynamic *)
  c_sta : bool;      (* allow_static *)
  c_static : bool;   (* is_static *)
  c_val : option value;
  c_upd : bool       (* _updated *)
}.

(** Constants of NodeDataType and helpers (helpers.py:64-94). *)
Definition INT64_MIN : Z := - 2 ^ 63.
Definition INT64_MAX : Z := 2 ^ 63 - 1.
Definition UINT64_MAX : Z := 2 ^ 64 - 1.
Definition INT_FLOAT_MAX : Z := 2 ^ 64 - 1616.
(** 1.7976931348623157e308, the largest finite double. *)
Definition DBL_MAX : spec_float := S754_finite false 9007199254740991 971.
Definition DBL_MIN : spec_float := S754_finite true 9007199254740991 971.
(** The literal 1.2 as a double. *)
Definition FLOAT_1_2 : spec_float := S754_finite false 5404319552844595 (-52).

(** ---- Type identifiers
    (/repo/ros_bt_py_interfaces/msg/NodeDataType.msg:29-44, 77-81) ---- *)
Definition ID_BOOL : Z := 1.
Definition ID_INT : Z := 2.
Definition ID_FLOAT : Z := 3.
Definition ID_STRING : Z := 4.
Definition ID_LIST : Z := 5.
Definition ID_DICT : Z := 6.
Definition ID_BYTES : Z := 7.
Definition ID_PATH : Z := 8.
Definition ID_GENERIC : Z := 9.
Definition ID_ROSNAME : Z := 10.
Definition ID_ROSTYPE : Z := 11.
Definition ID_ROSVALUE : Z := 12.

(** The interface_kind of RosContainer (data_types.py:1177-1276). *)
Definition ros_kind_id (k : roskind) : Z :=
  match k with RTopic => 1 | RService => 2 | RAction => 3 | RComponent => 4 end.

(** data_types.py:923. *)
Definition IDENTIFIER_KEY : string := "type_identifier".
(** data_types.py:924. *)
Definition ELEMENT_KEY : string := "element_type".
(** data_types.py:925. *)
Definition MESSAGE_KEY : string := "ros_msg_type".

(** GENERIC_TYPE_MAP (data_types.py:926-963). *)
Definition generic_map (b : bty) : list (string * value) :=
  match b with
  | BBool => [(IDENTIFIER_KEY, VInt ID_BOOL)]
  | BInt => [(IDENTIFIER_KEY, VInt ID_INT); ("min_value"%string, VInt INT64_MIN);
             ("max_value"%string, VInt INT64_MAX)]
  | BFloat => [(IDENTIFIER_KEY, VInt ID_FLOAT); ("min_value"%string, VFloat DBL_MIN);
               ("max_value"%string, VFloat DBL_MAX)]
  | BStr => [(IDENTIFIER_KEY, VInt ID_STRING); ("max_length"%string, VInt INT_FLOAT_MAX)]
  | BBytes => [(IDENTIFIER_KEY, VInt ID_BYTES); ("max_length"%string, VInt 1)]
  | BList => [(IDENTIFIER_KEY, VInt ID_LIST); ("max_length"%string, VInt INT_FLOAT_MAX);
              ("strict_length"%string, VBool false);
              (ELEMENT_KEY, VDict [(IDENTIFIER_KEY, VInt ID_BOOL)])]
  | BDict => [(IDENTIFIER_KEY, VInt ID_DICT); ("max_length"%string, VInt INT_FLOAT_MAX);
              ("strict_length"%string, VBool false);
              (ELEMENT_KEY, VDict [(IDENTIFIER_KEY, VInt ID_BOOL)])]
  | BObject => [(IDENTIFIER_KEY, VInt ID_ROSVALUE);
                (MESSAGE_KEY, VStr "example_interfaces/msg/Empty")]
  end.

(** [d.keys() == e.keys()]: equality as sets of keys.  Python. *)
Definition keys_eq {A B} (d : list (string * A)) (e : list (string * B)) : bool :=
  forallb (fun kv => match dget (fst kv) e with Some _ => true | None => false end) d &&
  forallb (fun kv => match dget (fst kv) d with Some _ => true | None => false end) e.

(** match_dict_to_valid_types (data_types.py:966-977): the first option with the
    same identifier decides.  [value[KEY]] on a missing key is a KeyError, and
    a nested element that is no dictionary a TypeError: [Raise]. *)
Fixpoint match_generic (v : value) (valid : list bty) {struct v} : res unit :=
  match v with
  | VDict d =>
      match dget IDENTIFIER_KEY d with
      | None => match valid with [] => Err EData | _ => Raise end
      | Some idv =>
          match find (fun o => match dget IDENTIFIER_KEY (generic_map o) with
                               | Some i => py_eq i idv | None => false end) valid with
          | None => Err EData
          | Some o =>
              if keys_eq (generic_map o) d then
                (fix find_elt (l : list (string * value)) : res unit :=
                   match l with
                   | [] => Ok tt
                   | (k, x) :: r =>
                       if String.eqb ELEMENT_KEY k then match_generic x valid else find_elt r
                   end) d
              else Err EData
          end
      end
  | _ => match valid with [] => Err EData | _ => Raise end
  end.

(** Membership in [valid_values] (data_types.py:637-641). *)
Definition str_in (s : string) (l : list string) : bool := existsb (String.eqb s) l.

(** Python: len(). *)
Definition zlen (s : string) : Z := Z.of_nat (String.length s).

(** The checks of StringContainer.set_value on a [str] (data_types.py:633-642). *)
Definition str_check (maxlen : Z) (valid : option (list string)) (s : string) : bool :=
  Z.leb (zlen s) maxlen &&
  match valid with None => true | Some l => str_in s l end.

(** PathType.set_value's prefix test (data_types.py:690). *)
Definition is_uri (s : string) : bool := prefix "file://" s || prefix "package://" s.

(** RosTypeContainer._validate (data_types.py:1464-1516). *)
Definition ros_validate (k : roskind) (i : iface) : bool :=
  match k with
  | RTopic | RComponent => iface_eqb i IMsg
  | RService => iface_eqb i ISrv
  | RAction => iface_eqb i IAct
  end.

(** IterableContainer.set_value's length test (data_types.py:826-835). *)
Definition len_check (n maxlen : Z) (strict : bool) : bool :=
  Z.leb n maxlen && negb (strict && Z.ltb n maxlen).

(** What [set_value] of each class does to its argument before the common
    DataContainer.set_value: [Ok v'] is the value handed on, [Err] the refusal,
    [Raise] a typeguard or Overflow error.
    bool 445-448; int 516-521; float 587-591; string 633-642; path 688-692;
    list 848-858; dict 890-899; generic 1136-1145; names 445-448;
    message 1334-1339; type 1420-1424. *)
Fixpoint check (t : ctype) (v : value) {struct t} : res value :=
  match t with
  | TBool => match v with VBool _ => Ok v | _ => Err EData end
  | TInt mn mx =>
      match v with
      | VInt z => if Z.ltb z mn then Err EData else if Z.ltb mx z then Err EData else Ok v
      | VBool b =>
          let z := Z_of_bool b in
          if Z.ltb z mn then Err EData else if Z.ltb mx z then Err EData else Ok v
      | VFloat _ => Err EData
      | _ => Raise
      end
  | TFloat mn mx =>
      match (match v with
             | VFloat f => Ok f
             | VInt z => match py_float z with Some f => Ok f | None => Raise end
             | VBool b => Ok (float_of_Z (Z_of_bool b))
             | _ => Raise
             end) with
      | Ok f => if SFltb f mn then Err EData else if SFltb mx f then Err EData
                else Ok (VFloat f)
      | Err e => Err e
      | Raise => Raise
      end
  | TStr ml va =>
      match v with
      | VStr s => if str_check ml va s then Ok v else Err EData
      | VBytes _ => Err EData
      | _ => Raise
      end
  | TPath ml va =>
      match v with
      | VStr s => if is_uri s then if str_check ml va s then Ok v else Err EData
                  else Err EData
      | _ => Raise
      end
  | TBytes ml va =>
      match v with
      | VBytes s => if Z.leb (zlen s) ml then
                      match va with None => Ok v | Some _ => Err EData end
                    else Err EData
      | VStr _ => Err EData
      | _ => Raise
      end
  | TList elt _ ml strict =>
      match v with
      | VList l =>
          match (fix go (l : list value) : res unit :=
                   match l with
                   | [] => Ok tt
                   | x :: r => match check elt x with
                               | Ok _ => go r
                               | Err e => Err e
                               | Raise => Raise
                               end
                   end) l with
          | Ok _ => if len_check (Z.of_nat (List.length l)) ml strict then Ok v else Err EData
          | Err e => Err e
          | Raise => Raise
          end
      | _ => Raise
      end
  | TDict elt _ ml strict =>
      match v with
      | VDict d =>
          match (fix go (l : list (string * value)) : res unit :=
                   match l with
                   | [] => Ok tt
                   | (_, x) :: r => match check elt x with
                               | Ok _ => go r
                               | Err e => Err e
                               | Raise => Raise
                               end
                   end) d with
          | Ok _ => if len_check (Z.of_nat (List.length d)) ml strict then Ok v else Err EData
          | Err e => Err e
          | Raise => Raise
          end
      | _ => Raise
      end
  | TGeneric valid =>
      match v with
      | VDict d =>
          match dget IDENTIFIER_KEY d with
          | None => Err EData
          | Some _ => match match_generic v valid with
                      | Ok _ => Ok v
                      | Err e => Err e
                      | Raise => Raise
                      end
          end
      | _ => Raise
      end
  | TRosName _ _ => match v with VStr _ => Ok v | _ => Err EData end
  | TRosMsg mt _ =>
      match v with VMsg t _ => if String.eqb t mt then Ok v else Err EData
                 | _ => Err EData end
  | TRosType k _ =>
      match v with VType i _ => if ros_validate k i then Ok v else Err EData
                 | _ => Raise end
  end.

(** [self._value != value] (data_types.py:261). *)
Definition changed (old : option value) (v : value) : bool :=
  match old with None => true | Some o => negb (py_eq o v) end.

(** DataContainer.set_value (data_types.py:248-269). *)
Definition base_set (c : container) (v : value) : container * res unit :=
  if c_static c && c_upd c then (c, Err EData)
  else
    let ch := changed (c_val c) v in
    (mkC (c_ty c) (c_dyn c) (c_sta c) (c_static c)
         (if ch then Some v else c_val c) ch, Ok tt).

(** [container.set_value(v)].  GenericType ignores the result of
    [super().set_value] (data_types.py:1144-1145). *)
Definition set_value (c : container) (v : value) : container * res unit :=
  match check (c_ty c) v with
  | Ok v' =>
      match c_ty c with
      | TGeneric _ => (fst (base_set c v'), Ok tt)
      | _ => base_set c v'
      end
  | Err e => (c, Err e)
  | Raise => (c, Raise)
  end.

(** has_value, get_value (data_types.py:245-246, 271-279). *)
Definition has_value (c : container) : bool :=
  match c_val c with Some _ => true | None => false end.

(** reset_value (data_types.py:297-299). *)
Definition reset_value (c : container) : container :=
  mkC (c_ty c) (c_dyn c) (c_sta c) (c_static c)
      (if c_static c then c_val c else None) (c_upd c).

(** flag_updated, reset_updated (data_types.py:304-314). *)
Definition flag_updated (c : container) : container :=
  mkC (c_ty c) (c_dyn c) (c_sta c) (c_static c) (c_val c) true.
Definition reset_updated (c : container) : container :=
  mkC (c_ty c) (c_dyn c) (c_sta c) (c_static c) (c_val c) false.

(** [isinstance(value, T)] of get_value_as (data_types.py:281-295), for the types
    node code asks for; bool is a subclass of int. *)
Definition as_int (v : value) : option Z :=
  match v with VInt z => Some z | VBool b => Some (Z_of_bool b) | _ => None end.
Definition as_bool (v : value) : option bool := match v with VBool b => Some b | _ => None end.
Definition as_float (v : value) : option spec_float :=
  match v with VFloat f => Some f | _ => None end.
Definition as_str (v : value) : option string := match v with VStr s => Some s | _ => None end.
Definition as_list (v : value) : option (list value) :=
  match v with VList l => Some l | _ => None end.
Definition as_dict (v : value) : option (list (string * value)) :=
  match v with VDict d => Some d | _ => None end.

(** ---- Constructors and default values ---- *)

(** The class attribute (or constructor) default of [_value]
    (data_types.py:459, 549, 573, 675, 686, 707, 846, 888, 1115, 1248, 1303,
    1462, 1477, 1492, 1511). *)
Definition class_default (t : ctype) : option value :=
  match t with
  | TBool => Some (VBool false)
  | TInt _ _ => Some (VInt 0)
  | TFloat _ _ => Some (VFloat FLOAT_1_2)
  | TStr _ _ | TPath _ _ => Some (VStr "")
  | TBytes _ _ => Some (VBytes (String (ascii_of_nat 0) EmptyString))
  | TList _ _ _ _ => Some (VList [])
  | TDict _ _ _ _ => Some (VDict [])
  | TGeneric (b :: _) => Some (VDict (generic_map b))
  | TGeneric [] => None
  | TRosName _ _ => Some (VStr "/foo")
  | TRosMsg mt _ => Some (VMsg mt 0)
  | TRosType (RTopic | RComponent) _ => Some (VType IMsg "std_msgs/msg/Empty")
  | TRosType RService _ => Some (VType ISrv "std_srvs/srv/Trigger")
  | TRosType RAction _ => Some (VType IAct "example_interfaces/action/Fibonacci")
  end.

(** TypeContainerMixin classes, which refuse [allow_dynamic=True]
    (data_types.py:401-426). *)
Definition is_type_container (t : ctype) : bool :=
  match t with TGeneric _ | TRosType _ _ => true | _ => false end.

(** Parameter checks of the constructors: min > max (data_types.py:501-504),
    and an empty GenericType list, [valid_types[0]] (1115). *)
Definition params_ok (t : ctype) : bool :=
  match t with
  | TInt mn mx => Z.leb mn mx
  | TFloat mn mx => negb (SFltb mx mn)
  | TGeneric [] => false
  | _ => true
  end.

(** Adjustment of the automatic default of static numeric containers
    (data_types.py:508-513). *)
Definition adjust_default (t : ctype) (v : option value) : option value :=
  match t with
  | TInt mn mx =>
      let v := if Z.ltb 0 mn then Some (VInt mn) else v in
      if Z.ltb mx 0 then Some (VInt mx) else v
  | TFloat mn mx =>
      let v := if SFltb (S754_zero false) mn then Some (VFloat mn) else v in
      if SFltb mx (S754_zero false) then Some (VFloat mx) else v
  | _ => v
  end.

(** Construction of a container: DataContainer.__init__ (data_types.py:84-127)
    with the subclass constructors (409-426, 490-513, 608-619, 744-766,
    1104-1116).  [None] is a raised RuntimeError or ValueError. *)
Definition construct (t : ctype) (dyn sta : bool) (is_static : option bool)
    (v : option value) : option container :=
  if negb (params_ok t) then None else
  if is_type_container t && dyn then None else
  if negb dyn && negb sta then None else
  let st := match is_static with None => sta | Some b => b end in
  if st && negb sta then None else
  if negb st && negb dyn then None else
  let c0 := mkC t dyn sta st (class_default t) false in
  match (match v with
         | None => Some c0
         | Some x => match set_value c0 x with
                     | (c1, Ok _) => Some c1
                     | _ => None
                     end
         end) with
  | None => None
  | Some c1 =>
      Some (if st && negb (c_upd c1)
            then mkC t dyn sta st (adjust_default t (c_val c1)) (c_upd c1)
            else c1)
  end.

(** ---- Compatibility (data_types.py:189-213, 523-532, 644-657, 797-809,
    1147-1155, 1227-1232, 1320-1327) ---- *)

(** Helper; no code of its own. *)
Definition bty_eqb (a b : bty) : bool :=
  match a, b with
  | BBool, BBool | BInt, BInt | BFloat, BFloat | BStr, BStr | BBytes, BBytes
  | BList, BList | BDict, BDict | BObject, BObject => true
  | _, _ => false
  end.

(** Helper; no code of its own. *)
Definition roskind_eqb (a b : roskind) : bool := Z.eqb (ros_kind_id a) (ros_kind_id b).

(** StringContainer.is_compatible (data_types.py:649-657). *)
Definition str_compat (ml1 : Z) (va1 : option (list string))
    (ml2 : Z) (va2 : option (list string)) : bool :=
  Z.leb ml2 ml1 &&
  match va1 with
  | None => true
  | Some l1 => match va2 with
               | None => false
               | Some l2 => forallb (fun x => str_in x l2) l1
               end
  end.

(** IterableContainer.is_compatible (data_types.py:802-808), lengths only. *)
Definition len_compat (ml1 : Z) (st1 : bool) (ml2 : Z) (st2 : bool) : bool :=
  Z.leb ml2 ml1 && (negb st1 || (st2 && Z.eqb ml2 ml1)).

(** [self.is_compatible(other)] for the type parameters.
    data_types.py:466-470, 523-532, 644-657, 797-809, 1147-1155, 1227-1232, 1320-1327. *)
Fixpoint ty_compat (a b : ctype) {struct a} : bool :=
  match a, b with
  | TBool, TBool => true
  | TInt mn1 mx1, TInt mn2 mx2 => negb (Z.ltb mn2 mn1) && negb (Z.ltb mx1 mx2)
  | TFloat mn1 mx1, TFloat mn2 mx2 => negb (SFltb mn2 mn1) && negb (SFltb mx1 mx2)
  | TStr m1 v1, TStr m2 v2 => str_compat m1 v1 m2 v2
  | TPath m1 v1, TPath m2 v2 => str_compat m1 v1 m2 v2
  | TBytes m1 v1, TBytes m2 v2 => str_compat m1 v1 m2 v2
  | TList e1 s1 m1 st1, TList e2 s2 m2 st2 =>
      len_compat m1 st1 m2 st2 && (negb s1 || s2) && ty_compat e1 e2
  | TDict e1 s1 m1 st1, TDict e2 s2 m2 st2 =>
      len_compat m1 st1 m2 st2 && (negb s1 || s2) && ty_compat e1 e2
  | TGeneric l1, TGeneric l2 => forallb (fun x => existsb (bty_eqb x) l1) l2
  | TRosName k1 i1, TRosName k2 i2 => roskind_eqb k1 k2 && Z.eqb i1 i2
  | TRosMsg t1 i1, TRosMsg t2 i2 => Z.eqb i1 i2 && String.eqb t2 t1
  | TRosType k1 i1, TRosType k2 i2 => roskind_eqb k1 k2 && Z.eqb i1 i2
  | _, _ => false
  end.

(** [self.is_compatible(other)].  data_types.py:191-214 and the overrides above. *)
Definition is_compatible (a b : container) : bool :=
  (negb (c_dyn a) || c_dyn b) && (negb (c_sta a) || c_sta b) &&
  ty_compat (c_ty a) (c_ty b).

(** ---- NodeDataType messages ---- *)

(** Bounds of numeric types.  The message carries [str(min)]; decimal printing
    and parsing of int and float are taken to be inverse to each other.  data_types.py:534-540. *)
Inductive num : Set := NInt (z : Z) | NFloat (f : spec_float).

(** NodeDataType (/repo/ros_bt_py_interfaces/msg/NodeDataType.msg:46-96).
    [m_opts] is serialized_value_options for string types, [m_types] the same
    field as used by GenericType (a JSON text naming a builtin type). *)
Record tmsg : Set := mkT {
  m_id : Z;
  m_dyn : bool; m_sta : bool; m_static : bool;
  m_vids : list Z;                (* value_type_identifier *)
  m_lens : list Z;                (* iterable_max_length *)
  m_stricts : list bool;          (* iterable_strict_length *)
  m_min : option num; m_max : option num;
  m_strlen : Z;                   (* string_max_length *)
  m_opts : list string;
  m_types : list bty;
  m_kind : Z;                     (* ros_interface_kind *)
  m_iid : Z;                      (* interface_id *)
  m_msgtype : string              (* ros_msg_type *)
}.

(** A NodeDataType with only the DataContainer fields (data_types.py:216-227). *)
Definition msg_base (id : Z) (dyn sta static : bool) : tmsg :=
  mkT id dyn sta static [] [] [] None None 0 [] [] 0 0 "".

(** Type identifier of a class.  data_types.py:216-233. *)
Definition type_id (t : ctype) : Z :=
  match t with
  | TBool => ID_BOOL | TInt _ _ => ID_INT | TFloat _ _ => ID_FLOAT
  | TStr _ _ => ID_STRING | TPath _ _ => ID_PATH | TBytes _ _ => ID_BYTES
  | TList _ _ _ _ => ID_LIST | TDict _ _ _ _ => ID_DICT
  | TGeneric _ => ID_GENERIC
  | TRosName _ _ => ID_ROSNAME | TRosMsg _ _ => ID_ROSVALUE | TRosType _ _ => ID_ROSTYPE
  end.

(** data_types.py:534-540. *)
Definition msg_num (m : tmsg) (a b : num) : tmsg :=
  mkT (m_id m) (m_dyn m) (m_sta m) (m_static m) (m_vids m) (m_lens m) (m_stricts m)
      (Some a) (Some b) (m_strlen m) (m_opts m) (m_types m) (m_kind m) (m_iid m) (m_msgtype m).
(** data_types.py:659-666. *)
Definition msg_str (m : tmsg) (n : Z) (o : list string) : tmsg :=
  mkT (m_id m) (m_dyn m) (m_sta m) (m_static m) (m_vids m) (m_lens m) (m_stricts m)
      (m_min m) (m_max m) n o (m_types m) (m_kind m) (m_iid m) (m_msgtype m).
(** data_types.py:1157-1175. *)
Definition msg_types (m : tmsg) (l : list bty) : tmsg :=
  mkT (m_id m) (m_dyn m) (m_sta m) (m_static m) (m_vids m) (m_lens m) (m_stricts m)
      (m_min m) (m_max m) (m_strlen m) (m_opts m) l (m_kind m) (m_iid m) (m_msgtype m).
(** data_types.py:1234-1239, 1329-1388. *)
Definition msg_ros (m : tmsg) (k i : Z) (t : string) : tmsg :=
  mkT (m_id m) (m_dyn m) (m_sta m) (m_static m) (m_vids m) (m_lens m) (m_stricts m)
      (m_min m) (m_max m) (m_strlen m) (m_opts m) (m_types m) k i t.

(** serialize_type (data_types.py:215-227, 534-538, 659-664, 811-822, 1157-1160,
    1234-1238, 1329-1332).  For iterables the element's message is overlaid:
    identifier and lengths are appended at the end. *)
Fixpoint ser_type (t : ctype) (dyn sta static : bool) {struct t} : tmsg :=
  let b := msg_base (type_id t) dyn sta static in
  let iter := fun (elt : ctype) (esta : bool) (ml : Z) (strict : bool) =>
    let i := ser_type elt true esta false in
    mkT (type_id t) dyn sta static
        (m_vids i ++ [m_id i]) (m_lens i ++ [ml]) (m_stricts i ++ [strict])
        (m_min i) (m_max i) (m_strlen i) (m_opts i) (m_types i) (m_kind i) (m_iid i)
        (m_msgtype i) in
  match t with
  | TBool => b
  | TInt mn mx => msg_num b (NInt mn) (NInt mx)
  | TFloat mn mx => msg_num b (NFloat mn) (NFloat mx)
  | TStr ml va | TPath ml va | TBytes ml va =>
      msg_str b ml (match va with None => [] | Some l => l end)
  | TList elt esta ml strict => iter elt esta ml strict
  | TDict elt esta ml strict => iter elt esta ml strict
  | TGeneric l => msg_types b l
  | TRosName k i => msg_ros b (ros_kind_id k) i ""
  | TRosMsg mt i => msg_ros b (ros_kind_id RTopic) i mt
  | TRosType k i => msg_ros b (ros_kind_id k) i ""
  end.

(** data_types.py:216-233 and the overrides above. *)
Definition serialize_type (c : container) : tmsg :=
  ser_type (c_ty c) (c_dyn c) (c_sta c) (c_static c).

(** get_iotype_for_msg (data_types.py:383-395). *)
Definition kind_of_id (z : Z) : option roskind :=
  if Z.eqb z 1 then Some RTopic else if Z.eqb z 2 then Some RService
  else if Z.eqb z 3 then Some RAction else if Z.eqb z 4 then Some RComponent else None.

(** _dict_from_msg of the string classes (data_types.py:622-631). *)
Definition opts_of (m : tmsg) : option (list string) :=
  match m_opts m with [] => None | l => Some l end.

(** The type parameters read from a message: get_iotype_for_msg
    (data_types.py:383-395) over the _dict_from_msg methods (461-464, 553-562,
    576-585, 621-631, 768-795, 1118-1134, 1206-1225, 1306-1318).
    [vids] etc. are consumed from the front (784-787).  [None]: no class
    accepts the message, or its constructor raises (min > max; a type
    container nested in a dynamic iterable). *)
Fixpoint read_type (vids lens : list Z) (stricts : list bool) (m : tmsg) (id : Z)
    {struct vids} : option ctype :=
  let iter := fun (mk : ctype -> bool -> Z -> bool -> ctype) =>
    match vids, lens, stricts with
    | v :: vids', ml :: lens', st :: stricts' =>
        match read_type vids' lens' stricts' m v with
        | Some e => if is_type_container e && m_dyn m then None
                    else Some (mk e (m_sta m) ml st)
        | None => None
        end
    | _, _, _ => None
    end in
  let checked := fun t => if params_ok t then Some t else None in
  if Z.eqb id ID_BOOL then Some TBool
  else if Z.eqb id ID_INT then
    match m_min m, m_max m with
    | Some (NInt a), Some (NInt b) => checked (TInt a b) | _, _ => None end
  else if Z.eqb id ID_FLOAT then
    match m_min m, m_max m with
    | Some (NFloat a), Some (NFloat b) => checked (TFloat a b) | _, _ => None end
  else if Z.eqb id ID_STRING then Some (TStr (m_strlen m) (opts_of m))
  else if Z.eqb id ID_PATH then Some (TPath (m_strlen m) (opts_of m))
  else if Z.eqb id ID_BYTES then Some (TBytes (m_strlen m) (opts_of m))
  else if Z.eqb id ID_LIST then iter TList
  else if Z.eqb id ID_DICT then iter TDict
  else if Z.eqb id ID_GENERIC then checked (TGeneric (m_types m))
  else if Z.eqb id ID_ROSNAME then
    match kind_of_id (m_kind m) with
    | Some RComponent | None => None
    | Some k => Some (TRosName k (m_iid m)) end
  else if Z.eqb id ID_ROSTYPE then
    match kind_of_id (m_kind m) with
    | Some k => Some (TRosType k (m_iid m)) | None => None end
  else if Z.eqb id ID_ROSVALUE then
    if Z.eqb (m_kind m) 1 then Some (TRosMsg (m_msgtype m) (m_iid m)) else None
  else None.

(** from_msg / get_iotype_for_msg (data_types.py:165-187, 383-395). *)
Definition from_msg (m : tmsg) : option container :=
  match read_type (m_vids m) (m_lens m) (m_stricts m) m (m_id m) with
  | Some t => construct t (m_dyn m) (m_sta m) (Some (m_static m)) None
  | None => None
  end.

(** get_runtime_type (data_types.py:229-243): [is_static] decides the two
    [allow_*] flags. *)
Definition runtime_type (c : container) : container :=
  let m := serialize_type c in
  let m' := mkT (m_id m) (negb (m_static m)) (m_static m) (m_static m) (m_vids m) (m_lens m)
                (m_stricts m) (m_min m) (m_max m) (m_strlen m) (m_opts m) (m_types m)
                (m_kind m) (m_iid m) (m_msgtype m) in
  match from_msg m' with Some c' => c' | None => c end.
