(** Model of how values are turned into texts and back: serialize_value and
    deserialize_value with the _serialize_value and _deserialize_value methods of the
    containers (/repo/ros_bt_py/ros_bt_py/data_types.py:316-360, 712-721, 860-876, 901-917,
    1034-1076, 1162-1166, 1341-1388, 1426-1440).  No proofs in this file.

    The type checks of the decorator typechecked are part of the model where they can
    fail: they raise TypeCheckError. *)
From Coq Require Import String Ascii ZArith Bool Arith List.
From Coq.Floats Require Import SpecFloat.
From Verif Require Import Base ModelData.
From Verif Require ModelFields.
Import ListNotations.
Local Open Scope string_scope.

(** ---- Texts ---- *)

(** What json.dumps prints and json.loads reads.  Simplification: the text is represented
    by the tree it is printed from.  json.dumps prints different trees differently, 0.0,
    -0.0, 0 and false are different trees, and json.loads gives the tree back.  Python: json. *)
Inductive json : Set :=
| JBool (b : bool) | JInt (z : Z) | JFloat (f : spec_float) | JStr (s : string)
| JList (l : list json) | JDict (d : list (string * json)).

(** The values json.dumps understands, [default=lambda _: ""] for the others
    (data_types.py:328-332). *)
Fixpoint raw (v : value) : json :=
  match v with
  | VBool b => JBool b
  | VInt z => JInt z
  | VFloat f => JFloat f
  | VStr s => JStr s
  | VList l => JList (map raw l)
  | VDict d => JDict (map (fun kv => (fst kv, raw (snd kv))) d)
  | VBytes _ | VMsg _ _ | VType _ _ => JStr ""
  end.

(** The Python value json.loads gives. *)
Fixpoint parsed (j : json) : value :=
  match j with
  | JBool b => VBool b
  | JInt z => VInt z
  | JFloat f => VFloat f
  | JStr s => VStr s
  | JList l => VList (map parsed l)
  | JDict d => VDict (map (fun kv => (fst kv, parsed (snd kv))) d)
  end.

(** bytes.hex (713). *)
Definition hex_digit (n : nat) : ascii := nth n (list_ascii_of_string "0123456789abcdef") "0"%char.
Fixpoint hex (s : string) : string :=
  match s with
  | EmptyString => ""
  | String c r => String (hex_digit (nat_of_ascii c / 16)) (String (hex_digit (nat_of_ascii c mod 16)) (hex r))
  end.
(** bytes.fromhex (718); [None] is ValueError.  Simplification: blanks between bytes, which
    fromhex skips, are refused; hex writes none. *)
Definition digit_value (c : ascii) : option nat :=
  let n := nat_of_ascii c in
  if (48 <=? n)%nat && (n <=? 57)%nat then Some (n - 48)
  else if (97 <=? n)%nat && (n <=? 102)%nat then Some (n - 87)
  else if (65 <=? n)%nat && (n <=? 70)%nat then Some (n - 55)
  else None.
Fixpoint fromhex (s : string) : option string :=
  match s with
  | EmptyString => Some ""
  | String a (String b r) =>
      match digit_value a, digit_value b, fromhex r with
      | Some x, Some y, Some t => Some (String (ascii_of_nat (x * 16 + y)) t)
      | _, _, _ => None
      end
  | String _ EmptyString => None
  end.

(** ---- What is outside of the code ---- *)

Record ros : Type := mkRos {
  r_class : string -> option ModelFields.msgtype;   (* the class with a name *)
  r_get_message : string -> option string;          (* rosidl_runtime_py.utilities.get_message *)
  r_attrs : string -> nat -> ModelFields.attrs;     (* the attributes of a message object *)
  r_object : string -> ModelFields.attrs -> nat;    (* the object of a class with these attributes *)
  r_name : iface -> string -> string;               (* get_interface_name (ros_helpers.py:63-75) *)
  r_find : string -> res value;                     (* get_interface; Err is ValueError *)
  r_str : value -> string;                          (* str(v) *)
  r_int : value -> option value;                    (* int(v); None: it raises *)
  r_float : value -> option value                   (* float(v) *)
}.

Section Ros.
Variable r : ros.

(** ---- Type descriptions, the values of GenericType ---- *)

(** serialize_type_map_value (1034-1047). *)
Fixpoint gen_ser (v : value) : res json :=
  match v with
  | VDict d =>
      match (fix go (l : list (string * value)) : res (list (string * json)) :=
               match l with
               | [] => Ok []
               | (k, x) :: t =>
                   match (if String.eqb k "min_value" || String.eqb k "max_value" then Ok (JStr (r_str r x))
                          else if String.eqb k ELEMENT_KEY then gen_ser x else Ok (raw x)) with
                   | Ok j => match go t with Ok js => Ok ((k, j) :: js) | Err e => Err e | Raise => Raise end
                   | Err e => Err e
                   | Raise => Raise
                   end
               end) d with
      | Ok js => Ok (JDict js)
      | Err e => Err e
      | Raise => Raise
      end
  | _ => Raise
  end.

(** deserialize_type_map_value (1050-1076): the converter, and the entries. *)
Definition converter (idj : json) : option (value -> option value) :=
  if py_eq (parsed idj) (VInt ID_INT) then Some (r_int r)
  else if py_eq (parsed idj) (VInt ID_FLOAT) then Some (r_float r)
  else None.
Fixpoint gen_deser (j : json) : res value :=
  match j with
  | JDict d =>
      match dget IDENTIFIER_KEY d with
      | None => Raise
      | Some idj =>
          match (fix go (l : list (string * json)) : res (list (string * value)) :=
                   match l with
                   | [] => Ok []
                   | (k, x) :: t =>
                       match (match converter idj with
                              | Some conv =>
                                  if String.eqb k "min_value" || String.eqb k "max_value"
                                  then match conv (parsed x) with Some v => Ok v | None => Raise end
                                  else Ok (parsed x)
                              | None => if String.eqb k ELEMENT_KEY then gen_deser x else Ok (parsed x)
                              end) with
                       | Ok v => match go t with Ok vs => Ok ((k, v) :: vs) | Err e => Err e | Raise => Raise end
                       | Err e => Err e
                       | Raise => Raise
                       end
                   end) d with
          | Ok vs => Ok (VDict vs)
          | Err e => Err e
          | Raise => Raise
          end
      end
  | _ => Raise
  end.

(** ---- Messages ---- *)

(** RosMessageType.get_element_fields (1376-1388). *)
Fixpoint element_fields (l : list (string * string)) : res (list (string * ctype)) :=
  match l with
  | [] => Ok []
  | (f, ft) :: t =>
      match ModelFields.get_message_field_io_type (r_get_message r) ft with
      | Ok c => match element_fields t with Ok cs => Ok ((f, c_ty c) :: cs) | Err e => Err e | Raise => Raise end
      | Err e => Err e
      | Raise => Raise
      end
  end.

(** ---- _serialize_value ---- *)

(** Helper; no code of its own. *)
Definition is_text (j : json) : bool := match j with JStr _ => true | _ => false end.

(** All classes: 334-341; bytes 712-713; list 860-865; dict 901-906; generic 1162-1163;
    message 1341-1352; type 1426-1428.  [o] is a value or an attribute of a message: lists
    must be lists, no array.array and no numpy.ndarray (861).  The result of DictType is
    declared as [dict[str, str]] (902), which is checked for the first entry.  [fuel]: the
    depth to which Python's stack allows messages in messages; beyond, RecursionError. *)
Fixpoint ser (fuel : nat) : ctype -> ModelFields.pyobj -> res json :=
  fix on_type (t : ctype) (o : ModelFields.pyobj) {struct t} : res json :=
    match t, o with
    | TBytes _ _, ModelFields.PVal (VBytes s) => Ok (JStr (hex s))
    | TBytes _ _, _ => Raise
    | TList elt _ _ _, ModelFields.PVal (VList l) =>
        match (fix go (l : list value) : res (list json) :=
                 match l with
                 | [] => Ok []
                 | x :: q => match on_type elt (ModelFields.PVal x) with
                             | Ok j => match go q with Ok js => Ok (j :: js) | Err e => Err e | Raise => Raise end
                             | Err e => Err e
                             | Raise => Raise
                             end
                 end) l with
        | Ok js => Ok (JList js)
        | Err e => Err e
        | Raise => Raise
        end
    | TList _ _ _ _, _ => Raise
    | TDict elt _ _ _, ModelFields.PVal (VDict d) =>
        match (fix go (l : list (string * value)) : res (list (string * json)) :=
                 match l with
                 | [] => Ok []
                 | (k, x) :: q => match on_type elt (ModelFields.PVal x) with
                             | Ok j => match go q with Ok js => Ok ((k, j) :: js) | Err e => Err e | Raise => Raise end
                             | Err e => Err e
                             | Raise => Raise
                             end
                 end) d with
        | Ok js => match js with
                   | [] => Ok (JDict js)
                   | (_, j) :: _ => if is_text j then Ok (JDict js) else Raise
                   end
        | Err e => Err e
        | Raise => Raise
        end
    | TDict _ _ _ _, _ => Raise
    | TGeneric _, ModelFields.PVal v => gen_ser v
    | TGeneric _, _ => Raise
    | TRosMsg m _, ModelFields.PVal (VMsg c n) =>
        match fuel with
        | O => Raise
        | S k =>
            match r_class r m with
            | None => Raise
            | Some mt =>
                match element_fields (ModelFields.mt_fields mt) with
                | Ok fs =>
                    match (fix go (l : list (string * ctype)) : res (list (string * json)) :=
                             match l with
                             | [] => Ok []
                             | (f, ft) :: q =>
                                 match dget f (r_attrs r c n) with
                                 | Some a => match ser k ft a with
                                             | Ok j => match go q with Ok js => Ok ((f, j) :: js) | Err e => Err e | Raise => Raise end
                                             | Err e => Err e
                                             | Raise => Raise
                                             end
                                 | None => Raise
                                 end
                             end) fs with
                    | Ok js => Ok (JDict js)
                    | Err e => Err e
                    | Raise => Raise
                    end
                | Err _ => Ok (JDict [])
                | Raise => Raise
                end
            end
        end
    | TRosMsg _ _, _ => Raise
    | TRosType _ _, ModelFields.PVal (VType k s) => Ok (JStr (r_name r k s))
    | TRosType _ _, _ => Raise
    | _, ModelFields.PVal v => Ok (raw v)
    | _, _ => Ok (JStr "")
    end.

(** serialize_value (316-332); [None] is the empty text. *)
Definition serialize_value (fuel : nat) (c : container) : res (option json) :=
  match c_val c with
  | None => Ok None
  | Some v => match ser fuel (c_ty c) (ModelFields.PVal v) with
              | Ok j => Ok (Some j)
              | Err e => Err e
              | Raise => Raise
              end
  end.

(** ---- _deserialize_value ---- *)

(** All classes: 354-360; bytes 715-721; list 868-876; dict 909-919; generic 1165-1166;
    message 1354-1374; type 1430-1440. *)
Fixpoint deser (fuel : nat) : ctype -> json -> res value :=
  fix on_type (t : ctype) (j : json) {struct t} : res value :=
    match t, j with
    | TBytes _ _, JStr s => match fromhex s with Some b => Ok (VBytes b) | None => Err EData end
    | TBytes _ _, _ => Raise
    | TList elt _ _ _, JList l =>
        match (fix go (l : list json) : res (list value) :=
                 match l with
                 | [] => Ok []
                 | x :: q => match on_type elt x with
                             | Ok v => match go q with Ok vs => Ok (v :: vs) | Err e => Err e | Raise => Raise end
                             | Err e => Err e
                             | Raise => Raise
                             end
                 end) l with
        | Ok vs => Ok (VList vs)
        | Err e => Err e
        | Raise => Raise
        end
    | TList _ _ _ _, _ => Raise
    | TDict elt _ _ _, JDict d =>
        match (fix go (l : list (string * json)) : res (list (string * value)) :=
                 match l with
                 | [] => Ok []
                 | (k, x) :: q => match on_type elt x with
                             | Ok v => match go q with Ok vs => Ok ((k, v) :: vs) | Err e => Err e | Raise => Raise end
                             | Err e => Err e
                             | Raise => Raise
                             end
                 end) d with
        | Ok vs => Ok (VDict vs)
        | Err e => Err e
        | Raise => Raise
        end
    | TDict _ _ _ _, _ => Raise
    | TGeneric _, _ => gen_deser j
    | TRosMsg m _, JDict d =>
        match fuel with
        | O => Raise
        | S k =>
            match r_class r m with
            | None => Raise
            | Some mt =>
                match element_fields (ModelFields.mt_fields mt) with
                | Ok fs =>
                    match (fix go (l : list (string * json)) (a : ModelFields.attrs) : res ModelFields.attrs :=
                             match l with
                             | [] => Ok a
                             | (f, x) :: q =>
                                 match dget f fs with
                                 | Some ft =>
                                     match deser k ft x with
                                     | Ok v => match ModelFields.mt_set mt f v with
                                               | Some o => go q (dset f o a)
                                               | None => Raise
                                               end
                                     | Err e => Err e
                                     | Raise => Raise
                                     end
                                 | None => Err EData
                                 end
                             end) d (ModelFields.mt_new mt) with
                    | Ok a => Ok (VMsg m (r_object r m a))
                    | Err e => Err e
                    | Raise => Raise
                    end
                | Err e => Err e
                | Raise => Raise
                end
            end
        end
    | TRosMsg _ _, _ => Raise
    | TRosType _ _, JStr s => r_find r s
    | TRosType _ _, _ => Raise
    | _, _ => Ok (parsed j)
    end.

(** deserialize_value (343-351); json.loads raises for the empty text. *)
Definition deserialize_value (fuel : nat) (c : container) (text : option json) : container * res unit :=
  match text with
  | None => (c, Raise)
  | Some j => match deser fuel (c_ty c) j with
              | Ok v => set_value c v
              | Err e => (c, Err e)
              | Raise => (c, Raise)
              end
  end.

(** ---- An input in the message about a node ---- *)

(** Node.to_structure_msg (node.py:1188-1200): the type, and the value of a static input;
    others get the empty text. *)
Definition write_input (fuel : nat) (c : container) : res (tmsg * option json) :=
  if c_static c
  then match serialize_value fuel c with
       | Ok text => Ok (serialize_type c, text)
       | Err e => Err e
       | Raise => Raise
       end
  else Ok (serialize_type c, None).
(** Node.from_msg (node.py:1027-1036), without ReferenceContainer: what
    deserialize_value gives back is not looked at, only an exception gets through. *)
Definition read_input (fuel : nat) (m : tmsg * option json) : res container :=
  match from_msg (fst m) with
  | None => Err EConfig
  | Some c =>
      if c_static c
      then match deserialize_value fuel c (snd m) with
           | (_, Raise) => Raise
           | (c', _) => Ok c'
           end
      else Ok c
  end.
End Ros.

(** Comparison of texts (data_flow_manager.py:208-210). *)
Fixpoint json_eqb (a b : json) {struct a} : bool :=
  match a, b with
  | JBool x, JBool y => Bool.eqb x y
  | JInt x, JInt y => Z.eqb x y
  | JFloat x, JFloat y =>
      match x, y with
      | S754_zero s, S754_zero s' => Bool.eqb s s'
      | S754_infinity s, S754_infinity s' => Bool.eqb s s'
      | S754_nan, S754_nan => true
      | S754_finite s m e, S754_finite s' m' e' => Bool.eqb s s' && Pos.eqb m m' && Z.eqb e e'
      | _, _ => false
      end
  | JStr x, JStr y => String.eqb x y
  | JList x, JList y =>
      (fix go (l1 l2 : list json) : bool :=
         match l1, l2 with
         | [], [] => true
         | v1 :: r1, v2 :: r2 => json_eqb v1 v2 && go r1 r2
         | _, _ => false
         end) x y
  | JDict x, JDict y =>
      (fix go (l1 l2 : list (string * json)) : bool :=
         match l1, l2 with
         | [], [] => true
         | (k1, v1) :: r1, (k2, v2) :: r2 => String.eqb k1 k2 && json_eqb v1 v2 && go r1 r2
         | _, _ => false
         end) x y
  | _, _ => false
  end.
Definition text_eqb (a b : option json) : bool :=
  match a, b with
  | None, None => true
  | Some x, Some y => json_eqb x y
  | _, _ => false
  end.
