(** Vocabulary for C91 and C92: the field types of ROS messages, independently of how
    the code parses them, and what the message classes of ROS take. *)
From Coq Require Import String ZArith NArith Bool Ascii List.
From Coq Require Import Floats.SpecFloat.
From Verif Require Import Base ModelData ModelEdit ModelFiles ModelFields.
Import ListNotations.
Local Open Scope string_scope.

(** ** The types a field can have (the ROS 2 interface definition) *)

Inductive width : Set := W8 | W16 | W32 | W64.
Inductive ftype : Set :=
| FBool | FOctet
| FInt (signed : bool) (w : width)
| FFloat | FDouble
| FStr (wide : bool) (bound : option N)
| FMsg (name : string)                      (* "package/Name" *)
| FSeq (e : ftype) (bound : option N)
| FArr (e : ftype) (n : N).

Definition bits (w : width) : Z := match w with W8 => 8 | W16 => 16 | W32 => 32 | W64 => 64 end.
Definition lowest (signed : bool) (w : width) : Z := if signed then (- 2 ^ (bits w - 1))%Z else 0%Z.
Definition highest (signed : bool) (w : width) : Z :=
  if signed then (2 ^ (bits w - 1) - 1)%Z else (2 ^ bits w - 1)%Z.

Definition is_number (f : ftype) : Prop :=
  match f with FInt _ _ | FFloat | FDouble => True | _ => False end.
Definition single (f : ftype) : Prop := match f with FSeq _ _ | FArr _ _ => False | _ => True end.
(** ROS has no sequences of sequences. *)
Definition proper (f : ftype) : Prop :=
  match f with FSeq e _ | FArr e _ => single e | _ => True end.

Fixpoint every (P : ascii -> Prop) (s : string) : Prop :=
  match s with "" => True | String c r => P c /\ every P r end.
Definition starts (p s : string) : Prop := exists r, s = p ++ r.
(** The name of a message: letters, digits, underscores and a slash. *)
Definition message_name (s : string) : Prop :=
  every (fun c => is_word c = true \/ c = "/"%char) s /\ exists a b, s = a ++ "/" ++ b.
Definition names_in (f : ftype) : list string :=
  match f with
  | FMsg n | FSeq (FMsg n) _ | FArr (FMsg n) _ => [n]
  | _ => []
  end.

(** ** The text that get_fields_and_field_types() gives for a type *)

Definition in_angles (b : option N) : string := match b with Some n => "<" ++ str_of n ++ ">" | None => "" end.
Definition text1 (f : ftype) : string :=
  match f with
  | FBool => "boolean" | FOctet => "octet"
  | FInt true W8 => "int8" | FInt true W16 => "int16" | FInt true W32 => "int32" | FInt true W64 => "int64"
  | FInt false W8 => "uint8" | FInt false W16 => "uint16" | FInt false W32 => "uint32" | FInt false W64 => "uint64"
  | FFloat => "float" | FDouble => "double"
  | FStr false b => "string" ++ in_angles b
  | FStr true b => "wstring" ++ in_angles b
  | FMsg n => n
  | _ => ""
  end.
Definition text (f : ftype) : string :=
  match f with
  | FSeq e None => "sequence<" ++ text1 e ++ ">"
  | FSeq e (Some n) => "sequence<" ++ text1 e ++ ", " ++ str_of n ++ ">"
  | FArr e n => text1 e ++ "[" ++ str_of n ++ "]"
  | _ => text1 f
  end.

(** ** The data container that belongs to a type *)

(** No infinite number. *)
Definition no_inf1 (v : value) : Prop := forall b, v <> VFloat (S754_infinity b).
Definition no_inf (v : value) : Prop :=
  match v with VList l => forall x, In x l -> no_inf1 x | _ => no_inf1 v end.
(** 3.402823466e+38, the bound that the setters of generated messages assert.  It is below
    the largest number of single precision, 9007198717870080 * 2^75. *)
Definition SETTER_LIMIT : spec_float := S754_finite false 9007198716850230 75.
Definition SETTER_LIMIT_NEG : spec_float := S754_finite true 9007198716850230 75.
Definition in_setter (f : spec_float) : Prop := SFltb f SETTER_LIMIT_NEG = false /\ SFltb SETTER_LIMIT f = false.
(** Rounding to single precision does not leave the range of the container. *)
Definition stays_single (round : spec_float -> spec_float) : Prop :=
  forall f, in_setter f ->
            SFltb (round f) FLT_LIMIT_NEG = false /\ SFltb FLT_LIMIT (round f) = false.

Section Ros.
  Variable cls : string -> option string.   (* the class with a name *)

  Definition up_to (b : option N) : Z := match b with Some n => Z.of_N n | None => INT_FLOAT_MAX end.
  Inductive holds1 : ftype -> ctype -> Prop :=
  | H_bool : holds1 FBool TBool
  | H_octet : holds1 FOctet (TBytes 1 None)
  | H_int : forall s w, holds1 (FInt s w) (TInt (lowest s w) (highest s w))
  | H_float : holds1 FFloat (TFloat FLT_LIMIT_NEG FLT_LIMIT)
  | H_double : holds1 FDouble (TFloat DBL_MIN DBL_MAX)
  | H_str : forall w b, holds1 (FStr w b) (TStr (up_to b) None)
  | H_msg : forall n c, cls n = Some c -> holds1 (FMsg n) (TRosMsg c 0).
  Inductive holds : ftype -> ctype -> Prop :=
  | H_one : forall f t, holds1 f t -> holds f t
  | H_seq : forall e b t, holds1 e t -> holds (FSeq e b) (TList t true (up_to b) false)
  | H_arr : forall e n t, holds1 e t -> holds (FArr e n) (TList t true (Z.of_N n) true).

  (** ** What a message takes: the checks in the setters that rosidl generates

      [round]: what storing a number in single precision does to it. *)
  Variable round : spec_float -> spec_float.

  Inductive takes1 : ftype -> value -> Prop :=
  | T_bool : forall b, takes1 FBool (VBool b)
  | T_octet : forall c, takes1 FOctet (VBytes (String c ""))
  | T_int : forall s w z, (lowest s w <= z <= highest s w)%Z -> takes1 (FInt s w) (VInt z)
  | T_truth : forall s w b, takes1 (FInt s w) (VBool b)
  | T_float : forall f, in_setter f -> takes1 FFloat (VFloat f)
  | T_inf : forall b, takes1 FFloat (VFloat (S754_infinity b))
  | T_double : forall f, SFltb f DBL_MIN = false -> SFltb DBL_MAX f = false -> takes1 FDouble (VFloat f)
  | T_dinf : forall b, takes1 FDouble (VFloat (S754_infinity b))
  | T_str : forall w b s, (Z.of_nat (String.length s) <= up_to b)%Z -> takes1 (FStr w b) (VStr s)
  | T_msg : forall n c p, cls n = Some c -> takes1 (FMsg n) (VMsg c p).

  (** A number in an array object. *)
  Definition stored (f : ftype) (v : value) : value :=
    match v with
    | VBool b => VInt (if b then 1 else 0)
    | VFloat x => match f with FFloat => VFloat (round x) | _ => v end
    | _ => v
    end.
  (** [takes f v o]: a field of type [f] takes [v], and the message then has [o]. *)
  Inductive takes : ftype -> value -> pyobj -> Prop :=
  | K_one : forall f v, takes1 f v -> takes f v (PVal v)
  | K_seq : forall e b l, (forall x, In x l -> takes1 e x) -> (Z.of_nat (List.length l) <= up_to b)%Z ->
      ~ is_number e -> takes (FSeq e b) (VList l) (PVal (VList l))
  | K_array : forall e b l, (forall x, In x l -> takes1 e x) -> (Z.of_nat (List.length l) <= up_to b)%Z ->
      is_number e -> takes (FSeq e b) (VList l) (PArray (map (stored e) l))
  | K_fixed : forall e n l, (forall x, In x l -> takes1 e x) -> N.of_nat (List.length l) = n ->
      ~ is_number e -> takes (FArr e n) (VList l) (PVal (VList l))
  | K_numpy : forall e n l, (forall x, In x l -> takes1 e x) -> N.of_nat (List.length l) = n ->
      is_number e -> takes (FArr e n) (VList l) (PNumpy (map (stored e) l)).

  (** ** Message classes *)

  (** [m] is the class of messages with the fields [fs]. *)
  Definition class_of (m : msgtype) (fs : list (string * ftype)) : Prop :=
    mt_fields m = map (fun f => (fst f, text (snd f))) fs /\
    NoDup (map fst fs) /\
    (forall f t, In (f, t) fs -> proper t /\ exists ct, holds t ct) /\
    map fst (mt_new m) = map fst fs /\
    (forall f t v o, In (f, t) fs -> (mt_set m f v = Some o <-> takes t v o)).
  (** [a] are the attributes of a message with the fields [fs], without infinite
      numbers: each holds what the field takes. *)
  Definition finite_message (fs : list (string * ftype)) (a : attrs) : Prop :=
    forall f t, In (f, t) fs -> exists v o, dget f a = Some o /\ takes t v o /\ no_inf v.

  (** The inputs or outputs [d] have one for each of the fields [fs], named by [key]
      and of the type of the field; outputs are dynamic. *)
  Definition ports_of (key : string -> string) (fs : list (string * ftype)) (d : ios) : Prop :=
    forall f t, In (f, t) fs -> exists c, dget (key f) d = Some c /\ holds t (c_ty c).
  Definition outputs_of (key : string -> string) (fs : list (string * ftype)) (d : ios) : Prop :=
    forall f t, In (f, t) fs -> exists c, dget (key f) d = Some c /\ holds t (c_ty c) /\ c_static c = false.
End Ros.

(** The name of a message does not begin like the name of a string type. *)
Definition no_string_name (f : ftype) : Prop :=
  forall n, In n (names_in f) -> message_name n /\ ~ starts "string" n /\ ~ starts "wstring" n.

(** What is in an attribute, as a value. *)
Definition content (o : pyobj) : value := match o with PVal v => v | PArray l | PNumpy l => VList l end.
Definition is_numpy (o : pyobj) : Prop := exists l, o = PNumpy l.

(** The inputs of a node hold a value for a key. *)
Definition has_value_for (d : ios) (k : string) (v : value) : Prop := exists c, dget k d = Some c /\ c_val c = Some v.

(** [x] is the value [v], or one that Python considers equal. *)
Definition equal_to (x v : value) : Prop := x = v \/ py_eq x v = true.
(** The outputs [d] show the attributes [a] of a message with the fields [fs]. *)
Definition shows (key : string -> string) (fs : list (string * ftype)) (a : attrs) (d : ios) : Prop :=
  forall f t, In (f, t) fs -> exists o x, dget f a = Some o /\ has_value_for d (key f) x /\ equal_to x (content o).
(** What the containers of fields let through although messages do not take it: an
    empty byte, numbers between the bounds of setters and containers, and integers in a list
    of floating point numbers. *)
Definition fits1 (f : ftype) (v : value) : Prop :=
  match f with
  | FOctet => v <> VBytes ""
  | FFloat => match v with VFloat x => in_setter x | _ => True end
  | _ => True
  end.
Definition fits (f : ftype) (v : value) : Prop :=
  match f, v with
  | FSeq e _, VList l | FArr e _, VList l =>
      forall x, In x l -> fits1 e x /\ (e = FFloat \/ e = FDouble -> exists y, x = VFloat y)
  | _, _ => fits1 f v
  end.

(** No field clashes with an input or output that the node has anyway. *)
Definition free (fs : list (string * ftype)) (d : ios) : Prop := forall f, In f (map fst fs) -> dget f d = None.
(** No message is taken for a string (C91). *)
Definition readable (fs : list (string * ftype)) : Prop := forall f t, In (f, t) fs -> no_string_name t.
(** No arrays of numbers of fixed length, which are numpy arrays. *)
Definition no_numpy (fs : list (string * ftype)) : Prop := forall f e n, In (f, FArr e n) fs -> ~ is_number e.
