(** Specification of the data containers: which values satisfy a declared type. *)
From Coq Require Import List String Ascii ZArith Bool.
From Coq.Floats Require Import SpecFloat.
From Verif Require Import Base ModelData.
Import ListNotations.

(** The number a Python value stands for: [bool] is a subclass of [int], and a
    float container takes integers that are in the range of doubles. *)
Inductive is_int : value -> Z -> Prop :=
| int_int z : is_int (VInt z) z
| int_true : is_int (VBool true) 1
| int_false : is_int (VBool false) 0.
Inductive is_float : value -> spec_float -> Prop :=
| float_float f : is_float (VFloat f) f
| float_int v z f : is_int v z -> py_float z = Some f -> is_float v f.

(** IEEE [<=], false when an argument is not a number. *)
Definition float_le (a b : spec_float) : Prop := SFleb a b = true.

(** Same keys, whatever the values. *)
Definition same_keys {A B} (d : list (string * A)) (e : list (string * B)) : Prop :=
  forall k, dget k d = None <-> dget k e = None.

(** Descriptions of builtin types that a GenericType accepts: the identifier names
    an allowed type, the keys are those of this type, and an element type is
    itself described. *)
Inductive describes (valid : list bty) : value -> Prop :=
| describes_type d b i :
    In b valid -> dget IDENTIFIER_KEY d = Some i ->
    (exists j, dget IDENTIFIER_KEY (generic_map b) = Some j /\ py_eq j i = true) ->
    same_keys (generic_map b) d ->
    (forall x, dget ELEMENT_KEY d = Some x -> describes valid x) ->
    describes valid (VDict d).

Definition str_ok (maxlen : Z) (valid : option (list string)) (s : string) : Prop :=
  (Z.of_nat (String.length s) <= maxlen)%Z /\ (forall l, valid = Some l -> In s l).
Definition len_ok (n : nat) (maxlen : Z) (strict : bool) : Prop :=
  (Z.of_nat n <= maxlen)%Z /\ (strict = true -> Z.of_nat n = maxlen).

Definition iface_of (k : roskind) : iface :=
  match k with RTopic | RComponent => IMsg | RService => ISrv | RAction => IAct end.

(** [satisfies t v]: [v] meets every constraint that [t] declares. *)
Fixpoint satisfies (t : ctype) (v : value) {struct t} : Prop :=
  match t with
  | TBool => exists b, v = VBool b
  | TInt mn mx => exists z, is_int v z /\ (mn <= z <= mx)%Z
  | TFloat mn mx => exists f, is_float v f /\ float_le mn f /\ float_le f mx
  | TStr ml va => exists s, v = VStr s /\ str_ok ml va s
  | TPath ml va => exists s, v = VStr s /\ str_ok ml va s /\
      exists r, s = ("file://" ++ r)%string \/ s = ("package://" ++ r)%string
  | TBytes ml va => exists s, v = VBytes s /\ str_ok ml va s
  | TList elt _ ml strict => exists l, v = VList l /\ len_ok (List.length l) ml strict /\
      forall x, In x l -> satisfies elt x
  | TDict elt _ ml strict => exists d, v = VDict d /\ len_ok (List.length d) ml strict /\
      forall k x, In (k, x) d -> satisfies elt x
  | TGeneric valid => describes valid v
  | TRosName _ _ => exists s, v = VStr s
  | TRosMsg mt _ => exists p, v = VMsg mt p
  | TRosType k _ => exists s, v = VType (iface_of k) s
  end.

(** The same, but a float need only not be outside the range: NaN, which is
    neither smaller nor larger than any bound, is let through. *)
Fixpoint admits (t : ctype) (v : value) {struct t} : Prop :=
  match t with
  | TFloat mn mx => exists f, is_float v f /\ SFltb f mn = false /\ SFltb mx f = false
  | TList elt _ ml strict => exists l, v = VList l /\ len_ok (List.length l) ml strict /\
      forall x, In x l -> admits elt x
  | TDict elt _ ml strict => exists d, v = VDict d /\ len_ok (List.length d) ml strict /\
      forall k x, In (k, x) d -> admits elt x
  | _ => satisfies t v
  end.

(** No float in [v] is NaN; no bound in [t] is NaN. *)
Fixpoint no_nan (v : value) : Prop :=
  match v with
  | VFloat f => f <> S754_nan
  | VList l => (fix all (l : list value) : Prop := match l with [] => True | x :: r => no_nan x /\ all r end) l
  | VDict d => (fix all (d : list (string * value)) : Prop :=
      match d with [] => True | (_, x) :: r => no_nan x /\ all r end) d
  | _ => True
  end.
Fixpoint bounds_no_nan (t : ctype) : Prop :=
  match t with
  | TFloat mn mx => mn <> S754_nan /\ mx <> S754_nan
  | TList elt _ _ _ | TDict elt _ _ _ => bounds_no_nan elt
  | _ => True
  end.

(** Bytes containers without a list of allowed values (with one they refuse every
    value, see [C30_bytes_options_refuted]). *)
Fixpoint bytes_plain (t : ctype) : Prop :=
  match t with
  | TBytes _ va => va = None
  | TList elt _ _ _ | TDict elt _ _ _ => bytes_plain elt
  | _ => True
  end.

(** No list of allowed values anywhere. *)
Fixpoint no_options (t : ctype) : Prop :=
  match t with
  | TStr _ va | TPath _ va | TBytes _ va => va = None
  | TList elt _ _ _ | TDict elt _ _ _ => no_options elt
  | _ => True
  end.

(** The operations of a container. *)
Inductive cop : Set := CSet (v : value) | CReset | CFlag | CClear.
Definition cop_run (c : container) (o : cop) : container :=
  match o with
  | CSet v => fst (set_value c v)
  | CReset => reset_value c
  | CFlag => flag_updated c
  | CClear => reset_updated c
  end.
(** Nobody offers NaN. *)
Definition cop_no_nan (o : cop) : Prop := match o with CSet v => no_nan v | _ => True end.
Definition cops_run (ops : list cop) (c : container) : container := fold_left cop_run ops c.

(** A static container that was assigned already refuses every value. *)
Definition locked (c : container) : Prop := c_static c = true /\ c_upd c = true.

(** Well-formed containers: what the constructor guarantees about type and
    flags. *)
Definition wf_container (c : container) : Prop :=
  params_ok (c_ty c) = true /\
  (c_dyn c = true -> is_type_container (c_ty c) = false) /\
  (c_static c = true -> c_sta c = true) /\ (c_static c = false -> c_dyn c = true).

(** Types without elements, with a non-empty list of allowed values if any, and
    for which a class exists. *)
Definition simple_type (t : ctype) : Prop :=
  params_ok t = true /\
  match t with
  | TList _ _ _ _ | TDict _ _ _ _ => False
  | TStr _ va | TPath _ va | TBytes _ va => va <> Some []
  | TRosName k _ => k <> RComponent
  | _ => True
  end.
(** Simple types, and lists and dictionaries of them. *)
Definition shallow (t : ctype) (dyn : bool) : Prop :=
  match t with
  | TList e _ _ _ | TDict e _ _ _ => simple_type e /\ (dyn = true -> is_type_container e = false)
  | _ => simple_type t
  end.
(** The allow_static flag of the elements. *)
Definition element_static (t : ctype) : option bool :=
  match t with TList _ s _ _ | TDict _ s _ _ => Some s | _ => None end.
(** The same type up to that flag. *)
Definition with_element_static (t : ctype) (s : bool) : ctype :=
  match t with
  | TList e _ ml st => TList e s ml st
  | TDict e _ ml st => TDict e s ml st
  | _ => t
  end.

(** The types a wiring connects: validate_wiring accepts source [s] for target [t]
    (tree_exec_manager.py:1421-1423). *)
Definition accepted (t s : container) : Prop := is_compatible (runtime_type t) (runtime_type s) = true.

(** Outputs are dynamic only (node_config.py:167-176). *)
Definition is_output (c : container) : Prop := c_dyn c = true /\ c_sta c = false /\ c_static c = false.

(** Types whose automatic default value meets the constraints. *)
Definition default_fits (t : ctype) : Prop :=
  match t with
  | TFloat mn mx => mn <> S754_nan /\ mx <> S754_nan /\
      (float_le FLOAT_1_2 mx \/ SFltb (S754_zero false) mn = true \/ SFltb mx (S754_zero false) = true)
  | TStr ml va => (0 <= ml)%Z /\ (forall l, va = Some l -> In EmptyString l)
  | TPath _ _ => False
  | TBytes ml va => (1 <= ml)%Z /\ va = None
  | TList _ _ ml strict | TDict _ _ ml strict => (0 <= ml)%Z /\ (strict = true -> ml = 0%Z)
  | TGeneric (BList :: l) | TGeneric (BDict :: l) => In BBool l
  | _ => True
  end.
