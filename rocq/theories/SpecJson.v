(** Vocabulary for C101: which values can be written and read, and what is assumed of the
    classes that ROS generates. *)
From Coq Require Import String ZArith Bool List.
From Verif Require Import Base ModelData ModelJson.
From Verif Require ModelFields SpecFields.
Import ListNotations.
Local Open Scope string_scope.

(** Values that JSON has itself. *)
Inductive plain_json : value -> Prop :=
| PJ_bool : forall b, plain_json (VBool b)
| PJ_int : forall z, plain_json (VInt z)
| PJ_float : forall f, plain_json (VFloat f)
| PJ_str : forall s, plain_json (VStr s)
| PJ_list : forall l, (forall x, In x l -> plain_json x) -> plain_json (VList l)
| PJ_dict : forall d, (forall k x, In (k, x) d -> plain_json x) -> plain_json (VDict d).

(** The description of a type whose bounds, if it has any, are numbers of that type. *)
Definition is_bound (k : string) : Prop := k = "min_value" \/ k = "max_value".
Inductive described : value -> Prop :=
| Described : forall d i, dget IDENTIFIER_KEY d = Some (VInt i) ->
    (forall k x, In (k, x) d -> is_bound k ->
       (i = ID_INT /\ exists z, x = VInt z) \/ (i = ID_FLOAT /\ exists f, x = VFloat f)) ->
    (forall x, In (ELEMENT_KEY, x) d -> i <> ID_INT /\ i <> ID_FLOAT /\ described x) ->
    (forall k x, In (k, x) d -> ~ is_bound k -> k <> ELEMENT_KEY -> plain_json x) ->
    described (VDict d).

Section Ros.
  Variable r : ros.
  (** The message objects there are: their class and their contents. *)
  Variable obj : string -> nat -> Prop.

  (** [v] is a value of type [t] that has a name in ROS: its messages exist, its classes
      are installed, its type descriptions are proper. *)
  Fixpoint storable (t : ctype) (v : value) {struct t} : Prop :=
    match t with
    | TList elt _ _ _ => forall l, v = VList l -> forall x, In x l -> storable elt x
    | TDict elt _ _ _ => forall d, v = VDict d -> forall k x, In (k, x) d -> storable elt x
    | TGeneric _ => described v
    | TRosMsg _ _ => forall c n, v = VMsg c n -> obj c n
    | TRosType _ _ => forall k s, v = VType k s -> r_find r (r_name r k s) = Ok (VType k s)
    | _ => True
    end.

  (** What is assumed of ROS and Python: every class is one of messages with some fields
      (SpecFields.class_of); an object has these fields, and each holds what the field
      takes; two objects of a class with the same contents are the same value; printing
      and reading numbers gives them back. *)
  Definition objects_in (v : value) : Prop :=
    (forall c n, v = VMsg c n -> obj c n) /\
    (forall l c n, v = VList l -> In (VMsg c n) l -> obj c n).
  Definition sound_classes (round : SpecFloat.spec_float -> SpecFloat.spec_float) : Prop :=
    forall c m, r_class r c = Some m -> exists fs,
      SpecFields.class_of (r_get_message r) round m fs /\ SpecFields.readable fs /\
      forall n, obj c n ->
        map fst (r_attrs r c n) = map fst fs /\ r_object r c (r_attrs r c n) = n /\
        forall f t, In (f, t) fs -> exists v o, dget f (r_attrs r c n) = Some o /\
          SpecFields.takes (r_get_message r) round t v o /\ objects_in v.
  Definition sound_numbers : Prop :=
    (forall z, r_int r (VStr (r_str r (VInt z))) = Some (VInt z)) /\
    (forall f, r_float r (VStr (r_str r (VFloat f))) = Some (VFloat f)).
End Ros.

(** Types whose values are written as texts in quotes. *)
Definition text_type (t : ctype) : Prop :=
  match t with TStr _ _ | TPath _ _ | TBytes _ _ | TRosName _ _ | TRosType _ _ => True | _ => False end.
(** Types without messages and without dictionaries of anything but texts. *)
Fixpoint printable (t : ctype) : Prop :=
  match t with
  | TList elt _ _ _ => printable elt
  | TDict elt _ _ _ => text_type elt /\ printable elt
  | TRosMsg _ _ => False
  | _ => True
  end.
