(** When two inputs or outputs are the same. *)
From Coq Require Import String Bool List.
From Verif Require Import Base ModelData ModelDataLeaf SpecData.

(** They take the same values, may be wired and fixed in the same cases, are both fixed or both
    not, and hold values that Python takes to be equal, or both none. *)
Definition same_values (a b : option value) : Prop :=
  match a, b with Some v, Some w => py_eq v w = true | None, None => True | _, _ => False end.
Definition same_container (c d : container) : Prop :=
  (forall v, satisfies (c_ty c) v <-> satisfies (c_ty d) v) /\
  c_dyn c = c_dyn d /\ c_sta c = c_sta d /\ c_static c = c_static d /\ same_values (c_val c) (c_val d).
(** Inputs (or outputs) have the same names, and those that are no references are the same. *)
Definition agree (a b : smap) : Prop :=
  (forall k, In k (map fst a) <-> In k (map fst b)) /\
  forall k c, dget k a = Some (SPlain c) -> exists d, dget k b = Some (SPlain d) /\
    (bounds_no_nan (c_ty c) -> bounds_no_nan (c_ty d) -> same_container c d).
(** The value of an input, that of the container it stands for if it is a reference. *)
Definition held (s : slot) : option value :=
  match s with SPlain c => c_val c | SRef _ _ _ _ _ (Some c) => c_val c | SRef _ _ _ _ _ None => None end.
