(** What the class of a node declares about an input, and what a configuration may make of it. *)
From Coq Require Import Bool List.
From Verif Require Import ModelData ModelDataLeaf SpecData.

(** Whether the value may come by a wiring, and whether it may be fixed. *)
Definition may_be_wired (s : slot) : bool := match s with SPlain c => c_dyn c | SRef _ _ dyn _ _ _ => dyn end.
Definition may_be_fixed (s : slot) : bool := match s with SPlain c => c_sta c | SRef _ _ _ sta _ _ => sta end.

(** [s] takes no value that [d] does not take; references have to be the same. *)
Definition type_within (d s : slot) : Prop :=
  match d, s with
  | SPlain c, SPlain c' => forall v, satisfies (c_ty c') v -> satisfies (c_ty c) v
  | SRef K r _ _ _ _, SRef K' r' _ _ _ _ => K = K' /\ r = r'
  | _, _ => False
  end.
(** At least as narrow (the docstring of is_compatible, data_types.py:194-197). *)
Definition within (d s : slot) : Prop :=
  type_within d s /\ (may_be_wired s = true -> may_be_wired d = true) /\ (may_be_fixed s = true -> may_be_fixed d = true).
(** The types for which compatibility is what it should be (C31). *)
Definition plain_type (d : slot) : Prop :=
  match d with SPlain c => no_options (c_ty c) /\ bounds_no_nan (c_ty c) | SRef _ _ _ _ _ _ => True end.
