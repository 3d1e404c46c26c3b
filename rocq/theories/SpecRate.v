(** Vocabulary of the statements about the tick frequency and the diagnostics of a tree. *)
From Coq Require Import String List Bool QArith ZArith.
From Verif Require Import Base ModelRate.
From Verif Require ModelEdit.
Import ListNotations.
Local Open Scope Q_scope.
Local Open Scope list_scope.

(** The frequency in the request, 0 if it has none. *)
Definition request (o : rop) : Q := match o with RLoad _ f _ => f | RTickMany f _ => f | _ => 0 end.
(** [m] is reached with requests whose frequencies are not negative. *)
Definition sensible (m : rman) : Prop :=
  exists has_diag name h, m = rrun h (new_manager has_diag name) /\ Forall (fun o => 0 <= request o) h.
(** [m] is reached somehow. *)
Definition reached (m : rman) : Prop := exists has_diag name h, m = rrun h (new_manager has_diag name).

(** The tree is ticked with frequency [f], and the published structure says so. *)
Definition ticks_with (m : rman) (f : Q) : Prop := r_rate m == f /\ r_freq m == f.

(** The tick of [d] nanoseconds took longer than the period. *)
Definition too_long (m : rman) (d : Z) : Prop := 1 / r_freq m < inject_Z d / inject_Z 1000000000.
(** It is warned about. *)
Definition warned (m : rman) (d : Z) : Prop := r_warned (fst (rstep m (RTicked d))) = r_warned m ++ [d].
Definition not_warned (m : rman) (d : Z) : Prop := r_warned (fst (rstep m (RTicked d))) = r_warned m.

(** The average, in nanoseconds. *)
Definition average (ds : list Z) : Q := inject_Z (fold_right Z.add 0%Z ds) / inject_Z (Z.of_nat (length ds)).

(** What diagnostics should say about a state. *)
Definition level_of (s : ModelEdit.tstate) (l : dlevel) : Prop :=
  (l = DOk <-> s = ModelEdit.TICKING) /\ (l = DError <-> s = ModelEdit.TERROR).
