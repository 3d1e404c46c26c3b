(** Vocabulary for saving trees at the same time (C107). *)
From Coq Require Import String Bool Arith List.
From Verif Require Import Base ModelFiles SpecFiles ModelSaves.
Import ListNotations.

(** Some requests have been sent at the same time; [es] is what has happened so far. *)
Definition handling (paths : list string) (cwd version : string) (fuel : nat) (f : files) (qs : list save_request)
  (es : list (nat * option string)) (f' : files) (hs : list handler) : Prop :=
  runs f (map (save_handler paths cwd version fuel) qs) es f' hs.
(** The [i]-th request has been answered with [r]. *)
Definition answered (hs : list handler) (i : nat) (r : res save_response) : Prop := nth_error hs i = Some (Answer r).
(** Only the [i]-th request has opened [p] for writing. *)
Definition only_opened_by (es : list (nat * option string)) (i : nat) (p : string) : Prop :=
  forall j, In (j, Some p) es -> j = i.
(** The request may replace what is at [p]. *)
Definition may_overwrite (cwd : string) (q : save_request) (p : string) : Prop :=
  target cwd q = p /\ q_overwrite q = true /\ q_rename q = false.
