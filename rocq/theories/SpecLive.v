(** Vocabulary for C104: requests are answered.  Uses only the system of ModelExec.v and
    SpecExec.v. *)
From Coq Require Import List Bool Arith.
From Verif Require Import Base ModelExec SpecExec.
Import ListNotations.

Section Live.
Context {W : Type}.
Implicit Types (y : sys W).

(** Whatever is called on the nodes, the data flow and the subtrees can come to an end. *)
Definition responsive (P : plant W) : Prop :=
  (forall o w, exists w' r, p_op P o w w' r) /\
  (forall w, exists w' b, p_init P w w' b) /\
  (forall w, exists w' r, p_push P w w' r) /\
  (forall w, exists w', p_unlink P w w') /\
  (forall w, exists w', p_subclear P w w') /\
  (forall w, exists w' b, p_edit P w w' b).

(** Process [p] was started and has not come to its end; it can make its next access. *)
Definition unfinished y (p : nat) : Prop := exists k c, at_code y p k c /\ ended c = false.
Definition can_act (P : plant W) y (p : nat) : Prop := exists a y', step P y (EAct p a) y'.

(** A history without end: the system at each moment, and what happens between a moment
    and the next ([None]: nothing). *)
Record history : Type := mkH { h_sys : nat -> sys W; h_event : nat -> option event }.
(** It starts in a reachable state, and one request is made at a time. *)
Definition history_of (P : plant W) (h : history) : Prop :=
  reachable P (h_sys h 0) /\
  forall n, match h_event h n with
            | None => h_sys h (S n) = h_sys h n
            | Some e => one_at_a_time (h_sys h n) e /\ step P (h_sys h n) e (h_sys h (S n))
            end.
(** No process is passed over for ever while it can make its next access: again and again
    it makes one or cannot. *)
Definition fair (P : plant W) (h : history) : Prop :=
  forall p n, exists m, n <= m /\
    (~ can_act P (h_sys h m) p \/ exists a, h_event h m = Some (EAct p a)).
End Live.
Arguments history : clear implicits.

(** How many times a tick of the root begins; how many accesses are made by processes other
    than [p]. *)
Definition begins_tick (e : event) : bool := match e with EAct _ (ABegin OTick) => true | _ => false end.
Definition ticks_begun (es : list event) : nat := length (filter begins_tick es).
Definition by_other (p : nat) (e : event) : bool := match e with EAct q _ => negb (q =? p) | _ => false end.
Definition acts_of_others (p : nat) (es : list event) : nat := length (filter (by_other p) es).
