(** Vocabulary for the properties of subtree managers (C60, C71). *)
From Coq Require Import Bool Arith List.
From Verif Require Import Base ModelSubtrees.
Import ListNotations.

Section Managers.
Context {M : Type}.
Implicit Types h : heap M.

(** [x] is nested directly in [m]; [x] is [m] or nested in it at some depth. *)
Definition in_ h (m x : mid) : Prop := exists id, In (id, x) (m_nested (h m)).
Inductive within h (m : mid) : mid -> Prop :=
| w_self : within h m m
| w_in x y : within h m x -> in_ h x y -> within h m y.
(** No manager is nested in itself, at any depth. *)
Definition acyclic h : Prop := forall m, Acc (fun x y => in_ h y x) m.

(** What a program does to managers: a new one is made; publishing is switched on or off
    for a manager that is not nested in another; messages are added; a manager is nested
    in another, under the id of one node, if it is not nested elsewhere and the other one
    is not within it; subtrees are removed. *)
Definition top h (m : mid) : Prop := forall p, ~ in_ h p m.
Inductive managed : heap M -> Prop :=
| g_new : managed (fun _ => new_mgr)
| g_pub h m v fuel h' : managed h -> top h m -> set_pub v fuel h m = Some h' -> managed h'
| g_data h m v fuel h' : managed h -> top h m -> set_data v fuel h m = Some h' -> managed h'
| g_msg h m k id msg : managed h -> managed (add_msg k h m id msg)
| g_nest h m id n fuel h' : managed h ->
    (forall p k, In (k, n) (m_nested (h p)) -> p = m /\ k = id) -> ~ within h n m ->
    add_nested fuel h m id n = Some h' -> managed h'
| g_clear h m : managed h -> managed (clear h m)
| g_remove h m id : managed h -> managed (remove h m id).
End Managers.
