(** Vocabulary of the statements about diagnostics. *)
From Coq Require Import Bool Arith List.
From Verif Require Import Base ModelData ModelEdit ModelDiag SpecEdit.
Import ListNotations.

(** The operation answers, if there are no diagnostics. *)
Fixpoint answers (r : run) : bool := match r with Run _ _ inner ends => forallb answers inner && ends end.

(** The messages about an operation that answers: one at its beginning, then those about
    the operations it calls, then one at its end. *)
Fixpoint messages (path : nid -> list nid) (r : run) : list dmsg :=
  match r with
  | Run n k inner _ =>
      mkD n (path n) (match k with KTick => DPreTick | _ => DNothing end) ::
      flat_map (messages path) inner ++ [mkD n (path n) (DPost k)]
  end.

(** The diagnostics are switched on before the [a]-th look, or off. *)
Definition on_from (a : nat) : nat -> bool := fun i => a <=? i.
Definition on_until (a : nat) : nat -> bool := fun i => i <? a.
Definition fresh (flag : nat -> bool) : dman := mkDM flag 0 [].

(** [l] leads from a node without parent down to [n]. *)
Inductive leads (g : mgr) : list nid -> nid -> Prop :=
| L_root n : par g n = None -> leads g [n] n
| L_down l p n : leads g l p -> par g n = Some p -> leads g (l ++ [n]) n.
