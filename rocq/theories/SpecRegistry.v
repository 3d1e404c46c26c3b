(** Vocabulary of the statements about the classes of nodes. *)
From Coq Require Import String Ascii Bool Arith List.
From Verif Require Import Base ModelData ModelEdit ModelRegistry.
Import ListNotations.
Local Open Scope list_scope.

(** The process knows class [c] of module [m], with the interface [x]. *)
Definition known (g : reg) (m c : string) (x : config) : Prop :=
  exists l k, In (m, l) (g_classes g) /\ In (c, k) l /\ In (k, x) (g_attr g).
Definition unknown (g : reg) (m c : string) : Prop := forall x, ~ known g m c x.

(** The interfaces that [d] inherits: those of its bases that have one. *)
Inductive inherits (g : reg) : list (list nat) -> list config -> Prop :=
| I_none : inherits g [] []
| I_skip b bs l : (forall c, In c b -> forall x, ~ In (c, x) (g_attr g)) -> inherits g bs l -> inherits g (b :: bs) l
| I_base b1 c b2 bs x l : (forall c', In c' b1 -> forall y, ~ In (c', y) (g_attr g)) -> In (c, x) (g_attr g) ->
    inherits g bs l -> inherits g ((b1 ++ c :: b2) :: bs) (x :: l).

(** [x] puts [parts] together: all their inputs and outputs, none twice, and all allow the
    same number of children. *)
Definition together (parts : list config) (x : config) : Prop :=
  f_ins x = flat_map f_ins parts /\ f_outs x = flat_map f_outs parts /\
  NoDup (map fst (f_ins x)) /\ NoDup (map fst (f_outs x)) /\ Forall (fun p => f_max p = f_max x) parts.

(** The interface given in the code is one: no name twice. *)
Definition proper_config (x : config) : Prop := NoDup (map fst (f_ins x)) /\ NoDup (map fst (f_outs x)).
Definition proper_import (i : import) : Prop := Forall (fun d => proper_config (k_config d)) (fst i).
Definition proper_op (o : gop) : Prop :=
  match o with GLoad _ i | GFind _ _ i => proper_import i | GList l => Forall (fun mi => proper_import (snd mi)) l end.

(** A process in which this and that happened. *)
Definition process (g : reg) : Prop := exists h, g = grun h /\ Forall proper_op h.

(** The import is left with an exception that is not handled. *)
Definition raising (m : string) (i : import) : Prop :=
  (exists s, m = String "."%char s) \/ m <> ""%string /\ snd i = OtherException.
(** The module cannot be imported. *)
Definition failing (m : string) (i : import) : Prop :=
  m = ""%string \/ (forall s, m <> String "."%char s) /\ snd i = ImportOrValueError.
