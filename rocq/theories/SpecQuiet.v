(** Vocabulary for statements about what is still running. *)
From Coq Require Import List.
From Verif Require Import Base ModelData ModelTree SpecTree.
Import ListNotations.

(** No node that the tree uses is running. *)
Definition nothing_running {E} (w : world E) (t : tree) : Prop :=
  forall x, In x (active w t) -> w_st w (t_id x) <> RUNNING.

(** Node classes that end everything below them before they report a result.
    The others are IgnoreRunning, NameSwitch, EnumSwitch, Throttle,
    ThrottleSuccess and IterateList. *)
Definition settling (k : kind) : Prop :=
  match k with
  | KIgnoreRunning | KNameSwitch | KEnumSwitch _ | KThrottle | KThrottleSuccess | KIterateList => False
  | _ => True
  end.
Definition all_settling (t : tree) : Prop :=
  forall n k name cs, In (T n k name cs) (subtrees t) -> settling k.

(** [x] lies strictly below a node of one of these six classes. *)
Definition below_unsettling {E} (w : world E) (t x : tree) : Prop :=
  exists y, In y (active w t) /\ ~ settling (t_kind y) /\ In x (flat_map subtrees (t_children y)).
