(** Vocabulary for C93 and C94. *)
From Coq Require Import String ZArith Bool SpecFloat Arith List.
From Verif Require Import Base ModelData ModelUtility ModelTree ModelLeaf ModelDataLeaf SpecData SpecLeaf SpecDataLeaf.
Import ListNotations.

(** The output [k] refuses [v]: an error breaks the node, an exception leaves it as it is;
    the output keeps what it had. *)
Definition refuses {X} (n : nid) (k : string) (w w' : world X) (r : res state) : Prop :=
  ((exists e, r = Err e) /\ w_st w' n = BROKEN \/ r = Raise /\ w_st w' n = w_st w n) /\
  exists c c', dget k (w_outs w n) = Some c /\ dget k (w_outs w' n) = Some c' /\ c_val c' = c_val c /\ c_upd c' = false.

(** A text, or a list with a text in it. *)
Inductive textual : value -> Prop :=
| tx_str s : textual (VStr s)
| tx_list l x : In x l -> textual x -> textual (VList l).

(** Nothing is written to the outputs. *)
Definition nothing_written {X} (n : nid) (w w' : world X) : Prop :=
  forall k c, dget k (w_outs w n) = Some c -> dget k (w_outs w' n) = Some (reset_updated c).
