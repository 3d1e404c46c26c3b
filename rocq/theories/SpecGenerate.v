(** Vocabulary of the statements about generated subtrees. *)
From Coq Require Import String ZArith Bool Arith List.
From Verif Require Import Base ModelData ModelEdit ModelMsg SpecEdit SpecMsg.
Import ListNotations.

(** The request names the node or one of its children. *)
Definition asked (g : mgr) (req : list idtext) (n : nid) : Prop :=
  exists q, In q req /\ (q = uuid_to_ros n \/ exists c, In c (kids g n) /\ q = uuid_to_ros c).

(** [g'] is the part of the tree [g] made of the nodes in [K], with the links and the
    wirings between them. *)
Definition part (g g' : mgr) (K : nid -> Prop) : Prop :=
  (forall i, present g' i <-> present g i /\ K i) /\
  (exists keep : nid -> bool, (forall i, present g i -> (keep i = true <-> K i)) /\
     forall i, present g' i -> kids g' i = filter keep (kids g i)) /\
  (forall i p, par g' i = Some p <-> par g i = Some p /\ K i /\ K p) /\
  (forall i c, present g' i -> cfg g i = Some c -> exists c', cfg g' i = Some c' /\ same_shape c' c) /\
  (exists stays : wiring -> bool, (forall w, In w (g_wires g) -> (stays w = true <-> forall j, mentions w j -> K j)) /\
     g_wires g' = filter stays (g_wires g)) /\
  g_name g' = g_name g.
