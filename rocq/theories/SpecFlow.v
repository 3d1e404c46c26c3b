(** Specification of data flow between the nodes of a tree. *)
From Coq Require Import List String ZArith Bool.
From Verif Require Import Base ModelData ModelTree.
Import ListNotations.

(** Any sequence of calls on any trees, while the outside world changes; nobody
    else touches the nodes or their data. *)
Inductive runs {E} (ev : env E) : world E -> list (tree * op * res state) -> world E -> Prop :=
| runs_nil : forall w, runs ev w [] w
| runs_call : forall w t o r w1 l w2,
    call o (obj_of ev t) w = (w1, r) -> runs ev w1 l w2 -> runs ev w ((t, o, r) :: l) w2
| runs_ext : forall w e l w2, runs ev (set_ext w e) l w2 -> runs ev w l w2.

(** The input [key] of node [n]. *)
Definition input {E} (w : world E) (n : nid) (key : string) : option container := dget key (w_ins w n).
Definition output {E} (w : world E) (n : nid) (key : string) : option container := dget key (w_outs w n).

(** A wiring in force: from output [k_src k] of [n] to input [k_tkey k] of
    [k_tid k]. *)
Definition wired {E} (w : world E) (n : nid) (k : conn) : Prop :=
  exists l, w_conns w n = Some l /\ In k l.

(** The output [k_src k] of [n] was updated by the last tick, and holds [v]. *)
Definition fresh {E} (w : world E) (n : nid) (k : conn) (v : value) : Prop :=
  exists c, output w n (k_src k) = Some c /\ c_upd c = true /\ c_val c = Some v.

(** Input [t] was given [v]: it holds what its own set_value makes of [v], or a
    value that Python considers equal. *)
Definition given (t : container) (v : value) : Prop :=
  exists x y, c_val t = Some x /\ check (c_ty t) v = Ok y /\ (x = y \/ py_eq x y = true).
