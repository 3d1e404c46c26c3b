(** Specification of the throttle nodes and of IterateList over histories. *)
From Coq Require Import List String ZArith Bool.
From Coq.Floats Require Import SpecFloat.
From Verif Require Import Base ModelData ModelTree SpecTree SpecControl.
Import ListNotations.

Section SpecTimed.
Context {E : Type}.
Notation callrec := (obj E * op * res state)%type.
Notation rec := (op * world E * res state * world E)%type.

(** The time a node reads from the ROS clock, and the world after reading it. *)
Definition now (ev : env E) (w : world E) : Z := snd (ev_now ev (w_ext w)).
Definition clock_read (ev : env E) (w : world E) : world E := set_ext w (fst (ev_now ev (w_ext w))).

(** As [does], for a node whose tick reads the clock first. *)
Definition does_timed (ev : env E) (o : op) (n : nid) (w : world E) (l : list callrec) (b : res state)
    (w' : world E) (r : res state) : Prop :=
  match o with
  | OTick =>
      (dead (w_st w n) /\ l = [] /\ w' = w /\ b = r /\ r = Err EGuard) \/
      (live (w_st w n) /\ exists w2, ran_own n (clock_read ev (begin_tick n w)) l w2 /\ end_tick n b w2 w' r)
  | _ => does o n w l b w' r
  end.
Definition did_timed (ev : env E) (n : nid) (x : rec) (l : list callrec) : Prop :=
  match x with (o, w, r, w') => exists b, does_timed ev o n w l b w' r end.

(** One execution step of a throttled child: a child that is still RUNNING is
    left alone, one that finished is reset. *)
Inductive throttle_plan (c : obj E) : list callrec -> res state -> Prop :=
| tp_raise : throttle_plan c [(c, OTick, Raise)] Raise
| tp_running : throttle_plan c [(c, OTick, Ok RUNNING)] (Ok RUNNING)
| tp_done : forall x y, x <> Raise -> x <> Ok RUNNING ->
    throttle_plan c [(c, OTick, x); (c, OReset, y)]
      (match y with Ok _ => x | Err e => Err e | Raise => Raise end).

(** Time and result of the last completed execution of the child in a history. *)
Definition note_completion (ev : env E) (acc : option (Z * res state)) (x : rec * list callrec) :=
  match x with
  | ((OTick, w, _, _), (_, OTick, y) :: _) =>
      match y with Ok RUNNING | Raise => acc | _ => Some (now ev w, y) end
  | _ => acc
  end.
Definition last_completion (ev : env E) (l : list rec) (ls : list (list callrec)) : option (Z * res state) :=
  fold_left (note_completion ev) (combine l ls) None.

(** ** IterateList *)

Definition ticks_in (l : list rec) : nat :=
  List.length (filter (fun x => match x with (OTick, _, _, _) => true | _ => false end) l).

(** The list input holds [l] at every tick, and is marked as updated at most at
    the first one. *)
Fixpoint steady (n : nid) (l : list value) (first : bool) (recs : list rec) : Prop :=
  match recs with
  | [] => True
  | (OTick, w, _, _) :: r =>
      in_value_as as_list w n "list" = Ok l /\
      (first = false -> any_updated w n ["list"%string] = Ok false) /\ steady n l false r
  | _ :: r => steady n l first r
  end.

(** Between calls on other objects, node [n] may change its private memory and
    its outputs. *)
Definition private_step (n : nid) (w w1 : world E) : Prop :=
  w_st w1 = w_st w /\ (forall m, m <> n -> w_mem w1 m = w_mem w m) /\
  (forall m, m <> n -> w_outs w1 m = w_outs w m) /\
  w_ins w1 = w_ins w /\ w_conns w1 = w_conns w /\ w_outg w1 = w_outg w /\ w_ext w1 = w_ext w.
Inductive ran_private (n : nid) : world E -> list callrec -> world E -> Prop :=
| rp_nil : forall w, ran_private n w [] w
| rp_own : forall w w1 l w', private_step n w w1 -> ran_private n w1 l w' -> ran_private n w l w'
| rp_call : forall w c o r w1 l w2,
    call o c w = (w1, r) -> ran_private n w1 l w2 -> ran_private n w ((c, o, r) :: l) w2.
Definition ticks_private (n : nid) (w : world E) (l : list callrec) (b : res state)
    (w' : world E) (r : res state) : Prop :=
  exists w2, ran_private n (begin_tick n w) l w2 /\ end_tick n b w2 w' r.

(** A child that never touches the outputs of node [n]. *)
Definition keeps_outs (n : nid) (c : obj E) : Prop :=
  forall o w, w_outs (fst (call o c w)) n = w_outs w n.

(** One recorded operation (a tick or an untick) made the calls [l]. *)
Definition did_private (n : nid) (x : rec) (l : list callrec) : Prop :=
  match x with
  | (OTick, w, r, w') => exists b, ticks_private n w l b w' r
  | (o, w, r, w') => exists b, does o n w l b w' r
  end.

(** Whether the item on the output is new, so that the tree gets one tick to
    digest it: at the start, and after the child has succeeded. *)
Definition note_item (acc : bool) (x : rec * list callrec) : bool :=
  match x with
  | ((OTick, _, _, _), l) => match l with [(_, OTick, Ok SUCCEEDED)] => true | _ => false end
  | _ => acc
  end.
Definition new_item (l : list rec) (ls : list (list callrec)) : bool :=
  fold_left note_item (combine l ls) true.

(** The node's output [key] received value [v] in a step from [w] to [w']. *)
Definition received (n : nid) (key : string) (v : value) (w w' : world E) : Prop :=
  exists c, dget key (w_outs w n) = Some c /\
    snd (set_value (reset_updated c) v) = Ok tt /\
    dget key (w_outs w' n) = Some (fst (set_value (reset_updated c) v)).

End SpecTimed.
