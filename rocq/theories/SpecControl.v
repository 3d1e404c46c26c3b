(** Specification of one tick of the control nodes, as lists of method calls on
    the children.  Children are arbitrary objects here. *)
From Coq Require Import List String ZArith Bool.
From Verif Require Import Base ModelData ModelTree SpecTree.
Import ListNotations.

Section SpecControl.
Context {E : Type}.
Notation callrec := (obj E * op * res state)%type.

(** What a tick does to the node itself before its class-specific code runs: the
    "updated" marks of its outputs are cleared. *)
Definition begin_tick (n : nid) (w : world E) : world E :=
  set_outs w n (map_io reset_updated (w_outs w n)).

(** What each operation does to the node's own inputs and outputs before its
    class-specific code runs. *)
Definition prepare (o : op) (n : nid) (w : world E) : world E :=
  match o with
  | OSetup =>
      let w1 := set_ins w n (map_io (fun c => flag_updated (reset_value c)) (w_ins w n)) in
      set_outs w1 n (map_io (fun c => reset_updated (reset_value c)) (w_outs w1 n))
  | OTick => begin_tick n w
  | OReset =>
      let w1 := set_ins w n (map_io flag_updated (w_ins w n)) in
      set_outs w1 n (map_io (fun c => reset_updated (reset_value c)) (w_outs w1 n))
  | OUntick | OShutdown => w
  end.

(** How a tick ends, given the outcome [b] of the class-specific code in world
    [w2]: the outcome becomes the node's state and result, unless it is not a
    legal result of a tick or outputs cannot be delivered along the wirings. *)
Definition end_tick (n : nid) (b : res state) (w2 w' : world E) (r : res state) : Prop :=
  only_own n w2 w' /\
  match b with
  | Ok s =>
      (op_states OTick s /\ w_st w' n = s /\ r = Ok s) \/
      (~ op_states OTick s /\ w_st w' n = s /\ r = Err EState) \/
      (op_states OTick s /\ (w_conns w2 n <> Some [] \/ w_outs w2 n <> []) /\
       ((exists e, r = Err e /\ w_st w' n = BROKEN) \/ r = Raise))
  | Err e => r = Err e /\ w_st w' n = BROKEN
  | Raise => r = Raise
  end.

(** The whole tick of a node: it makes exactly the calls [l] on other objects, in
    this order and with nothing in between, then ends with outcome [b]. *)
Definition ticks_with (n : nid) (w : world E) (l : list callrec) (b : res state)
    (w' : world E) (r : res state) : Prop :=
  exists w2, ran (begin_tick n w) l w2 /\ end_tick n b w2 w' r.

(** ** Calling a method on several objects *)

(** Each call succeeded. *)
Definition calls_on (o : op) (cs : list (obj E)) (l : list callrec) : Prop :=
  map fst l = map (fun c => (c, o)) cs /\ Forall (fun x => exists s, snd x = Ok s) l.

(** [each o cs l r]: [o] is called on all of [cs] from left to right; the first
    call that does not return Ok is the last one, and its result is [r]. *)
Inductive each (o : op) (cs : list (obj E)) : list callrec -> res unit -> Prop :=
| each_ok : forall l, calls_on o cs l -> each o cs l (Ok tt)
| each_err : forall a c b l e, cs = a ++ c :: b -> calls_on o a l ->
    each o cs (l ++ [(c, o, Err e)]) (Err e)
| each_raise : forall a c b l, cs = a ++ c :: b -> calls_on o a l ->
    each o cs (l ++ [(c, o, Raise)]) Raise.

Definition then_ (r : res unit) (s : state) : res state :=
  match r with Ok _ => Ok s | Err e => Err e | Raise => Raise end.

(** All children are reset first if [fin]; an error ends the tick. *)
Definition reset_first (fin : Prop) (cs : list (obj E)) (l : list callrec) (b : res state)
    (rest : list callrec -> Prop) : Prop :=
  exists l0 r0,
    ((fin /\ each OReset cs l0 r0) \/ (~ fin /\ l0 = [] /\ r0 = Ok tt)) /\
    match r0 with
    | Ok _ => exists l1, l = l0 ++ l1 /\ rest l1
    | Err e => l = l0 /\ b = Err e
    | Raise => l = l0 /\ b = Raise
    end.

(** Children are ticked from left to right while their state satisfies [go_on].
    If one stops the scan with a state satisfying [abandon], all later children
    are unticked.  If none stops it the outcome is [default]. *)
Inductive scan (go_on abandon : state -> Prop) (default : state) (cs : list (obj E))
  : list callrec -> res state -> Prop :=
| scan_all : forall l,
    map fst l = map (fun c => (c, OTick)) cs ->
    Forall (fun x => exists s, snd x = Ok s /\ go_on s) l ->
    scan go_on abandon default cs l (Ok default)
| scan_fail : forall a c rest l b,
    cs = a ++ c :: rest ->
    map fst l = map (fun c => (c, OTick)) a ->
    Forall (fun x => exists s, snd x = Ok s /\ go_on s) l ->
    (forall s, b <> Ok s) ->
    scan go_on abandon default cs (l ++ [(c, OTick, b)]) b
| scan_keep : forall a c rest l s,
    cs = a ++ c :: rest ->
    map fst l = map (fun c => (c, OTick)) a ->
    Forall (fun x => exists s, snd x = Ok s /\ go_on s) l ->
    ~ go_on s -> ~ abandon s ->
    scan go_on abandon default cs (l ++ [(c, OTick, Ok s)]) (Ok s)
| scan_abandon : forall a c rest l s l2 r2,
    cs = a ++ c :: rest ->
    map fst l = map (fun c => (c, OTick)) a ->
    Forall (fun x => exists s, snd x = Ok s /\ go_on s) l ->
    ~ go_on s -> abandon s ->
    each OUntick rest l2 r2 ->
    scan go_on abandon default cs (l ++ (c, OTick, Ok s) :: l2) (then_ r2 s).

Definition sequence_plan := scan (fun s => s = SUCCEEDED) (fun s => s <> RUNNING) SUCCEEDED.
Definition fallback_plan :=
  scan (fun s => s <> SUCCEEDED /\ s <> RUNNING) (fun s => s = SUCCEEDED) FAILED.

(** A child that never touches state and memory of node [n]. *)
Definition blind (n : nid) (c : obj E) : Prop :=
  forall o w, w_st (fst (call o c w)) n = w_st w n /\ w_mem (fst (call o c w)) n = w_mem w n.

(** Children that do not touch each other's state. *)
Definition independent (cs : list (obj E)) : Prop :=
  NoDup (map (fun c => o_id c) cs) /\
  forall c d o w, In c cs -> In d cs -> o_id c <> o_id d ->
    w_st (fst (call o c w)) (o_id d) = w_st w (o_id d).

(** How many children are in state [s]. *)
Definition count_st (w : world E) (s : state) (cs : list (obj E)) : Z :=
  Z.of_nat (List.length (filter (fun c => state_eqb (w_st w (o_id c)) s) cs)).

(** The children without a result. *)
Definition unfinished (w : world E) (cs : list (obj E)) : list (obj E) :=
  filter (fun c => negb (state_eqb (w_st w (o_id c)) SUCCEEDED || state_eqb (w_st w (o_id c)) FAILED)) cs.

(** ** Nodes with private memory *)

(** As [ran], but the node [n] may change its private memory between the calls. *)
Inductive ran_own (n : nid) : world E -> list callrec -> world E -> Prop :=
| ro_nil : forall w, ran_own n w [] w
| ro_mem : forall w a l w', ran_own n (set_mem w n a) l w' -> ran_own n w l w'
| ro_call : forall w c o r w1 l w2,
    call o c w = (w1, r) -> ran_own n w1 l w2 -> ran_own n w ((c, o, r) :: l) w2.

(** As [ticks_with], for a node that changes its private memory. *)
Definition ticks_own (n : nid) (w : world E) (l : list callrec) (b : res state)
    (w' : world E) (r : res state) : Prop :=
  exists w2, ran_own n (begin_tick n w) l w2 /\ end_tick n b w2 w' r.

(** Between two calls on node [n] anything may happen but changes of its own
    state and memory. *)
Definition meanwhile (n : nid) (w w' : world E) : Prop :=
  w_st w' n = w_st w n /\ w_mem w' n = w_mem w n.

(** Consecutive ticks of [o], recorded as (world before, result, world after). *)
Inductive tick_run (o : obj E) : world E -> list (world E * res state * world E) -> Prop :=
| tr_nil : forall w, tick_run o w []
| tr_tick : forall w0 w r w' l,
    meanwhile (o_id o) w0 w -> inputs_set w (o_id o) ->
    call OTick o w = (w', r) -> tick_run o w' l ->
    tick_run o w0 ((w, r, w') :: l).

(** The children that were ticked with result SUCCEEDED, in order. *)
Definition succ_calls (l : list callrec) : list (obj E * op) :=
  map fst (filter (fun x => match x with (_, OTick, Ok SUCCEEDED) => true | _ => false end) l).

(** One recorded tick made the calls [l]. *)
Definition tick_calls (n : nid) (x : world E * res state * world E) (l : list callrec) : Prop :=
  exists b, ticks_own n (fst (fst x)) l b (snd x) (snd (fst x)).

(** ** Parallel nodes *)

(** Call [o] on all of [cs] in order; go on with [k], or with [stop] after the
    first call that does not return Ok. *)
Definition calling (o : op) (cs : list (obj E)) (w : world E)
    (k : world E -> Prop) (stop : res state -> world E -> Prop) : Prop :=
  exists l q w1, ran w l w1 /\ each o cs l q /\
    match q with Ok _ => k w1 | Err e => stop (Err e) w1 | Raise => stop Raise w1 end.

(** One tick of a parallel node that needs [needed] successes and gives up after
    more than [tolerated] failures. *)
Definition parallel_plan (n : nid) (cs : list (obj E)) (needed tolerated : Z)
    (w w' : world E) (r : res state) : Prop :=
  let finish b w2 := end_tick n b w2 w' r in
  let result w2 :=
    if Z.leb needed (count_st w2 SUCCEEDED cs) then Some SUCCEEDED
    else if Z.ltb tolerated (count_st w2 FAILED cs) then Some FAILED else None in
  let work w1 :=
    calling OTick (unfinished w1 cs) w1
      (fun w2 => match result w2 with
                 | None => finish (Ok RUNNING) w2
                 | Some s => calling OUntick (unfinished w2 cs) w2 (finish (Ok s)) finish
                 end) finish in
  (has_result (w_st w n) -> calling OReset cs (begin_tick n w) work finish) /\
  (~ has_result (w_st w n) -> work (begin_tick n w)).

(** ** Switch nodes *)

(** [switch_plan chosen others]: untick the others in order, then tick the chosen
    child; its result is the outcome. *)
Definition switch_plan (chosen : obj E) (others : list (obj E)) (l : list callrec) (b : res state) : Prop :=
  exists l1 r1, each OUntick others l1 r1 /\
    match r1 with
    | Ok _ => exists x, l = l1 ++ [(chosen, OTick, x)] /\ b = x
    | Err e => l = l1 /\ b = Err e
    | Raise => l = l1 /\ b = Raise
    end.

(** The children whose key is not [nm]. *)
Definition others (key : obj E -> string) (nm : string) (cs : list (obj E)) : list (obj E) :=
  filter (fun c => negb (String.eqb (key c) nm)) cs.

(** ** Decorators *)

(** How setup, untick and reset end. *)
Definition end_op (o : op) (n : nid) (b : res state) (w2 w' : world E) (r : res state) : Prop :=
  only_own n w2 w' /\
  match b with
  | Ok s => w_st w' n = s /\ ((op_states o s /\ r = Ok s) \/ (~ op_states o s /\ r = Err EState))
  | Err e => r = Err e /\ w_st w' n = BROKEN
  | Raise => r = Raise
  end.

(** [does o n w l b w' r]: operation [o] on node [n] makes exactly the calls [l]
    and its class-specific code ends with [b]; or it is refused. *)
Definition does (o : op) (n : nid) (w : world E) (l : list callrec) (b : res state)
    (w' : world E) (r : res state) : Prop :=
  (dead (w_st w n) /\ l = [] /\ w' = w /\ b = r /\ r = Err EGuard) \/
  (live (w_st w n) /\ exists w2, ran_own n (prepare o n w) l w2 /\
     match o with OTick => end_tick n b w2 w' r | _ => end_op o n b w2 w' r end).

(** Consecutive ticks, unticks and resets of an object, recorded as
    (operation, world before, result, world after). *)
Inductive op_run (c : obj E) : world E -> list (op * world E * res state * world E) -> Prop :=
| or_nil : forall w, op_run c w []
| or_call : forall w0 o w r w' l,
    meanwhile (o_id c) w0 w -> o = OTick \/ o = OUntick \/ o = OReset ->
    inputs_set w (o_id c) ->
    call o c w = (w', r) -> op_run c w' l -> op_run c w0 ((o, w, r, w') :: l).

(** One recorded operation made the calls [l]. *)
Definition did (n : nid) (x : op * world E * res state * world E) (l : list callrec) : Prop :=
  match x with (o, w, r, w') => exists b, does o n w l b w' r end.

(** One round of a looping decorator: tick the child; if its state satisfies
    [restart], reset it and go on RUNNING, otherwise report [out]. *)
Inductive loop_plan (restart : state -> Prop) (out : state -> state) (c : obj E)
  : list callrec -> res state -> Prop :=
| lp_fail : forall x, (forall s, x <> Ok s) -> loop_plan restart out c [(c, OTick, x)] x
| lp_out : forall s, ~ restart s -> loop_plan restart out c [(c, OTick, Ok s)] (Ok (out s))
| lp_restart : forall s y, restart s ->
    loop_plan restart out c [(c, OTick, Ok s); (c, OReset, y)] (res_map (fun _ => RUNNING) y).

(** What the child answers to a tick passed on by node [n]. *)
Definition child_answer (n : nid) (c : obj E) (w : world E) : res state :=
  snd (call OTick c (begin_tick n w)).

(** The number of ticks in a record of operations that the child answered with
    state [s]. *)
Definition answers (n : nid) (c : obj E) (s : state) (l : list (op * world E * res state * world E)) : nat :=
  List.length (filter (fun x => match x with
    | (OTick, w, _, _) => match child_answer n c w with Ok s' => state_eqb s' s | _ => false end
    | _ => false end) l).

(** The calls in a list that ticked an object successfully. *)
Definition completions (l : list callrec) : nat :=
  List.length (filter (fun x => match x with (_, OTick, Ok SUCCEEDED) => true | _ => false end) l).

End SpecControl.
