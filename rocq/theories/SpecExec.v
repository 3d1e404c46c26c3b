(** Vocabulary for the properties of execution control (C47-C53).  Uses only the
    system of ModelExec.v: its state, its processes and the events of a run. *)
From Coq Require Import List Bool Arith.
From Verif Require Import Base ModelExec.
Import ListNotations.

Section Spec.
Context {W : Type}.
Implicit Types (y : sys W).

(** Process [p] is of kind [k] and is executing [c]. *)
Definition at_code y (p : nat) (k : kind) (c : code) : Prop :=
  nth_error (y_procs y) p = Some (k, Some c).

(** No request is being handled: every handler has come to its end. *)
Definition calm y : Prop :=
  forall p k c, at_code y p k c -> k <> KTick -> ended c = true.

(** Thread [t] ticks the tree: it was started and has not ended. *)
Definition tick_thread_alive y (t : nat) : Prop := exists c, at_code y t KTick c /\ ended c = false.

(** The handler [p] has answered. *)
Definition answered y (p : nat) (success : bool) (ts : option tstate) : Prop :=
  exists k, at_code y p k (Done success ts).

(** Inside [root.tick()], inside the body of an editing service. *)
Definition ticking y (t : nat) : Prop := exists k f, at_code y t k (InCall OTick f).
Definition editing y (p : nat) : Prop := exists k f, at_code y p k (InEdit f).

(** Runs, with every event allowed by [G]. *)
Inductive runs (G : sys W -> event -> Prop) (P : plant W) : sys W -> list event -> sys W -> Prop :=
| runs_nil y : runs G P y [] y
| runs_snoc y es y1 e y2 : runs G P y es y1 -> G y1 e -> step P y1 e y2 -> runs G P y (es ++ [e]) y2.

(** Full concurrency. *)
Definition anything y (e : event) : Prop := True.
(** One request at a time (a new one arrives only when the others are answered), while
    ROS is up ([rclpy.ok()] is true). *)
Definition one_at_a_time y (e : event) : Prop :=
  match e with
  | EArrive _ => calm y
  | EAct _ (AOk b) => b = true
  | EAct _ _ => True
  end.

(** Reached from a new manager, one request at a time or concurrently. *)
Definition reachable (P : plant W) y : Prop := exists w es, runs one_at_a_time P (fresh w) es y.
Definition reachable_any (P : plant W) y : Prop := exists w es, runs anything P (fresh w) es y.

Definition no_tick_thread y : Prop := forall t, ~ tick_thread_alive y t.
Definition no_arrivals (es : list event) : Prop := forall k, ~ In (EArrive k) es.

(** In [y] no request is being handled; [k] arrives and becomes process [p]; the system
    runs through [es] to [y'] without a further request. *)
Definition handling (P : plant W) y (k : kind) (p : nat) (es : list event) y' : Prop :=
  calm y /\ p = length (y_procs y) /\ no_arrivals es /\
  exists y1, step P y (EArrive k) y1 /\ runs one_at_a_time P y1 es y'.
(** The same, and the request has been answered in [y']. *)
Definition handled (P : plant W) y (k : kind) (p : nat) (es : list event) y' success ts : Prop :=
  handling P y k p es y' /\ answered y' p success ts.
End Spec.

Definition arrives (k : kind) (es : list event) : Prop := In (EArrive k) es.
(** No TICK_* command arrives. *)
Definition no_tick_command (es : list event) : Prop :=
  forall c, arrives (KControl c) es ->
    c <> TICK_ONCE /\ c <> TICK_PERIODICALLY /\ c <> TICK_UNTIL_RESULT.

(** Completed calls of operations of the root node: by which process, which operation,
    its result. *)
Fixpoint calls (es : list event) : list (nat * op * res state) :=
  match es with
  | [] => []
  | EAct p (AEnd o r) :: l => (p, o, r) :: calls l
  | _ :: l => calls l
  end.
Definition is_tick (c : nat * op * res state) : bool :=
  match c with (_, OTick, _) => true | _ => false end.
(** All ticks of the root, and those by thread [t]. *)
Definition ticks (es : list event) : list (nat * op * res state) := filter is_tick (calls es).
Definition calls_of (t : nat) (es : list event) : list (op * res state) :=
  map (fun c => (snd (fst c), snd c)) (filter (fun c => fst (fst c) =? t) (calls es)).
Definition ticks_of (t : nat) (es : list event) : list (res state) :=
  map snd (filter (fun c => fst (fst c) =? t) (ticks es)).
(** A tick without and with a result. *)
Definition going (r : res state) : Prop := exists x, r = Ok x /\ x <> SUCCEEDED /\ x <> FAILED.
Definition result (r : res state) : Prop := r = Ok SUCCEEDED \/ r = Ok FAILED.
(** Thread [t] is started. *)
Definition starts (t : nat) (es : list event) : Prop := exists p, In (EAct p (AStart t true)) es.

(** A call of [root.tick()] begins. *)
Definition tick_begins (es : list event) : Prop := exists p, In (EAct p (ABegin OTick)) es.

(** Accesses that change nothing but the (unstarted) thread object. *)
Definition harmless (a : action) : Prop :=
  match a with
  | AGetState _ | AGetThread _ | ANewThread | AAlive _ _ | AJoin _ | AJump => True
  | _ => False
  end.

(** What SHUTDOWN has done to the nodes: the root was shut down without error, or there
    is no node, or the tree had no root and all links between nodes were removed. *)
Definition shut_down {W} (P : plant W) (w : W) : Prop :=
  (exists w0 s, p_root P w0 = ROne /\ p_op P OShutdown w0 w (Ok s)) \/
  p_root P w = REmpty \/
  (exists w0, p_root P w0 = RBad /\ p_unlink P w0 w).
(** What RESET has done: the root was reset without error, or there is no node. *)
Definition was_reset {W} (P : plant W) (w : W) : Prop :=
  (exists w0 s, p_root P w0 = ROne /\ p_op P OReset w0 w (Ok s)) \/ p_root P w = REmpty.
(** The number of accesses process [p] makes. *)
Fixpoint acts (p : nat) (es : list event) : nat :=
  match es with
  | [] => 0
  | EAct q _ :: l => (if p =? q then 1 else 0) + acts p l
  | EArrive _ :: l => acts p l
  end.

(** Process [p] makes the access [a] and later finds that a tick thread is not alive. *)
Definition ended_after (p : nat) (a : action) (es : list event) : Prop :=
  exists es1 t es2, es = es1 ++ es2 /\ In (EAct p a) es1 /\ In (EAct p (AAlive t false)) es2.

(** The accesses of process [p], in order. *)
Fixpoint does (p : nat) (es : list event) : list action :=
  match es with
  | [] => []
  | EAct q a :: l => if q =? p then a :: does p l else does p l
  | EArrive _ :: l => does p l
  end.
(** The list goes through the given stages: at each stage an access as required, and none
    that is bad between the previous stage and this one. *)
Inductive follows : list ((action -> Prop) * (action -> Prop)) -> list action -> Prop :=
| f_end l : follows [] l
| f_stage bad (good : action -> Prop) ps a l : good a -> follows ps l -> follows ((bad, good) :: ps) (a :: l)
| f_skip (bad good : action -> Prop) ps a l : ~ bad a -> follows ((bad, good) :: ps) l -> follows ((bad, good) :: ps) (a :: l).
Definition none_bad (a : action) : Prop := False.
(** There is no thread object, or its thread is not alive; a thread is alive. *)
Definition ended_thread (a : action) : Prop := exists t, a = AAlive t false.
Definition no_thread (a : action) : Prop := a = AGetThread None \/ ended_thread a.
Definition some_thread (a : action) : Prop := exists t, a = AAlive t true.
Definition reads_state (a : action) : Prop := exists s, a = AGetState s.
Definition looks_again (a : action) : Prop := some_thread a \/ reads_state a.
(** The manager's state was read and is none of [ss]. *)
Definition state_not (ss : list tstate) (a : action) : Prop := exists s, a = AGetState s /\ ~ In s ss.
(** Operation [o] of the root succeeded, or there is no node; the nodes are shut down, or
    the links between them were cut because there is no single root. *)
Definition succeeded (o : op) (a : action) : Prop := a = ARoot REmpty \/ exists s, a = AEnd o (Ok s).
Definition down (a : action) : Prop := succeeded OShutdown a \/ a = AUnlink.
Definition tried (o : op) (a : action) : Prop := exists r, a = AEnd o r.
Definition at_rest (a : action) : Prop := a = ARootState IDLE \/ a = ARootState PAUSED.
Definition sets_stop (a : action) : Prop := exists b, a = ASetStop b.
Definition sets_once (a : action) : Prop := exists b, a = ASetOnce b.
Definition starts_thread (a : action) : Prop := exists t, a = AStart t true.
(** Only reads; creating a thread object without starting it counts as one. *)
Definition looks (a : action) : Prop :=
  match a with
  | AGetState _ | AGetThread _ | ANewThread | AAlive _ _ | AJoin _ | AOk _ | ARoot _ | ARootState _
  | AGetOnce _ | AGetStop _ | AOrphans _ | AJump => True
  | _ => False
  end.

Definition stage := ((action -> Prop) * (action -> Prop))%type.
(** The state was not ERROR and no thread was ticking. *)
Definition free : list stage := [(none_bad, state_not [TERROR]); (reads_state, no_thread)].
(** RESET. *)
Definition reset_done : list stage :=
  free ++ [(looks_again, succeeded OReset); (none_bad, eq (ASetState TIDLE))].
(** The TICK commands, on an empty tree and on one with a root. *)
Definition nothing_to_tick : list stage := free ++ [(looks_again, eq (ARoot REmpty))].
Definition many_started (until_result : bool) : list stage :=
  free ++ [(looks_again, eq (ARoot ROne)); (none_bad, eq (ASetState TICKING)); (none_bad, eq (ASetOnce false));
           (sets_once, eq (ASetStop until_result)); (sets_stop, starts_thread)].
Definition once_started : list stage :=
  free ++ [(looks_again, eq (ARoot ROne)); (none_bad, eq (ASetOnce true)); (sets_once, eq (ASetStop false));
           (sets_stop, eq (ASetState TICKING)); (none_bad, starts_thread)].
Definition once_ended : list stage := [(none_bad, ended_thread); (some_thread, eq (AGetState WAITING_FOR_TICK))].
(** STOP, while the tree is being ticked and between ticks. *)
Definition thread_stopped : list stage :=
  [(none_bad, eq (AGetState TICKING)); (reads_state, eq (ASetState STOP_REQUESTED)); (none_bad, ended_thread);
   (some_thread, eq (AGetState TIDLE))].
Definition waiting_empty : list stage := [(none_bad, eq (AGetState WAITING_FOR_TICK)); (reads_state, eq (ARoot REmpty))].
Definition waiting_unticked : list stage :=
  [(none_bad, eq (AGetState WAITING_FOR_TICK)); (reads_state, tried OUntick); (none_bad, at_rest)].
Definition went_down : list stage := [(none_bad, down); (none_bad, eq (ASetState EDITABLE))].
Definition not_ticked : list stage := [(none_bad, state_not [TICKING; WAITING_FOR_TICK])].
(** SETUP_AND_SHUTDOWN. *)
Definition idle_down : list stage :=
  [(none_bad, state_not [TICKING; WAITING_FOR_TICK; TERROR]); (reads_state, ended_thread); (looks_again, down);
   (none_bad, eq (ASetState EDITABLE))].
Definition waiting_down : list stage :=
  [(none_bad, eq (AGetState WAITING_FOR_TICK)); (reads_state, ended_thread); (looks_again, tried OUntick);
   (none_bad, at_rest); (none_bad, down); (none_bad, eq (ASetState EDITABLE))].
Definition empty_down : list stage :=
  [(none_bad, eq (AGetState WAITING_FOR_TICK)); (reads_state, ended_thread); (looks_again, eq (ARoot REmpty));
   (none_bad, down); (none_bad, eq (ASetState EDITABLE))].
(** An editing service. *)
Definition edit_done : list stage :=
  [(none_bad, eq (AGetState EDITABLE)); (reads_state, eq ALock); (eq AUnlock, eq AEditBegin); (eq AUnlock, eq (AEditEnd true));
   (none_bad, eq AUnlock)].
(** What a RESET that fails does. *)
Definition reset_fails (a : action) : Prop := looks a \/ a = ABegin OReset \/ exists e, a = AEnd OReset (Err e).
(** Request [k] arrives at some time and is answered, with full concurrency; [l] is what its
    handler did. *)
Definition served {W} (P : plant W) (k : kind) (l : list action) (success : bool) : Prop :=
  exists y0 y1 es y ts, step P y0 (EArrive k) y1 /\ runs anything P y1 es y /\
    answered y (length (y_procs y0)) success ts /\ l = does (length (y_procs y0)) es.
