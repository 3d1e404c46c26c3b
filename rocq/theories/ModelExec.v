(** Model of the execution control of TreeExecManager
    (/repo/ros_bt_py/ros_bt_py/tree_exec_manager.py:286-385, 623-748, 956-1340 and
    the guard of the editing services, 92-124) as concurrent programs.

    The node runs its service handlers in a MultiThreadedExecutor with three threads
    and reentrant callback groups (tree_node.py:105, 518), and ticks the tree in a
    further thread, so every handler and the tick thread may interleave at every
    access to a shared attribute.  A program is a tree of such accesses; a step of
    the system is one access of one process.

    Simplifications: a call of an operation on the root node is two steps, its
    beginning and its end, and takes effect at its end; the same for the body of an
    editing service.  find_root (585-621) is one step.  Publishing, logging,
    diagnostics, the tick rate and error texts are left out, [_tree_lock] too
    (it only surrounds single assignments).  No proofs in this file. *)
From Coq Require Import List Bool Arith.
From Verif Require Import Base.
From Verif Require ModelTree ModelEdit.
Import ListNotations.

Notation op := ModelTree.op.
Notation OSetup := ModelTree.OSetup.
Notation OTick := ModelTree.OTick.
Notation OUntick := ModelTree.OUntick.
Notation OReset := ModelTree.OReset.
Notation OShutdown := ModelTree.OShutdown.
Notation tstate := ModelEdit.tstate.
Notation EDITABLE := ModelEdit.EDITABLE.
Notation TIDLE := ModelEdit.TIDLE.
Notation TICKING := ModelEdit.TICKING.
Notation WAITING_FOR_TICK := ModelEdit.WAITING_FOR_TICK.
Notation STOP_REQUESTED := ModelEdit.STOP_REQUESTED.
Notation TERROR := ModelEdit.TERROR.
Notation tstate_eqb := ModelEdit.tstate_eqb.

(** Commands (/repo/ros_bt_py_interfaces/srv/ControlTreeExecution.srv:30-40). *)
Inductive cmd : Set :=
| DO_NOTHING | TICK_ONCE | TICK_PERIODICALLY | TICK_UNTIL_RESULT | STOP | RESET
| SHUT_DOWN | SETUP_AND_SHUTDOWN | UNKNOWN_COMMAND (n : nat).

(** Result of find_root (585-621): an error, no node, or a root. *)
Inductive rootres : Set := RBad | REmpty | ROne.

(** Places programs jump back to.  The loops of 635-748, 1036-1037 and 1245-1246. *)
Inductive label : Set :=
| LMain                                        (* start of the tick thread, 623 *)
| LLoop                                        (* while True, 683 *)
| LOnceWait                                    (* while is_alive() and ok(), 1036 *)
| LStopWait (sd : bool) (ts : option tstate).  (* the same in 1245 *)

(** Programs.  The argument of each constructor is the rest of the program, as a
    function of what the access answers. *)
Inductive code : Set :=
| Done (success : bool) (ts : option tstate)   (* return; [None]: tree_state is "" *)
| Crash                                        (* an exception leaves the function *)
| ReadState (k : tstate -> code)               (* self.state *)
| WriteState (s : tstate) (k : code)
| ReadThread (k : option nat -> code)          (* self._tick_thread *)
| NewThread (k : code)                         (* self._tick_thread = Thread(...) *)
| Alive (t : nat) (k : bool -> code)           (* t.is_alive() *)
| StartT (t : nat) (k : code)                  (* t.start() *)
| JoinT (t : nat) (k : code)                   (* t.join(timeout) *)
| RosOk (k : bool -> code)                     (* ok() *)
| Root (k : rootres -> code)                   (* self.find_root() *)
| Call (o : op) (k : res state -> code)        (* root.o() *)
| InCall (o : op) (k : res state -> code)      (* the same, begun *)
| RootState (k : state -> code)                (* root.state *)
| ReadOnce (k : bool -> code)                  (* self._once *)
| WriteOnce (b : bool) (k : code)
| ReadStop (k : bool -> code)                  (* self._stop_after_result *)
| WriteStop (b : bool) (k : code)
| Init (k : code)                              (* data_flow_manager.initialize *)
| Push (k : res unit -> code)                  (* push_incoming_data *)
| Unlink (k : code)                            (* 971-973 *)
| ClearSub (k : code)                          (* clear_subtrees *)
| Orphans (k : bool -> code)                   (* 650-654 *)
| Lock (k : code) | Unlock (k : code)          (* self._edit_lock *)
| Edit (k : bool -> code)                      (* the body of an editing service *)
| InEdit (k : bool -> code)
| Goto (l : label).

(** ** The tick thread (623-748) *)

(** The error branch of tick_report_exceptions (627-633). *)
Definition tick_fail : code := WriteState TERROR (Done true None).

(** After the loop (742-748). *)
Definition tick_finish : code :=
  WriteState TIDLE (Call OUntick (fun r => match r with Ok _ => Done true None | _ => tick_fail end)).

(** The body of the loop (683-740). *)
Definition tick_loop : code :=
  ReadState (fun s =>
    if tstate_eqb s STOP_REQUESTED then tick_finish
    else
      Push (fun p =>
        match p with
        | Ok _ =>
            Call OTick (fun r =>
              match r with
              | Ok x =>
                  let go_on :=
                    ReadOnce (fun once =>
                      if once then WriteOnce false (WriteState WAITING_FOR_TICK (Done true None))
                      else Goto LLoop) in
                  ReadStop (fun stop =>
                    if stop && state_in x [FAILED; SUCCEEDED] then tick_finish else go_on)
              | _ => tick_fail
              end)
        | _ => tick_fail
        end)).

(** tick (636-748) up to the loop; the result of [root.setup()] is not looked at. *)
Definition tick_main : code :=
  Orphans (fun orphans =>
    if orphans then tick_fail
    else
      Root (fun r =>
        match r with
        | ROne =>
            RootState (fun s =>
              if state_in s [UNINITIALIZED; SHUTDOWN] then
                Init (Call OSetup (fun _ =>
                  RootState (fun s' =>
                    if state_eqb s' IDLE then Goto LLoop else WriteState TERROR tick_fail)))
              else Goto LLoop)
        | _ => tick_fail
        end)).

(** ** control_execution (956-1340) *)

(** self._tick_thread.is_alive() (1036-1038, 1175-1177, 1205, 1238). *)
Definition alive (k : bool -> code) : code :=
  ReadThread (fun o => match o with None => Crash | Some t => Alive t k end).
(** [self._tick_thread and self._tick_thread.is_alive()].  1000, 1071, 1119. *)
Definition there_and_alive (k : bool -> code) : code :=
  ReadThread (fun o => match o with None => k false | Some _ => alive k end).
(** self._tick_thread.join() (1032, 1037, 1240, 1246). *)
Definition join (k : code) : code :=
  ReadThread (fun o => match o with None => Crash | Some t => JoinT t k end).
(** self._tick_thread.start() (1030, 1107). *)
Definition start (k : code) : code :=
  ReadThread (fun o => match o with None => Crash | Some t => StartT t k end).
(** [if not self._tick_thread: self._tick_thread = Thread(...)].  1009-1010, 1081-1082. *)
Definition new_if_none (k : code) : code :=
  ReadThread (fun o => match o with None => NewThread k | Some _ => k end).
(** [response.tree_state = self.state; return response].  994-1154. *)
Definition answer (success : bool) : code := ReadState (fun s => Done success (Some s)).

(** _control_execution_shutdown (956-992); [ts] is the tree_state in the response so
    far. *)
Definition shutdown_part (ts : option tstate) : code :=
  Root (fun r =>
    match r with
    | RBad => Unlink (WriteState EDITABLE (answer true))
    | REmpty => WriteState EDITABLE (answer true)
    | ROne => Call OShutdown (fun x => match x with
                                       | Ok _ => WriteState EDITABLE (answer true)
                                       | _ => Done false ts
                                       end)
    end).

(** 1312-1316: the end of STOP and SHUTDOWN. *)
Definition finish_stop (sd success : bool) (ts : option tstate) : code :=
  if sd then shutdown_part ts else Done success ts.

(** 1247-1277: after waiting for the tick thread. *)
Definition stop_joined (sd : bool) (ts : option tstate) : code :=
  ReadState (fun s => if tstate_eqb s TIDLE then finish_stop sd true (Some TIDLE) else Done false ts).
Definition stop_waited (sd : bool) (ts : option tstate) : code :=
  alive (fun b => if b then Done false ts else stop_joined sd ts).
Definition stop_wait (sd : bool) (ts : option tstate) : code :=
  alive (fun b => if b then RosOk (fun up => if up then join (Goto (LStopWait sd ts)) else stop_waited sd ts)
                  else stop_waited sd ts).

(** STOP and SHUTDOWN (1228-1316), [s0] the state read in 1190; [sd]: SHUTDOWN. *)
Definition stop_part (sd : bool) (s0 : tstate) (ts : option tstate) : code :=
  if tstate_eqb s0 TICKING then
    WriteState STOP_REQUESTED
      (alive (fun b => if b then join (Goto (LStopWait sd ts)) else stop_joined sd ts))
  else if tstate_eqb s0 WAITING_FOR_TICK then
    Root (fun r =>
      match r with
      | RBad => Done false ts
      | REmpty => finish_stop sd true (Some TIDLE)
      | ROne => Call OUntick (fun _ => RootState (fun s =>
                  if state_in s [IDLE; PAUSED] then finish_stop sd true (Some TIDLE)
                  else Done false (Some TERROR)))
      end)
  else finish_stop sd false ts.

(** _control_execution_tick_once (995-1063). *)
Definition once_waited : code :=
  alive (fun b => if b then answer false
                  else ReadState (fun s => if tstate_eqb s WAITING_FOR_TICK
                                           then Done true (Some WAITING_FOR_TICK) else Done false None)).
Definition once_wait : code :=
  alive (fun b => if b then RosOk (fun up => if up then join (Goto LOnceWait) else once_waited)
                  else once_waited).
Definition tick_once_part : code :=
  there_and_alive (fun b =>
    if b then Done false None
    else new_if_none (Root (fun r =>
      match r with
      | RBad => answer false
      | REmpty => answer true
      | ROne => WriteOnce true (WriteStop false (WriteState TICKING (start (join (Goto LOnceWait)))))
      end))).

(** _control_execution_tick_multiple (1066-1111). *)
Definition tick_multiple_part (until_result : bool) : code :=
  there_and_alive (fun b =>
    if b then answer false
    else new_if_none (Root (fun r =>
      match r with
      | RBad => answer false
      | REmpty => answer true
      | ROne =>
          let go := start (answer true) in
          WriteState TICKING (WriteOnce false (WriteStop false
            (if until_result then WriteStop true go else go)))
      end))).

(** _control_execution_reset (1114-1154). *)
Definition reset_part : code :=
  there_and_alive (fun b =>
    if b then answer false
    else Root (fun r =>
      match r with
      | RBad => answer false
      | REmpty => WriteState TIDLE (answer true)
      | ROne => Call OReset (fun x => match x with
                                      | Ok _ => WriteState TIDLE (answer true)
                                      | _ => answer false
                                      end)
      end)).

(** From 1190 on.  1190-1340. *)
Definition dispatch (c : cmd) : code :=
  ReadState (fun s0 =>
    match s0, c with
    | TERROR, SHUT_DOWN => stop_part true s0 None
    | TERROR, _ => Done false None
    | _, SETUP_AND_SHUTDOWN =>
        alive (fun b =>
          if b || tstate_eqb s0 TICKING then Done false (Some s0)
          else ClearSub (Root (fun r => match r with
                                        | RBad => answer false
                                        | _ => stop_part true s0 (Some s0)
                                        end)))
    | _, STOP => stop_part false s0 None
    | _, SHUT_DOWN => stop_part true s0 None
    | _, TICK_ONCE => tick_once_part
    | _, TICK_PERIODICALLY => tick_multiple_part false
    | _, TICK_UNTIL_RESULT => tick_multiple_part true
    | _, RESET => reset_part
    | _, DO_NOTHING => Done true None
    | _, UNKNOWN_COMMAND _ => Done false None
    end).

(** 1185-1188: a new thread unless there is one that is alive. *)
Definition renew (c : cmd) : code :=
  ReadThread (fun o =>
    match o with
    | None => NewThread (dispatch c)
    | Some _ => alive (fun b => if b then dispatch c else NewThread (dispatch c))
    end).

(** control_execution (1157-1340). *)
Definition control (c : cmd) : code :=
  ReadThread (fun o =>
    match o with
    | None => renew c
    | Some _ =>
        ReadState (fun s =>
          if tstate_eqb s TIDLE then
            alive (fun b => if b then join (alive (fun b' => if b' then Done false None else renew c))
                            else renew c)
          else renew c)
    end).

(** ** Editing services (92-124) *)

(** [clears]: clear, load_tree and reload_tree, which also assign EDITABLE
    (754-780, 846); what they do before and after that are two edits.
    Simplification: the second check of the state, in the nested call of clear, is
    left out. *)
Definition edit (clears : bool) : code :=
  ReadState (fun s =>
    if tstate_eqb s EDITABLE then
      Lock (Edit (fun r1 =>
        if clears then WriteState EDITABLE (Edit (fun r2 => Unlock (Done r2 None)))
        else Unlock (Done r1 None)))
    else Done false None).

(** What follows a label: the loops of 635-748, 1036-1037 and 1245-1246. *)
Definition body (l : label) : code :=
  match l with
  | LMain => tick_main
  | LLoop => tick_loop
  | LOnceWait => once_wait
  | LStopWait sd ts => stop_wait sd ts
  end.

(** ** Accesses and their effect *)

(** Accesses to attributes and calls in 623-748, 955-1340. *)
Inductive action : Set :=
| AGetState (s : tstate) | ASetState (s : tstate)
| AGetThread (o : option nat) | ANewThread
| AAlive (t : nat) (b : bool) | AStart (t : nat) (b : bool) | AJoin (t : nat)
| AOk (b : bool) | ARoot (r : rootres)
| ABegin (o : op) | AEnd (o : op) (r : res state) | ARootState (s : state)
| AGetOnce (b : bool) | ASetOnce (b : bool) | AGetStop (b : bool) | ASetStop (b : bool)
| AInit (b : bool) | APush (r : res unit) | AUnlink | AClearSub | AOrphans (b : bool)
| ALock | AUnlock | AEditBegin | AEditEnd (b : bool) | AJump.

(** One step of a program.  [start] of a started thread and an exception inside a
    called method end it.  Helper; no code of its own. *)
Inductive lstep : code -> action -> code -> Prop :=
| ls_gs k s : lstep (ReadState k) (AGetState s) (k s)
| ls_ss s k : lstep (WriteState s k) (ASetState s) k
| ls_gt k o : lstep (ReadThread k) (AGetThread o) (k o)
| ls_nt k : lstep (NewThread k) ANewThread k
| ls_al t k b : lstep (Alive t k) (AAlive t b) (k b)
| ls_st t k b : lstep (StartT t k) (AStart t b) (if b then k else Crash)
| ls_jo t k : lstep (JoinT t k) (AJoin t) k
| ls_ok k b : lstep (RosOk k) (AOk b) (k b)
| ls_ro k r : lstep (Root k) (ARoot r) (k r)
| ls_ca o k : lstep (Call o k) (ABegin o) (InCall o k)
| ls_in o k r : lstep (InCall o k) (AEnd o r) (match r with Raise => Crash | _ => k r end)
| ls_rs k s : lstep (RootState k) (ARootState s) (k s)
| ls_go k b : lstep (ReadOnce k) (AGetOnce b) (k b)
| ls_so b k : lstep (WriteOnce b k) (ASetOnce b) k
| ls_gp k b : lstep (ReadStop k) (AGetStop b) (k b)
| ls_sp b k : lstep (WriteStop b k) (ASetStop b) k
| ls_it k b : lstep (Init k) (AInit b) (if b then k else Crash)
| ls_pu k r : lstep (Push k) (APush r) (match r with Raise => Crash | _ => k r end)
| ls_ul k : lstep (Unlink k) AUnlink k
| ls_cs k : lstep (ClearSub k) AClearSub k
| ls_or k b : lstep (Orphans k) (AOrphans b) (k b)
| ls_lo k : lstep (Lock k) ALock k
| ls_un k : lstep (Unlock k) AUnlock k
| ls_ed k : lstep (Edit k) AEditBegin (InEdit k)
| ls_ie k b : lstep (InEdit k) (AEditEnd b) (k b)
| ls_go_to l : lstep (Goto l) AJump (body l).

(** Everything the manager holds besides its own attributes: the nodes and what the
    operations on the root may do to them.  [p_edit]: any change an editing service
    makes (ModelEdit.v), [p_op]: a call on the root node (ModelTree.v).
    What 623-1340 call on nodes, data flow and subtrees. *)
Record plant (W : Type) : Type := mkPlant {
  p_root : W -> rootres;
  p_state : W -> state;
  p_orphan : W -> bool;
  p_op : op -> W -> W -> res state -> Prop;
  p_init : W -> W -> bool -> Prop;
  p_push : W -> W -> res unit -> Prop;
  p_unlink : W -> W -> Prop;
  p_subclear : W -> W -> Prop;
  p_edit : W -> W -> bool -> Prop }.
Arguments p_root {W}. Arguments p_state {W}. Arguments p_orphan {W}. Arguments p_op {W}.
Arguments p_init {W}. Arguments p_push {W}. Arguments p_unlink {W}. Arguments p_subclear {W}.
Arguments p_edit {W}.

(** What a process is: the tick thread, a handler of control_execution, a handler of
    an editing service.
    tick_report_exceptions (623-633), control_execution (1156-1340), is_edit_service (92-124). *)
Inductive kind : Set := KTick | KControl (c : cmd) | KEdit (clears : bool).
(** 623-633, 1156-1340, 92-124. *)
Definition first_code (k : kind) : code :=
  match k with KTick => body LMain | KControl c => control c | KEdit b => edit b end.

(** A process; [None] is a thread object that has not been started.
    Python threads; no code of its own. *)
Definition proc : Set := (kind * option code)%type.

(** The attributes of the manager (359-371) and the processes. *)
Record sys (W : Type) : Type := mkY {
  y_state : tstate; y_thread : option nat; y_once : bool; y_stop : bool;
  y_lock : option nat; y_world : W; y_procs : list proc }.
Arguments mkY {W}. Arguments y_state {W}. Arguments y_thread {W}. Arguments y_once {W}.
Arguments y_stop {W}. Arguments y_lock {W}. Arguments y_world {W}. Arguments y_procs {W}.

Section Sys.
Context {W : Type}.
Implicit Types (y : sys W) (w : W).

(** Field update; no code of its own. *)
Definition with_state y s := mkY s (y_thread y) (y_once y) (y_stop y) (y_lock y) (y_world y) (y_procs y).
(** Field update; no code of its own. *)
Definition with_thread y t := mkY (y_state y) t (y_once y) (y_stop y) (y_lock y) (y_world y) (y_procs y).
(** Field update; no code of its own. *)
Definition with_once y b := mkY (y_state y) (y_thread y) b (y_stop y) (y_lock y) (y_world y) (y_procs y).
(** Field update; no code of its own. *)
Definition with_stop y b := mkY (y_state y) (y_thread y) (y_once y) b (y_lock y) (y_world y) (y_procs y).
(** Field update; no code of its own. *)
Definition with_lock y l := mkY (y_state y) (y_thread y) (y_once y) (y_stop y) l (y_world y) (y_procs y).
(** Field update; no code of its own. *)
Definition with_world y w := mkY (y_state y) (y_thread y) (y_once y) (y_stop y) (y_lock y) w (y_procs y).
(** Field update; no code of its own. *)
Definition with_procs y l := mkY (y_state y) (y_thread y) (y_once y) (y_stop y) (y_lock y) (y_world y) l.

(** Helper; no code of its own. *)
Fixpoint set_nth {A} (l : list A) (n : nat) (x : A) : list A :=
  match l, n with
  | [], _ => []
  | _ :: r, 0 => x :: r
  | a :: r, S m => a :: set_nth r m x
  end.
(** Field update; no code of its own. *)
Definition with_proc y (p : nat) (x : proc) := with_procs y (set_nth (y_procs y) p x).

(** A thread is alive when it was started and has not come to its end.  Python threads. *)
Definition ended (c : code) : bool := match c with Done _ _ | Crash => true | _ => false end.
(** Python: Thread.is_alive(). *)
Definition is_live y (t : nat) : bool :=
  match nth_error (y_procs y) t with Some (_, Some c) => negb (ended c) | _ => false end.

(** What an access by process [p] does.  [join] with a timeout may return at any
    time.  Python: attributes, Lock, Thread; calls on the nodes (623-1340). *)
Inductive effect (P : plant W) (p : nat) y : action -> sys W -> Prop :=
| ef_gs : effect P p y (AGetState (y_state y)) y
| ef_ss s : effect P p y (ASetState s) (with_state y s)
| ef_gt : effect P p y (AGetThread (y_thread y)) y
| ef_nt : effect P p y ANewThread
    (with_thread (with_procs y (y_procs y ++ [(KTick, None)])) (Some (length (y_procs y))))
| ef_al t : effect P p y (AAlive t (is_live y t)) y
| ef_st t : nth_error (y_procs y) t = Some (KTick, None) ->
    effect P p y (AStart t true) (with_proc y t (KTick, Some (body LMain)))
| ef_sf t k c : nth_error (y_procs y) t = Some (k, Some c) -> effect P p y (AStart t false) y
| ef_jo t : effect P p y (AJoin t) y
| ef_ok b : effect P p y (AOk b) y
| ef_ro : effect P p y (ARoot (p_root P (y_world y))) y
| ef_be o : effect P p y (ABegin o) y
| ef_en o w' r : p_op P o (y_world y) w' r -> effect P p y (AEnd o r) (with_world y w')
| ef_rs : effect P p y (ARootState (p_state P (y_world y))) y
| ef_go : effect P p y (AGetOnce (y_once y)) y
| ef_so b : effect P p y (ASetOnce b) (with_once y b)
| ef_gp : effect P p y (AGetStop (y_stop y)) y
| ef_sp b : effect P p y (ASetStop b) (with_stop y b)
| ef_it w' b : p_init P (y_world y) w' b -> effect P p y (AInit b) (with_world y w')
| ef_pu w' r : p_push P (y_world y) w' r -> effect P p y (APush r) (with_world y w')
| ef_ul w' : p_unlink P (y_world y) w' -> effect P p y AUnlink (with_world y w')
| ef_cs w' : p_subclear P (y_world y) w' -> effect P p y AClearSub (with_world y w')
| ef_or : effect P p y (AOrphans (p_orphan P (y_world y))) y
| ef_lo : y_lock y = None -> effect P p y ALock (with_lock y (Some p))
| ef_un : effect P p y AUnlock (with_lock y None)
| ef_eb : effect P p y AEditBegin y
| ef_ee w' b : p_edit P (y_world y) w' b -> effect P p y (AEditEnd b) (with_world y w')
| ef_ju : effect P p y AJump y.

(** Events: a service request arrives, or process [p] makes an access.
    Requests and steps of threads; no code of its own. *)
Inductive event : Set := EArrive (k : kind) | EAct (p : nat) (a : action).

(** Requests start handlers; tick threads are only started by handlers.
    Requests and steps of threads; no code of its own. *)
Inductive step (P : plant W) : sys W -> event -> sys W -> Prop :=
| st_arrive y k : k <> KTick ->
    step P y (EArrive k) (with_procs y (y_procs y ++ [(k, Some (first_code k))]))
| st_act y p k c a c' y' :
    nth_error (y_procs y) p = Some (k, Some c) -> lstep c a c' -> effect P p y a y' ->
    step P y (EAct p a) (with_proc y' p (k, Some c')).

(** The state after construction (348-371). *)
Definition fresh (w : W) : sys W := mkY EDITABLE None false false None w [].
End Sys.
