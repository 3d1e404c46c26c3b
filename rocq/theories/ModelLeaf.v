(** Model of leaf nodes that talk to ROS: Wait, ServiceBase, WaitForService, ActionBase,
    TopicSubscriber, TopicMemorySubscriber and TopicPublisher
    (/repo/ros_bt_py/ros_bt_py/ros_nodes).

    The code of a leaf class is a function of the kind [ev_leaf] of ModelTree.v expects: of
    the operation, the state of the node, its inputs, and a record [X] that holds the
    private attributes of the node and what it sees of ROS.  The records also keep a log
    of what was sent to ROS, which the code does not read except through futures.

    Simplifications: the node has a reference to a ROS node; logging and utility are left
    out; a method runs without ROS events in between except for the passing of time (the
    fields [.._lag]); attributes that are read only after they were assigned have arbitrary
    values before.  No proofs in this file. *)
From Coq Require Import String ZArith Bool SpecFloat Arith List.
From Verif Require Import Base ModelData ModelUtility ModelTree.
Import ListNotations.
Local Open Scope string_scope.
Local Open Scope list_scope.

(** NodeInputMap (node_config.py:62-104), on the map itself. *)
Definition io_value (m : iomap) (key : string) : res value :=
  match dget key m with
  | None => Err EConfig
  | Some c => match c_val c with Some v => Ok v | None => Err EConfig end
  end.
Definition io_value_as {A} (conv : value -> option A) (m : iomap) (key : string) : res A :=
  match io_value m key with
  | Ok v => match conv v with Some a => Ok a | None => Err EConfig end
  | Err e => Err e
  | Raise => Raise
  end.
Fixpoint io_any_updated (m : iomap) (keys : list string) : res bool :=
  match keys with
  | [] => Ok false
  | k :: r => match dget k m with
              | None => Err EConfig
              | Some c => res_map (fun b => c_upd c || b) (io_any_updated m r)
              end
  end.

(** What the code of a leaf returns: new private state, writes to its outputs, result.
    The _do_ methods of leaves (node.py:392-728). *)
Definition leafres (X : Type) : Type := (X * list (string * value) * res state)%type.
(** The _do_ methods of leaves (node.py:392-728). *)
Definition leafcode (X : Type) : Type := op -> state -> iomap -> X -> leafres X.
(** [case Ok(v): ... case Err(e): return Err(e)].  Python: match on a result. *)
Definition onok {A X} (r : res A) (x : X) (k : A -> leafres X) : leafres X :=
  match r with Ok a => k a | Err e => (x, [], Err e) | Raise => (x, [], Raise) end.

(** A tree with one leaf of the class [f].  node.py:392-728. *)
Definition leaf_env {X} (f : leafcode X) : env X :=
  mkEnv X (fun o _ st ins x => f o st ins x) (fun _ _ _ => Ok bounds_free) (fun x => (x, 0%Z)).

(** [(now - last).nanoseconds / 1e9] in double arithmetic.  wait.py:45-87, service.py:65-261. *)
Definition seconds (now last : Z) : spec_float :=
  SFdiv prec emax (float_of_Z (now - last)) (float_of_Z 1000000000).

(** ** Wait (wait.py:45-87) *)

(** [wa_clock], [wa_lag]: what the ROS clock shows at the first reading during an
    operation, and how much later the second reading is.  wait.py:45-87. *)
Record wait : Set := mkWait {
  wa_start : option Z; wa_dur : spec_float; wa_clock : Z; wa_lag : Z }.

Definition wait_leaf : leafcode wait := fun o st ins x =>
  match o with
  | OSetup =>                                                (* 55-66 *)
      let x1 := mkWait None (wa_dur x) (wa_clock x) (wa_lag x) in
      onok (io_value_as as_float ins "seconds_to_wait") x1 (fun t =>
        (mkWait None t (wa_clock x) (wa_lag x), [], Ok IDLE))
  | OTick =>                                                 (* 68-78 *)
      let s := match wa_start x with None => wa_clock x | Some s => s end in
      let x1 := mkWait (Some s) (wa_dur x) (wa_clock x) (wa_lag x) in
      (x1, [], Ok (if SFleb (wa_dur x) (seconds (wa_clock x + wa_lag x) s) then SUCCEEDED else RUNNING))
  | OShutdown => (x, [], Ok SHUTDOWN)                        (* 80-81 *)
  | OReset => (mkWait None (wa_dur x) (wa_clock x) (wa_lag x), [], Ok IDLE)  (* 83-85 *)
  | OUntick => (x, [], Ok PAUSED)                            (* 87-88 *)
  end.

(** ** Futures (rclpy.task.Future)

    Not part of the repository: done() is true when a result or an exception was set,
    cancelled() after a cancel() that came before. *)

(** The result of a finished future: None, a message, or an exception that [result()]
    raises.  rclpy futures; Python. *)
Inductive reply (R : Type) : Type := RNone | RMsg (m : R) | RExc.
Arguments RNone {R}. Arguments RMsg {R}. Arguments RExc {R}.
(** rclpy futures; Python. *)
Record future (R : Type) : Type := mkFut { f_reply : option (reply R); f_cancelled : bool }.
Arguments mkFut {R}. Arguments f_reply {R}. Arguments f_cancelled {R}.
(** rclpy futures; Python. *)
Definition new_future {R} : future R := mkFut None false.
(** cancel() has no effect on a finished future.  rclpy futures; Python. *)
Definition cancel {R} (f : future R) : future R :=
  match f_reply f with None => mkFut None true | Some _ => f end.

(** Replace the [i]-th element.  Helper; no code of its own. *)
Fixpoint nth_upd {A} (l : list A) (i : nat) (g : A -> A) : list A :=
  match l, i with
  | [], _ => []
  | a :: r, 0 => g a :: r
  | a :: r, S j => a :: nth_upd r j g
  end.

(** ** ServiceBase (service.py:65-261) *)

Section Service.
(** What a subclass provides: the monitored inputs (request_fields), get_request,
    set_outputs (what it writes and returns) and get_service_type. *)
Context {Req Resp : Type}.
Variable fields : list string.
Variable get_request : iomap -> res Req.
Variable set_outputs : Resp -> list (string * value) * res state.
Variable get_type : iomap -> res unit.

(** A call sent to the service: the request, when it was sent, and its future.
    service.py:65-261. *)
Record scall : Type := mkCall { sc_req : Req; sc_time : Z; sc_fut : future Resp }.
(** [sv_future]: an index into [sv_calls], all calls ever sent.  [sv_destroy]: whether
    destroy_client would succeed.  service.py:65-261. *)
Record service : Type := mkSv {
  sv_client : bool; sv_future : option nat; sv_request : option Req;
  sv_timeout : spec_float; sv_called : option Z;
  sv_calls : list scall; sv_clock : Z; sv_lag : Z; sv_destroy : bool }.

(** Attributes of service.py:65-261. *)
Definition sv_set (x : service) (client : bool) (fut : option nat) (req : option Req) (called : option Z)
  (calls : list scall) : service :=
  mkSv client fut req (sv_timeout x) called calls (sv_clock x) (sv_lag x) (sv_destroy x).

(** service.py:65-261. *)
Definition cancel_call (l : list scall) (i : nat) : list scall :=
  nth_upd l i (fun c => mkCall (sc_req c) (sc_time c) (cancel (sc_fut c))).

(** _do_untick (217-223). *)
Definition service_untick (x : service) : service :=
  sv_set x (sv_client x) None None None
    (match sv_future x with Some i => cancel_call (sv_calls x) i | None => sv_calls x end).
(** _do_reset (225-235). *)
Definition service_reset (x : service) : service * res state :=
  if sv_client x then
    if sv_destroy x then
      (service_untick (sv_set x false (sv_future x) (sv_request x) (sv_called x) (sv_calls x)), Ok IDLE)
    else (x, Err EConfig)
  else (service_untick x, Ok IDLE).

(** 161-215: from the check of the client on. *)
Definition service_call (st : state) (ins : iomap) (x : service) : leafres service :=
  onok (if sv_client x then Ok tt else res_map (fun _ => tt) (io_value_as as_str ins "service_name")) x (fun _ =>
    let x := sv_set x true (sv_future x) (sv_request x) (sv_called x) (sv_calls x) in
    match sv_request x with
    | Some r =>                                              (* 174-181 *)
        (sv_set x true (Some (List.length (sv_calls x))) None (Some (sv_clock x))
           (sv_calls x ++ [mkCall r (sv_clock x) new_future]), [], Ok RUNNING)
    | None =>
        match sv_future x with
        | None => (x, [], Ok st)                             (* 183-184 *)
        | Some i =>
            match nth_error (sv_calls x) i with
            | None => (x, [], Raise)                         (* not reachable *)
            | Some c =>
                match f_reply (sc_fut c) with
                | Some RExc => (x, [], Raise)                (* 187: result() raises *)
                | Some RNone => (x, [], Err EConfig)
                | Some (RMsg m) =>
                    let (ws, r) := set_outputs m in
                    (sv_set x true None None (sv_called x) (sv_calls x), ws, r)
                | None =>
                    if f_cancelled (sc_fut c) then           (* 192-194 *)
                      (sv_set x true None None (sv_called x) (sv_calls x), [], Ok FAILED)
                    else
                      (* 198-215; the second reading of the clock is later *)
                      let called := match sv_called x with None => sv_clock x | Some t => t end in
                      let now := match sv_called x with None => (sv_clock x + sv_lag x)%Z | Some _ => sv_clock x end in
                      if SFltb (sv_timeout x) (seconds now called) then
                        (sv_set x true None None (Some called) (cancel_call (sv_calls x) i), [], Ok FAILED)
                      else (sv_set x true (Some i) None (Some called) (sv_calls x), [], Ok RUNNING)
                end
            end
        end
    end).

(** 151-159. *)
Definition service_request (st : state) (ins : iomap) (x : service) : leafres service :=
  match st, sv_future x, sv_request x with
  | IDLE, None, None =>
      onok (get_request ins) x (fun r =>
        service_call st ins (sv_set x (sv_client x) None (Some r) (sv_called x) (sv_calls x)))
  | _, _, _ => service_call st ins x
  end.

Definition service_leaf : leafcode service := fun o st ins x =>
  match o with
  | OSetup =>                                                (* 107-129 *)
      let x1 := sv_set x false None None (sv_called x) (sv_calls x) in
      onok (io_value_as as_float ins "wait_for_response_seconds") x1 (fun t =>
        let x2 := mkSv false None None t (sv_called x) (sv_calls x) (sv_clock x) (sv_lag x) (sv_destroy x) in
        onok (get_type ins) x2 (fun _ => (x2, [], Ok IDLE)))
  | OTick =>                                                 (* 131-215 *)
      onok (io_any_updated ins ("service_name" :: fields)) x (fun u =>
        if u then
          match service_reset x with
          | (x1, Ok _) => onok (get_request ins) x1 (fun r =>
              service_request st ins (sv_set x1 (sv_client x1) (sv_future x1) (Some r) (sv_called x1) (sv_calls x1)))
          | (x1, Err e) => (x1, [], Err e)
          | (x1, Raise) => (x1, [], Raise)
          end
        else service_request st ins x)
  | OUntick => (service_untick x, [], Ok IDLE)
  | OReset => let (x1, r) := service_reset x in (x1, [], r)
  | OShutdown => let (x1, r) := service_reset x in (x1, [], res_map (fun _ => SHUTDOWN) r)  (* 237-238 *)
  end.

(** What may happen between two operations: time passes, futures finish or are cancelled. *)
Definition fut_on {R} (f f' : future R) : Prop :=
  (forall r, f_reply f = Some r -> f_reply f' = Some r) /\ (f_cancelled f = true -> f_cancelled f' = true).
Definition service_out (x x' : service) : Prop :=
  sv_client x' = sv_client x /\ sv_future x' = sv_future x /\ sv_request x' = sv_request x /\
  sv_timeout x' = sv_timeout x /\ sv_called x' = sv_called x /\
  Forall2 (fun c c' => sc_req c' = sc_req c /\ sc_time c' = sc_time c /\ fut_on (sc_fut c) (sc_fut c'))
    (sv_calls x) (sv_calls x').
(** A node that was never set up: the class attributes (89-90). *)
Definition service_init (x : service) : Prop :=
  sv_client x = false /\ sv_future x = None /\ sv_calls x = [].
End Service.
Arguments scall : clear implicits. Arguments service : clear implicits.

(** ** WaitForService (service.py:366-439) *)

Record waitsvc : Set := mkWs {
  ws_client : bool; ws_timeout : spec_float; ws_called : option Z;
  ws_ready : bool; ws_clock : Z; ws_lag : Z; ws_destroy : bool }.
Definition waitsvc_set (x : waitsvc) (client : bool) (called : option Z) : waitsvc :=
  mkWs client (ws_timeout x) called (ws_ready x) (ws_clock x) (ws_lag x) (ws_destroy x).
Definition waitsvc_reset (x : waitsvc) : waitsvc * res state :=        (* 429-434 *)
  if ws_client x then
    if ws_destroy x then (waitsvc_set x false None, Ok IDLE) else (x, Err EConfig)
  else (waitsvc_set x false None, Ok IDLE).
(** 400-423. *)
Definition waitsvc_poll (ins : iomap) (x : waitsvc) : leafres waitsvc :=
  onok (if ws_client x then Ok tt else res_map (fun _ => tt) (io_value_as as_str ins "service_name")) x (fun _ =>
    let x := waitsvc_set x true (ws_called x) in
    if ws_ready x then (x, [], Ok SUCCEEDED)
    else
      let called := match ws_called x with None => ws_clock x | Some t => t end in
      let now := match ws_called x with None => (ws_clock x + ws_lag x)%Z | Some _ => ws_clock x end in
      let x := waitsvc_set x true (Some called) in
      (x, [], Ok (if SFltb (ws_timeout x) (seconds now called) then FAILED else RUNNING))).
Definition waitsvc_leaf : leafcode waitsvc := fun o st ins x =>
  match o with
  | OSetup =>                                                (* 369-386 *)
      onok (io_value ins "service_type") x (fun _ =>
        onok (io_value_as as_float ins "wait_for_service_seconds") x (fun t =>
          (mkWs false t None (ws_ready x) (ws_clock x) (ws_lag x) (ws_destroy x), [], Ok IDLE)))
  | OTick =>                                                 (* 388-423 *)
      onok (io_any_updated ins ["service_name"]) x (fun u =>
        if u then
          match waitsvc_reset x with
          | (x1, Ok _) => waitsvc_poll ins x1
          | (x1, Err e) => (x1, [], Err e)
          | (x1, Raise) => (x1, [], Raise)
          end
        else waitsvc_poll ins x)
  | OUntick => (waitsvc_set x (ws_client x) None, [], Ok IDLE)
  | OReset => let (x1, r) := waitsvc_reset x in (x1, [], r)
  | OShutdown => let (x1, r) := waitsvc_reset x in (x1, [], res_map (fun _ => SHUTDOWN) r)
  end.
(** Time passes and the service becomes available or not. *)
Definition waitsvc_out (x x' : waitsvc) : Prop :=
  ws_client x' = ws_client x /\ ws_timeout x' = ws_timeout x /\ ws_called x' = ws_called x.

(** ** TopicSubscriber (topic.py:70-184) and TopicMemorySubscriber (262-387) *)

Definition sub_keys : list string := ["topic_type"; "topic_name"; "reliable"; "transient_local"; "depth"].
(** [tp_got]: all messages the callback was ever called with, and when. *)
Record topic : Type := mkTp {
  tp_sub : bool; tp_msg : option value; tp_stamp : option Z; tp_delay : spec_float;
  tp_got : list (value * Z); tp_clock : Z; tp_destroy : bool }.
Definition tp_set (x : topic) (sub : bool) (msg : option value) (stamp : option Z) : topic :=
  mkTp sub msg stamp (tp_delay x) (tp_got x) (tp_clock x) (tp_destroy x).
(** _do_reset (167-178); [mem]: the memory variant also forgets the time (373). *)
Definition topic_reset (mem : bool) (x : topic) : topic * res state :=
  let x1 := tp_set x (tp_sub x) None (if mem then None else tp_stamp x) in
  if tp_sub x then
    if tp_destroy x then (tp_set x1 false None (tp_stamp x1), Ok IDLE) else (x1, Err EConfig)
  else (x1, Ok IDLE).
(** 114-152, 317-355: subscribe. *)
Definition topic_subscribe (ins : iomap) (x : topic) (k : topic -> leafres topic) : leafres topic :=
  if tp_sub x then k x
  else
    onok (io_value_as as_bool ins "reliable") x (fun _ =>
    onok (io_value_as as_bool ins "transient_local") x (fun _ =>
    onok (io_value_as as_int ins "depth") x (fun _ =>
    onok (io_value ins "topic_type") x (fun _ =>
    onok (io_value_as as_str ins "topic_name") x (fun _ =>
      k (tp_set x true (tp_msg x) (tp_stamp x))))))).
Definition topic_start (mem : bool) (ins : iomap) (keys : list string) (x : topic) (k : topic -> leafres topic) : leafres topic :=
  onok (io_any_updated ins keys) x (fun u =>
    if u then
      match topic_reset mem x with
      | (x1, Ok _) => topic_subscribe ins x1 k
      | (x1, Err e) => (x1, [], Err e)
      | (x1, Raise) => (x1, [], Raise)
      end
    else topic_subscribe ins x k).

(** Simplification: the message is also forgotten when writing it to the output fails;
    the node is BROKEN then and forgets it before the next tick in any case. *)
Definition subscriber_leaf : leafcode topic := fun o st ins x =>
  match o with
  | OSetup => (tp_set x false None (tp_stamp x), [], Ok IDLE)          (* 84-91 *)
  | OTick =>                                                 (* 97-162 *)
      topic_start false ins sub_keys x (fun x =>
        match tp_msg x with
        | None => (x, [], Ok RUNNING)
        | Some m => (tp_set x (tp_sub x) None (tp_stamp x), [("message", m)], Ok SUCCEEDED)
        end)
  | OUntick => (x, [], Ok IDLE)
  | OReset => let (x1, r) := topic_reset false x in (x1, [], r)
  | OShutdown => let (x1, r) := topic_reset false x in (x1, [], res_map (fun _ => SHUTDOWN) r)
  end.
Definition memory_leaf : leafcode topic := fun o st ins x =>
  match o with
  | OSetup =>                                                (* 277-290 *)
      let x1 := tp_set x false None (Some (tp_clock x)) in
      onok (io_value_as as_float ins "memory_delay") x1 (fun d =>
        (mkTp false None (Some (tp_clock x)) d (tp_got x) (tp_clock x) (tp_destroy x), [], Ok IDLE))
  | OTick =>                                                 (* 297-367; topic_type is not monitored *)
      topic_start true ins ["topic_name"; "reliable"; "transient_local"; "depth"] x (fun x =>
        match tp_msg x with
        | None => (x, [], Ok RUNNING)
        | Some m =>
            if match tp_stamp x with Some t => SFltb (tp_delay x) (seconds (tp_clock x) t) | None => false end
            then (x, [], Ok FAILED)
            else (x, [("message", m)], Ok SUCCEEDED)
        end)
  | OUntick => (x, [], Ok IDLE)
  | OReset => let (x1, r) := topic_reset true x in (x1, [], r)
  | OShutdown => let (x1, r) := topic_reset true x in (x1, [], res_map (fun _ => SHUTDOWN) r)
  end.

(** Time passes, or, while subscribed, the callback (93-95, 292-295) is called. *)
Inductive topic_out (mem : bool) (x : topic) : topic -> Prop :=
| to_time c d : topic_out mem x (mkTp (tp_sub x) (tp_msg x) (tp_stamp x) (tp_delay x) (tp_got x) c d)
| to_msg m c : tp_sub x = true ->
    topic_out mem x (mkTp true (Some m) (if mem then Some c else tp_stamp x) (tp_delay x)
      (tp_got x ++ [(m, c)]) c (tp_destroy x)).
(** Never set up. *)
Definition topic_init (x : topic) : Prop := tp_sub x = false /\ tp_msg x = None.

(** ** TopicPublisher (topic.py:465-565) *)

(** [pb_sent]: all messages published. *)
Record publisher : Type := mkPb { pb_pub : option bool; pb_sent : list value; pb_destroy : bool }.
Definition pub_set (x : publisher) (p : option bool) : publisher := mkPb p (pb_sent x) (pb_destroy x).
(** _do_reset (553-561); [pb_pub] is [None] while the attribute does not exist, then
    whether there is a publisher. *)
Definition pub_reset (x : publisher) : publisher * res state :=
  match pb_pub x with
  | None => (x, Raise)
  | Some false => (x, Ok IDLE)
  | Some true => if pb_destroy x then (pub_set x (Some false), Ok IDLE) else (x, Err EConfig)
  end.
(** 492-546. *)
Definition pub_publish (ins : iomap) (x : publisher) : leafres publisher :=
  onok (io_any_updated ins ["message"]) x (fun u =>
    if u then onok (io_value ins "message") x (fun m =>
      (mkPb (pb_pub x) (pb_sent x ++ [m]) (pb_destroy x), [], Ok SUCCEEDED))
    else (x, [], Ok SUCCEEDED)).
Definition pub_open (ins : iomap) (x : publisher) : leafres publisher :=
  match pb_pub x with
  | Some true => pub_publish ins x
  | _ =>
    onok (io_value_as as_bool ins "reliable") x (fun _ =>
    onok (io_value_as as_bool ins "transient_local") x (fun _ =>
    onok (io_value_as as_int ins "depth") x (fun _ =>
    onok (io_value ins "topic_type") x (fun _ =>
    onok (io_value_as as_str ins "topic_name") x (fun _ =>
      pub_publish ins (pub_set x (Some true)))))))
  end.
Definition publisher_leaf : leafcode publisher := fun o st ins x =>
  match o with
  | OSetup => (pub_set x (Some false), [], Ok IDLE)          (* 466-473 *)
  | OTick =>
      onok (io_any_updated ins ["topic_name"; "reliable"; "transient_local"; "depth"]) x (fun u =>
        if u then
          match pub_reset x with
          | (x1, Ok _) => pub_open ins x1
          | (x1, Err e) => (x1, [], Err e)
          | (x1, Raise) => (x1, [], Raise)
          end
        else pub_open ins x)
  | OUntick => (x, [], Ok IDLE)
  | OReset => let (x1, r) := pub_reset x in (x1, [], r)
  | OShutdown => let (x1, r) := pub_reset x in (x1, [], res_map (fun _ => SHUTDOWN) r)
  end.
Definition publisher_out (x x' : publisher) : Prop := pb_pub x' = pb_pub x /\ pb_sent x' = pb_sent x.

(** ** ActionBase (action.py:74-428) *)

Section Action.
(** What a subclass provides: goal_fields, get_goal, set_result_outputs, get_action_type.
    Simplification: feedback is left out (it never changes the result of a tick).
    [typed]: whether send_goal_async raises an exception for a goal that is None. *)
Context {Goal Res : Type}.
Variable fields : list string.
Variable get_goal : iomap -> res Goal.
Variable set_result : Res -> list (string * value) * res state.
Variable get_type : iomap -> res unit.
Variable typed : bool.

Inductive astate : Set :=
| AIdle | AWaitAccept | AWaitComplete | ARequestCancel | AWaitCancel | AFinished.  (* 55-61 *)

(** A goal sent to the server: the goal (None if None was sent), the future that answers
    (** Helper; no code of its own. *)
    with the handle, that of the result, whether cancel_goal_async was called, and the
    future it returned.  action.py:74-428. *)
Record agoal : Type := mkGoal {
  go_goal : option Goal; go_accept : future unit; go_result : future Res;
  go_asked : bool; go_cancel : future unit }.
(** Futures and handles are indices into [ac_goals], all goals ever sent.  [ac_state] is
    [None] while the attribute does not exist.  action.py:74-428. *)
Record action : Type := mkAc {
  ac_state : option astate; ac_client : bool; ac_goal : option Goal;
  ac_req : option nat; ac_handle : option nat; ac_fut : option nat; ac_cancel : option nat;
  ac_start : Z; ac_timeout : spec_float; ac_goals : list agoal; ac_clock : Z }.

(** Field update; no code of its own. *)
Definition ac_to (x : action) (s : astate) : action :=
  mkAc (Some s) (ac_client x) (ac_goal x) (ac_req x) (ac_handle x) (ac_fut x) (ac_cancel x)
    (ac_start x) (ac_timeout x) (ac_goals x) (ac_clock x).
(** Field update; no code of its own. *)
Definition ac_with_client (x : action) (b : bool) : action :=
  mkAc (ac_state x) b (ac_goal x) (ac_req x) (ac_handle x) (ac_fut x) (ac_cancel x)
    (ac_start x) (ac_timeout x) (ac_goals x) (ac_clock x).
(** Field update; no code of its own. *)
Definition ac_with_goal (x : action) (g : option Goal) : action :=
  mkAc (ac_state x) (ac_client x) g (ac_req x) (ac_handle x) (ac_fut x) (ac_cancel x)
    (ac_start x) (ac_timeout x) (ac_goals x) (ac_clock x).
(** Field update; no code of its own. *)
Definition ac_futs (x : action) (req handle fut canc : option nat) : action :=
  mkAc (ac_state x) (ac_client x) (ac_goal x) req handle fut canc
    (ac_start x) (ac_timeout x) (ac_goals x) (ac_clock x).
(** Field update; no code of its own. *)
Definition ac_with_goals (x : action) (l : list agoal) : action :=
  mkAc (ac_state x) (ac_client x) (ac_goal x) (ac_req x) (ac_handle x) (ac_fut x) (ac_cancel x)
    (ac_start x) (ac_timeout x) l (ac_clock x).
(** Field update; no code of its own. *)
Definition ac_started (x : action) : action :=
  mkAc (ac_state x) (ac_client x) (ac_goal x) (ac_req x) (ac_handle x) (ac_fut x) (ac_cancel x)
    (ac_clock x) (ac_timeout x) (ac_goals x) (ac_clock x).

(** _do_tick_send_new_goal (262-273). *)
Definition action_send (x : action) : leafres action :=
  if negb (ac_client x) then (x, [], Err EConfig)
  else match ac_goal x, typed with
       | None, true => (x, [], Raise)
       | g, _ =>
           (ac_to (ac_with_goal (ac_with_goals (ac_futs x (Some (List.length (ac_goals x))) (ac_handle x) (ac_fut x) (ac_cancel x))
              (ac_goals x ++ [mkGoal g new_future new_future false new_future])) None) AWaitAccept, [], Ok RUNNING)
       end.

(** _do_tick_wait_for_new_goal_complete (275-310). *)
Definition action_accept (x : action) : leafres action :=
  match ac_req x with
  | None => (ac_to x AIdle, [], Err EConfig)
  | Some i =>
      match nth_error (ac_goals x) i with
      | None => (x, [], Raise)                               (* not reachable *)
      | Some g =>
          match f_reply (go_accept g) with
          | Some RExc => (x, [], Raise)
          | Some RNone => (ac_to (ac_futs x None None (ac_fut x) (ac_cancel x)) AFinished, [], Ok FAILED)
          | Some (RMsg _) =>
              (ac_to (ac_started (ac_futs x None (Some i) (Some i) (ac_cancel x))) AWaitComplete, [], Ok RUNNING)
          | None =>
              if f_cancelled (go_accept g)
              then (ac_to (ac_futs x None None (ac_fut x) (ac_cancel x)) AFinished, [], Ok FAILED)
              else (x, [], Ok RUNNING)
          end
      end
  end.

(** _do_tick_wait_for_action_complete (165-212). *)
Definition action_complete (x : action) : leafres action :=
  match ac_handle x, ac_fut x with
  | Some _, Some i =>
      match nth_error (ac_goals x) i with
      | None => (x, [], Raise)                               (* not reachable *)
      | Some g =>
          let x1 := ac_to (ac_futs x (ac_req x) None None (ac_cancel x)) AFinished in
          match f_reply (go_result g) with
          | Some RExc => (x, [], Raise)
          | Some RNone => (x1, [], Ok FAILED)
          | Some (RMsg m) => let (ws, r) := set_result m in (x1, ws, r)
          | None =>
              if f_cancelled (go_result g) then (x1, [], Ok FAILED)
              else if SFltb (ac_timeout x) (seconds (ac_clock x) (ac_start x)) then
                (ac_to (ac_with_goals (ac_futs x (ac_req x) (ac_handle x) None (ac_cancel x))
                   (nth_upd (ac_goals x) i (fun g => mkGoal (go_goal g) (go_accept g) (cancel (go_result g)) (go_asked g) (go_cancel g))))
                   ARequestCancel, [], Ok RUNNING)
              else (x, [], Ok RUNNING)
          end
      end
  | _, _ => (x, [], Err EConfig)
  end.

(** _do_tick_cancel_running_goal (214-225); a new call returns a new future. *)
Definition action_ask (x : action) : action * res state :=
  match ac_handle x with
  | None => (x, Err EConfig)
  | Some i =>
      (ac_to (ac_with_goals (ac_futs x (ac_req x) (ac_handle x) (ac_fut x) (Some i))
         (nth_upd (ac_goals x) i (fun g => mkGoal (go_goal g) (go_accept g) (go_result g) true new_future)))
         AWaitCancel, Ok RUNNING)
  end.

(** _do_tick_wait_for_cancel_complete (227-260). *)
Definition action_canceled (x : action) : leafres action :=
  match ac_cancel x with
  | None => (ac_to x AFinished, [], Err EConfig)
  | Some i =>
      match nth_error (ac_goals x) i with
      | None => (x, [], Raise)                               (* not reachable *)
      | Some g =>
          let x1 := ac_to (ac_futs x (ac_req x) None None None) AFinished in
          match f_reply (go_cancel g) with
          | Some _ => (x1, [], Ok (match ac_goal x with Some _ => RUNNING | None => FAILED end))
          | None => if f_cancelled (go_cancel g) then (x1, [], Ok FAILED) else (x, [], Ok RUNNING)
          end
      end
  end.

(** _do_tick_finished (369-378). *)
Definition action_finished (st : state) (x : action) : leafres action :=
  match ac_goal x with
  | None => (x, [], Ok st)
  | Some _ => (ac_to (ac_with_client x false) AIdle, [], Ok RUNNING)
  end.

(** 332-367: from the check of the client on. *)
Definition action_go (st : state) (ins : iomap) (x : action) : leafres action :=
  onok (if ac_client x then Ok tt else res_map (fun _ => tt) (io_value_as as_str ins "action_name")) x (fun _ =>
    let x := ac_with_client x true in
    match ac_state x with
    | None => (x, [], Raise)
    | Some AIdle => action_send x
    | Some AWaitAccept => action_accept x
    | Some AWaitComplete => action_complete x
    | Some ARequestCancel => let (x1, r) := action_ask x in (x1, [], r)
    | Some AWaitCancel => action_canceled x
    | Some AFinished => action_finished st x
    end).

(** _do_untick (380-393) and _do_reset (395-404). *)
Definition action_untick (x : action) : action * res state :=
  let clear (x : action) := (ac_to (ac_futs x (ac_req x) None None None) AIdle, Ok IDLE) in
  match ac_state x with
  | None => (x, Raise)
  | Some AWaitComplete =>
      match action_ask x with
      | (x1, Ok _) => clear x1
      | (x1, e) => (x1, e)
      end
  | Some _ => clear x
  end.
Definition action_reset (x : action) : action * res state :=
  match action_untick x with
  | (x1, Ok _) => (ac_with_client x1 false, Ok IDLE)
  | (x1, e) => (x1, e)
  end.

Definition action_leaf : leafcode action := fun o st ins x =>
  match o with
  | OSetup =>                                                (* 126-158 *)
      onok (io_value_as as_float ins "timeout_seconds") x (fun t =>
        onok (get_type ins) x (fun _ =>
          (mkAc (Some AIdle) false (ac_goal x) None None None None (ac_start x) t (ac_goals x) (ac_clock x), [], Ok IDLE)))
  | OTick =>                                                 (* 312-367 *)
      onok (io_any_updated ins ("action_name" :: fields)) x (fun u =>
        if u then
          onok (get_goal ins) x (fun g =>
            let x1 := ac_with_goal x (Some g) in
            match ac_state x1 with
            | Some AIdle | Some AFinished | Some AWaitCancel => action_go st ins x1
            | None => (x1, [], Raise)
            | _ => action_go st ins (ac_to x1 ARequestCancel)
            end)
        else action_go st ins x)
  | OUntick => let (x1, r) := action_untick x in (x1, [], r)
  | OReset => let (x1, r) := action_reset x in (x1, [], r)
  | OShutdown => let (x1, r) := action_reset x in                      (* 406-411 *)
      (x1, [], res_map (fun _ => SHUTDOWN) r)
  end.

(** Time passes, futures finish or are cancelled.
    What the ROS system does between ticks; no code of its own. *)
Definition action_out (x x' : action) : Prop :=
  ac_state x' = ac_state x /\ ac_client x' = ac_client x /\ ac_goal x' = ac_goal x /\
  ac_req x' = ac_req x /\ ac_handle x' = ac_handle x /\ ac_fut x' = ac_fut x /\ ac_cancel x' = ac_cancel x /\
  ac_start x' = ac_start x /\ ac_timeout x' = ac_timeout x /\
  Forall2 (fun g g' => go_goal g' = go_goal g /\ go_asked g' = go_asked g /\
    fut_on (go_accept g) (go_accept g') /\ fut_on (go_result g) (go_result g') /\ fut_on (go_cancel g) (go_cancel g'))
    (ac_goals x) (ac_goals x').
(** action.py:74-140. *)
Definition action_init (x : action) : Prop := ac_state x = None /\ ac_goals x = [] /\ ac_goal x = None.
End Action.
Arguments agoal : clear implicits. Arguments action : clear implicits.
