(** Properties C24, C54-C56, C67-C69 and C82: leaf nodes that wait or talk to ROS. *)
From Coq Require Import String ZArith Bool SpecFloat Arith Reals List.
From Flocq Require Import Core BinarySingleNaN.
From Verif Require Import Base ModelData ModelUtility ModelTree ModelLeaf SpecLeaf ProofsLeaf ProofsWait ProofsSeconds
  ProofsWaitTime ProofsService ProofsTopic ProofsAction ProofsActionTime ProofsRos Demo DemoLeaf.
Import ListNotations.
Local Open Scope string_scope.
Local Open Scope list_scope.

Ltac fair := vm_compute; repeat split; repeat (constructor; repeat split); intros; try discriminate; auto.

(** ** C24 Wait finishes exactly when its time is over *)

(** The result of every tick: the time since the first tick after the last setup or
    reset, in double arithmetic, compared with seconds_to_wait at that setup.  The clock
    is not stopped by untick (which leaves the node PAUSED). *)
Theorem C24_exact : forall n name l w w' s,
  history wait_leaf (fun _ => True) wait_out n name l w ->
  call OTick (the_leaf wait_leaf n name) w = (w', Ok s) ->
  exists ins d,
    setup_inputs n l = Some ins /\ io_value_as as_float ins "seconds_to_wait" = Ok d /\
    let x := w_ext w in
    let t0 := match first_tick l with Some t => t | None => wa_clock x end in
    s = if SFleb d (seconds (wa_clock x + wa_lag x) t0) then SUCCEEDED else RUNNING.
Proof. exact wait_tick. Qed.
Print Assumptions C24_exact.

(** In real numbers: SUCCEEDED when seconds_to_wait are over, and not before the greatest
    double below seconds_to_wait is over. *)
Theorem C24_time : forall n name l w w' s ins d,
  history wait_leaf (fun _ => True) wait_out n name l w ->
  call OTick (the_leaf wait_leaf n name) w = (w', Ok s) ->
  setup_inputs n l = Some ins -> io_value_as as_float ins "seconds_to_wait" = Ok d ->
  valid_binary prec emax d = true -> is_finite_SF d = true ->
  let t0 := match first_tick l with Some t => t | None => wa_clock (w_ext w) end in
  let elapsed := (wa_clock (w_ext w) + wa_lag (w_ext w) - t0)%Z in
  (0 <= elapsed <= 2 ^ 53)%Z ->
  (s = SUCCEEDED \/ s = RUNNING) /\
  ((SF2R radix2 d <= IZR elapsed / 1000000000)%R -> s = SUCCEEDED) /\
  (s = SUCCEEDED -> forall e, valid_binary prec emax e = true -> is_finite_SF e = true ->
     (SF2R radix2 e < SF2R radix2 d)%R -> (SF2R radix2 e < IZR elapsed / 1000000000)%R).
Proof. exact wait_time. Qed.
Print Assumptions C24_time.

(** Once SUCCEEDED, every tick is SUCCEEDED until the next setup or reset. *)
Theorem C24_stays : forall n name l1 it l2 w w' s,
  history wait_leaf (fun _ => True) wait_out n name (l1 ++ it :: l2) w ->
  i_op it = OTick -> i_res it = Ok SUCCEEDED -> not_restarted l2 ->
  call OTick (the_leaf wait_leaf n name) w = (w', Ok s) ->
  (forall ins d, setup_inputs n l1 = Some ins -> io_value_as as_float ins "seconds_to_wait" = Ok d ->
     valid_binary prec emax d = true) ->
  let early := (wa_clock (w_ext (i_before it)) + wa_lag (w_ext (i_before it)))%Z in
  let late := (wa_clock (w_ext w) + wa_lag (w_ext w))%Z in
  (early <= late)%Z -> (forall t, first_tick (l1 ++ [it]) = Some t -> int64 (early - t) /\ int64 (late - t)) ->
  s = SUCCEEDED.
Proof. exact wait_stays. Qed.
Print Assumptions C24_stays.

(** Two seconds, ticked after 0, 1, 2 and 4 seconds, with an untick between. *)
Definition wait_script : list (cmd wait) :=
  [Do OSetup; clock_at (secs 10); Do OTick; clock_at (secs 11); Do OTick; Do OUntick; clock_at (secs 12); Do OTick;
   clock_at (secs 14)].
Example C24_example :
  let lw := play wait_leaf 7 "w" wait_script [] (new_world wait_ins [] wait_new) in
  history wait_leaf (fun _ => True) wait_out 7 "w" (fst lw) (snd lw) /\
  map i_res (fst lw) = [Ok IDLE; Ok RUNNING; Ok RUNNING; Ok PAUSED; Ok SUCCEEDED] /\
  first_tick (fst lw) = Some (secs 10) /\
  snd (call OTick (the_leaf wait_leaf 7 "w") (snd lw)) = Ok SUCCEEDED /\
  valid_binary prec emax (sec 2) = true /\ is_finite_SF (sec 2) = true.
Proof.
  cbv zeta. split; [|vm_compute; repeat split].
  apply play_history; [intros x; split; reflexivity|exact I|fair].
Qed.

(** ** C54 Service nodes call the service once per request *)

(** At most one call is pending. *)
Theorem C54_one_pending : forall Req Resp fields (get_request : iomap -> res Req)
  (set_outputs : Resp -> list (string * value) * res state) get_type n name l w i j c d,
  history (service_leaf fields get_request set_outputs get_type) service_init service_out n name l w ->
  nth_error (sv_calls (w_ext w)) i = Some c -> pending (sc_fut c) ->
  nth_error (sv_calls (w_ext w)) j = Some d -> pending (sc_fut d) -> i = j.
Proof. exact @service_one. Qed.
Print Assumptions C54_one_pending.

(** A tick that finds an input changed, or the node IDLE, starts an execution: it sends
    exactly one call, with the request made from the inputs, when no other call is pending. *)
Theorem C54_start : forall Req Resp fields (get_request : iomap -> res Req)
  (set_outputs : Resp -> list (string * value) * res state) get_type n name l w w' s,
  let leaf := service_leaf fields get_request set_outputs get_type in
  history leaf service_init service_out n name l w ->
  call OTick (the_leaf leaf n name) w = (w', Ok s) ->
  updated (w_ins w n) ("service_name" :: fields) \/ w_st w n = IDLE ->
  s = RUNNING /\ exists r old, get_request (w_ins w n) = Ok r /\
    sv_calls (w_ext w') = old ++ [mkCall r (sv_clock (w_ext w)) new_future] /\
    length old = length (sv_calls (w_ext w)) /\ (forall c, In c old -> ~ pending (sc_fut c)).
Proof. exact @service_start. Qed.
Print Assumptions C54_start.

(** No other operation, and no tick of a node that has its result, sends a call. *)
Theorem C54_no_call : forall Req Resp fields (get_request : iomap -> res Req)
  (set_outputs : Resp -> list (string * value) * res state) get_type n name l w o w' r,
  let leaf := service_leaf fields get_request set_outputs get_type in
  history leaf service_init service_out n name l w -> o <> OTick ->
  call o (the_leaf leaf n name) w = (w', r) -> length (sv_calls (w_ext w')) = length (sv_calls (w_ext w)).
Proof. exact @service_nocall. Qed.
Print Assumptions C54_no_call.
Theorem C54_settled : forall Req Resp fields (get_request : iomap -> res Req)
  (set_outputs : Resp -> list (string * value) * res state) get_type n name l w w' s,
  let leaf := service_leaf fields get_request set_outputs get_type in
  history leaf service_init service_out n name l w ->
  call OTick (the_leaf leaf n name) w = (w', Ok s) ->
  not_updated (w_ins w n) ("service_name" :: fields) -> w_st w n <> IDLE -> w_st w n <> RUNNING ->
  s = w_st w n /\ sv_calls (w_ext w') = sv_calls (w_ext w).
Proof. exact @service_settled. Qed.
Print Assumptions C54_settled.

(** A tick of a RUNNING node with unchanged inputs sends no call and answers from the last
    call: its response, or FAILED if it was cancelled or is not answered within the
    timeout (then it is cancelled), or RUNNING.  Missing for the full property: histories
    in which an exception got out of an operation, for which it is false
    (C54_raised_refuted). *)
Theorem C54_answer_partial : forall Req Resp fields (get_request : iomap -> res Req)
  (set_outputs : Resp -> list (string * value) * res state) get_type n name,
  let leaf := service_leaf fields get_request set_outputs get_type in
  (forall m, snd (set_outputs m) <> Ok RUNNING) ->
  forall l w w' s, history leaf service_init service_out n name l w -> no_exception l ->
  call OTick (the_leaf leaf n name) w = (w', Ok s) ->
  not_updated (w_ins w n) ("service_name" :: fields) -> w_st w n = RUNNING ->
  exists before c ins t, sv_calls (w_ext w) = before ++ [c] /\
    setup_inputs n l = Some ins /\ io_value_as as_float ins "wait_for_response_seconds" = Ok t /\
    ((exists m, f_reply (sc_fut c) = Some (RMsg m) /\ snd (set_outputs m) = Ok s /\ sv_calls (w_ext w') = sv_calls (w_ext w)) \/
     (f_reply (sc_fut c) = None /\ f_cancelled (sc_fut c) = true /\ s = FAILED /\ sv_calls (w_ext w') = sv_calls (w_ext w)) \/
     (pending (sc_fut c) /\ SFltb t (seconds (sv_clock (w_ext w)) (sc_time c)) = true /\ s = FAILED /\
      sv_calls (w_ext w') = before ++ [mkCall (sc_req c) (sc_time c) (cancel (sc_fut c))]) \/
     (pending (sc_fut c) /\ SFltb t (seconds (sv_clock (w_ext w)) (sc_time c)) = false /\ s = RUNNING /\
      sv_calls (w_ext w') = sv_calls (w_ext w))).
Proof. exact @service_answer. Qed.
Print Assumptions C54_answer_partial.

(** In every history: or an exception got out of an earlier operation, no call is pending
    and the tick answers RUNNING without doing anything. *)
Theorem C54_answer_all : forall Req Resp fields (get_request : iomap -> res Req)
  (set_outputs : Resp -> list (string * value) * res state) get_type n name,
  let leaf := service_leaf fields get_request set_outputs get_type in
  (forall m, snd (set_outputs m) <> Ok RUNNING) ->
  forall l w w' s, history leaf service_init service_out n name l w ->
  call OTick (the_leaf leaf n name) w = (w', Ok s) ->
  not_updated (w_ins w n) ("service_name" :: fields) -> w_st w n = RUNNING ->
  ((exists it, In it l /\ i_res it = Raise) /\ (forall c, In c (sv_calls (w_ext w)) -> ~ pending (sc_fut c)) /\
    s = RUNNING /\ sv_calls (w_ext w') = sv_calls (w_ext w)) \/
  exists before c ins t, sv_calls (w_ext w) = before ++ [c] /\
    setup_inputs n l = Some ins /\ io_value_as as_float ins "wait_for_response_seconds" = Ok t /\
    ((exists m, f_reply (sc_fut c) = Some (RMsg m) /\ snd (set_outputs m) = Ok s /\ sv_calls (w_ext w') = sv_calls (w_ext w)) \/
     (f_reply (sc_fut c) = None /\ f_cancelled (sc_fut c) = true /\ s = FAILED /\ sv_calls (w_ext w') = sv_calls (w_ext w)) \/
     (pending (sc_fut c) /\ SFltb t (seconds (sv_clock (w_ext w)) (sc_time c)) = true /\ s = FAILED /\
      sv_calls (w_ext w') = before ++ [mkCall (sc_req c) (sc_time c) (cancel (sc_fut c))]) \/
     (pending (sc_fut c) /\ SFltb t (seconds (sv_clock (w_ext w)) (sc_time c)) = false /\ s = RUNNING /\
      sv_calls (w_ext w') = sv_calls (w_ext w))).
Proof. exact @service_answer_all. Qed.
Print Assumptions C54_answer_all.

(** After untick, reset and shutdown no call is pending. *)
Theorem C54_quiet : forall Req Resp fields (get_request : iomap -> res Req)
  (set_outputs : Resp -> list (string * value) * res state) get_type n name l w o w' s,
  let leaf := service_leaf fields get_request set_outputs get_type in
  history leaf service_init service_out n name l w -> o = OUntick \/ o = OReset \/ o = OShutdown ->
  call o (the_leaf leaf n name) w = (w', Ok s) ->
  forall c, In c (sv_calls (w_ext w')) -> ~ pending (sc_fut c).
Proof. exact @service_quiet. Qed.
Print Assumptions C54_quiet.

(** If the node class raises while it reads a response (a field that an output refuses
    with an exception, see C91_numpy_refuted), the call is forgotten but the node stays
    RUNNING: a day later ticks answer RUNNING and send nothing, although the only call was
    answered at once. *)
Definition raising_leaf := service_leaf ["data"] demo_request (fun _ : value => ([], Raise)) demo_type.
Definition raising_script : list (cmd (service value value)) :=
  [Do OSetup; svc_at (secs 1); Do OTick; svc_reply 0 (RMsg (VInt 5)); Do OTick; svc_at (secs 86400); Do OTick; Do OTick].
Theorem C54_raised_refuted : exists l w w',
  history raising_leaf service_init service_out 7 "s" l w /\
  map i_res l = [Ok IDLE; Ok RUNNING; Raise; Ok RUNNING; Ok RUNNING] /\ w_st w 7 = RUNNING /\
  not_updated (w_ins w 7) ["service_name"; "data"] /\
  call OTick (the_leaf raising_leaf 7 "s") w = (w', Ok RUNNING) /\
  sv_calls (w_ext w) = [mkCall (VInt 8) (secs 1) (mkFut (Some (RMsg (VInt 5))) false)] /\ w_ext w' = w_ext w.
Proof.
  set (lw := play raising_leaf 7 "s" raising_script [] (new_world (svc_ins old_ (VInt 8)) svc_outs svc_new)).
  exists (fst lw), (snd lw), (fst (call OTick (the_leaf raising_leaf 7 "s") (snd lw))).
  subst lw. split; [apply play_history; [exact service_out_refl|repeat split|fair]|].
  split; [vm_compute; reflexivity|]. split; [vm_compute; reflexivity|].
  split; [vm_compute; reflexivity|].
  split; [apply call_answer; vm_compute; reflexivity|].
  split; vm_compute; reflexivity.
Qed.
Print Assumptions C54_raised_refuted.

(** A call that is answered, one that is interrupted by untick, one whose inputs change
    while it is pending, and one that times out. *)
Definition svc_script : list (cmd (service value value)) :=
  [Do OSetup; svc_at (secs 1); Do OTick; Do OTick; svc_reply 0 (RMsg (VInt 5)); Do OTick; Do OTick;
   Do OReset; Do OTick; Do OUntick;
   Do OTick; Inp (svc_ins new_ (VInt 9)); Do OTick; svc_at (secs 8); Do OTick].
Example C54_example :
  let lw := play svc_leaf 7 "s" svc_script [] (new_world (svc_ins old_ (VInt 8)) svc_outs svc_new) in
  history svc_leaf service_init service_out 7 "s" (fst lw) (snd lw) /\ no_exception (fst lw) /\
  map i_res (fst lw) = [Ok IDLE; Ok RUNNING; Ok RUNNING; Ok SUCCEEDED; Ok SUCCEEDED; Ok IDLE; Ok RUNNING; Ok IDLE;
    Ok RUNNING; Ok RUNNING; Ok FAILED] /\
  map (fun c => (sc_req c, f_cancelled (sc_fut c))) (sv_calls (w_ext (snd lw))) =
    [(VInt 8, false); (VInt 8, true); (VInt 8, true); (VInt 9, true)] /\
  (forall m, snd (demo_outputs m) <> Ok RUNNING).
Proof.
  cbv zeta. split; [|split; [|vm_compute; repeat split; discriminate]].
  - apply play_history; [exact service_out_refl|repeat split|fair].
  - apply no_exception_check. vm_compute. reflexivity.
Qed.

(** ** C55 Action nodes do not lose track of goals *)

(** Every operation sends at most one goal and only ticks send; the goal is made from the
    inputs at the last tick that found a changed one, or is None.  Missing: None is not
    excluded, and the code does send it (C55_none_refuted). *)
Theorem C55_sent_partial : forall Goal Res fields (get_goal : iomap -> res Goal)
  (set_result : Res -> list (string * value) * res state) get_type typed n name l w o w' r,
  let leaf := action_leaf fields get_goal set_result get_type typed in
  history leaf action_init action_out n name l w -> call o (the_leaf leaf n name) w = (w', r) ->
  map go_goal (ac_goals (w_ext w')) = map go_goal (ac_goals (w_ext w)) \/
  o = OTick /\ exists g, map go_goal (ac_goals (w_ext w')) = map go_goal (ac_goals (w_ext w)) ++ [g] /\
    (g = None \/ g = wanted fields get_goal n (l ++ [mkItem w o w' r])).
Proof. exact @action_sent. Qed.
Print Assumptions C55_sent_partial.

(** At most one goal is in flight, and none after untick, reset and shutdown, in histories
    in which the node is not interrupted and its inputs do not change while a goal is not
    answered, and is not interrupted between giving up a goal because of the timeout and
    the next tick.  Missing: the other histories (C55_two_refuted, C55_left_refuted,
    C55_changed_refuted). *)
Theorem C55_one_partial : forall Goal Res fields (get_goal : iomap -> res Goal)
  (set_result : Res -> list (string * value) * res state) get_type typed n name l w i j g h,
  history (action_leaf fields get_goal set_result get_type typed) action_init action_out_kept n name l w ->
  careful fields n l ->
  nth_error (ac_goals (w_ext w)) i = Some g -> in_flight g ->
  nth_error (ac_goals (w_ext w)) j = Some h -> in_flight h -> i = j.
Proof. exact @action_one. Qed.
Print Assumptions C55_one_partial.
Theorem C55_quiet_partial : forall Goal Res fields (get_goal : iomap -> res Goal)
  (set_result : Res -> list (string * value) * res state) get_type typed n name l w o w' s,
  let leaf := action_leaf fields get_goal set_result get_type typed in
  history leaf action_init action_out_kept n name l w ->
  o = OUntick \/ o = OReset \/ o = OShutdown -> call o (the_leaf leaf n name) w = (w', Ok s) ->
  careful fields n (l ++ [mkItem w o w' (Ok s)]) -> forall g, In g (ac_goals (w_ext w')) -> ~ in_flight g.
Proof. exact @action_quiet. Qed.
Print Assumptions C55_quiet_partial.

(** A goal that succeeds, then one whose inputs change while it is executed, then an untick. *)
Definition act_script : list (cmd (action value value)) :=
  [Do OSetup; act_at (secs 1); Do OTick; act_accept 0; Do OTick; act_result 0 (VInt 5); Do OTick; Do OTick;
   Inp (act_ins new_ (VInt 9)); Do OTick; Do OTick; act_accept 1; Do OTick;
   Inp (act_ins new_ (VInt 10)); Do OTick; act_canceled 1; Do OTick; Do OTick; Do OTick; act_accept 2; Do OTick;
   Do OUntick].
Example C55_example :
  let lw := play (act_leaf true) 7 "a" act_script [] (new_world (act_ins new_ (VInt 8)) svc_outs act_new) in
  history (act_leaf true) action_init action_out_kept 7 "a" (fst lw) (snd lw) /\ careful ["data"] 7 (fst lw) /\
  map i_res (fst lw) = [Ok IDLE; Ok RUNNING; Ok RUNNING; Ok SUCCEEDED; Ok SUCCEEDED; Ok RUNNING; Ok RUNNING; Ok RUNNING;
    Ok RUNNING; Ok RUNNING; Ok RUNNING; Ok RUNNING; Ok RUNNING; Ok IDLE] /\
  map (fun g => (go_goal g, go_asked g)) (ac_goals (w_ext (snd lw))) =
    [(Some (VInt 8), false); (Some (VInt 9), true); (Some (VInt 10), true)].
Proof.
  cbv zeta. split; [|split; [|vm_compute; repeat split]].
  - apply play_history; [exact action_kept_refl|repeat split|fair].
  - apply careful_check. vm_compute. reflexivity.
Qed.

(** False in the code: an untick while a goal is executed, then a tick with unchanged
    inputs, sends a goal that is None. *)
Definition none_script : list (cmd (action value value)) :=
  [Do OSetup; Do OTick; act_accept 0; Do OTick; Do OUntick; Do OTick].
Theorem C55_none_refuted : exists l w,
  history (act_leaf false) action_init action_out_kept 7 "a" l w /\ no_exception l /\ careful ["data"] 7 l /\
  map go_goal (ac_goals (w_ext w)) = [Some (VInt 8); None].
Proof.
  eexists _, _. split; [|split; [|split]].
  - apply (play_history (act_leaf false) action_init action_out_kept 7 "a" action_kept_refl none_script
      (act_ins new_ (VInt 8)) svc_outs act_new); [repeat split|fair].
  - apply no_exception_check. vm_compute. reflexivity.
  - apply careful_check. vm_compute. reflexivity.
  - vm_compute. reflexivity.
Qed.
Print Assumptions C55_none_refuted.
(** The same with a client that refuses None: the exception gets out of the tick. *)
Theorem C55_none_raises_refuted : exists l w,
  history (act_leaf true) action_init action_out_kept 7 "a" l w /\
  map i_res l = [Ok IDLE; Ok RUNNING; Ok RUNNING; Ok IDLE; Raise].
Proof.
  eexists _, _. split.
  - apply (play_history (act_leaf true) action_init action_out_kept 7 "a" action_kept_refl none_script
      (act_ins new_ (VInt 8)) svc_outs act_new); [repeat split|fair].
  - vm_compute. reflexivity.
Qed.
Print Assumptions C55_none_raises_refuted.

(** False in the code: an untick before the server has accepted the goal forgets the goal;
    the next execution sends a second one and both are in flight. *)
Theorem C55_two_refuted : exists l w g h,
  history (act_leaf true) action_init action_out_kept 7 "a" l w /\ no_exception l /\
  ac_goals (w_ext w) = [g; h] /\ in_flight g /\ in_flight h.
Proof.
  eexists _, _, _, _. split; [|split; [|split; [|split]]].
  - apply (play_history (act_leaf true) action_init action_out_kept 7 "a" action_kept_refl
      [Do OSetup; Do OTick; Do OUntick; Inp (act_ins new_ (VInt 9)); Do OTick]
      (act_ins new_ (VInt 8)) svc_outs act_new); [repeat split|fair].
  - apply no_exception_check. vm_compute. reflexivity.
  - vm_compute. reflexivity.
  - vm_compute. auto.
  - vm_compute. auto.
Qed.
Print Assumptions C55_two_refuted.

(** False in the code: a shutdown between the timeout and the next tick leaves the accepted
    goal running without asking to cancel it. *)
Theorem C55_left_refuted : exists l w g,
  history (act_leaf true) action_init action_out_kept 7 "a" l w /\
  map i_res l = [Ok IDLE; Ok RUNNING; Ok RUNNING; Ok RUNNING; Ok SHUTDOWN] /\
  ac_goals (w_ext w) = [g] /\ f_reply (go_accept g) = Some (RMsg tt) /\ in_flight g.
Proof.
  eexists _, _, _. split; [|split; [|split; [|split]]].
  - apply (play_history (act_leaf true) action_init action_out_kept 7 "a" action_kept_refl
      [Do OSetup; Do OTick; act_accept 0; Do OTick; act_at (secs 6); Do OTick; Do OShutdown]
      (act_ins new_ (VInt 8)) svc_outs act_new); [repeat split|fair].
  - vm_compute. reflexivity.
  - vm_compute. reflexivity.
  - reflexivity.
  - vm_compute. auto.
Qed.
Print Assumptions C55_left_refuted.

(** False in the code: an input that changes before the server has accepted the goal breaks
    the node; the goal stays in flight also after the shutdown. *)
Theorem C55_changed_refuted : exists l w g e,
  history (act_leaf true) action_init action_out_kept 7 "a" l w /\
  map i_res l = [Ok IDLE; Ok RUNNING; Err e; Ok SHUTDOWN] /\
  ac_goals (w_ext w) = [g] /\ in_flight g.
Proof.
  eexists _, _, _, _. split; [|split; [|split]].
  - apply (play_history (act_leaf true) action_init action_out_kept 7 "a" action_kept_refl
      [Do OSetup; Do OTick; Inp (act_ins new_ (VInt 9)); Do OTick; Do OShutdown]
      (act_ins new_ (VInt 8)) svc_outs act_new); [repeat split|fair].
  - vm_compute. reflexivity.
  - vm_compute. reflexivity.
  - vm_compute. auto.
Qed.
Print Assumptions C55_changed_refuted.

(** ** C56 Subscriber nodes report each message at most once *)

(** TopicSubscriber: RUNNING without a message since the node started afresh (which each
    success does), otherwise SUCCEEDED with the latest one. *)
Theorem C56_subscriber : forall n name l w w' s,
  history subscriber_leaf topic_init (topic_out false) n name l w -> no_exception l ->
  call OTick (the_leaf subscriber_leaf n name) w = (w', Ok s) ->
  match fresh false n l w with
  | None => s = RUNNING
  | Some (m, t) => s = SUCCEEDED /\ written n "message" m w w'
  end.
Proof. exact (fun n name l w w' s H N C => topic_tick false n name l w w' s H N C). Qed.
Print Assumptions C56_subscriber.
(** TopicMemorySubscriber: FAILED exactly when the latest message is older than
    memory_delay. *)
Theorem C56_memory : forall n name l w w' s,
  history memory_leaf topic_init (topic_out true) n name l w -> no_exception l ->
  call OTick (the_leaf memory_leaf n name) w = (w', Ok s) ->
  match fresh true n l w with
  | None => s = RUNNING
  | Some (m, t) =>
      exists ins d, setup_inputs n l = Some ins /\ io_value_as as_float ins "memory_delay" = Ok d /\
        (if SFltb d (seconds (tp_clock (w_ext w)) t) then s = FAILED else s = SUCCEEDED /\ written n "message" m w w')
  end.
Proof. exact (fun n name l w w' s H N C => topic_tick true n name l w w' s H N C). Qed.
Print Assumptions C56_memory.

Definition tp_script (mem : bool) : list (cmd topic) :=
  [Do OSetup; Do OTick; tp_callback mem (VInt 4) (secs 1); tp_callback mem (VInt 5) (secs 2); Do OTick; Do OTick;
   tp_at (secs 9); Do OTick; tp_callback mem (VInt 6) (secs 9)].
Example C56_example :
  let lw := play subscriber_leaf 7 "t" (tp_script false) [] (new_world tp_ins tp_outs tp_new) in
  history subscriber_leaf topic_init (topic_out false) 7 "t" (fst lw) (snd lw) /\ no_exception (fst lw) /\
  map i_res (fst lw) = [Ok IDLE; Ok RUNNING; Ok SUCCEEDED; Ok RUNNING; Ok RUNNING] /\
  fresh false 7 (fst lw) (snd lw) = Some (VInt 6, secs 9) /\
  snd (call OTick (the_leaf subscriber_leaf 7 "t") (snd lw)) = Ok SUCCEEDED.
Proof.
  cbv zeta. split; [|split; [|vm_compute; repeat split]].
  - apply play_history; [apply topic_out_refl|repeat split|]. vm_compute.
    repeat (split; [first [eapply time_out; reflexivity | eapply msg_out; reflexivity]|]). exact I.
  - apply no_exception_check. vm_compute. reflexivity.
Qed.
Example C56_memory_example :
  let lw := play memory_leaf 7 "t" (tp_script true) [] (new_world tp_ins tp_outs tp_new) in
  history memory_leaf topic_init (topic_out true) 7 "t" (fst lw) (snd lw) /\ no_exception (fst lw) /\
  map i_res (fst lw) = [Ok IDLE; Ok RUNNING; Ok SUCCEEDED; Ok SUCCEEDED; Ok FAILED] /\
  fresh true 7 (fst lw) (snd lw) = Some (VInt 6, secs 9) /\
  snd (call OTick (the_leaf memory_leaf 7 "t") (snd lw)) = Ok SUCCEEDED.
Proof.
  cbv zeta. split; [|split; [|vm_compute; repeat split]].
  - apply play_history; [apply topic_out_refl|repeat split|]. vm_compute.
    repeat (split; [first [eapply time_out; reflexivity | eapply msg_out; reflexivity]|]). exact I.
  - apply no_exception_check. vm_compute. reflexivity.
Qed.

(** ** C67 Action nodes report the result of their own last goal *)

(** A tick that gives a new final result has it from the last goal sent: the result
    message, or FAILED because the goal was rejected, finished without result, or was
    cancelled. *)
Theorem C67_answer : forall Goal Res fields (get_goal : iomap -> res Goal)
  (set_result : Res -> list (string * value) * res state) get_type typed n name l w w' s,
  let leaf := action_leaf fields get_goal set_result get_type typed in
  history leaf action_init action_out n name l w ->
  call OTick (the_leaf leaf n name) w = (w', Ok s) -> is_updated (w_ins w n) ("action_name" :: fields) = false ->
  s <> RUNNING -> s <> w_st w n ->
  exists g, latest (ac_goals (w_ext w)) = Some g /\
    ((exists m, f_reply (go_result g) = Some (RMsg m) /\ snd (set_result m) = Ok s) \/
     s = FAILED /\
       (f_reply (go_accept g) = Some RNone \/ f_reply (go_accept g) = None /\ f_cancelled (go_accept g) = true \/
        f_reply (go_result g) = Some RNone \/ f_reply (go_result g) = None /\ f_cancelled (go_result g) = true \/
        go_asked g = true /\ (f_reply (go_cancel g) <> None \/ f_cancelled (go_cancel g) = true))).
Proof. exact @action_answer. Qed.
Print Assumptions C67_answer.
Example C67_example :
  let lw := play (act_leaf true) 7 "a" [Do OSetup; act_at (secs 1); Do OTick; act_accept 0; Do OTick; act_result 0 (VInt 5)]
              [] (new_world (act_ins new_ (VInt 8)) svc_outs act_new) in
  history (act_leaf true) action_init action_out 7 "a" (fst lw) (snd lw) /\
  is_updated (w_ins (snd lw) 7) ["action_name"; "data"] = false /\ w_st (snd lw) 7 = RUNNING /\
  snd (call OTick (the_leaf (act_leaf true) 7 "a") (snd lw)) = Ok SUCCEEDED.
Proof.
  cbv zeta. split; [|vm_compute; repeat split].
  apply play_history; [exact action_out_refl|repeat split|fair].
Qed.

(** ** C68 WaitForService *)

(** SUCCEEDED when the service is there; otherwise FAILED exactly when more than the
    timeout has passed since the node began to ask. *)
Theorem C68_exact : forall n name l w w' s,
  history waitsvc_leaf (fun _ => True) waitsvc_out n name l w -> no_exception l ->
  call OTick (the_leaf waitsvc_leaf n name) w = (w', Ok s) ->
  exists ins d, setup_inputs n l = Some ins /\ io_value_as as_float ins "wait_for_service_seconds" = Ok d /\
    let x := w_ext w in
    let since := if is_updated (w_ins w n) ["service_name"] then None else asking_since n l in
    let elapsed := match since with None => seconds (ws_clock x + ws_lag x) (ws_clock x) | Some t => seconds (ws_clock x) t end in
    s = if ws_ready x then SUCCEEDED else if SFltb d elapsed then FAILED else RUNNING.
Proof. exact waitsvc_tick. Qed.
Print Assumptions C68_exact.
Example C68_example :
  let lw := play waitsvc_leaf 7 "s" [Do OSetup; ws_at (secs 1) false; Do OTick; ws_at (secs 6) false; Do OTick;
              Do OUntick; Do OTick; ws_at (secs 12) false; Do OTick; ws_at (secs 13) true] [] (new_world ws_ins [] ws_new) in
  history waitsvc_leaf (fun _ => True) waitsvc_out 7 "s" (fst lw) (snd lw) /\ no_exception (fst lw) /\
  map i_res (fst lw) = [Ok IDLE; Ok RUNNING; Ok RUNNING; Ok IDLE; Ok RUNNING; Ok FAILED] /\
  asking_since 7 (fst lw) = Some (secs 6) /\
  snd (call OTick (the_leaf waitsvc_leaf 7 "s") (snd lw)) = Ok SUCCEEDED.
Proof.
  cbv zeta. split; [|split; [|vm_compute; repeat split]].
  - apply play_history; [repeat split|exact I|fair].
  - apply no_exception_check. vm_compute. reflexivity.
Qed.

(** ** C69 TopicPublisher *)

(** A tick succeeds and publishes the input message exactly if it is new; nothing else
    publishes. *)
Theorem C69_tick : forall n name w w' s, call OTick (the_leaf publisher_leaf n name) w = (w', Ok s) ->
  s = SUCCEEDED /\
  if is_updated (w_ins w n) ["message"]
  then exists m, io_value (w_ins w n) "message" = Ok m /\ pb_sent (w_ext w') = pb_sent (w_ext w) ++ [m]
  else pb_sent (w_ext w') = pb_sent (w_ext w).
Proof. exact publisher_tick. Qed.
Print Assumptions C69_tick.
Theorem C69_else : forall n name o w w' r, o <> OTick -> call o (the_leaf publisher_leaf n name) w = (w', r) ->
  pb_sent (w_ext w') = pb_sent (w_ext w).
Proof. exact publisher_else. Qed.
Print Assumptions C69_else.
Example C69_example :
  let lw := play publisher_leaf 7 "p" [Do OSetup; Do OTick; Do OTick; Inp (pb_ins new_ (VInt 6)); Do OTick; Do OShutdown]
              [] (new_world (pb_ins new_ (VInt 5)) [] (mkPb None [] true)) in
  map i_res (fst lw) = [Ok IDLE; Ok SUCCEEDED; Ok SUCCEEDED; Ok SUCCEEDED; Ok SHUTDOWN] /\
  pb_sent (w_ext (snd lw)) = [VInt 5; VInt 6].
Proof. vm_compute. repeat split. Qed.
(** Beyond the property: the shutdown of a publisher or action node that was never set up
    raises an exception. *)
Theorem C69_shutdown_refuted :
  snd (call OShutdown (the_leaf publisher_leaf 7 "p") (new_world (pb_ins new_ (VInt 5)) [] (mkPb None [] true))) = Raise /\
  snd (call OShutdown (the_leaf (act_leaf true) 7 "a") (new_world (act_ins new_ (VInt 8)) svc_outs act_new)) = Raise.
Proof. vm_compute. repeat split. Qed.
Print Assumptions C69_shutdown_refuted.

(** ** C82 The timeout of action nodes *)

(** A tick that finds the goal accepted starts the clock. *)
Theorem C82_accepted : forall Goal Res fields (get_goal : iomap -> res Goal)
  (set_result : Res -> list (string * value) * res state) get_type typed n name l w w' s,
  let leaf := action_leaf fields get_goal set_result get_type typed in
  history leaf action_init action_out n name l w ->
  call OTick (the_leaf leaf n name) w = (w', Ok s) -> is_updated (w_ins w n) ("action_name" :: fields) = false ->
  accepted n w = true ->
  s = RUNNING /\ waits_result (w_ext w') /\
  executing_since n (l ++ [mkItem w OTick w' (Ok s)]) = Some (ac_clock (w_ext w)).
Proof. exact @action_accepted. Qed.
Print Assumptions C82_accepted.
(** From then on, as long as there is no result, a tick returns RUNNING and changes nothing
    until more than the timeout set up has passed since; then it gives the goal up. *)
Theorem C82_timeout : forall Goal Res fields (get_goal : iomap -> res Goal)
  (set_result : Res -> list (string * value) * res state) get_type typed n name l w w' s g,
  let leaf := action_leaf fields get_goal set_result get_type typed in
  history leaf action_init action_out n name l w ->
  call OTick (the_leaf leaf n name) w = (w', Ok s) -> is_updated (w_ins w n) ("action_name" :: fields) = false ->
  waits_result (w_ext w) -> latest (ac_goals (w_ext w)) = Some g -> pending (go_result g) ->
  exists ins d t, setup_inputs n l = Some ins /\ io_value_as as_float ins "timeout_seconds" = Ok d /\
    executing_since n l = Some t /\ s = RUNNING /\
    if SFltb d (seconds (ac_clock (w_ext w)) t)
    then given_up (w_ext w') /\ exists g', latest (ac_goals (w_ext w')) = Some g' /\ f_cancelled (go_result g') = true
    else waits_result (w_ext w') /\ ac_goals (w_ext w') = ac_goals (w_ext w).
Proof. exact @action_timeout. Qed.
Print Assumptions C82_timeout.
(** The next tick asks the server to cancel it. *)
Theorem C82_cancels : forall Goal Res fields (get_goal : iomap -> res Goal)
  (set_result : Res -> list (string * value) * res state) get_type typed n name l w w' s,
  let leaf := action_leaf fields get_goal set_result get_type typed in
  history leaf action_init action_out n name l w ->
  call OTick (the_leaf leaf n name) w = (w', Ok s) -> given_up (w_ext w) ->
  s = RUNNING /\ exists g, latest (ac_goals (w_ext w')) = Some g /\ go_asked g = true.
Proof. exact @action_cancels. Qed.
Print Assumptions C82_cancels.
(** Beyond the property: there is no timeout for a goal the server does not answer. *)
Theorem C82_unanswered_refuted : forall Goal Res fields (get_goal : iomap -> res Goal)
  (set_result : Res -> list (string * value) * res state) get_type typed n name l w w' s g,
  let leaf := action_leaf fields get_goal set_result get_type typed in
  history leaf action_init action_out n name l w ->
  call OTick (the_leaf leaf n name) w = (w', Ok s) -> is_updated (w_ins w n) ("action_name" :: fields) = false ->
  unanswered (w_ext w) -> latest (ac_goals (w_ext w)) = Some g -> pending (go_accept g) ->
  s = RUNNING /\ unanswered (w_ext w') /\ ac_goals (w_ext w') = ac_goals (w_ext w).
Proof. exact @action_unanswered. Qed.
Print Assumptions C82_unanswered_refuted.

(** Timeout 5 s; the goal is found accepted at 2 s and given up at 8 s, not at 7 s. *)
Example C82_example :
  let go script := play (act_leaf true) 7 "a" script [] (new_world (act_ins new_ (VInt 8)) svc_outs act_new) in
  let s1 := [Do OSetup; act_at (secs 1); Do OTick; act_accept 0; act_at (secs 2)] in
  let s2 := s1 ++ [Do OTick; act_at (secs 7)] in
  let s3 := s2 ++ [Do OTick; act_at (secs 8)] in
  let s4 := s3 ++ [Do OTick] in
  history (act_leaf true) action_init action_out 7 "a" (fst (go s4)) (snd (go s4)) /\
  map i_res (fst (go (s4 ++ [Do OTick]))) = [Ok IDLE; Ok RUNNING; Ok RUNNING; Ok RUNNING; Ok RUNNING; Ok RUNNING] /\
  accepted 7 (snd (go s1)) = true /\
  map (fun s => ac_state (w_ext (snd (go s)))) [s1; s2; s3; s4] =
    [Some AWaitAccept; Some AWaitComplete; Some AWaitComplete; Some ARequestCancel] /\
  executing_since 7 (fst (go s3)) = Some (secs 2) /\
  map (fun s => is_updated (w_ins (snd (go s)) 7) ["action_name"; "data"]) [s1; s2; s3] = [false; false; false] /\
  map (fun g => f_reply (go_result g)) (ac_goals (w_ext (snd (go s3)))) = [None] /\
  map go_asked (ac_goals (w_ext (snd (go (s4 ++ [Do OTick]))))) = [true].
Proof.
  cbv zeta. split; [|vm_compute; repeat split].
  apply play_history; [exact action_out_refl|repeat split|fair].
Qed.
