(** Vocabulary for the properties of leaf nodes (C24, C54-C56): histories of one node. *)
From Coq Require Import String ZArith Bool SpecFloat Arith List.
From Verif Require Import Base ModelData ModelTree ModelLeaf.
Import ListNotations.
Local Open Scope string_scope.
Local Open Scope list_scope.

(** An operation that was called on the node: the world before and after, the result. *)
Record item (X : Type) : Type := mkItem {
  i_before : world X; i_op : op; i_after : world X; i_res : res state }.
Arguments mkItem {X}. Arguments i_before {X}. Arguments i_op {X}. Arguments i_after {X}. Arguments i_res {X}.

Section History.
Context {X : Type}.
Variables (f : leafcode X) (init : X -> Prop) (out : X -> X -> Prop).
Variables (n : nid) (name : string).

(** The node, of the leaf class [f]. *)
Definition the_leaf : obj X := make_obj (leaf_env f) n KLeaf name [].

(** Histories, oldest operation first.  The node starts UNINITIALIZED.  Between operations
    the rest of the tree may do anything (also change the inputs of the node), and ROS does
    what [out] allows. *)
Inductive history : list (item X) -> world X -> Prop :=
| h_new w : w_st w n = UNINITIALIZED -> init (w_ext w) -> history [] w
| h_else l w w' : history l w -> w_st w' n = w_st w n -> out (w_ext w) (w_ext w') -> history l w'
| h_op l w o w' r : history l w -> call o the_leaf w = (w', r) -> history (l ++ [mkItem w o w' r]) w'.
End History.

(** The operation returned [Ok], or an exception got out of it.  (A refused operation
    returns [Err] and any other [Err] leaves the node BROKEN.) *)
Definition no_err (r : res state) : bool := match r with Err _ => false | _ => true end.

(** No exception has got out of an operation. *)
Definition no_exception {X} (l : list (item X)) : Prop := forall it, In it l -> i_res it <> Raise.

(** The inputs at the last successful setup. *)
Definition setup_inputs {X} (n : nid) (l : list (item X)) : option iomap :=
  fold_left (fun acc it => match i_op it, i_res it with
                           | OSetup, Ok _ => Some (w_ins (i_after it) n)
                           | _, _ => acc
                           end) l None.

(** ** Wait *)

(** What the clock showed at the first tick since the last setup or reset. *)
Definition first_tick (l : list (item wait)) : option Z :=
  fold_left (fun acc it => match i_op it, i_res it with
                           | OSetup, Ok _ | OReset, Ok _ => None
                           | OTick, r => if no_err r then match acc with
                                                       | None => Some (wa_clock (w_ext (i_before it)))
                                                       | Some t => Some t
                                                       end else acc
                           | _, _ => acc
                           end) l None.
(** What ROS durations can hold. *)
Definition int64 (z : Z) : Prop := (- 2 ^ 63 <= z <= 2 ^ 63)%Z.
(** No successful setup or reset among these operations. *)
Definition not_restarted {X} (l : list (item X)) : Prop := forall it, In it l ->
  match i_op it, i_res it with OSetup, Ok _ | OReset, Ok _ => False | _, _ => True end.
(** Only time passes. *)
Definition wait_out (x x' : wait) : Prop := wa_start x' = wa_start x /\ wa_dur x' = wa_dur x.

(** ** Services *)

(** Neither finished nor cancelled. *)
Definition pending {R} (f : future R) : Prop := f_reply f = None /\ f_cancelled f = false.
(** One of the monitored inputs has a new value. *)
Definition updated (ins : iomap) (keys : list string) : Prop := io_any_updated ins keys = Ok true.
Definition not_updated (ins : iomap) (keys : list string) : Prop := io_any_updated ins keys = Ok false.

(** ** Topics *)

Definition is_updated (ins : iomap) (keys : list string) : bool :=
  match io_any_updated ins keys with Ok true => true | _ => false end.
(** The inputs whose change makes TopicSubscriber and TopicMemorySubscriber subscribe
    again; the latter does not look at topic_type. *)
Definition topic_keys (mem : bool) : list string :=
  if mem then ["topic_name"; "reliable"; "transient_local"; "depth"]
  else ["topic_type"; "topic_name"; "reliable"; "transient_local"; "depth"].
(** How many messages had arrived when the node last started afresh: at the last setup,
    reset or change of the topic, and, for TopicSubscriber, the last success. *)
Definition settled_at (mem : bool) (n : nid) (l : list (item topic)) : nat :=
  fold_left (fun k it =>
    let got := List.length (tp_got (w_ext (i_after it))) in
    match i_op it, i_res it with
    | OSetup, Ok _ | OReset, Ok _ => got
    | OTick, Ok s =>
        if is_updated (w_ins (i_before it) n) (topic_keys mem) then got
        else match s, mem with SUCCEEDED, false => got | _, _ => k end
    | _, _ => k
    end) l 0.
(** The latest message since then, and when it arrived. *)
Definition latest {A} (l : list A) : option A := hd_error (rev l).
Definition fresh (mem : bool) (n : nid) (l : list (item topic)) (w : world topic) : option (value * Z) :=
  if is_updated (w_ins w n) (topic_keys mem) then None
  else latest (skipn (settled_at mem n l) (tp_got (w_ext w))).
(** Output [k] has been given [v]. *)
Definition written {X} (n : nid) (k : string) (v : value) (w w' : world X) : Prop :=
  exists c c', dget k (w_outs w n) = Some c /\ set_value (reset_updated c) v = (c', Ok tt) /\
    dget k (w_outs w' n) = Some c'.

(** ** Actions *)

(** The tick is neither refused nor ended by an input without value. *)
Definition executes {X} (n : nid) (w : world X) : bool :=
  negb (state_in (w_st w n) [UNINITIALIZED; SHUTDOWN; BROKEN]) &&
  forallb (fun kc => has_value (snd kc)) (w_ins w n).

Section Action.
Context {Goal Res : Type}.
Variables (fields : list string) (get_goal : iomap -> res Goal) (n : nid).
Notation ac := (action Goal Res).

(** The goal made from the inputs at the last tick that found a changed one. *)
Definition wanted (l : list (item ac)) : option Goal :=
  fold_left (fun acc it =>
    match i_op it with
    | OTick => if executes n (i_before it) && is_updated (w_ins (i_before it) n) ("action_name" :: fields)
               then match get_goal (w_ins (i_before it) n) with Ok g => Some g | _ => acc end
               else acc
    | _ => acc
    end) l None.
(** The server has the goal: it has not rejected and not finished it, and was not asked
    to cancel it. *)
Definition in_flight (g : agoal Goal Res) : Prop :=
  (f_reply (go_accept g) = None \/ f_reply (go_accept g) = Some (RMsg tt)) /\
  f_reply (go_result g) = None /\ go_asked g = false.
(** Futures finish and time passes, but nobody else cancels futures. *)
Definition action_out_kept (x x' : ac) : Prop :=
  action_out x x' /\
  Forall2 (fun g g' => f_cancelled (go_accept g') = f_cancelled (go_accept g) /\
    f_cancelled (go_result g') = f_cancelled (go_result g)) (ac_goals x) (ac_goals x').
(** The node waits for the server to accept a goal; it has given up a goal because of the
    timeout and will ask to cancel it at the next tick. *)
Definition unanswered (x : ac) : Prop := ac_state x = Some AWaitAccept.
Definition given_up (x : ac) : Prop := ac_state x = Some ARequestCancel.
(** In none of these moments is the node interrupted, nor do the inputs change while a
    goal is not answered. *)
Definition careful (l : list (item ac)) : Prop := forall it, In it l ->
  let x := w_ext (i_before it) in
  match i_op it with
  | OSetup => True
  | OTick => is_updated (w_ins (i_before it) n) ("action_name" :: fields) = true -> ~ unanswered x
  | OUntick | OReset | OShutdown => ~ unanswered x /\ ~ given_up x
  end.
(** The node waits for the result of a goal the server accepted. *)
Definition waits_result (x : ac) : Prop := ac_state x = Some AWaitComplete.
(** A tick finds that the last goal is accepted. *)
Definition accepted (w : world ac) : bool :=
  executes n w &&
  match ac_state (w_ext w), latest (ac_goals (w_ext w)) with
  | Some AWaitAccept, Some g => match f_reply (go_accept g) with Some (RMsg _) => true | _ => false end
  | _, _ => false
  end.
(** What the clock showed when the last goal that was accepted was found to be. *)
Definition executing_since (l : list (item ac)) : option Z :=
  fold_left (fun acc it => match i_op it with
                           | OTick => if accepted (i_before it) then Some (ac_clock (w_ext (i_before it))) else acc
                           | _ => acc
                           end) l None.
End Action.

(** ** WaitForService *)

(** What the clock showed at the first tick since the node was set up, reset, unticked or
    given a new service name, of those that did not find the service. *)
Definition asking_since (n : nid) (l : list (item waitsvc)) : option Z :=
  fold_left (fun acc it =>
    let x := w_ext (i_before it) in
    match i_op it, i_res it with
    | OSetup, Ok _ | OReset, Ok _ | OUntick, Ok _ => None
    | OTick, Ok _ =>
        let acc := if is_updated (w_ins (i_before it) n) ["service_name"] then None else acc in
        if ws_ready x then acc else match acc with None => Some (ws_clock x) | Some t => Some t end
    | _, _ => acc
    end) l None.
