(** Concrete histories of leaf nodes for the examples and counterexamples. *)
From Coq Require Import String ZArith Bool SpecFloat Arith List.
From Verif Require Import Base ModelData ModelUtility ModelTree ModelLeaf SpecLeaf Demo.
Import ListNotations.
Local Open Scope string_scope.
Local Open Scope list_scope.

(** A script: operations, changes of the ROS side, changes of the inputs. *)
Inductive cmd (X : Type) : Type := Do (o : op) | Ros (g : X -> X) | Inp (ins : iomap).
Arguments Do {X}. Arguments Ros {X}. Arguments Inp {X}.

Section Play.
Context {X : Type}.
Variables (f : leafcode X) (init : X -> Prop) (out : X -> X -> Prop).
Variables (n : nid) (name : string).

Definition with_ext (w : world X) (x : X) : world X :=
  mkW (w_st w) (w_mem w) (w_ins w) (w_outs w) (w_conns w) (w_outg w) x.
Definition with_ins (w : world X) (ins : iomap) : world X :=
  mkW (w_st w) (w_mem w) (fun _ => ins) (w_outs w) (w_conns w) (w_outg w) (w_ext w).
Definition new_world (ins outs : iomap) (x : X) : world X :=
  mkW (fun _ => UNINITIALIZED) (fun _ => attrs0) (fun _ => ins) (fun _ => outs) (fun _ => Some []) [] x.

Fixpoint play (cs : list (cmd X)) (l : list (item X)) (w : world X) : list (item X) * world X :=
  match cs with
  | [] => (l, w)
  | Do o :: r => let (w', a) := call o (the_leaf f n name) w in play r (l ++ [mkItem w o w' a]) w'
  | Ros g :: r => play r l (with_ext w (g (w_ext w)))
  | Inp ins :: r => play r l (with_ins w ins)
  end.
(** ROS only does what it may. *)
Fixpoint fair (cs : list (cmd X)) (w : world X) : Prop :=
  match cs with
  | [] => True
  | Do o :: r => fair r (fst (call o (the_leaf f n name) w))
  | Ros g :: r => out (w_ext w) (g (w_ext w)) /\ fair r (with_ext w (g (w_ext w)))
  | Inp ins :: r => fair r (with_ins w ins)
  end.

Lemma play_from : (forall x, out x x) -> forall cs l w, history f init out n name l w -> fair cs w ->
  history f init out n name (fst (play cs l w)) (snd (play cs l w)).
Proof.
  intros RF. induction cs as [|[o|g|ins] cs IH]; intros l w H F; cbn in *.
  - exact H.
  - destruct (call o (the_leaf f n name) w) as [w' a] eqn:C. apply IH; [|exact F]. exact (h_op _ _ _ _ _ _ _ _ _ _ H C).
  - destruct F as [F G]. apply IH; [|exact G]. apply (h_else _ _ _ _ _ _ _ _ H); [reflexivity|exact F].
  - apply IH; [|exact F]. apply (h_else _ _ _ _ _ _ _ _ H); [reflexivity|apply RF].
Qed.
Lemma play_history : (forall x, out x x) -> forall cs ins outs x, init x -> fair cs (new_world ins outs x) ->
  history f init out n name (fst (play cs [] (new_world ins outs x))) (snd (play cs [] (new_world ins outs x))).
Proof. intros RF cs ins outs x I F. apply play_from; [exact RF| |exact F]. apply h_new; [reflexivity|exact I]. Qed.
End Play.

(** Static inputs, which keep their value at setup; new or not. *)
Definition new_ (v : value) : container := mkC (TGeneric []) true true true (Some v) true.
Definition old_ (v : value) : container := mkC (TGeneric []) true true true (Some v) false.
Definition sec (z : Z) : spec_float := float_of_Z z.
Definition secs (z : Z) : Z := (z * 1000000000)%Z.

Lemma fut_on_refl : forall R (f : future R), fut_on f f.
Proof. split; auto. Qed.
Lemma Forall2_refl : forall A (R : A -> A -> Prop) l, (forall a, R a a) -> Forall2 R l l.
Proof. induction l; constructor; auto. Qed.

(** Wait for two seconds. *)
Definition wait_ins : iomap := [("seconds_to_wait", old_ (VFloat (sec 2)))].
Definition clock_at (z : Z) : cmd wait := Ros (fun x => mkWait (wa_start x) (wa_dur x) z 0).
Definition wait_new : wait := mkWait None (S754_zero false) 0 0.

(** A service node whose request is its input data and whose output is the response. *)
Definition demo_request (ins : iomap) : res value := io_value ins "data".
Definition demo_outputs (m : value) : list (string * value) * res state := ([("answer", m)], Ok SUCCEEDED).
Definition demo_type (ins : iomap) : res unit := Ok tt.
Definition svc_leaf := service_leaf ["data"] demo_request demo_outputs demo_type.
Definition svc_new : service value value := mkSv false None None (S754_zero false) None [] 0 0 true.
Definition svc_ins (c : value -> container) (v : value) : iomap :=
  [("wait_for_response_seconds", old_ (VFloat (sec 5))); ("service_name", old_ (VStr "/add")); ("data", c v)].
Definition svc_outs : iomap := [("answer", mkC (TInt 0 100) true false false None false)].
Definition svc_at (z : Z) : cmd (service value value) :=
  Ros (fun x => mkSv (sv_client x) (sv_future x) (sv_request x) (sv_timeout x) (sv_called x) (sv_calls x) z 0 (sv_destroy x)).
(** The [i]-th call is answered. *)
Definition svc_reply (i : nat) (r : reply value) : cmd (service value value) :=
  Ros (fun x => mkSv (sv_client x) (sv_future x) (sv_request x) (sv_timeout x) (sv_called x)
    (nth_upd (sv_calls x) i (fun c => mkCall (sc_req c) (sc_time c) (mkFut (Some r) (f_cancelled (sc_fut c))))) (sv_clock x) 0 (sv_destroy x)).
Lemma service_out_refl : forall x : service value value, service_out x x.
Proof. intros x. repeat (split; [reflexivity|]). apply Forall2_refl. intros c. auto using fut_on_refl. Qed.

(** WaitForService. *)
Definition ws_ins : iomap :=
  [("service_type", old_ (VStr "t")); ("service_name", old_ (VStr "/add")); ("wait_for_service_seconds", old_ (VFloat (sec 5)))].
Definition ws_new : waitsvc := mkWs false (S754_zero false) None false 0 0 true.
Definition ws_at (z : Z) (ready : bool) : cmd waitsvc :=
  Ros (fun x => mkWs (ws_client x) (ws_timeout x) (ws_called x) ready z 0 (ws_destroy x)).

(** Subscribers. *)
Definition tp_ins : iomap :=
  [("topic_type", old_ (VStr "t")); ("topic_name", old_ (VStr "/t")); ("reliable", old_ (VBool true));
   ("transient_local", old_ (VBool false)); ("depth", old_ (VInt 1)); ("memory_delay", old_ (VFloat (sec 3)))].
Definition tp_outs : iomap := [("message", mkC (TInt 0 100) true false false None false)].
Definition tp_new : topic := mkTp false None None (S754_zero false) [] 0 true.
Definition tp_at (z : Z) : cmd topic := Ros (fun x => mkTp (tp_sub x) (tp_msg x) (tp_stamp x) (tp_delay x) (tp_got x) z (tp_destroy x)).
Definition tp_callback (mem : bool) (m : value) (z : Z) : cmd topic :=
  Ros (fun x => mkTp true (Some m) (if mem then Some z else tp_stamp x) (tp_delay x) (tp_got x ++ [(m, z)]) z (tp_destroy x)).
Lemma topic_out_refl : forall mem x, topic_out mem x x.
Proof. intros mem [a b c d e f g]. exact (to_time mem (mkTp a b c d e f g) f g). Qed.

(** Actions. *)
Definition act_leaf (typed : bool) := action_leaf ["data"] demo_request demo_outputs demo_type typed.
Definition act_new : action value value := mkAc None false None None None None None 0 (S754_zero false) [] 0.
Definition act_ins (c : value -> container) (v : value) : iomap :=
  [("timeout_seconds", old_ (VFloat (sec 5))); ("action_name", old_ (VStr "/go")); ("data", c v)].
Definition act_at (z : Z) : cmd (action value value) :=
  Ros (fun x => mkAc (ac_state x) (ac_client x) (ac_goal x) (ac_req x) (ac_handle x) (ac_fut x) (ac_cancel x)
    (ac_start x) (ac_timeout x) (ac_goals x) z).
Definition act_event (i : nat) (g : agoal value value -> agoal value value) : cmd (action value value) :=
  Ros (fun x => ac_with_goals x (nth_upd (ac_goals x) i g)).
(** The server accepts the [i]-th goal, finishes it, answers the request to cancel it. *)
Definition act_accept (i : nat) := act_event i (fun g =>
  mkGoal (go_goal g) (mkFut (Some (RMsg tt)) (f_cancelled (go_accept g))) (go_result g) (go_asked g) (go_cancel g)).
Definition act_result (i : nat) (v : value) := act_event i (fun g =>
  mkGoal (go_goal g) (go_accept g) (mkFut (Some (RMsg v)) (f_cancelled (go_result g))) (go_asked g) (go_cancel g)).
Definition act_canceled (i : nat) := act_event i (fun g =>
  mkGoal (go_goal g) (go_accept g) (go_result g) (go_asked g) (mkFut (Some (RMsg tt)) (f_cancelled (go_cancel g)))).
Lemma action_out_refl : forall x : action value value, action_out x x.
Proof. intros x. repeat (split; [reflexivity|]). apply Forall2_refl. auto 10 using fut_on_refl. Qed.
Lemma action_kept_refl : forall x : action value value, action_out_kept x x.
Proof. intros x. split; [apply action_out_refl|]. apply Forall2_refl. auto. Qed.

(** TopicPublisher. *)
Definition pb_ins (c : value -> container) (v : value) : iomap :=
  [("topic_type", old_ (VStr "t")); ("topic_name", old_ (VStr "/t")); ("reliable", old_ (VBool true));
   ("transient_local", old_ (VBool false)); ("depth", old_ (VInt 1)); ("message", c v)].

(** Checks by computation. *)
Definition no_exceptionb {X} (l : list (item X)) : bool :=
  forallb (fun r => match r with Raise => false | _ => true end) (map i_res l).
Lemma no_exception_check : forall X (l : list (item X)), no_exceptionb l = true -> no_exception l.
Proof.
  intros X l H it I R. unfold no_exceptionb in H. rewrite forallb_forall in H.
  specialize (H _ (in_map i_res _ _ I)). rewrite R in H. discriminate.
Qed.
Definition carefulb {Goal Res} (fields : list string) (n : nid) (l : list (item (action Goal Res))) : bool :=
  forallb (fun it =>
    let wa := match ac_state (w_ext (i_before it)) with Some AWaitAccept => true | _ => false end in
    let rc := match ac_state (w_ext (i_before it)) with Some ARequestCancel => true | _ => false end in
    match i_op it with
    | OSetup => true
    | OTick => negb (is_updated (w_ins (i_before it) n) ("action_name" :: fields) && wa)
    | _ => negb wa && negb rc
    end) l.
Lemma careful_check : forall Goal Res fields n (l : list (item (action Goal Res))),
  carefulb fields n l = true -> careful fields n l.
Proof.
  intros Goal Res fields n l H it I. unfold carefulb in H. rewrite forallb_forall in H. specialize (H it I). cbv zeta in *.
  unfold unanswered, given_up. destruct (i_op it); auto.
  - intros U V. rewrite U, V in H. discriminate.
  - split; intros V; rewrite V in H; discriminate.
  - split; intros V; rewrite V in H; discriminate.
  - split; intros V; rewrite V in H; discriminate.
Qed.
Lemma time_out : forall mem x x' c d, x' = mkTp (tp_sub x) (tp_msg x) (tp_stamp x) (tp_delay x) (tp_got x) c d -> topic_out mem x x'.
Proof. intros mem x x' c d ->. apply to_time. Qed.
Lemma msg_out : forall (mem : bool) x x' m c, tp_sub x = true ->
  x' = mkTp true (Some m) (if mem then Some c else tp_stamp x) (tp_delay x) (tp_got x ++ [(m, c)]) c (tp_destroy x) -> topic_out mem x x'.
Proof. intros mem x x' m c S ->. apply to_msg. exact S. Qed.

Lemma call_answer : forall E (c : obj E) o w r, snd (call o c w) = r -> call o c w = (fst (call o c w), r).
Proof. intros E c o w r H. rewrite <- H. apply surjective_pairing. Qed.
