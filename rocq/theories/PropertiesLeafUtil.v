(** C106: the utility of ROS leaf nodes. *)
From Coq Require Import String ZArith Bool SpecFloat Arith List.
From Verif Require Import Base ModelData ModelUtility ModelTree ModelLeaf SpecLeaf DemoLeaf ModelParam
  ModelLeafUtil SpecLeafUtil ProofsLeafUtil.
Import ListNotations.
Local Open Scope string_scope.
Local Open Scope list_scope.

(** A service node that is being ticked says that it can do its job exactly when the
    server is there ([snd (w_ext w)]), and then at no cost. *)
Theorem C106_service_partial : forall Req Resp fields (get_request : iomap -> res Req)
  (set_outputs : Resp -> list (string * value) * res state) get_type c name l w,
  let leaf := service_leaf fields get_request set_outputs get_type in
  ros_history leaf service_util service_init service_out c name l w -> ticked_last l ->
  exists b, o_util (ros_node leaf service_util c name) w = Ok b /\
    (can_execute b = true <-> snd (w_ext w) = true) /\ (can_execute b = true -> willing b).
Proof.
  intros Req Resp fields gr so gt c name l w leaf h T.
  pose proof (service_ticked fields gr so gt c name l w h T) as K.
  cbn. unfold service_util. rewrite K. cbn. destruct (snd (w_ext w)).
  - exists bounds_free. split; [reflexivity|]. split; [split; reflexivity|]. intros _. exact free_willing.
  - exists bounds0. split; [reflexivity|]. split; [split; discriminate|]. discriminate.
Qed.
Print Assumptions C106_service_partial.

(** Full property: a service node says so whenever the server is there.  It does not before
    the first tick after it was created, set up or reset. *)
Theorem C106_service_refuted : forall Req Resp fields (get_request : iomap -> res Req)
  (set_outputs : Resp -> list (string * value) * res state) get_type c name l w,
  let leaf := service_leaf fields get_request set_outputs get_type in
  ros_history leaf service_util service_init service_out c name l w -> not_ticked_yet l ->
  exists b, o_util (ros_node leaf service_util c name) w = Ok b /\ can_execute b = false.
Proof.
  intros Req Resp fields gr so gt c name l w leaf h T.
  pose proof (service_fresh fields gr so gt c name l w h T) as K.
  cbn. unfold service_util. rewrite K. cbn. exists bounds0. split; reflexivity.
Qed.
Print Assumptions C106_service_refuted.

(** The same for an action node, which between the end of a goal and the next goal has no
    connection to the server either. *)
Theorem C106_action_partial : forall Goal Res fields (get_goal : iomap -> res Goal)
  (set_result : Res -> list (string * value) * res state) get_type typed c name w w1 s w2,
  let leaf := action_leaf fields get_goal set_result get_type typed in
  call OTick (ros_node leaf action_util c name) w = (w1, Ok s) ->
  action_out (fst (w_ext w1)) (fst (w_ext w2)) -> ac_state (fst (w_ext w2)) <> Some AIdle ->
  exists b, o_util (ros_node leaf action_util c name) w2 = Ok b /\
    (can_execute b = true <-> snd (w_ext w2) = true) /\ (can_execute b = true -> willing b).
Proof.
  intros Goal Res fields gg sr gt typed c name w w1 s w2 leaf E O N.
  pose proof (action_ticked fields gg sr gt typed c name w w1 s E) as K.
  destruct O as (O1 & O2 & _). rewrite <- O1, <- O2 in K. destruct K as [K|K]; [|congruence].
  cbn. unfold action_util. rewrite K. cbn. destruct (snd (w_ext w2)); cbn.
  - exists bounds_free. split; [reflexivity|]. split; [split; reflexivity|]. intros _. exact free_willing.
  - exists bounds0. split; [reflexivity|]. split; [split; discriminate|]. discriminate.
Qed.
Print Assumptions C106_action_partial.

Theorem C106_action_refuted : forall Goal Res fields (get_goal : iomap -> res Goal)
  (set_result : Res -> list (string * value) * res state) get_type typed c name l w,
  let leaf := action_leaf fields get_goal set_result get_type typed in
  ros_history leaf action_util new_action action_out c name l w -> not_ticked_yet l ->
  exists b, o_util (ros_node leaf action_util c name) w = Ok b /\ can_execute b = false.
Proof.
  intros Goal Res fields gg sr gt typed c name l w leaf h T.
  pose proof (action_fresh fields gg sr gt typed c name l w h T) as K.
  cbn. unfold action_util. rewrite K. cbn. exists bounds0. split; reflexivity.
Qed.
Print Assumptions C106_action_refuted.

(** Full property: a topic subscriber says that it can do its job whenever a matching
    publisher exists.  It never does, whatever publishers exist. *)
Theorem C106_topic_refuted : forall f c name (w : world (topic * graph)) b,
  holds_class (w_ins w c) -> o_util (ros_node f topic_util c name) w = Ok b -> can_execute b = false.
Proof. intros f c name w b H E. exact (topic_unwilling _ _ _ _ H E). Qed.
Print Assumptions C106_topic_refuted.

(** Nor does a node that reads a parameter. *)
Theorem C106_param_refuted : forall X R (f : leafcode X) c name (w : world (X * R)),
  exists b, o_util (ros_node f param_util c name) w = Ok b /\ can_execute b = false.
Proof. intros. exists bounds0. split; reflexivity. Qed.
Print Assumptions C106_param_refuted.

(** So an Optional never runs a service call below it: its ticks succeed, the child is
    never set up and no request is ever sent, also while the server is there. *)
Theorem C106_optional_service_refuted : forall Req Resp fields (get_request : iomap -> res Req)
  (set_outputs : Resp -> list (string * value) * res state) get_type n name c cname l w,
  let leaf := service_leaf fields get_request set_outputs get_type in
  n <> c -> optional_history leaf service_util service_init service_out n name c cname l w ->
  never_set_up (w_st w c) /\ sv_calls (fst (w_ext w)) = [] /\
  forall it s, In it l -> i_op it = OTick -> i_res it = Ok s -> s = SUCCEEDED.
Proof.
  intros Req Resp fields gr so gt n name c cname l w leaf N h.
  destruct (optional_never leaf service_util service_init service_out service_init (fun _ => True)
    (fun x I => I)) with (n := n) (name := name) (c := c) (cname := cname) (l := l) (w := w) as [(A & B & _) Z]; auto.
  - intros x x' (O1 & O2 & _ & _ & _ & O3) (I1 & I2 & I3). rewrite I3 in O3.
    split; [congruence|]. split; [congruence|]. inversion O3. reflexivity.
  - intros st ins x x' ws r E (I1 & I2 & I3). unfold leaf, service_leaf, service_reset in E. rewrite I1 in E.
    injection E as <- _ <-. unfold service_untick. rewrite I2. unfold service_init. cbn. split; [auto|].
    intros s K. injection K as <-. reflexivity.
  - intros ins x g b (I1 & _) _ E. unfold service_util in E. rewrite I1 in E. injection E as <-. reflexivity.
  - split; [exact B|]. split; [exact (proj2 (proj2 A))|exact Z].
Qed.
Print Assumptions C106_optional_service_refuted.

(** Nor an action: no goal is ever sent. *)
Theorem C106_optional_action_refuted : forall Goal Res fields (get_goal : iomap -> res Goal)
  (set_result : Res -> list (string * value) * res state) get_type typed n name c cname l w,
  let leaf := action_leaf fields get_goal set_result get_type typed in
  n <> c -> optional_history leaf action_util new_action action_out n name c cname l w ->
  never_set_up (w_st w c) /\ ac_goals (fst (w_ext w)) = [] /\
  forall it s, In it l -> i_op it = OTick -> i_res it = Ok s -> s = SUCCEEDED.
Proof.
  intros Goal Res fields gg sr gt typed n name c cname l w leaf N h.
  destruct (optional_never leaf action_util new_action action_out new_action (fun _ => True)
    (fun x I => I)) with (n := n) (name := name) (c := c) (cname := cname) (l := l) (w := w) as [(A & B & _) Z]; auto.
  - intros x x' (O1 & O2 & O3 & _ & _ & _ & _ & _ & _ & O4) ((I1 & I2 & I3) & I4). rewrite I2 in O4.
    split; [|congruence]. split; [congruence|]. split; [|congruence]. inversion O4. reflexivity.
  - intros st ins x x' ws r E ((I1 & I2 & I3) & I4). unfold leaf, action_leaf, action_reset, action_untick in E.
    rewrite I1 in E. injection E as <- _ <-. split; [repeat split; assumption|]. discriminate.
  - intros ins x g b (_ & I4) _ E. unfold action_util in E. rewrite I4 in E. injection E as <-. reflexivity.
  - split; [exact B|]. split; [exact (proj1 (proj2 (proj1 A)))|exact Z].
Qed.
Print Assumptions C106_optional_action_refuted.

(** Nor a topic subscriber ([mem]: TopicMemorySubscriber): it never subscribes. *)
Theorem C106_optional_topic_refuted : forall mem n name c cname l w,
  n <> c -> optional_history (topic_class mem) topic_util topic_init (topic_out mem) n name c cname l w ->
  (forall it, In it l -> holds_class (w_ins (i_before it) c)) ->
  never_set_up (w_st w c) /\ tp_sub (fst (w_ext w)) = false /\
  forall it s, In it l -> i_op it = OTick -> i_res it = Ok s -> s = SUCCEEDED.
Proof.
  intros mem n name c cname l w N h HC.
  destruct (optional_never (topic_class mem) topic_util topic_init (topic_out mem) topic_init holds_class
    (fun x I => I)) with (n := n) (name := name) (c := c) (cname := cname) (l := l) (w := w) as [(A & B & _) Z]; auto.
  - intros x x' [cl d|m cl S] (I1 & I2); [split; assumption|congruence].
  - intros st ins x x' ws r E (I1 & I2). destruct mem; unfold topic_class, memory_leaf, subscriber_leaf, topic_reset in E;
      rewrite I1 in E; injection E as <- _ <-; (split; [split; reflexivity || exact I1|]); intros s K; injection K as <-; reflexivity.
  - intros ins x g b _ H E. exact (topic_unwilling ins x g b H E).
  - split; [exact B|]. split; [exact (proj1 A)|exact Z].
Qed.
Print Assumptions C106_optional_topic_refuted.

(** While the name of the topic has no value yet, the Optional cannot even be set up. *)
Theorem C106_optional_unset : forall mem n name c cname (w w' : world (topic * graph)) r d,
  n <> c -> w_st w n = UNINITIALIZED \/ w_st w n = SHUTDOWN ->
  dget "topic_name" (w_ins w c) = Some d -> c_val d = None ->
  call OSetup (optional_over (topic_class mem) topic_util n name c cname) w = (w', r) ->
  exists e, r = Err e /\ w_st w' n = BROKEN.
Proof. exact unset_setup. Qed.
Print Assumptions C106_optional_unset.

(** Nor a parameter. *)
Theorem C106_optional_param_refuted : forall R (out : params -> params -> Prop) n name c cname l (w : world (params * R)),
  n <> c -> optional_history param_leaf param_util (fun _ => True) out n name c cname l w ->
  never_set_up (w_st w c) /\
  forall it s, In it l -> i_op it = OTick -> i_res it = Ok s -> s = SUCCEEDED.
Proof.
  intros R out n name c cname l w N h.
  destruct (optional_never (R := R) param_leaf param_util (fun _ => True) out (fun _ => True) (fun _ => True)
    (fun x I => I)) with (n := n) (name := name) (c := c) (cname := cname) (l := l) (w := w) as [(A & B & _) Z]; auto.
  - intros st ins x x' ws r E _. injection E as <- _ <-. split; [exact Logic.I|]. intros s K. injection K as <-. reflexivity.
  - intros ins x g b _ _ E. injection E as <-. reflexivity.
Qed.
Print Assumptions C106_optional_param_refuted.

(** ** Cases *)

Fixpoint do_all {Y} (x : obj Y) (os : list op) (l : list (item Y)) (w : world Y) : list (item Y) * world Y :=
  match os with
  | [] => (l, w)
  | o :: r => let (w', a) := call o x w in do_all x r (l ++ [mkItem w o w' a]) w'
  end.
Lemma do_all_ros : forall X R (f : leafcode X) (u : iomap -> X -> R -> res bounds) init out c name os l w,
  ros_history f u init out c name l w ->
  ros_history f u init out c name (fst (do_all (ros_node f u c name) os l w)) (snd (do_all (ros_node f u c name) os l w)).
Proof.
  intros X R f u init out c name os. induction os as [|o os IH]; intros l w h; [exact h|]. cbn [do_all].
  destruct (call o (ros_node f u c name) w) as [w' r] eqn:E. apply IH. exact (rh_op f u init out c name l w o w' r h E).
Qed.
Lemma do_all_optional : forall X R (f : leafcode X) (u : iomap -> X -> R -> res bounds) init out n name c cname os l w,
  optional_history f u init out n name c cname l w ->
  optional_history f u init out n name c cname
    (fst (do_all (optional_over f u n name c cname) os l w)) (snd (do_all (optional_over f u n name c cname) os l w)).
Proof.
  intros X R f u init out n name c cname os. induction os as [|o os IH]; intros l w h; [exact h|]. cbn [do_all].
  destruct (call o (optional_over f u n name c cname) w) as [w' r] eqn:E. apply IH.
  exact (oh_op f u init out n name c cname l w o w' r h E).
Qed.
Lemma do_all_app : forall Y (x : obj Y) os o l w,
  do_all x (os ++ [o]) l w =
  let w1 := snd (do_all x os l w) in
  (fst (do_all x os l w) ++ [mkItem w1 o (fst (call o x w1)) (snd (call o x w1))], fst (call o x w1)).
Proof.
  intros Y x os o. induction os as [|o' os IH]; intros l w; cbn [do_all app].
  - cbn. destruct (call o x w) as [w' a]. reflexivity.
  - destruct (call o' x w) as [w' a]. rewrite IH. reflexivity.
Qed.
Definition at_ready {X} (ready : bool) (w : world (X * bool)) : world (X * bool) := set_ext w (fst (w_ext w), ready).

(** A service node, set up and ticked, before and after its first tick. *)
Example C106_service_example :
  let x := ros_node svc_leaf service_util 7 "s" in
  let w0 := new_world (svc_ins new_ (VInt 8)) svc_outs (svc_new, true) in
  let go os := do_all x os [] w0 in
  ros_history svc_leaf service_util service_init service_out 7 "s" (fst (go [OSetup; OTick; OUntick])) (snd (go [OSetup; OTick; OUntick])) /\
  ticked_last (fst (go [OSetup; OTick; OUntick])) /\ not_ticked_yet (fst (go [OSetup])) /\
  not_ticked_yet (fst (go [OSetup; OTick; OReset])) /\
  map i_res (fst (go [OSetup; OTick; OUntick])) = [Ok IDLE; Ok RUNNING; Ok IDLE] /\
  map (fun w => o_util x w) [w0; snd (go [OSetup]); snd (go [OSetup; OTick]); at_ready false (snd (go [OSetup; OTick]));
    snd (go [OSetup; OTick; OUntick]); snd (go [OSetup; OTick; OReset])] =
  [Ok bounds0; Ok bounds0; Ok bounds_free; Ok bounds0; Ok bounds_free; Ok bounds0].
Proof.
  cbv zeta. split; [apply do_all_ros, rh_new; repeat split|]. split; [|split; [|split; [|vm_compute; split; reflexivity]]].
  - change [OSetup; OTick; OUntick] with (([OSetup] ++ [OTick]) ++ [OUntick]). rewrite !do_all_app. cbv zeta. cbn [fst snd].
    eexists _, _, _. split; [rewrite <- app_assoc; reflexivity|]. cbn [i_op i_res]. split; [reflexivity|].
    split; [exists RUNNING; vm_compute; reflexivity|]. intros i [<-|[]]. reflexivity.
  - right. change [OSetup] with ([] ++ [OSetup]). rewrite !do_all_app. cbv zeta. cbn [fst snd].
    eexists _, _, _. split; [reflexivity|]. cbn [i_op i_res].
    split; [split; [left; reflexivity|exists IDLE; vm_compute; reflexivity]|]. intros i [].
  - right. change [OSetup; OTick; OReset] with ([OSetup; OTick] ++ [OReset]). rewrite !do_all_app. cbv zeta. cbn [fst snd].
    eexists _, _, _. split; [reflexivity|]. cbn [i_op i_res].
    split; [split; [right; reflexivity|exists IDLE; vm_compute; reflexivity]|]. intros i [].
Qed.

(** An action node. *)
Example C106_action_example :
  let x := ros_node (act_leaf true) action_util 7 "a" in
  let w0 := new_world (act_ins new_ (VInt 8)) svc_outs (act_new, true) in
  let go os := do_all x os [] w0 in
  ros_history (act_leaf true) action_util new_action action_out 7 "a" (fst (go [OSetup; OTick])) (snd (go [OSetup; OTick])) /\
  map i_res (fst (go [OSetup; OTick])) = [Ok IDLE; Ok RUNNING] /\
  ac_state (fst (w_ext (snd (go [OSetup; OTick])))) = Some AWaitAccept /\
  map (fun w => o_util x w) [w0; snd (go [OSetup]); snd (go [OSetup; OTick]); at_ready false (snd (go [OSetup; OTick]));
    snd (go [OSetup; OTick; OReset])] =
  [Ok bounds0; Ok bounds0; Ok bounds_free; Ok bounds0; Ok bounds0].
Proof.
  cbv zeta. split; [apply do_all_ros, rh_new; repeat split|]. vm_compute. repeat split.
Qed.

(** An Optional above a service that is there from the beginning. *)
Definition below {Y} (n : nid) (w : world Y) : world Y := set_outs (set_ins w n []) n [].
Definition opt_script := [OSetup; OTick; OTick; OUntick; OReset; OTick; OShutdown; OSetup; OTick].
Example C106_optional_example :
  let x := optional_over svc_leaf service_util 3 "o" 7 "s" in
  let w0 := below 3 (new_world (svc_ins new_ (VInt 8)) svc_outs (svc_new, true)) in
  let go := do_all x opt_script [] w0 in
  optional_history svc_leaf service_util service_init service_out 3 "o" 7 "s" (fst go) (snd go) /\
  map i_res (fst go) = [Ok IDLE; Ok SUCCEEDED; Ok SUCCEEDED; Ok IDLE; Ok IDLE; Ok SUCCEEDED; Ok SHUTDOWN; Ok IDLE; Ok SUCCEEDED] /\
  sv_calls (fst (w_ext (snd go))) = [] /\ snd (w_ext (snd go)) = true.
Proof. cbv zeta. split; [apply do_all_optional, oh_new; repeat split|]. vm_compute. repeat split. Qed.

(** A publisher of the very type and profile. *)
Definition string_pub : graph :=
  mkGraph (fun s => s) (fun s => if String.eqb s "/chat" then [("std_msgs/msg/String", mkQos true false 1 0)] else []) true.
Definition chat_ins (name : container) : iomap :=
  [("topic_type", old_ (VType IMsg "std_msgs/msg/String")); ("topic_name", name);
   ("reliable", old_ (VBool true)); ("transient_local", old_ (VBool false)); ("depth", old_ (VInt 1)) ].
Example C106_topic_example :
  let x := optional_over (topic_class false) topic_util 3 "o" 7 "t" in
  let w0 := below 3 (new_world (chat_ins (old_ (VStr "/chat"))) svc_outs (tp_new, string_pub)) in
  let go := do_all x opt_script [] w0 in
  optional_history (topic_class false) topic_util topic_init (topic_out false) 3 "o" 7 "t" (fst go) (snd go) /\
  holds_class (w_ins w0 7) /\
  o_util (ros_node (topic_class false) topic_util 7 "t") w0 = Ok bounds0 /\
  map i_res (fst go) = [Ok IDLE; Ok SUCCEEDED; Ok SUCCEEDED; Ok IDLE; Ok IDLE; Ok SUCCEEDED; Ok SHUTDOWN; Ok IDLE; Ok SUCCEEDED].
Proof.
  cbv zeta. split; [apply do_all_optional, oh_new; repeat split|]. split; [|vm_compute; repeat split].
  intros v E. vm_compute in E. injection E as <-. eauto.
Qed.
(** The name of the topic comes from another node that has not been ticked. *)
Example C106_unset_example :
  let x := optional_over (topic_class false) topic_util 3 "o" 7 "t" in
  let d := mkC (TRosName RTopic 0) true false false None false in
  let w0 := below 3 (new_world (chat_ins d) svc_outs (tp_new, string_pub)) in
  dget "topic_name" (w_ins w0 7) = Some d /\ (exists e, snd (call OSetup x w0) = Err e) /\
  w_st (fst (call OSetup x w0)) 3 = BROKEN.
Proof. cbv zeta. split; [reflexivity|]. split; [eexists|]; vm_compute; reflexivity. Qed.
