(** Proofs about the utility of ROS leaf nodes. *)
From Coq Require Import String ZArith QArith Bool SpecFloat Arith Lia List.
From Verif Require Import Base ModelData ModelUtility ModelTree ModelLeaf SpecLeaf ProofsLeaf ProofsLife
  ModelLeafUtil SpecLeafUtil.
Import ListNotations.
Local Open Scope string_scope.
Local Open Scope list_scope.

Lemma free_willing : willing bounds_free.
Proof. repeat split. Qed.

Lemma topic_unwilling : forall ins x g b, holds_class ins -> topic_util ins x g = Ok b -> can_execute b = false.
Proof.
  intros ins x g b H E. unfold topic_util in E.
  destruct (io_value_as as_bool ins "reliable") as [r|?|]; try discriminate.
  destruct (io_value_as as_bool ins "transient_local") as [t|?|]; try discriminate.
  destruct (io_value_as as_int ins "depth") as [d|?|]; try discriminate.
  destruct (io_value ins "topic_type") as [ty|?|] eqn:T; try discriminate.
  destruct (io_value_as as_str ins "topic_name") as [nm|?|]; try discriminate.
  destruct (H ty T) as (k & tn & ->).
  replace (existsb _ _) with false in E; [injection E as <-; reflexivity|].
  clear E. symmetry. induction (g_publishers g (g_resolve g nm)) as [|ep l IH]; [reflexivity|exact IH].
Qed.

Section Connected.
Context {X R : Type}.
Variables (f : leafcode X) (u : iomap -> X -> R -> res bounds).
Variables (init : X -> Prop) (out : X -> X -> Prop) (cl : X -> bool).
Hypothesis c_init : forall x, init x -> cl x = false.
Hypothesis c_out : forall x x', out x x' -> cl x' = cl x.
Hypothesis c_setup : forall st ins x x' ws r, f OSetup st ins x = (x', ws, r) -> cl x = false -> cl x' = false.
Hypothesis c_setup_ok : forall st ins x x' ws s, f OSetup st ins x = (x', ws, Ok s) -> cl x' = false.
Hypothesis c_reset : forall st ins x x' ws r, f OReset st ins x = (x', ws, r) -> cl x = false -> cl x' = false.
Hypothesis c_reset_ok : forall st ins x x' ws s, f OReset st ins x = (x', ws, Ok s) -> cl x' = false.
Hypothesis c_shutdown : forall st ins x x' ws r, f OShutdown st ins x = (x', ws, r) -> cl x = false -> cl x' = false.
Hypothesis c_untick : forall st ins x x' ws r, f OUntick st ins x = (x', ws, r) -> cl x' = cl x.

Variables (c : nid) (name : string).
Notation H := (ros_history f u init out c name).
Notation W := (world (X * R)).

(** What an operation does to the leaf: nothing, or what the class says. *)
Lemma ros_call : forall o (w w' : W) r, call o (ros_node f u c name) w = (w', r) ->
  (w_ext w' = w_ext w /\ forall s, r = Ok s -> o = OShutdown) \/
  exists x' ws r0, f o (w_st w c) (ins_for o (w_ins w c)) (fst (w_ext w)) = (x', ws, r0) /\
    fst (w_ext w') = x' /\ forall s, r = Ok s -> r0 = Ok s.
Proof.
  intros o w w' r C. apply (leaf_call (with_ros f) c name o w w' r) in C.
  destruct C as [(_ & -> & A)|[(-> & _ & -> & ->)|(_ & x' & ws & r0 & F & E & _ & _ & O & _)]].
  - left. split; [reflexivity|]. intros s ->. destruct A as [A|[A _]]; [discriminate|exact A].
  - left. split; [reflexivity|]. discriminate.
  - right. unfold with_ros in F. destruct (f o (w_st w c) (ins_for o (w_ins w c)) (fst (w_ext w))) as [[x ws1] r1].
    injection F as <- <- <-. exists x, ws1, r1. split; [reflexivity|]. rewrite E. split; [reflexivity|].
    intros s ->. destruct O as [(A & _)|[(_ & e & A)|(t & -> & _ & A)]]; try discriminate.
    destruct A as [(_ & [A|(_ & A)])|(_ & e & A)]; try discriminate. exact (eq_sym A).
Qed.

Lemma stays_off : forall o (w w' : W) r, call o (ros_node f u c name) w = (w', r) ->
  o <> OTick -> cl (fst (w_ext w)) = false -> cl (fst (w_ext w')) = false.
Proof.
  intros o w w' r C N A. apply ros_call in C. destruct C as [(-> & _)|(x' & ws & r0 & F & <- & _)]; [exact A|].
  destruct o; try congruence.
  - exact (c_setup _ _ _ _ _ _ F A).
  - rewrite (c_untick _ _ _ _ _ _ F). exact A.
  - exact (c_reset _ _ _ _ _ _ F A).
  - exact (c_shutdown _ _ _ _ _ _ F A).
Qed.
Lemma goes_off : forall it, restarted it -> call (i_op it) (ros_node f u c name) (i_before it) = (i_after it, i_res it) ->
  cl (fst (w_ext (i_after it))) = false.
Proof.
  intros [w o w' r] [O [s S]] C. cbn in *. apply ros_call in C.
  destruct C as [(_ & A)|(x' & ws & r0 & F & <- & A)].
  - apply A in S. destruct O; congruence.
  - rewrite (A s S) in F. destruct O; subst o; [exact (c_setup_ok _ _ _ _ _ _ F)|exact (c_reset_ok _ _ _ _ _ _ F)].
Qed.

Lemma split_last : forall (l pre post : list (item (X * R))) it i, l ++ [i] = pre ++ it :: post ->
  (post = [] /\ it = i /\ pre = l) \/ exists post', post = post' ++ [i] /\ l = pre ++ it :: post'.
Proof.
  intros l pre post it i E. destruct post as [|p post] using rev_ind.
  - left. apply app_inj_tail in E. destruct E as [-> ->]. auto.
  - right. rewrite app_comm_cons, app_assoc in E. apply app_inj_tail in E. destruct E as [-> ->]. eauto.
Qed.

Lemma not_connected : forall l w, H l w -> not_ticked_yet l -> cl (fst (w_ext w)) = false.
Proof.
  intros l w h. induction h as [w S I|l w w' h IH S O|l w o w' r h IH C]; intros N.
  - exact (c_init _ I).
  - rewrite (c_out _ _ O). auto.
  - destruct N as [N|(pre & it & post & E & R0 & N)].
    + apply (stays_off o w w' r C).
      * apply (N (mkItem w o w' r)), in_or_app. right. left. reflexivity.
      * apply IH. left. intros it I. apply N, in_or_app. auto.
    + apply split_last in E. destruct E as [(-> & -> & ->)|(post' & -> & ->)].
      * exact (goes_off (mkItem w o w' r) R0 C).
      * apply (stays_off o w w' r C).
        -- apply (N (mkItem w o w' r)), in_or_app. right. left. reflexivity.
        -- apply IH. right. exists pre, it, post'. split; [reflexivity|]. split; [exact R0|].
           intros i I. apply N, in_or_app. auto.
Qed.

Hypothesis c_tick : forall st ins x x' ws s, f OTick st ins x = (x', ws, Ok s) -> cl x' = true.
Lemma connected : forall l w, H l w -> ticked_last l -> cl (fst (w_ext w)) = true.
Proof.
  intros l w h. induction h as [w S I|l w w' h IH S O|l w o w' r h IH C]; intros (pre & it & post & E & T & [s Os] & N).
  - destruct pre; discriminate.
  - rewrite (c_out _ _ O). apply IH. exists pre, it, post. eauto.
  - apply split_last in E. destruct E as [(-> & -> & ->)|(post' & -> & ->)]; cbn in *.
    + subst o. apply ros_call in C. destruct C as [(_ & A)|(x' & ws & r0 & F & <- & A)].
      * apply A in Os. discriminate.
      * rewrite (A s Os) in F. exact (c_tick _ _ _ _ _ _ F).
    + assert (o = OUntick) by (apply (N (mkItem w o w' r)), in_or_app; right; left; reflexivity). subst o.
      assert (B : cl (fst (w_ext w)) = true).
      { apply IH. exists pre, it, post'. split; [reflexivity|]. split; [exact T|]. split; [eauto|].
        intros i I. apply N, in_or_app. auto. }
      apply ros_call in C. destruct C as [(-> & _)|(x' & ws & r0 & F & <- & A)]; [exact B|].
      rewrite (c_untick _ _ _ _ _ _ F). exact B.
Qed.
End Connected.

(** ** Service *)
Section Service.
Context {Req Resp : Type}.
Variables (fields : list string) (get_request : iomap -> res Req).
Variable set_outputs : Resp -> list (string * value) * res state.
Variable get_type : iomap -> res unit.
Notation leaf := (service_leaf fields get_request set_outputs get_type).

Lemma sv_untick_client : forall x : service Req Resp, sv_client (service_untick x) = sv_client x.
Proof. reflexivity. Qed.
Lemma sv_reset_client : forall (x x' : service Req Resp) r, service_reset x = (x', r) ->
  (sv_client x = false -> sv_client x' = false) /\ forall s, r = Ok s -> sv_client x' = false.
Proof.
  intros x x' r E. unfold service_reset in E. destruct (sv_client x) eqn:C.
  - destruct (sv_destroy x); injection E as <- <-; split; intros; try discriminate; auto.
  - injection E as <- <-. split; intros; exact C.
Qed.
Lemma sv_setup_client : forall st ins (x x' : service Req Resp) ws r, leaf OSetup st ins x = (x', ws, r) -> sv_client x' = false.
Proof.
  intros st ins x x' ws r E. cbn in E. unfold onok in E.
  destruct (io_value_as as_float ins "wait_for_response_seconds"); try (injection E as <- <- <-; reflexivity).
  destruct (get_type ins); injection E as <- <- <-; reflexivity.
Qed.
Lemma sv_call_client : forall st ins (x x' : service Req Resp) ws s, service_call set_outputs st ins x = (x', ws, Ok s) -> sv_client x' = true.
Proof.
  intros st ins x x' ws s E. unfold service_call in E. unfold onok in E.
  destruct (if sv_client x then Ok tt else res_map (fun _ => tt) (io_value_as as_str ins "service_name")); try discriminate.
  repeat match type of E with
         | context [match ?y with _ => _ end] => destruct y
         | (_, _) = (_, _) => inversion E; subst; clear E
         end; try discriminate; reflexivity.
Qed.
Lemma sv_tick_client : forall st ins (x x' : service Req Resp) ws s, leaf OTick st ins x = (x', ws, Ok s) -> sv_client x' = true.
Proof.
  intros st ins x x' ws s E. unfold service_leaf, onok in E.
  assert (Q : forall y, service_request get_request set_outputs st ins y = (x', ws, Ok s) -> sv_client x' = true).
  { intros y F. unfold service_request, onok in F.
    destruct st; try exact (sv_call_client _ _ _ _ _ _ F);
      destruct (sv_future y); try exact (sv_call_client _ _ _ _ _ _ F);
      destruct (sv_request y); try exact (sv_call_client _ _ _ _ _ _ F).
    destruct (get_request ins); try discriminate. exact (sv_call_client _ _ _ _ _ _ F). }
  destruct (io_any_updated ins ("service_name" :: fields)) as [b|e|]; try discriminate.
  destruct b; [|exact (Q _ E)].
  destruct (service_reset x) as [x1 [s1|e|]]; try discriminate.
  destruct (get_request ins); try discriminate. exact (Q _ E).
Qed.

Notation hist := (ros_history leaf service_util service_init service_out).
Lemma service_ticked : forall c name l w, hist c name l w -> ticked_last l -> sv_client (fst (w_ext w)) = true.
Proof.
  intros c name l w. refine (connected leaf service_util service_init service_out (@sv_client Req Resp) _ _ c name _ l w).
  - intros x x' O. exact (proj1 O).
  - intros st ins x x' ws r E. injection E as <- _ _. reflexivity.
  - exact sv_tick_client.
Qed.
Lemma service_fresh : forall c name l w, hist c name l w -> not_ticked_yet l -> sv_client (fst (w_ext w)) = false.
Proof.
  intros c name l w. refine (not_connected leaf service_util service_init service_out (@sv_client Req Resp) _ _ _ _ _ _ _ _ c name l w).
  - intros x I. exact (proj1 I).
  - intros x x' O. exact (proj1 O).
  - intros st ins x x' ws r E _. exact (sv_setup_client _ _ _ _ _ _ E).
  - intros st ins x x' ws s E. exact (sv_setup_client _ _ _ _ _ _ E).
  - intros st ins x x' ws r E A. cbn in E. destruct (service_reset x) as [x1 r1] eqn:F. injection E as <- _ _.
    exact (proj1 (sv_reset_client _ _ _ F) A).
  - intros st ins x x' ws s E. cbn in E. destruct (service_reset x) as [x1 r1] eqn:F. injection E as <- _ ->.
    exact (proj2 (sv_reset_client _ _ _ F) s eq_refl).
  - intros st ins x x' ws r E A. cbn in E. destruct (service_reset x) as [x1 r1] eqn:F. injection E as <- _ _.
    exact (proj1 (sv_reset_client _ _ _ F) A).
  - intros st ins x x' ws r E. injection E as <- _ _. reflexivity.
Qed.
End Service.

(** ** Action *)
Section Action.
Context {Goal Res : Type}.
Variables (fields : list string) (get_goal : iomap -> res Goal).
Variable set_result : Res -> list (string * value) * res state.
Variable get_type : iomap -> res unit.
Variable typed : bool.
Notation leaf := (action_leaf fields get_goal set_result get_type typed).

Lemma ac_ask_client : forall (x x' : action Goal Res) r, action_ask x = (x', r) -> ac_client x' = ac_client x.
Proof. intros x x' r E. unfold action_ask in E. destruct (ac_handle x); injection E as <- _; reflexivity. Qed.
Lemma ac_untick_client : forall (x x' : action Goal Res) r, action_untick x = (x', r) -> ac_client x' = ac_client x.
Proof.
  intros x x' r E. unfold action_untick in E.
  destruct (ac_state x) as [[| | | | |]|]; try (injection E as <- _; reflexivity).
  destruct (action_ask x) as [x1 [?|?|]] eqn:A; apply ac_ask_client in A; injection E as <- _; exact A.
Qed.
Lemma ac_reset_client : forall (x x' : action Goal Res) r, action_reset x = (x', r) ->
  (ac_client x = false -> ac_client x' = false) /\ forall s, r = Ok s -> ac_client x' = false.
Proof.
  intros x x' r E. unfold action_reset in E. destruct (action_untick x) as [x1 [?|?|]] eqn:U; apply ac_untick_client in U;
    injection E as <- <-; split; intros; try discriminate; try reflexivity; congruence.
Qed.
Lemma ac_go_client : forall st ins (x x' : action Goal Res) ws s, action_go set_result typed st ins x = (x', ws, Ok s) ->
  ac_client x' = true \/ ac_state x' = Some AIdle.
Proof.
  intros st ins x x' ws s E. unfold action_go, onok in E.
  destruct (if ac_client x then Ok tt else res_map (fun _ => tt) (io_value_as as_str ins "action_name")); try discriminate.
  cbv zeta in E. destruct (ac_state (ac_with_client x true)) as [[| | | | |]|]; try discriminate.
  - left. unfold action_send in E. cbn in E. destruct (ac_goal x), typed; inversion E; reflexivity.
  - left. unfold action_accept in E.
    repeat match type of E with
           | context [match ?y with _ => _ end] => destruct y
           | (_, _) = (_, _) => inversion E; subst; clear E
           end; try discriminate; reflexivity.
  - left. unfold action_complete in E.
    repeat match type of E with
           | context [match ?y with _ => _ end] => destruct y
           | (_, _) = (_, _) => inversion E; subst; clear E
           end; try discriminate; reflexivity.
  - left. destruct (action_ask (ac_with_client x true)) as [x1 r1] eqn:A. apply ac_ask_client in A.
    injection E as <- _ _. exact A.
  - left. unfold action_canceled in E.
    repeat match type of E with
           | context [match ?y with _ => _ end] => destruct y
           | (_, _) = (_, _) => inversion E; subst; clear E
           end; try discriminate; reflexivity.
  - unfold action_finished in E. destruct (ac_goal (ac_with_client x true)); inversion E; [right|left]; reflexivity.
Qed.
Lemma ac_tick_client : forall st ins (x x' : action Goal Res) ws s, leaf OTick st ins x = (x', ws, Ok s) ->
  ac_client x' = true \/ ac_state x' = Some AIdle.
Proof.
  intros st ins x x' ws s E. unfold action_leaf, onok in E.
  destruct (io_any_updated ins ("action_name" :: fields)) as [b|e|]; try discriminate.
  destruct b; [|exact (ac_go_client _ _ _ _ _ _ E)].
  destruct (get_goal ins) as [g|e|]; try discriminate. cbv zeta in E.
  destruct (ac_state (ac_with_goal x (Some g))) as [[| | | | |]|]; try discriminate; exact (ac_go_client _ _ _ _ _ _ E).
Qed.

Notation init := (fun x : action Goal Res => action_init x /\ ac_client x = false).
Notation hist := (ros_history leaf action_util init action_out).
Lemma action_fresh : forall c name l w, hist c name l w -> not_ticked_yet l -> ac_client (fst (w_ext w)) = false.
Proof.
  intros c name l w. refine (not_connected leaf action_util init action_out (@ac_client Goal Res) _ _ _ _ _ _ _ _ c name l w).
  - intros x I. exact (proj2 I).
  - intros x x' O. exact (proj1 (proj2 O)).
  - intros st ins x x' ws r E A. cbn in E. unfold onok in E.
    destruct (io_value_as as_float ins "timeout_seconds"); try (injection E as <- _ _; exact A).
    destruct (get_type ins); injection E as <- _ _; try exact A. reflexivity.
  - intros st ins x x' ws s E. cbn in E. unfold onok in E.
    destruct (io_value_as as_float ins "timeout_seconds"); try discriminate.
    destruct (get_type ins); try discriminate. injection E as <- _ _. reflexivity.
  - intros st ins x x' ws r E A. cbn in E. destruct (action_reset x) as [x1 r1] eqn:F. injection E as <- _ _.
    exact (proj1 (ac_reset_client _ _ _ F) A).
  - intros st ins x x' ws s E. cbn in E. destruct (action_reset x) as [x1 r1] eqn:F. injection E as <- _ ->.
    exact (proj2 (ac_reset_client _ _ _ F) s eq_refl).
  - intros st ins x x' ws r E A. cbn in E. destruct (action_reset x) as [x1 r1] eqn:F. injection E as <- _ _.
    exact (proj1 (ac_reset_client _ _ _ F) A).
  - intros st ins x x' ws r E. cbn in E. destruct (action_untick x) as [x1 r1] eqn:F. injection E as <- _ _.
    exact (ac_untick_client _ _ _ F).
Qed.
Lemma action_ticked : forall c name w w' s, call OTick (ros_node leaf action_util c name) w = (w', Ok s) ->
  ac_client (fst (w_ext w')) = true \/ ac_state (fst (w_ext w')) = Some AIdle.
Proof.
  intros c name w w' s C. apply ros_call in C. destruct C as [(_ & A)|(x' & ws & r0 & F & <- & A)].
  - specialize (A s eq_refl). discriminate.
  - rewrite (A s eq_refl) in F. exact (ac_tick_client _ _ _ _ _ _ F).
Qed.
End Action.

(** ** Optional *)
Section Optional.
Context {X R : Type}.
Variables (f : leafcode X) (u : iomap -> X -> R -> res bounds).
Variables (init : X -> Prop) (out : X -> X -> Prop) (I : X -> Prop) (P : iomap -> Prop).
Hypothesis i_init : forall x, init x -> I x.
Hypothesis i_out : forall x x', out x x' -> I x -> I x'.
Hypothesis i_shutdown : forall st ins x x' ws r, f OShutdown st ins x = (x', ws, r) -> I x ->
  I x' /\ forall s, r = Ok s -> s = SHUTDOWN.
Hypothesis i_util : forall ins x g b, I x -> P ins -> u ins x g = Ok b -> can_execute b = false.
Variables (n : nid) (name : string) (c : nid) (cname : string).
Hypothesis nc : n <> c.
Notation W := (world (X * R)).
Notation O := (optional_over f u n name c cname).
Notation C := (ros_node f u c cname).

Definition oinv (w : W) : Prop :=
  I (fst (w_ext w)) /\ never_set_up (w_st w c) /\ (never_set_up (w_st w n) \/ a_exec (w_mem w n) = false).

Lemma upd_other : forall A (g : nid -> A) i j a, j <> i -> upd g i a j = g j.
Proof. intros A g i j a N. unfold upd. apply Nat.eqb_neq in N. rewrite N. reflexivity. Qed.

Lemma out_set_all_mem : forall l (w w' : W) m r, out_set_all w m l = (w', r) -> w_mem w' = w_mem w.
Proof.
  induction l as [|[k v] l IH]; intros w w' m r H; cbn in H.
  - injection H as <- <-. auto.
  - unfold out_set in H. destruct (dget k (w_outs w m)) as [d|]; cbn in H; [|injection H as <- <-; auto].
    destruct (set_value d v) as [c' [?|?|]]; cbn in H; try (injection H as <- <-; auto; fail).
    apply IH in H. exact H.
Qed.
Lemma child_shutdown : forall (w w' : W) r, o_shutdown C w = (w', r) -> I (fst (w_ext w)) -> never_set_up (w_st w c) ->
  I (fst (w_ext w')) /\ never_set_up (w_st w' c) /\ w_st w' n = w_st w n /\ w_mem w' n = w_mem w n.
Proof.
  intros w w' r E A B. cbn in E. unfold node_shutdown in E.
  destruct (w_st w c) eqn:S; try (exfalso; destruct B as [B|[B|B]]; discriminate).
  all: try (cbn in E; injection E as <- <-; rewrite S; cbn; unfold never_set_up; repeat split; auto; fail).
  all: destruct (do_shutdown (ros_env f u) c KLeaf w) as [w1 r1] eqn:D; cbn [do_shutdown] in D;
    unfold leaf_act in D; cbn [ros_env ev_leaf] in D; unfold with_ros in D;
    destruct (f OShutdown (w_st w c) (w_ins w c) (fst (w_ext w))) as [[x ws] r0] eqn:F;
    destruct (i_shutdown _ _ _ _ _ _ F A) as [A1 A2];
    destruct (out_set_all (set_ext w (x, snd (w_ext w))) c ws) as [w2 r2] eqn:G;
    pose proof (out_set_all_same c _ _ _ _ G) as (G1 & G2 & _); pose proof (out_set_all_mem _ _ _ _ _ G) as G3;
    assert (w1 = w2 /\ forall s, r1 = Ok s -> s = SHUTDOWN) as [-> R1]
      by (destruct r2; cbn in D; injection D as <- <-; split; try reflexivity; try exact A2; discriminate);
    cbn in G1, G2, G3;
    destruct r1 as [s|e|]; cbn [bind] in E.
  all: try (rewrite (R1 s eq_refl) in E; cbn in E; injection E as <- <-; cbn;
            rewrite G2, upd_same, upd_other, G1, G3 by exact nc; unfold never_set_up; repeat split; auto; fail).
  all: try (cbn in E; injection E as <- <-; cbn; rewrite G2, upd_same, upd_other, G1, G3 by exact nc;
            unfold never_set_up; repeat split; auto; fail).
  all: cbn in E; injection E as <- <-; rewrite G2, G1, G3, S; unfold never_set_up; repeat split; auto.
Qed.

Lemma exec_off : forall w : W, a_exec (w_mem (mem_exec w n false) n) = false.
Proof. intros w. cbn. rewrite upd_same. reflexivity. Qed.

Lemma optional_step : forall o (w w' : W) r, call o O w = (w', r) -> oinv w -> P (w_ins w c) ->
  oinv w' /\ (o = OTick -> forall s, r = Ok s -> s = SUCCEEDED).
Proof.
  intros o w w' r E (A & B & D) HP.
  assert (LIVE : a_exec (w_mem w n) = false \/ never_set_up (w_st w n)) by tauto.
  assert (cn : c <> n) by congruence.
  destruct o; cbn [call optional_over make_obj o_setup o_tick o_untick o_reset o_shutdown] in E.
  - (* setup *)
    split; [|discriminate]. unfold node_setup in E.
    set (w2 := set_outs _ _ _) in E.
    assert (K : match w_st w n with UNINITIALIZED | SHUTDOWN => True | _ => False end \/ (w' = w /\ r = Err EGuard))
      by (destruct (w_st w n); try (left; exact Logic.I); right; injection E as <- <-; auto).
    destruct K as [K|[-> ->]]; [|unfold oinv; auto].
    assert (Z1 : match do_setup (ros_env f u) n KOptional [C] w2 with
      | (w3, Err e) => (set_st w3 n BROKEN, Err e)
      | (w3, Raise) => (w3, Raise)
      | (w3, Ok s) => let w4 := set_st w3 n s in
          if state_in s [IDLE] then (w4, Ok s) else (w4, Err EState)
      end = (w', r)) by (destruct (w_st w n); try contradiction; exact E).
    clear E. cbn [do_setup optional_setup_loop] in Z1.
    assert (EX : fst (w_ext (mem_exec w2 n false)) = fst (w_ext w)) by reflexivity.
    assert (SC : w_st (mem_exec w2 n false) c = w_st w c) by reflexivity.
    assert (SN : w_st (mem_exec w2 n false) n = w_st w n) by reflexivity.
    pose proof (exec_off w2) as XO.
    assert (IN : w_ins (mem_exec w2 n false) c = w_ins w c)
      by (cbn; apply upd_other; exact cn).
    set (w3 := mem_exec w2 n false) in *.
    assert (U : o_util C w3 = u (w_ins w3 c) (fst (w_ext w3)) (snd (w_ext w3))) by reflexivity.
    destruct (o_util C w3) as [b|e|] eqn:OU.
    + assert (NB : can_execute b = false).
      { rewrite IN, EX in U. exact (i_util _ _ _ _ A HP (eq_sym U)). }
      rewrite NB in Z1. cbn in Z1. injection Z1 as <- <-. unfold oinv. cbn. rewrite upd_other by exact cn.
      split; [exact A|]. split; [exact B|]. right. rewrite upd_same. reflexivity.
    + injection Z1 as <- <-. unfold oinv. cbn [w_ext w_st set_st w_mem]. rewrite upd_other by exact cn. rewrite upd_same.
      split; [exact A|]. split; [exact B|]. left. right; right; reflexivity.
    + injection Z1 as <- <-. unfold oinv. split; [exact A|]. split; [exact B|]. right. exact XO.
  - (* tick *)
    unfold node_tick in E.
    assert (K : never_set_up (w_st w n) /\ w' = w /\ r = Err EGuard \/
      (a_exec (w_mem w n) = false /\
       (if negb (forallb (fun kc => has_value (snd kc)) (w_ins w n))
        then (set_st w n BROKEN, Err EUnset)
        else
        let w1 := set_outs w n (map_io reset_updated (w_outs w n)) in
        match do_tick (ros_env f u) n KOptional [C] w1 with
        | (w2, Err e) => (set_st w2 n BROKEN, Err e)
        | (w2, Raise) => (w2, Raise)
        | (w2, Ok s) =>
            let w3 := set_st w2 n s in
            let w4 := set_ins w3 n (map_io reset_updated (w_ins w3 n)) in
            if state_in s [RUNNING; SUCCEEDED; FAILED; ASSIGNED; UNASSIGNED] then
              match push_outputs w4 n with
              | (w5, Err e) => (set_st w5 n BROKEN, Err e)
              | (w5, Raise) => (w5, Raise)
              | (w5, Ok _) => (w5, Ok (w_st w5 n))
              end
            else (w4, Err EState)
        end) = (w', r))).
    { unfold never_set_up in *. destruct (w_st w n); try (left; injection E as <- <-; auto; fail);
        (right; split; [destruct LIVE as [L|[L|[L|L]]]; [exact L|discriminate..]|exact E]). }
    clear E. destruct K as [(K & -> & ->)|(K & E)]; [split; [unfold oinv; auto|discriminate]|].
    destruct (negb _).
    { injection E as <- <-. split; [|discriminate]. unfold oinv. cbn [w_ext w_st set_st w_mem].
      rewrite upd_other, upd_same by exact cn. split; [exact A|]. split; [exact B|]. right. exact K. }
    cbv zeta in E. cbn [do_tick] in E. unfold optional_do in E. cbn [w_mem set_outs] in E. rewrite K in E.
    cbn [state_in existsb state_eqb orb] in E.
    set (w4 := set_ins _ _ _) in E.
    pose proof (push_outputs_frame _ n w4) as (F1 & F2 & _ & _ & F5 & _).
    destruct (push_outputs w4 n) as [w5 r5]. cbn [fst] in F1, F2, F5.
    assert (Z1 : oinv w5 /\ w_st w5 n = SUCCEEDED).
    { unfold oinv. rewrite F1, F2, F5. unfold w4. cbn [w_ext w_st set_st set_ins set_outs w_mem].
      rewrite upd_other, upd_same by exact cn. split; [|reflexivity]. split; [exact A|]. split; [exact B|]. right. exact K. }
    destruct Z1 as [Z1 Z2].
    destruct r5 as [?|e|]; cbn in E; injection E as <- <-.
    + split; [exact Z1|]. intros _ s Es. congruence.
    + split; [|discriminate]. destruct Z1 as (Z3 & Z4 & Z5). unfold oinv. cbn [w_ext w_st set_st w_mem].
      rewrite upd_other, upd_same by exact cn. split; [exact Z3|]. split; [exact Z4|]. left. right; right; reflexivity.
    + split; [exact Z1|discriminate].
  - (* untick *)
    split; [|discriminate]. unfold node_untick in E. cbn [do_untick] in E. unfold optional_do in E.
    assert (K : a_exec (w_mem w n) = true -> w' = w).
    { intros X1. destruct LIVE as [L|[L|[L|L]]]; [congruence|rewrite L in E; injection E as <- _; reflexivity..]. }
    destruct (a_exec (w_mem w n)) eqn:X1; [rewrite (K eq_refl); unfold oinv; rewrite X1; auto|]. clear K.
    cbn in E. destruct (w_st w n) eqn:S; injection E as <- _; unfold oinv;
      cbn [w_ext w_st set_st set_outs w_mem]; rewrite ?upd_other by exact cn; auto.
  - (* reset *)
    split; [|discriminate]. unfold node_reset in E. cbn [do_reset] in E. unfold optional_do in E.
    cbn [w_mem set_outs set_ins] in E.
    assert (K : a_exec (w_mem w n) = true -> w' = w).
    { intros X1. destruct LIVE as [L|[L|[L|L]]]; [congruence|rewrite L in E; injection E as <- _; reflexivity..]. }
    destruct (a_exec (w_mem w n)) eqn:X1; [rewrite (K eq_refl); unfold oinv; rewrite X1; auto|]. clear K.
    cbn in E. destruct (w_st w n) eqn:S; injection E as <- _; unfold oinv;
      cbn [w_ext w_st set_st set_outs set_ins w_mem]; rewrite ?upd_other by exact cn; auto.
  - (* shutdown *)
    split; [|discriminate]. unfold node_shutdown in E.
    assert (K : exists w1, w_ext w1 = w_ext w /\ w_st w1 c = w_st w c /\ w_st w1 n = SHUTDOWN /\
      match shutdown_children [C] w1 None with
      | (w2, Ok None) => (w2, Ok (w_st w2 n))
      | (w2, Ok (Some e)) => (w2, Err e)
      | (w2, Err e) => (w2, Err e)
      | (w2, Raise) => (w2, Raise)
      end = (w', r)).
    { destruct (w_st w n) eqn:S;
        try (exists w; repeat split; auto; exact E);
        (exists (set_st w n SHUTDOWN); cbn [do_shutdown state_in existsb state_eqb orb] in E; cbn [w_ext w_st set_st];
         rewrite upd_other, upd_same by exact cn; repeat split; exact E). }
    clear E. destruct K as (w1 & K1 & K2 & K3 & E). cbn [shutdown_children] in E.
    destruct (o_shutdown C w1) as [w2 r2] eqn:CS.
    rewrite <- K1 in A. rewrite <- K2 in B.
    destruct (child_shutdown _ _ _ CS A B) as (A' & B' & S' & M').
    assert (w' = w2) as -> by (destruct r2; injection E as <- _; reflexivity).
    split; [exact A'|]. split; [exact B'|]. left. rewrite S', K3. right; left; reflexivity.
Qed.

Notation OH := (optional_history f u init out n name c cname).
Theorem optional_never : forall l w, OH l w -> (forall it, In it l -> P (w_ins (i_before it) c)) ->
  oinv w /\ forall it s, In it l -> i_op it = OTick -> i_res it = Ok s -> s = SUCCEEDED.
Proof.
  intros l w h. induction h as [w S T J|l w w' h IH S M T J|l w o w' r h IH E]; intros HP.
  - split; [|intros it s []]. unfold oinv, never_set_up. split; [exact (i_init _ J)|]. auto.
  - destruct (IH HP) as [(A & B & D) Z]. split; [|exact Z]. unfold oinv. rewrite S, M, T.
    split; [exact (i_out _ _ J A)|]. auto.
  - destruct IH as [A Z]; [intros it K; apply HP, in_or_app; auto|].
    destruct (optional_step o w w' r E A) as [A' Z'].
    { apply (HP (mkItem w o w' r)), in_or_app. right. left. reflexivity. }
    split; [exact A'|]. intros it s K Ht Hr. apply in_app_or in K. destruct K as [K|[<-|[]]]; [exact (Z it s K Ht Hr)|].
    exact (Z' Ht s Hr).
Qed.
End Optional.

Lemma io_value_no_raise : forall m key, io_value m key <> Raise.
Proof. intros m key. unfold io_value. destruct (dget key m) as [d|]; [destruct (c_val d)|]; discriminate. Qed.
Lemma io_value_as_no_raise : forall A (conv : value -> option A) m key, io_value_as conv m key <> Raise.
Proof.
  intros A conv m key. unfold io_value_as. destruct (io_value m key) as [v|e|] eqn:E; [destruct (conv v)| |]; try discriminate.
  destruct (io_value_no_raise m key E).
Qed.
Lemma topic_util_unset : forall ins x g d, dget "topic_name" ins = Some d -> c_val d = None ->
  exists e, topic_util ins x g = Err e.
Proof.
  intros ins x g d D V. unfold topic_util.
  destruct (io_value_as as_bool ins "reliable") as [?|?|] eqn:E1; [|eauto|destruct (io_value_as_no_raise _ _ _ _ E1)].
  destruct (io_value_as as_bool ins "transient_local") as [?|?|] eqn:E2; [|eauto|destruct (io_value_as_no_raise _ _ _ _ E2)].
  destruct (io_value_as as_int ins "depth") as [?|?|] eqn:E3; [|eauto|destruct (io_value_as_no_raise _ _ _ _ E3)].
  destruct (io_value ins "topic_type") as [?|?|] eqn:E4; [|eauto|destruct (io_value_no_raise _ _ E4)].
  unfold io_value_as, io_value. rewrite D, V. eauto.
Qed.
Lemma unset_setup : forall mem n name c cname (w w' : world (topic * graph)) r d,
  n <> c -> w_st w n = UNINITIALIZED \/ w_st w n = SHUTDOWN ->
  dget "topic_name" (w_ins w c) = Some d -> c_val d = None ->
  call OSetup (optional_over (topic_class mem) topic_util n name c cname) w = (w', r) ->
  exists e, r = Err e /\ w_st w' n = BROKEN.
Proof.
  intros mem n name c cname w w' r d N S D V E. cbn [call optional_over make_obj o_setup] in E.
  unfold node_setup in E. cbn [do_setup optional_setup_loop] in E.
  set (w2 := set_outs _ _ _) in E. set (w3 := mem_exec w2 n false) in E.
  assert (IN : w_ins w3 c = w_ins w c) by (cbn; apply upd_other; congruence).
  assert (U : o_util (ros_node (topic_class mem) topic_util c cname) w3 = topic_util (w_ins w3 c) (fst (w_ext w3)) (snd (w_ext w3)))
    by reflexivity.
  destruct (topic_util_unset (w_ins w c) (fst (w_ext w3)) (snd (w_ext w3)) d D V) as [e K].
  rewrite IN, K in U. rewrite U in E. exists e.
  destruct S as [S|S]; rewrite S in E; injection E as <- <-; (split; [reflexivity|]); cbn; apply upd_same.
Qed.
