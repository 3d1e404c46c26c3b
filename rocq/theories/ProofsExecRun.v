(** Runs with one request at a time: the invariants of ProofsExec.v along runs, and
    the programs of the handlers. *)
From Coq Require Import List Bool Arith Lia.
From Verif Require Import Base ModelExec SpecExec ProofsExec.
Import ListNotations.

Section Run.
Context {W : Type}.
Variable P : plant W.
Implicit Types (y : sys W) (K : @know W) (pre : label -> bool -> @know W -> Prop)
  (Q : bool -> @know W -> bool -> option tstate -> Prop) (good : @know W -> Prop).

(** ** Weaker knowledge *)

Definition le K K' : Prop :=
  match K, K' with
  | KDead F, KDead F' => forall st o p w h, F st o p w h -> F' st o p w h
  | KDead _, (KClosed | KFresh | KTop) => True
  | KClosed, (KClosed | KFresh | KTop) => True
  | KFresh, (KFresh | KTop) => True
  | KTop, KTop => True
  | KRun F, KRun F' => forall st o p w h, F st o p w h -> F' st o p w h
  | _, _ => False
  end.
Lemma le_refl : forall K, le K K.
Proof. destruct K; cbn; auto. Qed.
Lemma le_fin : forall K K', le K K' -> fin K' -> fin K.
Proof. destruct K, K'; cbn; tauto. Qed.
Lemma le_run : forall K K', le K K' -> not_run K' -> not_run K.
Proof. destruct K, K'; cbn; tauto. Qed.
Lemma le_dead : forall K K', le K K' -> is_dead K' -> is_dead K.
Proof. destruct K, K'; cbn; tauto. Qed.
Lemma le_see : forall s K K', le K K' -> le (see_state s K) (see_state s K').
Proof. destruct K, K'; cbn; try tauto; destruct s; cbn; try tauto; intros H st o p w h [? ?]; auto. Qed.
Lemma le_write : forall s K K', le K K' -> can_write s K' -> can_write s K.
Proof. destruct K, K'; cbn; tauto. Qed.
Lemma le_put : forall s K K', le K K' -> le (put_state s K) (put_state s K').
Proof. destruct K, K'; cbn; try tauto. intros H st o p w h [[? ?] ?]; eauto. Qed.
Lemma le_dead_of : forall K K', le K K' -> le (dead K) (dead K').
Proof.
  destruct K, K'; cbn; try tauto; auto. intros H st o p w h (t & c & (s0 & o0 & p0 & w0 & h0 & l & X & Y) & Z).
  exists t, c. split; [|exact Z]. exists s0, o0, p0, w0, h0, l. split; auto.
Qed.
Lemma le_world : forall R K K', le K K' -> le (see_world R K) (see_world R K').
Proof. destruct K, K'; cbn; try tauto. intros H st o p w h [? ?]; auto. Qed.
Lemma le_move : forall R l K K', le K K' -> le (move_world R l K) (move_world R l K').
Proof. destruct K, K'; cbn; try tauto. intros H st o p w h (w0 & h0 & X & Y). exists w0, h0. auto. Qed.
Lemma le_once : forall b K K', le K K' -> le (put_once b K) (put_once b K').
Proof. destruct K, K'; cbn; try tauto. intros H st o p w h [[? ?] ?]; eauto. Qed.
Lemma le_stop : forall b K K', le K K' -> le (put_stop b K) (put_stop b K').
Proof. destruct K, K'; cbn; try tauto. intros H st o p w h [[? ?] ?]; eauto. Qed.

Definition down (Q : bool -> know -> bool -> option tstate -> Prop) : Prop :=
  forall rq K K' ok ts, le K K' -> Q rq K' ok ts -> Q rq K ok ts.
Definition pre_down (pre : label -> bool -> @know W -> Prop) : Prop :=
  forall l rq K K', le K K' -> pre l rq K' -> pre l rq K.

Definition good_down good : Prop := forall K K', le K K' -> good K' -> good K.

Lemma chk_le : forall me Q pre good, down Q -> pre_down pre -> good_down good ->
  forall c cur rq K K', le K K' -> chk P me Q pre good cur rq K' c -> chk P me Q pre good cur rq K c.
Proof.
  intros me Q pre good DQ DP DG. induction c; intros cur rq K K' L CK; cbn in CK |- *; destruct CK as [GK CK];
    (split; [exact (DG _ _ L GK)|]); try tauto.
  - destruct CK. split; [eapply le_fin; eauto|eapply DQ; eauto].
  - eapply le_fin; eauto.
  - intros s. eapply H; [|apply CK]. apply le_see, L.
  - destruct CK as (A & B & C). repeat split; [exact A|eapply le_write; eauto|]. eapply IHc; [|exact C]. apply le_put, L.
  - intros o E. eapply H; [|apply CK; exact E]. destruct o; auto using le_dead_of.
  - destruct CK. split; [eapply le_dead; eauto|]. eauto.
  - destruct CK as (A & B & C). repeat split; [exact A| |].
    + intros ND. eapply H; [exact L|]. apply B. intros X. apply ND. eapply le_dead; eauto.
    + eapply H; [|exact C]. apply le_dead_of, L.
  - destruct CK as (A & B). split; [exact A|]. destruct K'; try tauto. destruct K; cbn in L; try tauto.
    destruct B as (F' & X & Y). exists F'. split; auto.
  - eauto.
  - eauto.
  - intros r. eapply H; [|apply CK]. apply le_world, L.
  - destruct CK as (A & B & C & D). repeat split; [exact A|eapply le_fin; eauto|eapply le_run; eauto|].
    intros r. eapply H; [|apply D]. apply le_move, L.
  - destruct CK as (A & B & C & D). repeat split; [exact A|eapply le_fin; eauto|eapply le_run; eauto|].
    intros r. eapply H; [|apply D]. apply le_move, L.
  - intros s. eapply H; [|apply CK]. apply le_world, L.
  - destruct CK. split; [eapply le_run; eauto|]. eapply IHc; [|eassumption]. apply le_once, L.
  - destruct CK. split; [eapply le_run; eauto|]. eapply IHc; [|eassumption]. apply le_stop, L.
  - destruct CK. split; [eapply le_run; eauto|]. eapply IHc; [|eassumption]. apply le_move, L.
  - destruct CK. split; [eapply le_run; eauto|]. eapply IHc; [|eassumption]. apply le_move, L.
  - eauto.
  - eauto.
  - destruct CK as [A B]. split.
    + destruct A as [A|A]; [subst K'|right; eapply le_dead; eauto]. destruct K; cbn in L; cbn; tauto.
    + intros b. eapply H; [|apply B]. apply le_move, L.
  - destruct CK as [A B]. split.
    + destruct A as [A|A]; [subst K'|right; eapply le_dead; eauto]. destruct K; cbn in L; cbn; tauto.
    + intros b. eapply H; [|apply B]. apply le_move, L.
  - eapply DP; eauto.
Qed.

(** The part of control_execution before the state is read keeps what is known. *)
Lemma le_see_self : forall s K, not_run K -> le (see_state s K) K.
Proof. intros s K. destruct K; cbn; try tauto; destruct s; cbn; try tauto; intros; tauto. Qed.
Lemma le_dead_self : forall K, not_run K -> le (dead K) K.
Proof. destruct K; cbn; tauto. Qed.

Lemma control_chk : forall me Q pre good c rq K, down Q -> pre_down pre -> good_down good -> not_run K ->
  fin K -> Q rq (see_state TIDLE K) false None ->
  (forall cur, chk P me Q pre good cur rq K (dispatch c)) -> chk P me Q pre good None rq K (control c).
Proof.
  intros me Q pre good c rq K DQ DP DG NR FK QF H.
  assert (GK : good K) by (eapply chk_good; apply (H None)).
  assert (G : forall K', le K' K -> good K') by (intros; eapply DG; eauto).
  assert (D : forall cur K', le K' K -> chk P me Q pre good cur rq K' (dispatch c)) by (intros; eapply chk_le; eauto).
  assert (R : forall cur K', le K' K -> chk P me Q pre good cur rq K' (renew c)).
  { intros cur K' L. assert (NR' : not_run K') by (eapply le_run; eauto).
    assert (L2 : le (dead K') K).
    { destruct K', K; cbn in *; tauto. }
    unfold renew. cbn [chk]. split; [auto|]. intros o E. destruct o as [t|].
    - unfold alive. cbn [chk]. split; [auto|]. intros o E'. subst o. cbn [chk]. split; [auto|].
      split; [reflexivity|]. split; [intros _; apply D, L|].
      cbn [chk]. split; [auto|]. split; [destruct K'; cbn in *; tauto|]. apply D, L2.
    - cbn [chk]. split; [auto|]. split; [destruct K'; cbn in *; tauto|]. apply D, L2. }
  unfold control. cbn [chk]. split; [auto|]. intros o _. destruct o as [t|].
  - cbn [chk]. split; [auto|]. intros s.
    assert (L1 : le (see_state s K) K) by (apply le_see_self, NR).
    assert (L2 : le (dead (see_state s K)) K).
    { destruct K; cbn in *; try tauto; destruct s; cbn in *; tauto. }
    destruct (tstate_eqb s TIDLE) eqn:ES; [|apply R, L1].
    assert (s = TIDLE) by (destruct s; cbn in ES; congruence). subst s.
    unfold alive at 1. cbn [chk]. split; [auto|]. intros o E. subst o. cbn [chk]. split; [auto|]. split; [reflexivity|].
    split; [|apply R, L2]. intros _. unfold join. cbn [chk]. split; [auto|]. intros o E. subst o. cbn [chk]. split; [auto|].
    unfold alive. cbn [chk]. split; [auto|]. intros o E. subst o. cbn [chk]. split; [auto|]. split; [reflexivity|]. split; [|apply R, L2].
    intros _. split; [auto|]. split; [eapply le_fin; eauto|exact QF].
  - apply R. destruct K; cbn in *; tauto.
Qed.

(** ** Runs *)

Definition alone y p : Prop := forall q k c, at_code y q k c -> k <> KTick -> ended c = false -> q = p.

Definition seg me Q pre good (es : list event) y (h : hist) : Prop :=
  base y /\ alone y me /\ hinv y h /\ exists k c cur rq K, k <> KTick /\ at_code y me k c /\
    chk P me Q pre good cur rq K c /\ holds y h K /\ holds_cur y cur /\
    (rq = false -> ~ In (EAct me (ASetState STOP_REQUESTED)) es).

Lemma effect_at : forall y p a y' q k c, effect P p y a y' -> k <> KTick -> at_code y' q k c -> at_code y q k c.
Proof.
  intros y p a y' q k c E NK A. destruct E; unfold at_code, with_proc, with_procs in *; cbn in *; auto.
  - destruct (nth_app_one _ _ _ _ A) as [X|[_ X]]; [exact X|congruence].
  - destruct (nth_set_inv _ _ _ _ _ A) as [[_ X]|[_ X]]; [congruence|exact X].
Qed.
Lemma step_others : forall y p a y' k0 c' q k c, effect P p y a y' -> k <> KTick ->
  at_code (with_proc y' p (k0, Some c')) q k c -> (q = p /\ k = k0 /\ c = c') \/ at_code y q k c.
Proof.
  intros y p a y' k0 c' q k c E NK A. unfold at_code, with_proc, with_procs in A. cbn in A.
  destruct (nth_set_inv _ _ _ _ _ A) as [[X Z]|[_ X]]; [left; split; [exact X|]; split; congruence|right].
  eapply effect_at; eauto.
Qed.

Lemma effect_keeps : forall y p a y' q k c, effect P p y a y' -> at_code y q k c -> k <> KTick -> at_code y' q k c.
Proof.
  intros y p a y' q k c E A NK. destruct E; unfold at_code, with_proc, with_procs in *; cbn in *; auto.
  - rewrite nth_error_app1; [exact A|]. apply nth_error_Some. congruence.
  - rewrite nth_set_other; [exact A|]. intros X. subst. congruence.
Qed.

Lemma effect_started : forall y p a y' q k c, effect P p y a y' -> at_code y q k c -> at_code y' q k c.
Proof.
  intros y p a y' q k c E A. destruct E; unfold at_code, with_proc, with_procs in *; cbn in *; auto.
  - rewrite nth_error_app1; [exact A|]. apply nth_error_Some. congruence.
  - rewrite nth_set_other; [exact A|]. intros X. subst. congruence.
Qed.
Lemma step_started : forall y e y' q k c, step P y e y' -> at_code y q k c -> exists c', at_code y' q k c'.
Proof.
  intros y e y' q k c S A. destruct S as [y k0 N|y p kp cp a cp' y' Ap S E].
  - exists c. unfold at_code in *. cbn. rewrite nth_error_app1; [exact A|]. apply nth_error_Some. congruence.
  - pose proof (effect_started _ _ _ _ _ _ _ E A) as A2.
    destruct (Nat.eq_dec p q) as [X|X].
    + subst q. assert (k = kp) by (unfold at_code in *; congruence). subst kp. exists cp'.
      unfold at_code, with_proc, with_procs. cbn. eapply nth_set_same; eauto.
    + exists c. unfold at_code, with_proc, with_procs in *. cbn. rewrite nth_set_other by exact X. exact A2.
Qed.
Lemma hinv_step : forall y e y' h, step P y e y' -> hinv y h -> hinv y' (h ++ items [e]).
Proof.
  intros y e y' h S H p o r X. apply in_app_or in X. destruct X as [X|X].
  - destruct (H _ _ _ X) as (k & c & A). destruct (step_started _ _ _ _ _ _ S A) as (c' & A'). eauto.
  - destruct S as [y k0 N|y q kp cp a cp' y' Ap S E]; [destruct X|].
    assert (p = q). { rewrite items_one in X. destruct a; cbn in X; try destruct b; cbn in X; try tauto; destruct X as [X|[]]; congruence. }
    subst q. exists kp, cp'. unfold at_code, with_proc, with_procs. cbn. eapply nth_set_same.
    eapply effect_started; eauto.
Qed.

Lemma seg_step : forall me Q pre good es y h e y',
  (forall l rq K, pre l rq K -> chk P me Q pre good None rq K (body l)) ->
  seg me Q pre good es y h -> step P y e y' -> one_at_a_time y e -> (forall k, e <> EArrive k) ->
  seg me Q pre good (es ++ [e]) y' (h ++ items [e]).
Proof.
  intros me Q pre good es y h e y' Hpre (B & AL & HI & k & c & cur & rq & K & NK & A & CH & H & HC & HQ) S G NA.
  destruct S as [y k0 N|y q kq cq a cq' y' Aq S E]; [exfalso; eapply NA; reflexivity|].
  assert (HI2 : hinv (with_proc y' q (kq, Some cq')) (h ++ items [EAct q a])).
  { eapply hinv_step; [|exact HI]. econstructor; eauto. }
  rewrite items_one in *. assert (LV := lstep_live _ _ _ S).
  assert (HIN : forall rq', (rq' = false -> rq = false /\ (q <> me \/ a <> ASetState STOP_REQUESTED)) ->
     rq' = false -> ~ In (EAct me (ASetState STOP_REQUESTED)) (es ++ [EAct q a])).
  { intros rq' X X' I. destruct (X X') as [X1 X2]. apply in_app_or in I. destruct I as [I|[I|[]]]; [eapply HQ; eauto|].
    injection I as I1 I2. destruct X2; congruence. }
  assert (KD : kq = KTick \/ kq <> KTick) by (destruct kq; [left; reflexivity|right|right]; discriminate).
  destruct KD as [KD|KD].
  - subst kq. assert (NQ : q <> me) by (intros X; subst q; unfold at_code in A; congruence).
    destruct (tick_step P _ _ _ _ _ _ h K cur B Aq S E H HC) as (B2 & H2 & HC2).
    split; [exact B2|]. split.
    { intros q' k' c' A' NK' L'. destruct (step_others _ _ _ _ _ _ _ _ _ E NK' A') as [(_ & X & _)|X]; [congruence|].
      eapply AL; eauto. }
    split; [exact HI2|].
    exists k, c, cur, rq, K. repeat split; auto.
    + unfold at_code, with_proc, with_procs. cbn. rewrite nth_set_other by exact NQ.
      eapply effect_keeps; eauto.
    + apply HIN. auto.
  - assert (q = me) by (eapply AL; eauto). subst q.
    assert (kq = k /\ cq = c) as [-> ->] by (unfold at_code in *; split; congruence).
    assert (NOK : a <> AOk false) by (intros X; subst a; cbn in G; discriminate).
    destruct (handler_step P me Q pre good Hpre _ _ _ _ _ _ h K cur rq B NK A CH H HC S E NOK HI) as (B2 & cur' & K' & CH2 & H2 & HC2).
    split; [exact B2|]. split.
    { intros q' k' c' A' NK' L'. destruct (step_others _ _ _ _ _ _ _ _ _ E NK' A') as [(X & _ & _)|X]; [exact X|].
      eapply AL; eauto. }
    split; [exact HI2|].
    exists k, cq', cur', (asks rq a), K'. repeat split; auto.
    + unfold at_code, with_proc, with_procs. cbn. eapply nth_set_same. eapply effect_keeps; eauto.
    + apply HIN. intros X. unfold asks in X. apply orb_false_iff in X. destruct X as [X1 X2]. split; [exact X1|right].
      intros Z. subst a. cbn in X2. discriminate.
Qed.

Lemma no_arrival_app : forall a b, no_arrivals (a ++ b) -> no_arrivals a /\ no_arrivals b.
Proof. intros a b H. split; intros k X; apply (H k); apply in_or_app; auto. Qed.

Lemma seg_runs : forall me Q pre good y0 h0, 
  (forall l rq K, pre l rq K -> chk P me Q pre good None rq K (body l)) ->
  seg me Q pre good [] y0 h0 -> forall es y, runs one_at_a_time P y0 es y -> no_arrivals es ->
  seg me Q pre good es y (h0 ++ items es).
Proof.
  intros me Q pre good y0 h0 Hpre H0 es y R. induction R as [y|y es y1 e y2 R IH G S]; intros NA.
  - cbn. rewrite app_nil_r. exact H0.
  - apply no_arrival_app in NA. destruct NA as [NA NE]. rewrite items_app, app_assoc.
    eapply seg_step; eauto. intros k X. subst e. apply (NE k). left. reflexivity.
Qed.

Definition arrival y k := with_procs y (y_procs y ++ [(k, Some (first_code k))]).

Lemma at_arrival : forall y k q k' c, at_code (arrival y k) q k' c ->
  at_code y q k' c \/ (q = length (y_procs y) /\ k' = k /\ c = first_code k).
Proof.
  intros y k q k' c A. unfold at_code, arrival, with_procs in A. cbn in A.
  destruct (nth_app_one _ _ _ _ A) as [X|[X Z]]; [left; exact X|right]. split; [exact X|]. split; congruence.
Qed.
Lemma at_arrival_old : forall y k q k' c, at_code y q k' c -> at_code (arrival y k) q k' c.
Proof.
  intros y k q k' c A. unfold at_code, arrival, with_procs in *. cbn.
  rewrite nth_error_app1; [exact A|]. apply nth_error_Some. congruence.
Qed.

Lemma seg_arrive : forall Q pre good y h k K, base y -> calm y -> k <> KTick -> holds y h K ->
  chk P (length (y_procs y)) Q pre good None false K (first_code k) ->
  hinv y h -> seg (length (y_procs y)) Q pre good [] (arrival y k) h.
Proof.
  intros Q pre good y h k K B C NK H CH HI.
  assert (I : forall t d, at_code (arrival y k) t KTick d <-> at_code y t KTick d).
  { intros t d. split; intros X; [|apply at_arrival_old; exact X].
    destruct (at_arrival _ _ _ _ _ X) as [Z|(_ & Z & _)]; [exact Z|congruence]. }
  split; [|split; [|split]].
  - constructor.
    + intros t c X. apply I in X. eapply b_wf; eauto.
    + intros t (c & X & L). apply I in X. change (y_thread y = Some t). apply (b_one _ B). exists c; auto.
    + change (y_state (arrival y k)) with (y_state y). intros X t c Z. apply I in Z. eapply b_err; eauto.
    + change (y_thread (arrival y k)) with (y_thread y). intros t X. destruct (b_kind _ B _ X) as (x & Z). exists x.
      unfold arrival, with_procs. cbn. rewrite nth_error_app1; [exact Z|]. apply nth_error_Some. congruence.
  - intros q k' c X NK' L. destruct (at_arrival _ _ _ _ _ X) as [Z|(Z & _)]; [|exact Z].
    rewrite (C _ _ _ Z NK') in L. discriminate.
  - intros p o r X. destruct (HI _ _ _ X) as (k1 & c1 & Z). exists k1, c1. apply at_arrival_old, Z.
  - exists k, (first_code k), None, false, K. repeat split; auto.
    + unfold at_code, arrival, with_procs. cbn. rewrite nth_error_app2 by lia. rewrite Nat.sub_diag. reflexivity.
    + eapply holds_ext; eauto.
Qed.

(** A handler that has come to its end leaves what it knows. *)
Lemma seg_answer : forall me Q pre good es y h ok ts, seg me Q pre good es y h -> answered y me ok ts ->
  exists rq K, fin K /\ good K /\ Q rq K ok ts /\ holds y h K /\ base y /\
    (rq = false -> ~ In (EAct me (ASetState STOP_REQUESTED)) es).
Proof.
  intros me Q pre good es y h ok ts (B & AL & HI & k & c & cur & rq & K & NK & A & CH & H & HC & HQ) (k' & A').
  assert (c = Done ok ts) by (unfold at_code in *; congruence). subst c. destruct CH as (CG & CH1 & CH2).
  exists rq, K. exact (conj CH1 (conj CG (conj CH2 (conj H (conj B HQ))))).
Qed.
Lemma seg_calm : forall me Q pre good es y h, seg me Q pre good es y h -> calm y ->
  exists K, fin K /\ good K /\ holds y h K /\ base y.
Proof.
  intros me Q pre good es y h (B & AL & HI & k & c & cur & rq & K & NK & A & CH & H & HC & HQ) C.
  exists K. assert (GK := chk_good _ _ _ _ _ _ _ _ _ CH). split; [|exact (conj GK (conj H B))]. specialize (C _ _ _ A NK). destruct c; cbn in C; try discriminate; cbn in CH; tauto.
Qed.
Lemma seg_alone_calm : forall me Q pre good es y h ok ts, seg me Q pre good es y h -> answered y me ok ts -> calm y.
Proof.
  intros me Q pre good es y h ok ts (_ & AL & _ & k & c & cur & rq & K & NK & A & _) (k' & A') q kq cq X NKq.
  destruct (ended cq) eqn:L; [reflexivity|]. assert (q = me) by (eapply AL; eauto). subst q.
  assert (cq = Done ok ts) by (unfold at_code in *; congruence). subst cq. discriminate.
Qed.

(** *** All handlers *)

Definition anyQ (rq : bool) K (ok : bool) (ts : option tstate) : Prop := True.
(** What the waiting loops may be entered with. *)
Definition pre0 (l : label) (rq : bool) K : Prop :=
  match l with
  | LOnceWait => match K with KRun _ => True | _ => False end
  | LStopWait _ _ => match K with KRun _ => False | _ => True end
  | _ => False
  end.
Definition anyK K : Prop := True.
Lemma anyK_down : good_down anyK.
Proof. intros ? ? ? ?. exact I. Qed.
Lemma pre0_down : pre_down pre0.
Proof. intros l rq K K' L H. destruct l, K, K'; cbn in *; tauto. Qed.
Lemma any_down : down anyQ.
Proof. intros ? ? ? ? ? ? ?. exact I. Qed.

Ltac crunch1 :=
  match goal with
  | |- _ /\ _ => split
  | |- True => exact I
  | |- anyK _ => exact I
  | |- ?a = ?a => reflexivity
  | |- _ <> _ => discriminate
  | H : False |- _ => destruct H
  | H : ~ True |- _ => exfalso; apply H; exact I
  | H : Some _ = None |- _ => discriminate H
  | H : None = Some _ |- _ => discriminate H
  | H : Some _ = Some _ |- _ => injection H as H; subst
  | |- forall x : tstate, _ => intros []
  | |- forall x : rootres, _ => intros []
  | |- forall x : option nat, _ => intros [?|]
  | |- forall x : res state, _ => intros [?|?|]
  | |- forall x : bool, _ => intros []
  | |- forall x, _ => intro
  | |- context [state_in ?s ?l] => destruct (state_in s l)
  | |- _ \/ True => right; exact I
  | |- ?a = ?a \/ _ => left; reflexivity
  end; cbn -[state_in ran].
Ltac crunch := cbn -[state_in ran]; repeat crunch1.


(** Opens what is known at a leaf. *)
Ltac opened :=
  repeat match goal with
         | H : _ /\ _ |- _ => destruct H
         | H : exists _, _ |- _ => destruct H
         end; subst.

(** With any postcondition: a started thread was started with TICKING. *)
Ltac start_any :=
  exists (fun st _ _ _ _ => st = TICKING);
  split; [intros ? ? ? ? ? ?; cbn in *; opened; auto|cbn -[state_in ran]].

Lemma any_body : forall me l rq K, pre0 l rq K -> chk P me anyQ pre0 anyK None rq K (body l).
Proof.
  intros me l rq K H. destruct l; cbn in H; try tauto; destruct K; try tauto; try destruct sd; crunch.
  all: try exact I.
Qed.
Lemma any_dispatch : forall me c cur, chk P me anyQ pre0 anyK cur false KFresh (dispatch c).
Proof. intros me c cur. destruct c; crunch; try exact I. all: start_any; crunch; exact I. Qed.
Lemma any_edit : forall me cur b, chk P me anyQ pre0 anyK cur false KFresh (edit b).
Proof. intros me cur b. destruct b; crunch; exact I. Qed.
Lemma any_first : forall me k, k <> KTick -> chk P me anyQ pre0 anyK None false KFresh (first_code k).
Proof.
  intros me k N. destruct k; [congruence| |apply any_edit].
  apply control_chk; try exact I; [apply any_down|apply pre0_down|apply anyK_down|intros; apply any_dispatch].
Qed.

(** Every state reached with one request at a time. *)
Definition sound y : Prop :=
  (base y /\ calm y /\ holds y [] KFresh) \/ exists me es h, seg me anyQ pre0 anyK es y h.

Lemma fresh_sound : forall w, sound (fresh w).
Proof.
  intros w. left. split; [|split].
  - constructor; unfold at_code; cbn; try discriminate.
    + intros t c X. destruct t; discriminate.
    + intros t (c & X & _). unfold at_code in X. cbn in X. destruct t; discriminate.
  - intros p k c X. unfold at_code in X. cbn in X. destruct p; discriminate.
  - intros t c X. unfold at_code in X. cbn in X. destruct t; discriminate.
Qed.
Lemma sound_base : forall y, sound y -> base y.
Proof. intros y [H|(me & es & h & H)]; apply H. Qed.
Lemma sound_calm : forall y, sound y -> calm y -> base y /\ holds y [] KFresh.
Proof.
  intros y [H|(me & es & h & H)] C; [tauto|]. destruct (seg_calm _ _ _ _ _ _ _ H C) as (K & FK & _ & HK & B).
  split; [exact B|]. exact (fin_fresh _ _ _ B HK FK).
Qed.
Lemma sound_step : forall y e y', sound y -> step P y e y' -> one_at_a_time y e -> sound y'.
Proof.
  intros y e y' H S G. destruct e as [k|q a].
  - cbn in G. destruct (sound_calm _ H G) as [B F]. inversion S; subst. right.
    exists (length (y_procs y)), [], []. apply seg_arrive with (K := KFresh); auto.
    + apply any_first. assumption.
    + intros p o r [].
  - destruct H as [(B & C & F)|(me & es & h & H)].
    + left. inversion S as [|y0 q0 kq cq a0 cq' y1 Aq LS E]; subst.
      assert (kq = KTick).
      { destruct kq; [reflexivity| |]; exfalso; pose proof (lstep_live _ _ _ LS) as L;
          rewrite (C _ _ _ Aq) in L; discriminate. }
      subst kq. destruct (tick_step P _ _ _ _ _ _ [] KFresh None B Aq LS E F I) as (B2 & F2 & _).
      split; [exact B2|]. split; [|exact F2].
      intros q' k' c' A' NK'. destruct (step_others _ _ _ _ _ _ _ _ _ E NK' A') as [(_ & X & _)|X]; [congruence|eauto].
    + right. exists me, (es ++ [EAct q a]), (h ++ items [EAct q a]). eapply seg_step; eauto.
      * intros. apply any_body. assumption.
      * discriminate.
Qed.
Lemma runs_sound : forall y es y', runs one_at_a_time P y es y' -> sound y -> sound y'.
Proof. intros y es y' R. induction R as [y|y es y1 e y2 R IH G S]; intros H; [exact H|]. eapply sound_step; [apply IH, H|exact S|exact G]. Qed.
End Run.
