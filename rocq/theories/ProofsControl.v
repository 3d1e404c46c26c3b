(** Proofs about one tick of the control nodes. *)
From Coq Require Import List String ZArith Bool Arith Lia.
From Verif Require Import Base ModelData ModelUtility ModelTree SpecTree SpecControl ProofsTree ProofsLife.
Import ListNotations.
Local Open Scope nat_scope.

Section Control.
Context {E : Type}.
Notation W := (world E).

Lemma ran_app : forall (w : W) l1 w1 l2 w2, ran w l1 w1 -> ran w1 l2 w2 -> ran w (l1 ++ l2) w2.
Proof. intros w l1 w1 l2 w2 H. induction H; simpl; auto. intros. econstructor; eauto. Qed.

Lemma ran_one : forall (c : obj E) o w w1 r, call o c w = (w1, r) -> ran w [(c, o, r)] w1.
Proof. intros. econstructor; eauto. constructor. Qed.

Lemma in_tick_states : forall s,
  state_in s [RUNNING; SUCCEEDED; FAILED; ASSIGNED; UNASSIGNED] = true <-> op_states OTick s.
Proof. intros s. rewrite state_in_spec. simpl. intuition. Qed.

(** The tick of any node: class-specific code between [begin_tick] and [end_tick]. *)
Lemma tick_api : forall (ev : env E) n k name cs w w' r,
  live (w_st w n) -> inputs_set w n ->
  call OTick (make_obj ev n k name cs) w = (w', r) ->
  exists w2 b, do_tick ev n k cs (begin_tick n w) = (w2, b) /\ end_tick n b w2 w' r.
Proof.
  intros ev n k name cs w w' r Hl Hi H. rewrite call_make in H.
  destruct (node_tick_cases E n (do_op ev OTick n k cs) w) as [[Hd _]|[_ Heq]]; [contradiction|].
  rewrite Heq in H. unfold tick_live in H. rewrite (inputs_set_forallb _ _ _ Hi) in H. cbn [negb do_op] in H.
  unfold begin_tick. destruct (do_tick ev n k cs _) as [w2 b] eqn:Ed. exists w2, b. split; auto.
  assert (Hown : forall (w3 : W) s, only_own n w3 (set_st w3 n s)).
  { intros w3 s. repeat split; auto. intros m Hm. simpl. apply upd_neq; auto. }
  unfold end_tick. destruct b as [s|e|].
  - set (w4 := set_ins (set_st w2 n s) n (map_io reset_updated (w_ins (set_st w2 n s) n))) in *.
    assert (H4 : only_own n w2 w4).
    { repeat split; auto. intros m Hm. simpl. apply upd_neq; auto. }
    destruct (state_in s [RUNNING; SUCCEEDED; FAILED; ASSIGNED; UNASSIGNED]) eqn:Es.
    + assert (Hos : op_states OTick s) by (apply in_tick_states; exact Es).
      pose proof (push_outputs_frame E n w4) as [A1 [A2 [A3 [A4 [A5 _]]]]].
      assert (H5 : only_own n w2 (fst (push_outputs w4 n))).
      { destruct H4 as [P1 [P2 [P3 [P4 P5]]]]. repeat split.
        - intros m Hm. rewrite A1. auto.
        - intros m. rewrite A2. auto.
        - intros m Hm. rewrite A3. auto.
        - congruence.
        - congruence. }
      assert (Hst : w_st (fst (push_outputs w4 n)) n = s) by (rewrite A1; simpl; apply upd_eq).
      assert (Hbad : forall w5 q, push_outputs w4 n = (w5, q) -> (forall u, q <> Ok u) ->
                w_conns w2 n <> Some [] \/ w_outs w2 n <> []).
      { intros w5 q Hp Hq. unfold push_outputs in Hp.
        change (w_conns w4 n) with (w_conns w2 n) in Hp.
        destruct (w_conns w2 n) as [[|x l]|]; try (left; discriminate). right. intros Ho.
        simpl in Hp. rewrite Ho in Hp. simpl in Hp. inversion Hp as [[Hw5 Hq5]]. apply (Hq tt); congruence. }
      clear A1 A2 A3 A4 A5 H4. clearbody w4.
      destruct (push_outputs w4 n) as [w5 [u|e|]]; inversion H; subst w' r; simpl in *.
      * split; auto.
      * split.
        -- destruct H5 as [P1 [P2 [P3 [P4 P5]]]]. repeat split; auto.
           intros m Hm. simpl. rewrite upd_neq; auto.
        -- right. right. split; auto. split; [eapply Hbad; eauto; discriminate|].
           left. exists e. simpl. rewrite upd_eq. auto.
      * split; auto. right. right. split; auto. split; [eapply Hbad; eauto; discriminate|]. auto.
    + assert (Hs4 : w_st w4 n = s) by (simpl; apply upd_eq). clearbody w4.
      inversion H; subst w' r. split; auto. right. left. split; [|split; auto].
      intros Hos. apply in_tick_states in Hos. congruence.
  - inversion H; subst. split; auto. simpl. rewrite upd_eq. auto.
  - inversion H; subst. split; auto. repeat split; auto.
Qed.

(** Setup, untick and reset that return Ok: what the class-specific code did. *)
Lemma ok_api : forall (ev : env E) n k name cs o w w' s,
  o = OSetup \/ o = OUntick \/ o = OReset ->
  call o (make_obj ev n k name cs) w = (w', Ok s) ->
  exists w2, do_op ev o n k cs (prepare o n w) = (w2, Ok s) /\
    (o <> OSetup -> live (w_st w n)) /\
    w_st w' = upd (w_st w2) n s /\ w_mem w' = w_mem w2 /\ w_ext w' = w_ext w2 /\ w_conns w' = w_conns w2 /\
    w_ins w' = w_ins w2 /\ (forall m, m <> n -> w_outs w' m = w_outs w2 m).
Proof.
  intros ev n k name cs o w w' s Ho H. rewrite call_make in H. destruct Ho as [ -> | [ -> | -> ]].
  - destruct (node_setup_cases E n (do_op ev OSetup n k cs) w) as [[_ [_ Heq]]|[_ Heq]]; rewrite Heq in H; try discriminate.
    unfold setup_live in H. destruct (do_op ev OSetup n k cs _) as [w2 [s'|e|]] eqn:Ed; try discriminate.
    destruct (state_in s' [IDLE]); [|discriminate]. inversion H; subst. exists w2. split; [solve [reflexivity | exact Ed]|].
    simpl. repeat split; auto; try congruence.
  - destruct (node_untick_cases E n (do_op ev OUntick n k cs) w) as [[_ Heq]|[Hl Heq]]; rewrite Heq in H; try discriminate.
    unfold untick_live in H. destruct (do_op ev OUntick n k cs _) as [w2 [s'|e|]] eqn:Ed; try discriminate.
    destruct (state_in s' [IDLE; PAUSED]); [|discriminate]. inversion H; subst. exists w2. split; [solve [reflexivity | exact Ed]|].
    simpl. repeat split; auto. intros m Hm. rewrite upd_neq; auto.
  - destruct (node_reset_cases E n (do_op ev OReset n k cs) w) as [[_ Heq]|[Hl Heq]]; rewrite Heq in H; try discriminate.
    unfold reset_live in H. destruct (do_op ev OReset n k cs _) as [w2 [s'|e|]] eqn:Ed; try discriminate.
    destruct (state_in s' [IDLE]); [|discriminate]. inversion H; subst. exists w2. split; [solve [reflexivity | exact Ed]|].
    simpl. repeat split; auto.
Qed.

Lemma dget_map_io : forall f key (m : iomap), dget key (map_io f m) = option_map f (dget key m).
Proof. intros f key m. induction m as [|[k c] r IH]; simpl; auto. destruct (String.eqb key k); auto. Qed.

(** An option read at setup: a static input keeps its value. *)
Lemma setup_option : forall (w : W) n key c A (conv : value -> option A) v a,
  dget key (w_ins w n) = Some c -> c_static c = true -> c_val c = Some v -> conv v = Some a ->
  in_value_as conv (prepare OSetup n w) n key = Ok a.
Proof.
  intros w n key c A conv v a Hd Hs Hv Hc. unfold in_value_as. simpl. rewrite upd_eq, dget_map_io, Hd. simpl.
  rewrite Hs, Hv, Hc. reflexivity.
Qed.

(** ** Loops *)

Lemma calls_on_cons : forall o c s (cs : list (obj E)) l,
  calls_on o cs l -> calls_on o (c :: cs) ((c, o, Ok s) :: l).
Proof.
  intros o c s cs l [A B]. split; simpl; [congruence|]. constructor; auto. simpl. eauto.
Qed.

Lemma for_each_each : forall o (cs : list (obj E)) w w' r,
  for_each (call o) cs w = (w', r) -> exists l, ran w l w' /\ each o cs l r.
Proof.
  induction cs as [|c rest IH]; simpl; intros w w' r H.
  - inversion H; subst. exists []. split; [constructor|]. constructor. split; auto.
  - destruct (call o c w) as [w1 [s|e|]] eqn:Ec; simpl in H.
    + destruct (IH _ _ _ H) as [l [Hr He]]. exists ((c, o, Ok s) :: l). split; [econstructor; eauto|].
      inversion He; subst.
      * apply each_ok. apply calls_on_cons; auto.
      * change ((c, o, Ok s) :: l0 ++ [(c0, o, Err e)]) with (((c, o, Ok s) :: l0) ++ [(c0, o, Err e)]).
        apply each_err with (a := c :: a) (b := b); auto. apply calls_on_cons; auto.
      * change ((c, o, Ok s) :: l0 ++ [(c0, o, Raise)]) with (((c, o, Ok s) :: l0) ++ [(c0, o, @Raise state)]).
        apply each_raise with (a := c :: a) (b := b); auto. apply calls_on_cons; auto.
    + inversion H; subst. exists [(c, o, Err e)]. split; [apply ran_one; auto|].
      apply (each_err o (c :: rest) [] c rest []); auto. split; auto.
    + inversion H; subst. exists [(c, o, Raise)]. split; [apply ran_one; auto|].
      apply (each_raise o (c :: rest) [] c rest []); auto. split; auto.
Qed.

Lemma finished_spec : forall s, finished s = true <-> has_result s.
Proof. intros s. unfold finished. rewrite state_in_spec. unfold has_result. simpl. intuition. Qed.

Lemma fin_dec : forall (fin : bool) (P : Prop), (fin = true <-> P) -> {fin = true /\ P} + {fin = false /\ ~ P}.
Proof. intros [|] P H; [left|right]; split; auto; [apply H; auto|]. intros HP. apply H in HP. discriminate. Qed.

(** The reset phase in front of a tick. *)
Lemma reset_phase : forall (fin : bool) (P : Prop) cs (w w' : W) b (k : W -> W * res state) rest,
  (fin = true <-> P) ->
  bind (if fin then for_each o_reset cs w else (w, Ok tt)) (fun _ w1 => k w1) = (w', b) ->
  (forall w1, k w1 = (w', b) -> exists l1, ran w1 l1 w' /\ rest l1) ->
  exists l, ran w l w' /\ reset_first P cs l b rest.
Proof.
  intros fin P cs w w' b k rest HP H Hk. change (@o_reset E) with (call (E:=E) OReset) in H.
  destruct (fin_dec fin P HP) as [[Hf Hp]|[Hf Hp]]; rewrite Hf in H; simpl in H.
  - destruct (for_each (call OReset) cs w) as [w1 r0] eqn:Ef.
    destruct (for_each_each _ _ _ _ _ Ef) as [l0 [Hr0 He0]].
    destruct r0 as [u|e|]; simpl in H.
    + destruct (Hk w1 H) as [l1 [Hr1 Hq]]. exists (l0 ++ l1). split; [eapply ran_app; eauto|].
      exists l0, (Ok u). split; [left; auto|]. exists l1. auto.
    + inversion H; subst. exists l0. split; auto. exists l0, (Err e). split; [left; auto|]. auto.
    + inversion H; subst. exists l0. split; auto. exists l0, Raise. split; [left; auto|]. auto.
  - destruct (Hk w H) as [l1 [Hr1 Hq]]. exists l1. split; auto. exists [], (Ok tt). split; [right; auto|]. exists l1. auto.
Qed.

Lemma scan_cons : forall (go ab : state -> Prop) d c cs l b (s : state), go s ->
  scan (E:=E) go ab d cs l b -> scan go ab d (c :: cs) ((c, OTick, Ok s) :: l) b.
Proof.
  intros go ab d c cs l b s Hg H. destruct H.
  - apply scan_all; simpl; [congruence|constructor; simpl; eauto].
  - change ((c, OTick, Ok s) :: l ++ [(c0, OTick, b)]) with (((c, OTick, Ok s) :: l) ++ [(c0, OTick, b)]).
    apply scan_fail with (a := c :: a) (rest := rest); simpl; try congruence. constructor; simpl; eauto.
  - change ((c, OTick, Ok s) :: l ++ [(c0, OTick, Ok s0)]) with (((c, OTick, Ok s) :: l) ++ [(c0, OTick, Ok s0)]).
    apply scan_keep with (a := c :: a) (rest := rest); simpl; try congruence. constructor; simpl; eauto.
  - change ((c, OTick, Ok s) :: l ++ (c0, OTick, Ok s0) :: l2) with (((c, OTick, Ok s) :: l) ++ (c0, OTick, Ok s0) :: l2).
    apply scan_abandon with (a := c :: a) (rest := rest); simpl; try congruence. constructor; simpl; eauto.
Qed.

Lemma bind_then : forall (w w2 : W) (x : W * res unit) s b,
  bind x (fun _ w2 => (w2, Ok s)) = (w2, b) -> exists r2, x = (w2, r2) /\ b = then_ r2 s.
Proof. intros w w2 [w1 [u|e|]] s b H; simpl in H; inversion H; subst; eauto. Qed.

Lemma sequence_loop_plan : forall (cs : list (obj E)) w w' b,
  sequence_loop cs w = (w', b) -> exists l, ran w l w' /\ sequence_plan cs l b.
Proof.
  induction cs as [|c rest IH]; simpl; intros w w' b H.
  - inversion H; subst. exists []. split; [constructor|]. apply scan_all; simpl; auto.
  - destruct (o_tick c w) as [w1 [s|e|]] eqn:Ec; simpl in H.
    + destruct (state_eqb_spec s SUCCEEDED) as [->|Hs]; simpl in H.
      * destruct (IH _ _ _ H) as [l [Hr Hp]]. exists ((c, OTick, Ok SUCCEEDED) :: l).
        split; [econstructor; eauto|]. apply scan_cons; auto.
      * destruct (state_eqb_spec s RUNNING) as [->|Hr]; simpl in H.
        -- inversion H; subst. exists [(c, OTick, Ok RUNNING)]. split; [apply ran_one; auto|].
           apply (scan_keep _ _ _ (c :: rest) [] c rest []); auto.
        -- apply bind_then in H; [|exact w]. destruct H as [r2 [Hf ->]].
           destruct (for_each_each OUntick _ _ _ _ Hf) as [l2 [Hr2 He2]].
           exists ((c, OTick, Ok s) :: l2). split; [econstructor; eauto|].
           apply (scan_abandon _ _ _ (c :: rest) [] c rest []); auto.
    + inversion H; subst. exists [(c, OTick, Err e)]. split; [apply ran_one; auto|].
      apply (scan_fail _ _ _ (c :: rest) [] c rest []); auto. discriminate.
    + inversion H; subst. exists [(c, OTick, Raise)]. split; [apply ran_one; auto|].
      apply (scan_fail _ _ _ (c :: rest) [] c rest []); auto. discriminate.
Qed.

Lemma state_in2 : forall s a b, state_in s [a; b] = state_eqb s a || state_eqb s b.
Proof. intros. unfold state_in. simpl. rewrite orb_false_r. reflexivity. Qed.

Lemma fallback_loop_plan : forall (cs : list (obj E)) w w' b,
  fallback_loop cs w = (w', b) -> exists l, ran w l w' /\ fallback_plan cs l b.
Proof.
  induction cs as [|c rest IH]; intros w w' b H.
  - simpl in H. inversion H; subst. exists []. split; [constructor|]. apply scan_all; simpl; auto.
  - cbn [fallback_loop] in H. destruct (o_tick c w) as [w1 [s|e|]] eqn:Ec; cbn [bind] in H.
    + rewrite state_in2 in H. destruct (state_eqb_spec s SUCCEEDED) as [->|Hs]; simpl in H.
      * apply bind_then in H; [|exact w]. destruct H as [r2 [Hf ->]].
        destruct (for_each_each OUntick _ _ _ _ Hf) as [l2 [Hr2 He2]].
        exists ((c, OTick, Ok SUCCEEDED) :: l2). split; [econstructor; eauto|].
        apply (scan_abandon _ _ _ (c :: rest) [] c rest []); auto. intros [A _]; congruence.
      * destruct (state_eqb_spec s RUNNING) as [->|Hr]; simpl in H.
        -- inversion H; subst. exists [(c, OTick, Ok RUNNING)]. split; [apply ran_one; auto|].
           apply (scan_keep _ _ _ (c :: rest) [] c rest []); auto. intros [_ A]; congruence.
        -- destruct (IH _ _ _ H) as [l [Hl Hp]]. exists ((c, OTick, Ok s) :: l).
           split; [econstructor; eauto|]. apply scan_cons; auto.
    + inversion H; subst. exists [(c, OTick, Err e)]. split; [apply ran_one; auto|].
      apply (scan_fail _ _ _ (c :: rest) [] c rest []); auto. discriminate.
    + inversion H; subst. exists [(c, OTick, Raise)]. split; [apply ran_one; auto|].
      apply (scan_fail _ _ _ (c :: rest) [] c rest []); auto. discriminate.
Qed.

(** C10 *)
Lemma sequence_tick_spec : forall (ev : env E) n name cs w w' r,
  live (w_st w n) -> inputs_set w n ->
  call OTick (make_obj ev n KSequence name cs) w = (w', r) ->
  exists l b, ticks_with n w l b w' r /\
    reset_first (has_result (w_st w n)) cs l b (fun l1 => sequence_plan cs l1 b).
Proof.
  intros ev n name cs w w' r Hl Hi H. apply tick_api in H; auto. destruct H as [w2 [b [Hd He]]].
  simpl in Hd. unfold sequence_tick in Hd.
  assert (Hx : exists l, ran (begin_tick n w) l w2 /\
     reset_first (has_result (w_st w n)) cs l b (fun l1 => sequence_plan cs l1 b)).
  { destruct cs as [|c cs'].
    - inversion Hd; subst. exists []. split; [constructor|].
      destruct (fin_dec _ _ (finished_spec (w_st w n))) as [[_ Hp]|[_ Hp]].
      + exists [], (Ok tt). split; [left; split; auto; constructor; split; auto|].
        exists []. split; auto. apply scan_all; auto.
      + exists [], (Ok tt). split; [right; auto|]. exists []. split; auto. apply scan_all; auto.
    - unfold reset_if_finished in Hd. eapply reset_phase in Hd; eauto.
      + apply finished_spec.
      + intros w1 H1. apply sequence_loop_plan; auto. }
  destruct Hx as [l [Hr Hp]]. exists l, b. split; auto. exists w2. auto.
Qed.

(** C11 *)
Lemma fallback_tick_spec : forall (ev : env E) n name cs w w' r,
  live (w_st w n) -> inputs_set w n ->
  call OTick (make_obj ev n KFallback name cs) w = (w', r) ->
  exists l b, ticks_with n w l b w' r /\
    reset_first (has_result (w_st w n)) cs l b (fun l1 => fallback_plan cs l1 b).
Proof.
  intros ev n name cs w w' r Hl Hi H. apply tick_api in H; auto. destruct H as [w2 [b [Hd He]]].
  simpl in Hd. unfold fallback_tick in Hd.
  assert (Hx : exists l, ran (begin_tick n w) l w2 /\
     reset_first (has_result (w_st w n)) cs l b (fun l1 => fallback_plan cs l1 b)).
  { destruct cs as [|c cs'].
    - inversion Hd; subst. exists []. split; [constructor|].
      destruct (fin_dec _ _ (finished_spec (w_st w n))) as [[_ Hp]|[_ Hp]].
      + exists [], (Ok tt). split; [left; split; auto; constructor; split; auto|].
        exists []. split; auto. apply scan_all; auto.
      + exists [], (Ok tt). split; [right; auto|]. exists []. split; auto. apply scan_all; auto.
    - unfold reset_if_finished in Hd. eapply reset_phase in Hd; eauto.
      + apply finished_spec.
      + intros w1 H1. apply fallback_loop_plan; auto. }
  destruct Hx as [l [Hr Hp]]. exists l, b. split; auto. exists w2. auto.
Qed.
End Control.
