(** Proofs for C104: every request is answered. *)
From Coq Require Import List Bool Arith Lia.
From Verif Require Import Base ModelExec SpecExec SpecLive ProofsExec ProofsExecRun ProofsExecProps ProofsExecAny ProofsLive ProofsLive2 ProofsLive3.
Import ListNotations.

Section Live.
Context {W : Type}.
Variable P : plant W.
Implicit Types (y : sys W).

Lemma wf_lk : forall c, wf c -> lk true c -> False.
Proof.
  induction c; cbn; intros D L; try contradiction; repeat match goal with H : _ /\ _ |- _ => destruct H end; try discriminate.
  - exact (H EDITABLE (D EDITABLE) (L EDITABLE)).
  - assert (X : forall c0, dying c0 -> lk true c0 -> False)
      by (clear; induction c0; cbn; intros D L; try contradiction; try discriminate; apply IHc0; tauto).
    destruct s; try contradiction; try (exact (X _ D L));
      (destruct c; cbn in *; try contradiction; try discriminate; repeat match goal with H : _ /\ _ |- _ => destruct H end; try discriminate;
       apply (X c); assumption).
Qed.

Section Hist.
Variable h : history W.
Hypothesis HR : responsive P.
Hypothesis HH : history_of P h.
Hypothesis HF : fair P h.

Lemma inv_at : forall n, inv P (h_sys h n).
Proof.
  induction n as [|n IH]; [apply inv_reachable, HH|]. destruct HH as [_ X]. specialize (X n).
  destruct (h_event h n) as [e|]; [destruct X as [G S]; exact (inv_step P _ _ _ IH S G)|]. rewrite X. exact IH.
Qed.

Lemma walk : forall (G : Prop) (Z : nat -> Prop) p n,
  (forall i, n <= i -> Z i -> G \/ (exists a, h_event h i = Some (EAct p a)) \/ Z (S i)) ->
  (forall i, n <= i -> Z i -> can_act P (h_sys h i) p) -> Z n ->
  G \/ exists i a, n <= i /\ Z i /\ h_event h i = Some (EAct p a).
Proof.
  intros G Z p n H C X. destruct (HF p n) as (m & L & D).
  assert (Q : forall d i, i + d = m -> n <= i -> Z i -> G \/ exists i a, n <= i /\ Z i /\ h_event h i = Some (EAct p a)).
  { induction d as [|d IH]; intros i E LI ZI.
    - assert (i = m) by lia. subst i. destruct D as [D|[a D]]; [destruct (D (C m L ZI))|]. right. exists m, a. auto.
    - destruct (H i LI ZI) as [g|[[a EV]|ZS]]; [left; exact g|right; exists i, a; auto|]. apply (IH (S i)); auto; lia. }
  exact (Q (m - n) n ltac:(lia) (le_n n) X).
Qed.

Section Handler.
Variables (p : nat) (k : kind).
Hypothesis NK : k <> KTick.

(** What may happen at a moment while the handler is at work. *)
Lemma moment : forall i c, at_code (h_sys h i) p k c -> ended c = false ->
  (h_event h i = None /\ h_sys h (S i) = h_sys h i) \/
  (exists a c' y', h_event h i = Some (EAct p a) /\ lstep c a c' /\ effect P p (h_sys h i) a y' /\
     h_sys h (S i) = with_proc y' p (k, Some c')) \/
  (exists t ct a c' y', t <> p /\ h_event h i = Some (EAct t a) /\ at_code (h_sys h i) t KTick ct /\ lstep ct a c' /\
     effect P t (h_sys h i) a y' /\ h_sys h (S i) = with_proc y' t (KTick, Some c') /\ at_code (h_sys h (S i)) p k c).
Proof.
  intros i c A L. destruct HH as [_ X]. specialize (X i). destruct (h_event h i) as [e|]; [|left; split; [reflexivity|exact X]].
  right. destruct X as [G S]. pose proof (i_sound _ _ (inv_at i)) as I. destruct S as [y k0 N|y q kq cq a c' y' Aq LS E].
  - specialize (G _ _ _ A NK). congruence.
  - destruct (Nat.eq_dec q p) as [->|NQ].
    + left. unfold at_code in A. rewrite A in Aq. injection Aq as <- <-. exists a, c', y'. auto.
    + right. assert (kq = KTick).
      { destruct kq; [reflexivity| |]; exfalso; apply NQ; apply (alone_at P _ _ _ _ _ _ _ I A NK L Aq); try discriminate;
          exact (lstep_live _ _ _ LS). }
      subst kq. exists q, cq, a, c', y'. repeat split; auto.
      unfold at_code, with_proc, with_procs. cbn. rewrite nth_set_other by exact NQ.
      exact (effect_started P _ _ _ _ _ _ _ E A).
Qed.
Lemma handler_can : forall i c, at_code (h_sys h i) p k c -> ended c = false -> can_act P (h_sys h i) p.
Proof.
  intros i c A L. pose proof (inv_at i) as I. eapply enabled; [exact HR|exact (i_ord _ _ I)|exact A|exact L|]. intros k' ->.
  destruct (y_lock (h_sys h i)) as [q|] eqn:E; [exfalso|reflexivity].
  destruct (o_holder _ (i_ord _ _ I) _ E) as (kq & cq & Aq & Lq).
  destruct kq.
  - exact (wf_lk _ (b_wf _ (sound_base P _ (i_sound _ _ I)) _ _ Aq) Lq).
  - assert (q = p).
    { apply (alone_at P _ _ _ _ _ _ _ (i_sound _ _ I) A NK L Aq); [discriminate|]. destruct cq; cbn in *; congruence. }
    subst q. assert (cq = Lock k') by (unfold at_code in *; congruence). subst cq. cbn in Lq. destruct Lq. discriminate.
  - assert (q = p).
    { apply (alone_at P _ _ _ _ _ _ _ (i_sound _ _ I) A NK L Aq); [discriminate|]. destruct cq; cbn in *; congruence. }
    subst q. assert (cq = Lock k') by (unfold at_code in *; congruence). subst cq. cbn in Lq. destruct Lq. discriminate.
Qed.

Definition ends (n : nat) : Prop := exists m c, n <= m /\ at_code (h_sys h m) p k c /\ ended c = true.
Lemma ends_later : forall n m, n <= m -> ends m -> ends n.
Proof. intros n m L (i & c & X & Y). exists i, c. split; [lia|exact Y]. Qed.

Lemma after : forall i a c' y' c, at_code (h_sys h i) p k c -> effect P p (h_sys h i) a y' ->
  h_sys h (S i) = with_proc y' p (k, Some c') -> at_code (h_sys h (S i)) p k c'.
Proof.
  intros i a c' y' c A E ->. unfold at_code, with_proc, with_procs. cbn. eapply nth_set_same.
  exact (effect_started P _ _ _ _ _ _ _ E A).
Qed.

(** The handler goes on; [Z] is kept by the tick thread. *)
Lemma handler_walk : forall (Z : nat -> Prop) n c, at_code (h_sys h n) p k c -> Z n ->
  (forall i, n <= i -> Z i -> h_sys h (S i) = h_sys h i -> Z (S i)) ->
  (forall i t ct a c' y', n <= i -> Z i -> at_code (h_sys h i) p k c -> at_code (h_sys h i) t KTick ct -> lstep ct a c' ->
     effect P t (h_sys h i) a y' -> h_sys h (S i) = with_proc y' t (KTick, Some c') -> Z (S i)) ->
  (ended c = true) \/
  exists i a c' y', n <= i /\ Z i /\ at_code (h_sys h i) p k c /\ lstep c a c' /\ effect P p (h_sys h i) a y' /\
    h_sys h (S i) = with_proc y' p (k, Some c').
Proof.
  intros Z n c A ZN Z1 Z2. destruct (ended c) eqn:L; [left; reflexivity|right].
  destruct (walk False (fun i => Z i /\ at_code (h_sys h i) p k c) p n) as [[]|(i & a & LI & (ZI & AI) & EV)]; auto.
  - intros i LI (ZI & AI). right. destruct (moment i c AI L) as [E|[(a & c' & y' & EV & _)|(t & ct & a & c' & y' & _ & _ & X1 & X2 & X3 & X4 & X5)]].
    + right. destruct E as [_ E]. split; [exact (Z1 i LI ZI E)|rewrite E; exact AI].
    + left. exists a. exact EV.
    + right. split; [exact (Z2 i t ct a c' y' LI ZI AI X1 X2 X3 X4)|exact X5].
  - intros i LI (ZI & AI). exact (handler_can i c AI L).
  - destruct (moment i c AI L) as [E|[(a' & c' & y' & EV' & S & E & Q)|(t & ct & a' & c' & y' & NT & EV' & _)]].
    + destruct E. congruence.
    + exists i, a', c', y'. auto 10.
    + congruence.
Qed.

(** Nothing to wait for. *)
Lemma ends_over : forall c, Acc next c -> forall n, at_code (h_sys h n) p k c -> over c -> ends n.
Proof.
  intros c AC. induction AC as [c _ IH]. intros n A O.
  destruct (handler_walk (fun _ => True) n c A I) as [L|(i & a & c' & y' & LI & _ & AI & LS & E & Q)]; auto.
  - exists n, c. auto.
  - destruct (over_step _ _ _ O LS) as (O' & NJ & _). apply (ends_later n (S i)); [lia|].
    apply (IH c'); [exists a; auto|exact (after _ _ _ _ _ AI E Q)|exact O'].
Qed.
(** The thread has ended. *)
Lemma ends_dead_at : forall g c, Acc next c -> forall n, at_code (h_sys h n) p k c -> pg g c -> no_tick_thread (h_sys h n) ->
  (g = true -> forall l m, n <= m -> pg false (body l) -> at_code (h_sys h m) p k (body l) -> no_tick_thread (h_sys h m) -> ends m) ->
  ends n.
Proof.
  intros g c AC. induction AC as [c _ IH]. intros n A G N HJ.
  destruct (handler_walk (fun i => no_tick_thread (h_sys h i)) n c A N) as [L|(i & a & c' & y' & LI & ZI & AI & LS & E & Q)].
  - intros i _ Z ->. exact Z.
  - intros i t ct a c' y' _ Z _ X LS _ _. exfalso. apply (Z t). exists ct. split; [exact X|exact (lstep_live _ _ _ LS)].
  - exists n, c. auto.
  - apply (ends_later n (S i)); [lia|]. pose proof (after _ _ _ _ _ AI E Q) as A'.
    destruct (wait_handler P _ _ _ _ _ _ _ _ (i_sound _ _ (inv_at i)) AI NK LS E G) as [[O _]|(-> & G' & J1 & J2 & J3)].
    + exact (ends_over c' (next_wf c') _ A' O).
    + assert (N' : no_tick_thread (h_sys h (S i))).
      { rewrite Q. intros t (d & X & LD). destruct (with_proc_at _ _ _ _ _ _ X) as [[-> Z]|[_ Z]]; [congruence|].
        apply (ZI t). exists d. auto. }
      assert (J : a = AJump \/ a <> AJump) by (destruct a; auto; right; discriminate). destruct J as [->|NJ].
      * destruct g; [|destruct (J1 eq_refl eq_refl)]. inversion LS; subst. apply (HJ eq_refl l); auto.
      * apply (IH c'); auto; [exists a; auto|destruct g; auto|]. intros X l m Lm. apply (HJ X l). lia.
Qed.
Lemma ends_dead : forall c n, at_code (h_sys h n) p k c -> pg true c -> no_tick_thread (h_sys h n) -> ends n.
Proof.
  intros c n A G N. apply (ends_dead_at true c (next_wf c) n A G N). intros _ l m _ G' A' N'.
  apply (ends_dead_at false _ (next_wf _) m A' G' N'). discriminate.
Qed.
(** The thread will end. *)
Lemma ends_wait : forall stop N B n c, at_code (h_sys h n) p k c -> pg true c -> wait (h_sys h n) stop N B -> ends n.
Proof.
  intros stop. induction N as [N IH] using lt_wf_ind. intros B n c A G Wt.
  destruct (no_tick_dec (h_sys h n)) as [D|D]; [exact (ends_dead c n A G D)|].
  assert (T : exists t ct, at_code (h_sys h n) t KTick ct /\ ended ct = false).
  { pose proof (sound_base P _ (i_sound _ _ (inv_at n))) as Bs. destruct (y_thread (h_sys h n)) as [t|] eqn:E.
    - destruct (is_live (h_sys h n) t) eqn:L; [|destruct (D (this_alive _ _ Bs E L))].
      destruct (b_kind _ Bs _ E) as (x & X). unfold is_live in L. rewrite X in L. destruct x as [ct|]; [|discriminate].
      exists t, ct. split; [exact X|]. destruct (ended ct); [discriminate|reflexivity].
    - destruct (D (none_alive _ Bs E)). }
  destruct T as (t & ct & At & Lt).
  assert (NTp : forall i c0, at_code (h_sys h i) p k c0 -> at_code (h_sys h i) t KTick ct -> t <> p).
  { intros i c0 X Y ->. unfold at_code in *. congruence. }
  destruct (walk (ends n) (fun i => (exists c, at_code (h_sys h i) p k c /\ pg true c) /\ at_code (h_sys h i) t KTick ct /\ wait (h_sys h i) stop N B) t n)
    as [g|(i & a & LI & ((ci & Ai & Gi) & Ati & Wi) & EV)].
  - intros i LI ((ci & Ai & Gi) & Ati & Wi). destruct (ended ci) eqn:L; [left; exists i, ci; auto|].
    destruct (moment i ci Ai L) as [[_ E]|[(a & c' & y' & EV & LS & E & Q)|(t' & ct' & a & c' & y' & NT & EV & X1 & X2 & X3 & X4 & X5)]].
    + right. right. rewrite E. eauto.
    + pose proof (after _ _ _ _ _ Ai E Q) as A'.
      destruct (wait_handler P _ _ _ _ _ _ _ _ (i_sound _ _ (inv_at i)) Ai NK LS E Gi) as [[O _]|(-> & G' & _)].
      * left. apply (ends_later n (S i)); [lia|]. exact (ends_over c' (next_wf c') _ A' O).
      * right. right. split; [exists c'; auto|]. rewrite Q. split.
        -- unfold at_code, with_proc, with_procs. cbn. rewrite nth_set_other; [exact Ati|]. intros X. exact (NTp i ci Ai Ati (eq_sym X)).
        -- exact (wait_same _ _ _ _ _ _ _ _ _ Ai NK Wi).
    + right. left. exists a. assert (t' = t); [|subst; exact EV].
      pose proof (sound_base P _ (i_sound _ _ (inv_at i))) as Bs.
      assert (Y1 : y_thread (h_sys h i) = Some t) by (apply (b_one _ Bs); exists ct; auto).
      assert (Y2 : y_thread (h_sys h i) = Some t') by (apply (b_one _ Bs); exists ct'; split; [exact X1|exact (lstep_live _ _ _ X2)]).
      congruence.
  - intros i LI (_ & Ati & _). pose proof (inv_at i) as I. eapply enabled; [exact HR|exact (i_ord _ _ I)|exact Ati|exact Lt|].
    intros k' ->. destruct (b_wf _ (sound_base P _ (i_sound _ _ I)) _ _ Ati).
  - split; [exists c; auto|split; assumption].
  - exact g.
  - destruct (ended ci) eqn:L; [exists i, ci; auto|]. apply (ends_later n (S i)); [lia|].
    destruct (moment i ci Ai L) as [[E _]|[(a' & c' & y' & EV' & _)|(t' & ct' & a' & c' & y' & NT & EV' & X1 & X2 & X3 & X4 & X5)]]; [congruence| |].
    + exfalso. apply (NTp i ci Ai Ati). congruence.
    + pose proof (sound_base P _ (i_sound _ _ (inv_at i))) as Bs.
      destruct (wait_thread P _ _ _ _ _ _ _ _ _ Bs X1 X2 X3 Wi) as (L1 & _ & W').
      rewrite <- X4 in W'. apply (IH (pred N) ltac:(lia) _ (S i) ci X5 Gi W').
Qed.
(** Any handler. *)
Lemma ends_any : forall c, Acc next c -> forall m n, at_code (h_sys h n) p k c -> ph m c -> sem (h_sys h n) m -> ends n.
Proof.
  intros c AC. induction AC as [c _ IH]. intros m n A G M.
  destruct (handler_walk (fun i => sem (h_sys h i) m) n c A M) as [L|(i & a & c' & y' & LI & ZI & AI & LS & E & Q)].
  - intros i _ Z ->. exact Z.
  - intros i t ct a c' y' _ Z _ X LS _ _. assert (ND : ~ no_tick_thread (h_sys h i)).
    { intros N. apply (N t). exists ct. split; [exact X|exact (lstep_live _ _ _ LS)]. }
    destruct m; cbn in *; tauto.
  - exists n, c. auto.
  - apply (ends_later n (S i)); [lia|]. pose proof (after _ _ _ _ _ AI E Q) as A'.
    assert (NJ : a <> AJump) by (intros ->; inversion LS; subst; destruct G).
    destruct (mode_handler P _ _ _ _ _ _ _ _ (inv_at i) AI NK LS E G ZI) as [(m' & G' & M')|(stop & N & B & G' & W')]; rewrite <- Q in *.
    + apply (IH c' ltac:(exists a; auto) m' (S i) A' G' M').
    + exact (ends_wait stop N B (S i) c' A' G' W').
Qed.
End Handler.

Theorem answered_at_last : forall n k, h_event h n = Some (EArrive k) ->
  exists m c, n < m /\ at_code (h_sys h m) (length (y_procs (h_sys h n))) k c /\ ended c = true.
Proof.
  intros n k EV. destruct HH as [_ X]. specialize (X n). rewrite EV in X. destruct X as [_ X].
  inversion X as [y k0 N EQ1 EQ2 EQ3|]; subst.
  destruct (ends_any (length (y_procs (h_sys h n))) k N (first_code k) (next_wf _) Free (S n)) as (m & c & L & Y).
  - rewrite <- EQ3. unfold at_code, with_procs. cbn. rewrite nth_error_app2 by lia. rewrite Nat.sub_diag. reflexivity.
  - exact (ph_first k N).
  - exact I.
  - exists m, c. split; [lia|exact Y].
Qed.
End Hist.

(** ** How soon STOP is obeyed *)

Lemma ticks_snoc : forall es e, ticks_begun (es ++ [e]) = ticks_begun es + (if begins_tick e then 1 else 0).
Proof. intros es e. unfold ticks_begun. rewrite filter_app, app_length. cbn. destruct (begins_tick e); cbn; lia. Qed.
Lemma others_snoc : forall p es e, acts_of_others p (es ++ [e]) = acts_of_others p es + (if by_other p e then 1 else 0).
Proof. intros p es e. unfold acts_of_others. rewrite filter_app, app_length. cbn. destruct (by_other p e); cbn; lia. Qed.

Definition stopping y p (es : list event) : Prop :=
  inv P y /\ exists k c, k <> KTick /\ at_code y p k c /\ (forall q kq cq, at_code y q kq cq -> kq <> KTick -> ended cq = false -> q = p) /\
    ((pg true c /\ exists N B, wait y true N B /\ acts_of_others p es + N <= 13 /\ ticks_begun es + B <= 1) \/
     (over c /\ no_tick_thread y /\ acts_of_others p es <= 13 /\ ticks_begun es <= 1)).

(** Handlers begin no tick. *)
Lemma pg_tick : forall g c a c', pg g c -> lstep c a c' -> tick_of a = 0.
Proof. intros g c a c' G S. destruct S; cbn in *; auto. contradiction. Qed.
Lemma chk_tick : forall y p k o f, sound P y -> at_code y p k (Call o f) -> k <> KTick -> o <> OTick.
Proof.
  intros y p k o f H A N. destruct H as [(_ & C & _)|(me & es & h & _ & AL & _ & k' & c & cur & rq & K & N' & A' & CH & _ & HC & _)].
  - specialize (C _ _ _ A N). discriminate.
  - assert (p = me) by (apply (AL _ _ _ A N); reflexivity). subst p.
    assert (c = Call o f) by (unfold at_code in *; congruence). subst c. cbn in CH. apply CH.
Qed.
Lemma begins_of : forall p a, (if begins_tick (EAct p a) then 1 else 0) = tick_of a.
Proof. intros p a. destruct a; try reflexivity. destruct o; reflexivity. Qed.

Lemma stopping_step : forall y p es q a y', stopping y p es -> step P y (EAct q a) y' -> one_at_a_time y (EAct q a) ->
  stopping y' p (es ++ [EAct q a]).
Proof.
  intros y p es q a y' (IV & k & c & NK & A & AL & H) S G. split; [exact (inv_step P _ _ _ IV S G)|].
  pose proof (sound_base P _ (i_sound _ _ IV)) as Bs.
  inversion S as [|y0 q0 kq cq a0 cq' y1 Aq LS E]; subst. pose proof (lstep_live _ _ _ LS) as L.
  assert (ALL : forall z q' kz d, at_code z q' kz d -> z = with_proc y1 q (kq, Some cq') -> kz <> KTick -> ended d = false -> q' = p).
  { intros z q' kz d Z -> NZ LZ. destruct (step_others P _ _ _ _ _ _ _ _ _ E NZ Z) as [(-> & -> & _)|Z']; [exact (AL _ _ _ Aq NZ L)|exact (AL _ _ _ Z' NZ LZ)]. }
  setoid_rewrite others_snoc. setoid_rewrite ticks_snoc. setoid_rewrite begins_of. cbn [by_other].
  destruct (Nat.eqb_spec q p) as [->|NQ].
  - assert (kq = k /\ cq = c) as [-> ->] by (unfold at_code in *; split; congruence).
    exists k, cq'. split; [exact NK|]. split.
    { unfold at_code, with_proc, with_procs. cbn. eapply nth_set_same. exact (effect_started P _ _ _ _ _ _ _ E A). }
    split; [intros q' kz d Z; exact (ALL _ _ _ _ Z eq_refl)|]. cbn [negb]. 
    destruct H as [(Gp & N & B & Wt & X1 & X2)|(O & D & X1 & X2)].
    + rewrite (pg_tick _ _ _ _ Gp LS).
      destruct (wait_handler P _ _ _ _ _ _ _ _ (i_sound _ _ IV) A NK LS E Gp) as [[O D]|(-> & G' & _)].
      * right. repeat split; auto; lia.
      * left. split; [exact G'|]. exists N, B. split; [exact (wait_same _ _ _ _ _ _ _ _ _ A NK Wt)|lia].
    + right. destruct (over_step _ _ _ O LS) as (O' & _ & NS & _). split; [exact O'|]. split.
      * intros t (d & Z & LD). destruct (tick_codes P _ _ _ _ _ _ _ _ _ A LS E Z) as [(_ & K & _)|[(_ & Z')|(_ & _ & X')]]; [congruence| |].
        -- apply (D t). exists d. auto.
        -- exact (NS _ _ X').
      * assert (T0 : tick_of a = 0); [|lia]. destruct LS; try reflexivity.
        pose proof (chk_tick _ _ _ _ _ (i_sound _ _ IV) A NK) as NT. destruct o; try reflexivity. congruence.
  - assert (kq = KTick) by (destruct kq; [reflexivity| |]; exfalso; apply NQ; exact (AL _ _ _ Aq ltac:(discriminate) L)). subst kq.
    exists k, c. split; [exact NK|]. split.
    { unfold at_code, with_proc, with_procs. cbn. rewrite nth_set_other by congruence. exact (effect_started P _ _ _ _ _ _ _ E A). }
    split; [intros q' kz d Z; exact (ALL _ _ _ _ Z eq_refl)|]. cbn [negb].
    destruct H as [(Gp & N & B & Wt & X1 & X2)|(O & D & X1 & X2)].
    + left. split; [exact Gp|]. destruct (wait_thread P _ _ _ _ _ _ _ _ _ Bs Aq LS E Wt) as (L1 & L2 & W').
      exists (pred N), (B - tick_of a). split; [exact W'|lia].
    + exfalso. apply (D q). exists cq. auto.
Qed.
Lemma stopping_runs : forall y es y' p, runs one_at_a_time P y es y' -> no_arrivals es -> stopping y p [] -> stopping y' p es.
Proof.
  intros y es y' p R. induction R as [y|y es y1 e y2 R IH G S]; intros NA H; [exact H|].
  destruct (no_arrival_app _ _ NA) as [N1 N2]. destruct e as [k|q a]; [destruct (N2 k); left; reflexivity|].
  exact (stopping_step _ _ _ _ _ _ (IH N1 H) S G).
Qed.

(** A handler on its way. *)
Definition going_on y p : Prop :=
  inv P y /\ exists k c, k <> KTick /\ at_code y p k c /\ (forall q kq cq, at_code y q kq cq -> kq <> KTick -> ended cq = false -> q = p) /\
    ((exists m, ph m c /\ sem y m) \/ pg true c \/ over c).
Lemma going_on_step : forall y p q a y', going_on y p -> step P y (EAct q a) y' -> one_at_a_time y (EAct q a) -> going_on y' p.
Proof.
  intros y p q a y' (IV & k & c & NK & A & AL & H) S G. split; [exact (inv_step P _ _ _ IV S G)|].
  inversion S as [|y0 q0 kq cq a0 cq' y1 Aq LS E]; subst. pose proof (lstep_live _ _ _ LS) as L.
  assert (ALL : forall z q' kz d, at_code z q' kz d -> z = with_proc y1 q (kq, Some cq') -> kz <> KTick -> ended d = false -> q' = p).
  { intros z q' kz d Z -> NZ LZ. destruct (step_others P _ _ _ _ _ _ _ _ _ E NZ Z) as [(-> & -> & _)|Z']; [exact (AL _ _ _ Aq NZ L)|exact (AL _ _ _ Z' NZ LZ)]. }
  destruct (Nat.eq_dec q p) as [->|NQ].
  - assert (kq = k /\ cq = c) as [-> ->] by (unfold at_code in *; split; congruence).
    exists k, cq'. split; [exact NK|]. split.
    { unfold at_code, with_proc, with_procs. cbn. eapply nth_set_same. exact (effect_started P _ _ _ _ _ _ _ E A). }
    split; [intros q' kz d Z; exact (ALL _ _ _ _ Z eq_refl)|].
    destruct H as [(m & Gm & M)|[Gp|O]].
    + destruct (mode_handler P _ _ _ _ _ _ _ _ IV A NK LS E Gm M) as [X|(stop & N & B & G' & _)]; auto.
    + destruct (wait_handler P _ _ _ _ _ _ _ _ (i_sound _ _ IV) A NK LS E Gp) as [[O _]|(_ & G' & _)]; auto.
    + right. right. exact (proj1 (over_step _ _ _ O LS)).
  - assert (kq = KTick) by (destruct kq; [reflexivity| |]; exfalso; apply NQ; exact (AL _ _ _ Aq ltac:(discriminate) L)). subst kq.
    exists k, c. split; [exact NK|]. split.
    { unfold at_code, with_proc, with_procs. cbn. rewrite nth_set_other by congruence. exact (effect_started P _ _ _ _ _ _ _ E A). }
    split; [intros q' kz d Z; exact (ALL _ _ _ _ Z eq_refl)|].
    destruct H as [(m & Gm & M)|H]; [left|right; exact H]. exists m. split; [exact Gm|].
    assert (ND : ~ no_tick_thread y) by (intros N; apply (N q); exists cq; auto).
    destruct m; cbn in *; tauto.
Qed.
Lemma going_on_runs : forall y es y' p, runs one_at_a_time P y es y' -> no_arrivals es -> going_on y p -> going_on y' p.
Proof.
  intros y es y' p R. induction R as [y|y es y1 e y2 R IH G S]; intros NA H; [exact H|].
  destruct (no_arrival_app _ _ NA) as [N1 N2]. destruct e as [k|q a]; [destruct (N2 k); left; reflexivity|].
  exact (going_on_step _ _ _ _ _ (IH N1 H) S G).
Qed.
Lemma going_on_arrive : forall y k y1, inv P y -> calm y -> step P y (EArrive k) y1 -> going_on y1 (length (y_procs y)).
Proof.
  intros y k y1 IV C S. split; [exact (inv_step P _ _ _ IV S C)|]. inversion S as [y0 k0 N|]; subst.
  exists k, (first_code k). split; [exact N|]. split; [|split; [|left; exists Free; split; [exact (ph_first k N)|exact I]]].
  - unfold at_code, with_procs. cbn. rewrite nth_error_app2 by lia. rewrite Nat.sub_diag. reflexivity.
  - intros q kq cq X NX LX. destruct (at_arrival _ _ _ _ _ X) as [Z|(-> & _)]; [|reflexivity]. rewrite (C _ _ _ Z NX) in LX. discriminate.
Qed.
Lemma runs_cut : forall G y es1 es2 y', runs G P y (es1 ++ es2) y' -> exists y1, runs G P y es1 y1 /\ runs G P y1 es2 y'.
Proof.
  intros G y es1 es2. induction es2 as [|e es2 IH] using rev_ind; intros y' R.
  - rewrite app_nil_r in R. exists y'. split; [exact R|constructor].
  - rewrite app_assoc in R. inversion R as [Z E1 E2|y0 es0 y1 e0 y2 R1 GG SS E1 E2 E3]; [destruct (app_cons_not_nil _ _ _ E2)|].
    apply app_inj_tail in E2. destruct E2 as [-> ->]. destruct (IH _ R1) as (z & R2 & R3). exists z. split; [exact R2|].
    econstructor; eauto.
Qed.
Theorem stop_obeyed : forall y0 k p es1 es2 y, reachable P y0 ->
  handling P y0 k p (es1 ++ EAct p (ASetState STOP_REQUESTED) :: es2) y ->
  acts_of_others p es2 <= 13 /\ ticks_begun es2 <= 1.
Proof.
  intros y0 k p es1 es2 y R0 (C & -> & NA & y1 & S & R).
  destruct (no_arrival_app _ _ NA) as [N1 N2]. destruct (no_arrival_app [_] es2 N2) as [_ N3].
  destruct (runs_cut _ _ _ _ _ R) as (z & Ra & Rb). destruct (runs_cut _ _ [_] _ _ Rb) as (z' & Rc & Rd).
  set (p := length (y_procs y0)) in *.
  assert (Gz : going_on z p) by (eapply going_on_runs; [exact Ra|exact N1|exact (going_on_arrive _ _ _ (inv_reachable P _ R0) C S)]).
  inversion Rc as [|w0 es0 w1 e w2 R1 GG SS E1 E2 E3]; subst. destruct es0 as [|x l]; [|destruct l; discriminate].
  cbn in E2. injection E2 as ->. inversion R1 as [w|]; [subst|destruct es; discriminate].
  assert (H : stopping z' p []).
  { destruct Gz as (IV & kz & c & NK & A & AL & H). pose proof SS as SS2.
    inversion SS as [|v0 q0 kq cq a0 cq' v1 Aq LS E]; subst.
    assert (kq = kz /\ cq = c) as [-> ->] by (unfold at_code in *; split; congruence).
    split; [exact (inv_step P _ _ _ IV SS2 I)|]. exists kz, cq'. split; [exact NK|]. split; [|split].
    - unfold at_code, with_proc, with_procs. cbn. eapply nth_set_same. exact (effect_started P _ _ _ _ _ _ _ E A).
    - intros q' kz' d Z NZ LZ. destruct (step_others P _ _ _ _ _ _ _ _ _ E NZ Z) as [(-> & _)|Z']; [reflexivity|exact (AL _ _ _ Z' NZ LZ)].
    - left. destruct H as [(m & Gm & M)|[Gp|O]].
      + inversion LS; subst. cbn in Gm. split; [destruct m; try contradiction; exact Gm|].
        exists 13, 1. split; [|cbn; lia]. intros t d Z LD.
        destruct (tick_codes P _ _ _ _ _ _ _ _ _ A (ls_ss _ _) E Z) as [(_ & K & _)|[(_ & Z')|(_ & _ & X')]]; try congruence.
        split; [apply tok_cst, (i_tok _ _ IV _ _ Z')|]. left. inversion E; subst. reflexivity.
      + exfalso. inversion LS; subst. destruct Gp.
      + exfalso. destruct (over_step _ _ _ O LS) as (_ & _ & _ & X). congruence. }
  destruct (stopping_runs _ _ _ _ Rd N3 H) as (_ & k' & c' & _ & _ & _ & [(_ & N & B & _ & X1 & X2)|(_ & _ & X1 & X2)]); lia.
Qed.
End Live.
