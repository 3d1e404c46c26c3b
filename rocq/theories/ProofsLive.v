(** Proofs for C104: no deadlock, and every request is answered. *)
From Coq Require Import List Bool Arith Lia.
From Verif Require Import Base ModelExec SpecExec SpecLive ProofsExec ProofsExecRun ProofsExecProps ProofsExecAny.
Import ListNotations.

(** ** Nobody waits for nothing *)

(** A thread is started right after it was read from the manager. *)
Fixpoint sane (cur : option nat) (c : code) : Prop :=
  match c with
  | Done _ _ | Crash | Goto _ => True
  | StartT t k => cur = Some t /\ sane None k
  | ReadThread k => forall o, sane o (k o)
  | ReadState k => forall s, sane None (k s)
  | RootState k => forall s, sane None (k s)
  | WriteState _ k | NewThread k | JoinT _ k | WriteOnce _ k | WriteStop _ k | Init k | Unlink k
  | ClearSub k | Lock k | Unlock k => sane None k
  | Alive _ k | RosOk k | ReadOnce k | ReadStop k | Orphans k | Edit k | InEdit k => forall b, sane None (k b)
  | Root k => forall r, sane None (k r)
  | Call _ k | InCall _ k => forall r, sane None (k r)
  | Push k => forall r, sane None (k r)
  end.
Ltac sanes := repeat (cbn -[state_in];
  match goal with
  | |- _ /\ _ => split
  | |- True => exact I
  | |- ?a = ?a => reflexivity
  | |- forall x : tstate, _ => intros []
  | |- forall x : rootres, _ => intros []
  | |- forall x : option nat, _ => intros [?|]
  | |- forall x : res _, _ => intros [?|?|]
  | |- forall x : bool, _ => intros []
  | |- forall x, _ => intro
  | |- context [state_in ?s ?l] => destruct (state_in s l)
  | |- context [state_eqb ?s ?l] => destruct (state_eqb s l)
  end).
Lemma sane_body : forall l, sane None (body l).
Proof. intros l. destruct l; try destruct sd; sanes. Qed.
Lemma sane_first : forall k, sane None (first_code k).
Proof. intros k. destruct k as [|c|b]; [apply sane_body| |destruct b; sanes]. destruct c; sanes. Qed.

(** Also right before the start. *)
Definition about (n : nat) (c : code) : Prop := exists cur, (forall t, cur = Some t -> t < n) /\ sane cur c.
Lemma sane_about : forall n c, sane None c -> about n c.
Proof. intros n c H. exists None. split; [discriminate|exact H]. Qed.
Lemma about_step : forall n c a c', about n c -> lstep c a c' ->
  (forall t, a = AGetThread (Some t) -> t < n) -> about n c'.
Proof.
  intros n c a c' (cur & L & H) S B. destruct S; cbn in H; try (apply sane_about; auto; fail).
  - exists o. split; [|apply H]. intros t ->. apply B. reflexivity.
  - destruct H as [_ H]. apply sane_about. destruct b; [exact H|exact I].
  - apply sane_about. destruct r; [apply H|apply H|exact I].
  - apply sane_about. destruct b; [exact H|exact I].
  - apply sane_about. destruct r; [apply H|apply H|exact I].
  - apply sane_about, sane_body.
Qed.
Lemma about_more : forall n m c, about n c -> n <= m -> about m c.
Proof. intros n m c (cur & L & H) G. exists cur. split; [|exact H]. intros t X. specialize (L t X). lia. Qed.
Lemma lk_not_both : forall c, lk false c -> lk true c -> False.
Proof.
  induction c; cbn; intros; repeat match goal with H : _ /\ _ |- _ => destruct H end; try congruence.
  - exact (H EDITABLE (H0 EDITABLE) (H1 EDITABLE)).
  - exact (IHc H H0).
Qed.

Section Live.
Context {W : Type}.
Variable P : plant W.
Implicit Types (y : sys W).

Record orderly y : Prop := mkOrd {
  o_locks : locks y;
  o_holder : forall q, y_lock y = Some q -> exists k c, at_code y q k c /\ lk true c;
  o_new : forall t k, nth_error (y_procs y) t = Some (k, None) -> k = KTick;
  o_thread : forall t, y_thread y = Some t -> t < length (y_procs y);
  o_about : forall p k c, at_code y p k c -> about (length (y_procs y)) c }.

Lemma effect_length : forall p y a y', effect P p y a y' -> length (y_procs y) <= length (y_procs y').
Proof. intros p y a y' E. destruct E; cbn; auto. - rewrite app_length. cbn. lia. - rewrite set_nth_length. auto. Qed.
Lemma at_lt : forall y p k c, at_code y p k c -> p < length (y_procs y).
Proof. intros y p k c A. apply nth_error_Some. unfold at_code in A. congruence. Qed.

Lemma orderly_step : forall y e y', orderly y -> step P y e y' -> orderly y'.
Proof.
  intros y e y' H S. pose proof (locks_step P _ _ _ (o_locks _ H) S) as LK.
  destruct S as [y k N|y p k c a c' y' A LS E].
  - constructor; [exact LK| | | |].
    + intros q L. destruct (o_holder _ H q L) as (k' & c & X & Z). exists k', c. split; [apply at_arrival_old, X|exact Z].
    + intros t k' X. cbn in X. destruct (nth_app_one _ _ _ _ X) as [Z|[_ Z]]; [exact (o_new _ H _ _ Z)|discriminate].
    + intros t X. cbn. rewrite app_length. specialize (o_thread _ H t X). lia.
    + intros q k' c X. cbn [with_procs y_procs]. rewrite app_length.
      destruct (at_arrival _ _ _ _ _ X) as [Z|(_ & _ & ->)]; [|apply sane_about, sane_first].
      eapply about_more; [exact (o_about _ H _ _ _ Z)|lia].
  - pose proof (effect_length _ _ _ _ E) as LE.
    assert (LW : length (y_procs (with_proc y' p (k, Some c'))) = length (y_procs y')) by (cbn; apply set_nth_length).
    assert (A' : at_code y' p k c) by (eapply effect_started; eauto).
    assert (AP : at_code (with_proc y' p (k, Some c')) p k c').
    { unfold at_code, with_proc, with_procs. cbn. eapply nth_set_same. exact A'. }
    constructor; [exact LK| | | |].
    + intros q L. change (y_lock y' = Some q) in L. rewrite (effect_lock P _ _ _ _ E) in L.
      destruct (Nat.eq_dec q p) as [->|NQ].
      * exists k, c'. split; [exact AP|].
        destruct (LK _ _ _ AP) as [X|[X _]]; [exfalso|exact X].
        destruct (o_locks _ H _ _ _ A) as [HL|[HL HY]]; pose proof (lk_step _ _ _ _ HL LS) as G.
        -- assert (NL : lk true c -> False) by exact (lk_not_both _ HL).
           destruct a; try (destruct (o_holder _ H _ L) as (k2 & c2 & Z1 & Z2);
             assert (c2 = c) by (unfold at_code in *; congruence); subst c2; exact (NL Z2)).
           ++ destruct G as [_ G]. exact (lk_not_both _ X G).
           ++ discriminate.
        -- destruct a; try exact (lk_not_both _ X G).
           ++ destruct G; discriminate.
           ++ discriminate.
      * assert (L' : y_lock y = Some q).
        { destruct a; try exact L; [congruence|discriminate]. }
        destruct (o_holder _ H _ L') as (k2 & c2 & Z1 & Z2). exists k2, c2. split; [|exact Z2].
        unfold at_code, with_proc, with_procs. cbn. rewrite nth_set_other by congruence.
        eapply effect_started in Z1; eauto.
    + intros t k' X. cbn in X. destruct (nth_set_inv _ _ _ _ _ X) as [[_ Z]|[_ Z]]; [discriminate|].
      clear -Z H E. destruct E; cbn in Z; try exact (o_new _ H _ _ Z).
      * destruct (nth_app_one _ _ _ _ Z) as [Z'|[_ Z']]; [exact (o_new _ H _ _ Z')|congruence].
      * destruct (nth_set_inv _ _ _ _ _ Z) as [[_ Z']|[_ Z']]; [discriminate|exact (o_new _ H _ _ Z')].
    + intros t X. rewrite LW. change (y_thread y' = Some t) in X. clear -X H E LE.
      destruct E; cbn in X; try (specialize (o_thread _ H _ X); lia).
      injection X as X. cbn. rewrite app_length. cbn. lia.
    + intros q kq d X. rewrite LW. destruct (with_proc_at _ _ _ _ _ _ X) as [[-> Z]|[NQ Z]].
      * injection Z as <- <-. eapply about_more; [|exact LE].
        eapply about_step; [exact (o_about _ H _ _ _ A)|exact LS|]. intros t ->. inversion E; subst. apply (o_thread _ H). auto.
      * destruct (effect_procs P _ _ _ _ _ _ _ E Z) as [Z'|(-> & -> & _)]; [|apply sane_about, sane_body].
        eapply about_more; [exact (o_about _ H _ _ _ Z')|exact LE].
Qed.

Lemma orderly_fresh : forall w, orderly (fresh w).
Proof.
  intros w. constructor; cbn; try discriminate.
  - intros q k c A. unfold at_code in A. cbn in A. destruct q; discriminate.
  - intros t k X. destruct t; discriminate.
  - intros p k c A. unfold at_code in A. cbn in A. destruct p; discriminate.
Qed.
Lemma orderly_runs : forall G y es y', runs G P y es y' -> orderly y -> orderly y'.
Proof. intros G y es y' R. induction R as [y|y es y1 e y2 R IH GG S]; intros H; [exact H|]. exact (orderly_step _ _ _ (IH H) S). Qed.

(** Whoever is not waiting for the lock can go on. *)
Lemma enabled : responsive P -> forall y p k c, orderly y -> at_code y p k c -> ended c = false ->
  (forall k', c = Lock k' -> y_lock y = None) -> can_act P y p.
Proof.
  intros (R1 & R2 & R3 & R4 & R5 & R6) y p k c H A L NL. unfold can_act.
  assert (G : forall a c' y', lstep c a c' -> effect P p y a y' -> exists a y', step P y (EAct p a) y').
  { intros a c' y' X Y. exists a, (with_proc y' p (k, Some c')). econstructor; eauto. }
  destruct c; cbn in L; try discriminate;
    lazymatch type of A with
    | at_code _ _ _ (RosOk _) => eapply G; [apply ls_ok with (b := true)|apply ef_ok]
    | _ => try (eapply G; econstructor; fail)
    end.
  - destruct (o_about _ H _ _ _ A) as (cur & B & E & _). specialize (B _ E). apply nth_error_Some in B.
    destruct (nth_error (y_procs y) t) as [[k' [d|]]|] eqn:X; [| |congruence].
    + eapply G; [apply ls_st with (b := false)|eapply ef_sf; exact X].
    + rewrite (o_new _ H _ _ X) in X. eapply G; [apply ls_st with (b := true)|eapply ef_st; exact X].
  - destruct (R1 o (y_world y)) as (w' & r & X). eapply G; [constructor|econstructor; exact X].
  - destruct (R2 (y_world y)) as (w' & r & X). eapply G; [constructor|econstructor; exact X].
  - destruct (R3 (y_world y)) as (w' & r & X). eapply G; [constructor|econstructor; exact X].
  - destruct (R4 (y_world y)) as (w' & X). eapply G; [constructor|econstructor; exact X].
  - destruct (R5 (y_world y)) as (w' & X). eapply G; [constructor|econstructor; exact X].
  - eapply G; [constructor|constructor]. exact (NL _ eq_refl).
  - destruct (R6 (y_world y)) as (w' & r & X). eapply G; [constructor|econstructor; exact X].
Qed.
Theorem no_deadlock : forall y p, responsive P -> reachable_any P y -> unfinished y p ->
  can_act P y p \/ exists q, q <> p /\ y_lock y = Some q /\ unfinished y q /\ can_act P y q.
Proof.
  intros y p R (w & es & X) (k & c & A & L).
  pose proof (orderly_runs _ _ _ _ X (orderly_fresh w)) as H. clear X w es.
  destruct (y_lock y) as [q|] eqn:E.
  - destruct (o_holder _ H q E) as (kq & cq & Aq & Lq).
    assert (Nq : forall k', cq = Lock k' -> False) by (intros k' ->; cbn in Lq; destruct Lq; discriminate).
    assert (Eq : ended cq = false) by (destruct cq; cbn in *; congruence).
    assert (Cq : can_act P y q) by (eapply enabled; eauto; intros k' X; destruct (Nq _ X)).
    destruct (Nat.eq_dec q p) as [->|N]; [left; exact Cq|]. right. exists q. repeat split; auto. exists kq, cq. auto.
  - left. eapply enabled; eauto.
Qed.
End Live.
