(** Proofs for C104: every request is answered. *)
From Coq Require Import List Bool Arith Lia.
From Verif Require Import Base ModelExec SpecExec SpecLive ProofsExec ProofsExecRun ProofsExecProps ProofsExecAny ProofsLive ProofsLive2.
Import ListNotations.

Section Live.
Context {W : Type}.
Variable P : plant W.
Implicit Types (y : sys W).

(** ** What is known while a handler is at work *)

Definition toks y : Prop := forall t c, at_code y t KTick c -> tok c.
Lemma tick_codes : forall y p k c a c' y' t d, at_code y p k c -> lstep c a c' -> effect P p y a y' ->
  at_code (with_proc y' p (k, Some c')) t KTick d ->
  (t = p /\ k = KTick /\ d = c') \/ (t <> p /\ at_code y t KTick d) \/ (t <> p /\ d = body LMain /\ a = AStart t true).
Proof.
  intros y p k c a c' y' t d A S E X. destruct (with_proc_at _ _ _ _ _ _ X) as [[-> Z]|[N Z]].
  - injection Z as -> ->. left. auto.
  - right. destruct (effect_procs P _ _ _ _ _ _ _ E Z) as [Z'|(_ & -> & ->)]; auto.
Qed.
Lemma toks_step : forall y e y', toks y -> step P y e y' -> toks y'.
Proof.
  intros y e y' H S. destruct S as [y k N|y p k c a c' y' A LS E]; intros t d X.
  - destruct (at_arrival _ _ _ _ _ X) as [Z|(_ & <- & _)]; [exact (H _ _ Z)|congruence].
  - destruct (tick_codes _ _ _ _ _ _ _ _ _ A LS E X) as [(-> & -> & ->)|[(_ & Z)|(_ & -> & _)]].
    + exact (tok_step _ _ _ (H _ _ A) LS).
    + exact (H _ _ Z).
    + exact tok_main.
Qed.
Record inv y : Prop := mkInv { i_sound : sound P y; i_ord : orderly y; i_tok : toks y }.
Lemma inv_step : forall y e y', inv y -> step P y e y' -> one_at_a_time y e -> inv y'.
Proof.
  intros y e y' [A B C] S G. constructor; [exact (sound_step P _ _ _ A S G)|exact (orderly_step P _ _ _ B S)|exact (toks_step _ _ _ C S)].
Qed.
Lemma inv_fresh : forall w, inv (fresh w).
Proof.
  intros w. constructor; [apply fresh_sound|apply orderly_fresh|]. intros t c A. unfold at_code in A. cbn in A. destruct t; discriminate.
Qed.
Lemma inv_reachable : forall y, reachable P y -> inv y.
Proof.
  intros y (w & es & R). remember (fresh w) as y0 eqn:E.
  induction R as [y|y es y1 e y2 R IH G S]; [subst; apply inv_fresh|]. exact (inv_step _ _ _ (IH E) S G).
Qed.

(** The only handler at work. *)
Lemma alone_at : forall y p k c q kq cq, sound P y -> at_code y p k c -> k <> KTick -> ended c = false ->
  at_code y q kq cq -> kq <> KTick -> ended cq = false -> q = p.
Proof.
  intros y p k c q kq cq [(_ & C & _)|(me & es & h & _ & AL & _)] A N L Aq Nq Lq.
  - rewrite (C _ _ _ A N) in L. discriminate.
  - rewrite (AL _ _ _ A N L). exact (AL _ _ _ Aq Nq Lq).
Qed.
Lemma alive_thread : forall y p k t f, sound P y -> at_code y p k (Alive t f) -> k <> KTick -> y_thread y = Some t.
Proof.
  intros y p k t f H A N. destruct H as [(_ & C & _)|(me & es & h & _ & AL & _ & k' & c & cur & rq & K & N' & A' & CH & _ & HC & _)].
  - specialize (C _ _ _ A N). discriminate.
  - assert (p = me) by (apply (AL _ _ _ A N); reflexivity). subst p.
    assert (c = Alive t f) by (unfold at_code in *; congruence). subst c. cbn in CH.
    destruct CH as (_ & -> & _). exact HC.
Qed.
Lemma none_alive : forall y, base y -> y_thread y = None -> no_tick_thread y.
Proof. intros y B X t H. apply (b_one _ B) in H. congruence. Qed.
Lemma this_alive : forall y t, base y -> y_thread y = Some t -> is_live y t = false -> no_tick_thread y.
Proof.
  intros y t B X L q H. pose proof (b_one _ B _ H) as E. assert (q = t) by congruence. subst q.
  destruct H as (c & A & Z). unfold is_live in L. unfold at_code in A. rewrite A in L. rewrite Z in L. discriminate.
Qed.
Lemma not_alive : forall y t, base y -> y_thread y = Some t -> no_tick_thread y -> is_live y t = false.
Proof.
  intros y t B X N. unfold is_live. destruct (b_kind _ B _ X) as (x & E). rewrite E.
  destruct x as [c|]; [|reflexivity]. destruct (ended c) eqn:L; [reflexivity|]. exfalso. apply (N t). exists c. auto.
Qed.

(** What each mode means. *)
Definition sem y (m : mode) : Prop :=
  match m with
  | Free | Over => True
  | Quiet => no_tick_thread y
  | Set1 => no_tick_thread y /\ y_once y = true
  end.
Definition flag (stop : bool) y (c : code) : Prop :=
  if stop then y_state y = STOP_REQUESTED \/ closed c else y_once y = true \/ nro c.
Definition wait y (stop : bool) (n b : nat) : Prop :=
  forall t c, at_code y t KTick c -> ended c = false -> cst stop n b c /\ flag stop y c.

(** A step of the tick thread while a handler waits. *)
Lemma wait_thread : forall y t c a c' y' stop n b, base y -> at_code y t KTick c -> lstep c a c' -> effect P t y a y' ->
  wait y stop n b -> 1 <= n /\ tick_of a <= b /\ wait (with_proc y' t (KTick, Some c')) stop (pred n) (b - tick_of a).
Proof.
  intros y t c a c' y' stop n b B A S E H. pose proof (lstep_live _ _ _ S) as L.
  destruct (H _ _ A L) as [C F]. pose proof (b_wf _ B _ _ A) as D. pose proof (wf_tick _ _ _ D S) as NT.
  destruct (tick_effect P _ _ _ _ E NT) as (EP & ET & EF).
  destruct (cst_step stop n b c a c' C S) as (L1 & L2 & C').
  { destruct stop.
    - intros s ->. cbn in EF. destruct EF as [-> _]. destruct F as [F|F]; [exact F|].
      destruct (closed_step _ _ _ F S) as [_ [[X _]|[X|[r X]]]]; discriminate.
    - intros x ->. cbn in EF. destruct EF as [-> _]. destruct F as [F|F]; [exact F|].
      destruct (nro_step _ _ _ F S) as [_ [s X]]; discriminate. }
  split; [exact L1|]. split; [exact L2|]. intros t2 d X LD.
  destruct (tick_codes _ _ _ _ _ _ _ _ _ A S E X) as [(-> & _ & ->)|[(N & Z)|(_ & _ & ->)]].
  - split; [exact C'|]. unfold flag. cbn [with_proc with_procs y_state y_once]. destruct stop.
    + destruct a; cbn in EF; try (destruct F as [F|F]; [left; intuition congruence|right; exact (proj1 (closed_step _ _ _ F S))]).
      right. destruct (wf_write _ _ _ D S) as [[_ G]|[_ G]]; auto using dying_closed.
    + destruct a; cbn in EF; try (destruct F as [F|F]; [left; intuition congruence|right; exact (proj1 (nro_step _ _ _ F S))]).
      right. exact (cst_once _ _ _ _ _ C S).
  - exfalso. assert (X1 : y_thread y = Some t2) by (apply (b_one _ B); exists d; auto).
    assert (X2 : y_thread y = Some t) by (apply (b_one _ B); exists c; auto). congruence.
  - exfalso. apply NT. exact I.
Qed.

(** A step of a waiting handler. *)
Lemma wait_handler : forall y p k c a c' y' g, sound P y -> at_code y p k c -> k <> KTick -> lstep c a c' -> effect P p y a y' ->
  pg g c ->
  (over c' /\ no_tick_thread (with_proc y' p (k, Some c'))) \/
  (y' = y /\ pg true c' /\ (g = false -> a <> AJump) /\
   (g = false -> no_tick_thread y -> pg false c') /\ (a = AJump -> pg false c')).
Proof.
  intros y p k c a c' y' g H A N S E G. pose proof (sound_base P _ H) as B.
  destruct S; cbn in G; try contradiction; inversion E; subst.
  - right. destruct g; repeat split; auto using pg_weak; try discriminate.
  - right. destruct g; repeat split; auto using pg_weak; try discriminate.
  - pose proof (alive_thread _ _ _ _ _ H A N) as T. destruct G as [G1 G2]. destruct (is_live y' t) eqn:L.
    + right. repeat split; auto; try discriminate. intros _ NT. rewrite (not_alive _ _ B T NT) in L. discriminate.
    + left. split; [exact G1|]. intros q (d & X & LD).
      destruct (with_proc_at _ _ _ _ _ _ X) as [[-> Z]|[NQ Z]]; [congruence|].
      apply (this_alive _ _ B T L q). exists d. auto.
  - right. destruct g; repeat split; auto using pg_weak; try discriminate.
  - right. destruct g; repeat split; auto using pg_weak; try discriminate.
  - destruct G as [-> G]. right. repeat split; auto using pg_weak, pg_body; try discriminate.
Qed.
Lemma wait_same : forall y p k c' k0 c0 stop n b, at_code y p k0 c0 -> k <> KTick -> wait y stop n b ->
  wait (with_proc y p (k, Some c')) stop n b.
Proof.
  intros y p k c' k0 c0 stop n b A N H t d X L. destruct (with_proc_at _ _ _ _ _ _ X) as [[-> Z]|[NQ Z]]; [congruence|].
  exact (H _ _ Z L).
Qed.

(** A step of another handler. *)
Lemma mode_handler : forall y p k c a c' y' m, inv y -> at_code y p k c -> k <> KTick -> lstep c a c' -> effect P p y a y' ->
  ph m c -> sem y m ->
  (exists m', ph m' c' /\ sem (with_proc y' p (k, Some c')) m') \/
  (exists stop n b, pg true c' /\ wait (with_proc y' p (k, Some c')) stop n b).
Proof.
  intros y p k c a c' y' m H A N S E G M. pose proof (sound_base P _ (i_sound _ H)) as B.
  assert (NT : no_tick_thread y -> (forall t, a <> AStart t true) -> no_tick_thread (with_proc y' p (k, Some c'))).
  { intros X NS t (d & Z & LD). destruct (tick_codes _ _ _ _ _ _ _ _ _ A S E Z) as [(_ & K & _)|[(_ & Z')|(_ & _ & X')]].
    - congruence.
    - apply (X t). exists d. auto.
    - exact (NS _ X'). }
  assert (OT : (forall b, a <> ASetOnce b) -> y_once y' = y_once y) by (clear -E; intros X; destruct E; try reflexivity; destruct (X _ eq_refl)).
  assert (SM : (forall t, a <> AStart t true) -> (forall b, a <> ASetOnce b) -> sem (with_proc y' p (k, Some c')) m).
  { intros X1 X2. destruct m; cbn in *; auto. destruct M as [M1 M2]. split; [auto|]. rewrite OT by exact X2. exact M2. }
  destruct (ended c') eqn:EC.
  { left. exists Free. split; [|exact I]. destruct c'; cbn in EC; try discriminate; exact I. }
  destruct S; cbn [ph] in G; try contradiction;
    try (left; exists m; split; [first [exact G|apply G]|apply SM; intros ?; discriminate]; fail).
  - (* the state *)
    destruct (tstate_eqb s STOP_REQUESTED) eqn:X.
    + right. exists true, 13, 1. split; [destruct m; try contradiction; exact G|].
      intros t d Z LD. destruct (tick_codes _ _ _ _ _ _ _ _ _ A (ls_ss _ _) E Z) as [(_ & K & _)|[(_ & Z')|(_ & _ & X')]]; try congruence.
      split; [apply tok_cst, (i_tok _ H _ _ Z')|]. left. inversion E; subst. cbn. destruct s; try discriminate; reflexivity.
    + left. exists m. split; [exact G|]. apply SM; intros ?; discriminate.
  - (* the thread *)
    destruct m.
    + destruct G as [G1 G2]. inversion E; subst. destruct (y_thread y') as [t|] eqn:T.
      * left. exists Free. split; [apply G2|exact I].
      * left. exists Quiet. split; [exact G1|]. apply NT; [|discriminate]. exact (none_alive _ B T).
    + left. exists Quiet. split; [apply G|]. apply SM; intros ?; discriminate.
    + left. exists Set1. split; [apply G|]. apply SM; intros ?; discriminate.
    + left. exists Over. split; [apply G|exact I].
  - (* is it alive *)
    pose proof (alive_thread _ _ _ _ _ (i_sound _ H) A N) as T.
    destruct m; try contradiction; [| |left; exists Over; split; [apply G|exact I]]; destruct G as [G1 G2]; inversion E; subst;
      (destruct (is_live y' t) eqn:L; [left; exists Free; split; [exact G2|exact I]|]);
      left; exists Quiet; (split; [exact G1|]); apply NT; try discriminate; exact (this_alive _ _ B T L).
  - (* start it *)
    destruct b; [|discriminate]. destruct m; try contradiction; try (left; exists Free; split; [exact G|exact I]).
    right. destruct M as [M1 M2]. exists false, 17, 1. split; [exact G|]. intros q d Z LD.
    destruct (tick_codes _ _ _ _ _ _ _ _ _ A (ls_st _ _ true) E Z) as [(_ & K & _)|[(_ & Z')|(_ & -> & X')]]; [congruence| |].
    + exfalso. apply (M1 q). exists d. auto.
    + split; [exact cst_main|]. left. change (y_once y' = true). rewrite OT by discriminate. exact M2.
  - left. exists m. split; [destruct r; try discriminate; apply G|]. apply SM; intros ?; discriminate.
  - (* once *)
    destruct m; try contradiction.
    + left. exists Free. split; [exact G|exact I].
    + destruct b; left; [exists Set1|exists Quiet]; (split; [exact G|]); [split|]; try (apply NT; [exact M|discriminate]).
      inversion E; subst. reflexivity.
    + left. exists Over. split; [exact G|exact I].
  - left. exists m. split; [destruct b; try discriminate; apply G|]. apply SM; intros ?; discriminate.
  - left. exists m. split; [destruct r; try discriminate; apply G|]. apply SM; intros ?; discriminate.
Qed.
End Live.
