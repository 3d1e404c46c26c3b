(** Proofs for C108: an invariant of execution control, for any plant, and the plant of
    ModelFlowExec.v. *)
From Coq Require Import List Bool Arith Lia.
From Verif Require Import Base ModelTree SpecTree ProofsLife ProofsWhole ModelSubtreeNode.
From Verif Require Import ModelExec ModelExecTree ModelFlowExec SpecExec SpecFlowExec ProofsExec ProofsExecRun.
Import ListNotations.

Section Flow.
Context {W : Type}.
Variable P : plant W.
Variables Iv Dn Cu : W -> Prop.
Implicit Types (y : sys W).

Hypothesis H_op : forall o w w' r, p_root P w = ROne -> Iv w -> p_op P o w w' r ->
  p_root P w' = ROne /\ Iv w' /\ (Cu w -> Cu w') /\ (o <> OSetup -> Dn w -> Dn w') /\
  (o = OShutdown -> forall s, r = Ok s -> Dn w').
Hypothesis H_state : forall w, Iv w -> p_root P w = ROne -> Dn w ->
  state_in (p_state P w) [UNINITIALIZED; SHUTDOWN] = true.
Hypothesis H_init : forall w w' b, Iv w -> p_init P w w' b ->
  b = true /\ Cu w' /\ Iv w' /\ p_root P w' = p_root P w /\ (Dn w -> Dn w').
Hypothesis H_push : forall w w' r, Iv w -> p_push P w w' r ->
  Iv w' /\ p_root P w' = p_root P w /\ (Cu w -> Cu w') /\ (Dn w -> Dn w').
Hypothesis H_sub : forall w w', Iv w -> p_subclear P w w' ->
  Iv w' /\ p_root P w' = p_root P w /\ (Cu w -> Cu w') /\ (Dn w -> Dn w').
Hypothesis H_unlink : forall w w', Iv w -> Dn w -> p_unlink P w w' -> Iv w' /\ Dn w'.
Hypothesis H_edit : forall w w' b, Iv w -> Dn w -> p_edit P w w' b -> Iv w' /\ Dn w'.

(** ** Programs of the tick thread: what they know *)

(** [rk]: the tree has a root; [ck]: the connections are up to date. *)
Fixpoint tk (rk ck : bool) (c : code) : Prop :=
  match c with
  | Done _ _ | Crash => True
  | WriteState _ k | WriteOnce _ k => tk rk ck k
  | ReadState k => forall s, tk rk ck (k s)
  | Root k => tk true ck (k ROne) /\ tk rk ck (k RBad) /\ tk rk ck (k REmpty)
  | Call o k | InCall o k => rk = true /\ (o = OTick \/ o = OSetup -> ck = true) /\ forall r, tk rk ck (k r)
  | RootState k => forall s, tk rk (ck || (rk && negb (state_in s [UNINITIALIZED; SHUTDOWN]))) (k s)
  | ReadOnce k | ReadStop k | Orphans k => forall b, tk rk ck (k b)
  | Init k => rk = true /\ tk rk true k
  | Push k => forall r, tk rk ck (k r)
  | Goto l => l = LLoop /\ rk = true /\ ck = true
  | _ => False
  end.
Definition knows (w : W) (rk ck : bool) : Prop :=
  (rk = true -> p_root P w = ROne) /\ (ck = true -> rk = true /\ Cu w).

Lemma tk_main : tk false false (body LMain).
Proof.
  cbn -[state_in]. intros b. destruct b; cbn -[state_in]; auto. repeat split; auto. intros s.
  destruct (state_in s [UNINITIALIZED; SHUTDOWN]) eqn:X; cbn -[state_in].
  - repeat split; auto. intros _ s'. destruct (state_eqb s' IDLE); cbn; auto.
  - repeat split; auto.
Qed.
Lemma tk_loop : tk true true (body LLoop).
Proof.
  assert (F : tk true true tick_finish).
  { cbn. repeat split; auto. intros r. destruct r; cbn; auto. }
  unfold body, tick_loop. cbn [tk]. intros s. destruct (tstate_eqb s STOP_REQUESTED); [exact F|].
  cbn [tk]. intros p. destruct p; try (cbn; exact I). cbn [tk]. repeat split; auto.
  intros r. destruct r as [x|e|]; try (cbn; exact I).
  cbn [tk]. intros b. destruct (b && state_in x [FAILED; SUCCEEDED]); [exact F|].
  cbn [tk]. intros b'. destruct b'; cbn; auto.
Qed.

(** ** The invariant *)

Definition all_closed y : Prop := forall t c, at_code y t KTick c -> closed c.
Definition all_ended y : Prop := forall t c, at_code y t KTick c -> ended c = true.
Definition threads y : Prop :=
  forall t c, at_code y t KTick c -> ended c = true \/ exists rk ck, tk rk ck c /\ knows (y_world y) rk ck.
Record inv y : Prop := mkInv {
  i_iv : Iv (y_world y);
  i_or : Dn (y_world y) \/ Cu (y_world y);
  i_root : p_root P (y_world y) <> ROne -> Dn (y_world y);
  i_edit : y_state y = EDITABLE -> Dn (y_world y) /\ all_closed y;
  i_thr : threads y }.

(** ** Programs of handlers *)

Inductive phase : Type :=
| FTop | FFresh | FReady
| FClosed (e : bool) (r : option rootres) (d : bool).
Definition hp y (f : phase) : Prop :=
  match f with
  | FTop => holds y [] KTop
  | FFresh => holds y [] KFresh
  | FReady => all_ended y /\ y_state y = TICKING
  | FClosed e r d => all_closed y /\ (e = true -> all_ended y) /\
                     (forall x, r = Some x -> p_root P (y_world y) = x) /\ (d = true -> Dn (y_world y))
  end.
Definition f_see (s : tstate) (f : phase) : phase :=
  match f with
  | FTop => match s with TICKING | STOP_REQUESTED => FTop | _ => FClosed false None (tstate_eqb s EDITABLE) end
  | FFresh => match s with TICKING => FFresh | _ => FClosed false None (tstate_eqb s EDITABLE) end
  | FReady => FReady
  | FClosed e r d => FClosed e r (d || tstate_eqb s EDITABLE)
  end.
Definition f_end (f : phase) : phase :=
  match f with
  | FTop | FFresh => FClosed true None false
  | FReady => FReady
  | FClosed e r d => FClosed true r d
  end.
Definition f_root (r : rootres) (f : phase) : phase :=
  match f with
  | FClosed e _ d => FClosed e (Some r) (d || match r with ROne => false | _ => true end)
  | _ => f
  end.
Definition is_down (o : op) (r : res state) : bool := match o, r with OShutdown, Ok _ => true | _, _ => false end.

Fixpoint hk (cur : option (option nat)) (f : phase) (c : code) {struct c} : Prop :=
  match c with
  | Done _ _ | Crash => True
  | ReadState k => forall s, hk cur (f_see s f) (k s)
  | WriteState s k =>
      match s, f with
      | EDITABLE, FClosed _ _ true => hk cur f k
      | TIDLE, FClosed _ _ _ => hk cur f k
      | TICKING, FClosed true _ _ => hk cur FReady k
      | STOP_REQUESTED, (FTop | FFresh) => hk cur FTop k
      | STOP_REQUESTED, FClosed _ _ _ => hk cur f k
      | _, _ => False
      end
  | ReadThread k => forall o, match cur with Some o' => o = o' | None => True end ->
                    hk (Some o) (match o with None => f_end f | Some _ => f end) (k o)
  | NewThread k => hk None f k
  | Alive t k => cur = Some (Some t) /\ hk cur f (k true) /\ hk cur (f_end f) (k false)
  | StartT t k => f = FReady /\ hk cur FFresh k
  | JoinT t k => hk cur f k
  | RosOk k => forall b, hk cur f (k b)
  | Root k => forall r, hk cur (f_root r f) (k r)
  | Call o k | InCall o k =>
      match f with
      | FClosed e (Some ROne) d => o <> OTick /\ o <> OSetup /\
          forall r, hk cur (FClosed e (Some ROne) (d || is_down o r)) (k r)
      | _ => False
      end
  | RootState k => forall s, hk cur f (k s)
  | WriteOnce _ k | WriteStop _ k => hk cur f k
  | Unlink k => match f with FClosed e (Some RBad) true => hk cur (FClosed e None true) k | _ => False end
  | ClearSub k => hk cur f k
  | Lock k | Unlock k => hk cur f k
  | Edit k | InEdit k => match f with FClosed true _ true => forall b, hk cur (FClosed true None true) (k b) | _ => False end
  | Goto l => match l with LOnceWait | LStopWait _ _ => True | _ => False end
  | _ => False
  end.

Ltac hcrunch1 :=
  match goal with
  | |- _ /\ _ => split
  | |- True => exact I
  | |- ?a = ?a => reflexivity
  | |- _ <> _ => discriminate
  | H : False |- _ => destruct H
  | H : Some _ = None |- _ => discriminate H
  | H : None = Some _ |- _ => discriminate H
  | H : Some _ = Some _ |- _ => injection H as H; subst
  | |- forall x : tstate, _ => intros []
  | |- forall x : rootres, _ => intros []
  | |- forall x : option nat, _ => intros [?|]
  | |- forall x : res state, _ => intros [?|?|]
  | |- forall x : bool, _ => intros []
  | |- forall x, _ => intro
  | |- context [state_in ?s ?l] => destruct (state_in s l)
  | |- context [?d || _] => is_var d; destruct d
  end; cbn -[state_in].
Ltac hcrunch := cbn -[state_in]; repeat hcrunch1.

Lemma hk_body : forall l, match l with LOnceWait | LStopWait _ _ => True | _ => False end -> hk None FTop (body l).
Proof. intros l H. destruct l as [| | |sd ts]; try destruct H; try destruct sd; hcrunch. Qed.
Lemma hk_control : forall c, hk None FFresh (control c).
Proof. intros c. destruct c; hcrunch. Qed.
Lemma hk_edit : forall b, hk None (FClosed true None false) (edit b).
Proof. intros b. destruct b; hcrunch. Qed.

(** ** Steps of the tick thread *)

Lemma knows_mono : forall w w' rk ck, p_root P w' = p_root P w -> (Cu w -> Cu w') -> knows w rk ck -> knows w' rk ck.
Proof. intros w w' rk ck R C [K1 K2]. split; [rewrite R; exact K1|]. intros X. destruct (K2 X). auto. Qed.

Lemma thread_world : forall y t c a c' y' rk ck, inv y -> lstep c a c' -> effect P t y a y' ->
  tk rk ck c -> knows (y_world y) rk ck ->
  Iv (y_world y') /\ (Dn (y_world y') \/ Cu (y_world y')) /\ p_root P (y_world y') = p_root P (y_world y) /\
  ((Dn (y_world y) -> Dn (y_world y')) \/ exists r, a = AEnd OSetup r) /\
  (ended c' = true \/ exists rk' ck', tk rk' ck' c' /\ knows (y_world y') rk' ck').
Proof.
  intros y t c a c' y' rk ck V S E T K. pose proof (i_iv _ V) as VI. pose proof (i_or _ V) as VO.
  assert (SAME : y_world y' = y_world y -> tk rk ck c' ->
    Iv (y_world y') /\ (Dn (y_world y') \/ Cu (y_world y')) /\ p_root P (y_world y') = p_root P (y_world y) /\
    ((Dn (y_world y) -> Dn (y_world y')) \/ exists r, a = AEnd OSetup r) /\
    (ended c' = true \/ exists rk' ck', tk rk' ck' c' /\ knows (y_world y') rk' ck')).
  { intros -> X. repeat split; auto. right. exists rk, ck. auto. }
  destruct S; cbn -[state_in] in T; try tauto; try (inversion E; subst; apply SAME; [reflexivity|apply T]; fail).
  - (* Root *)
    inversion E; subst. repeat split; auto. right. destruct T as (T1 & T2 & T3).
    destruct (p_root P (y_world y')) eqn:R; [exists rk, ck; auto|exists rk, ck; auto|].
    exists true, ck. split; [exact T1|]. split; [auto|]. intros X. destruct K as [_ K]. destruct (K X). auto.
  - (* InCall *)
    destruct T as (TR & TC & T). destruct K as [K1 K2]. inversion E; subst.
    match goal with H : p_op P _ _ _ _ |- _ => rename H into HO end.
    destruct (H_op _ _ _ _ (K1 eq_refl) VI HO) as (A1 & A2 & A3 & A4 & _).
    split; [exact A2|]. split.
    { destruct o; try (destruct VO as [VO|VO]; [left; apply A4; [discriminate|exact VO]|right; auto]).
      right. apply A3. apply K2. apply TC. auto. }
    split; [cbn; rewrite A1; symmetry; auto|]. split.
    { destruct o; try (left; apply A4; discriminate). right. eauto. }
    destruct r; try (left; reflexivity); right; exists true, ck; (split; [apply T|]); split; auto; intros X; destruct (K2 X); auto.
  - (* RootState *)
    inversion E; subst. repeat split; auto. right. eexists _, _. split; [apply T|]. split; [apply K|].
    intros X. apply orb_true_iff in X. destruct X as [X|X]; [apply K; exact X|].
    apply andb_true_iff in X. destruct X as [X1 X2]. split; [exact X1|]. destruct VO as [VO|VO]; [|exact VO].
    rewrite (H_state _ VI (proj1 K X1) VO) in X2. discriminate.
  - (* Init *)
    destruct T as [TR T]. inversion E; subst. match goal with H : p_init P _ _ _ |- _ => rename H into HO end.
    destruct (H_init _ _ _ VI HO) as (-> & A2 & A3 & A4 & A5).
    repeat split; auto. right. exists true, true. split; [exact T|]. split; [cbn; rewrite A4; apply K|]. auto.
  - (* Push *)
    inversion E; subst. match goal with H : p_push P _ _ _ |- _ => rename H into HO end.
    destruct (H_push _ _ _ VI HO) as (A1 & A2 & A3 & A4). cbn.
    split; [exact A1|]. split; [tauto|]. split; [exact A2|]. split; [auto|].
    destruct r; try (left; reflexivity); right; exists rk, ck; (split; [apply T|eapply knows_mono; eauto]).
  - (* Goto *)
    destruct T as (-> & -> & ->). inversion E; subst. repeat split; auto. right. exists true, true. split; [exact tk_loop|exact K].
Qed.

Lemma flow_tick : forall y t c a c' y', inv y -> base y -> at_code y t KTick c -> lstep c a c' -> effect P t y a y' ->
  let y2 := with_proc y' t (KTick, Some c') in
  inv y2 /\ (forall f, hp y f -> hp y2 f) /\ forall cur, holds_cur y cur -> holds_cur y2 cur.
Proof.
  intros y t c a c' y' V B A S E y2.
  pose proof (b_wf _ B _ _ A) as D. pose proof (wf_tick _ _ _ D S) as N.
  destruct (tick_effect P _ _ _ _ E N) as (EP & ET & EF).
  pose proof (lstep_live _ _ _ S) as L.
  assert (T : y_thread y = Some t) by (apply (b_one _ B); exists c; auto).
  assert (AT : forall q k d, at_code y2 q k d -> (q = t /\ k = KTick /\ d = c') \/ (q <> t /\ at_code y q k d)).
  { intros q k d X. unfold at_code, y2, with_proc, with_procs in X. cbn in X. rewrite EP in X.
    destruct (nth_set_inv _ _ _ _ _ X) as [[Q Z]|[Q Z]]; [left; split; [exact Q|]; split; congruence|].
    right. auto. }
  assert (OTH : forall q d, q <> t -> at_code y q KTick d -> ended d = true).
  { intros q d Q X. destruct (ended d) eqn:Z; [reflexivity|]. exfalso.
    assert (y_thread y = Some q) by (apply (b_one _ B); exists d; auto). congruence. }
  destruct (i_thr _ V _ _ A) as [X|(rk & ck & TK & KN)]; [congruence|].
  destruct (thread_world _ _ _ _ _ _ _ _ V S E TK KN) as (A1 & A2 & A3 & A4 & A5).
  assert (CL : closed c -> closed c' /\ (Dn (y_world y) -> Dn (y_world y'))).
  { intros X. destruct (closed_step _ _ _ X S) as [Z1 Z2]. split; [exact Z1|].
    destruct A4 as [A4|(r & ->)]; [exact A4|]. destruct Z2 as [[Z2 _]|[Z2|(r' & Z2)]]; discriminate. }
  assert (CA : all_closed y -> all_closed y2).
  { intros X q d Z. destruct (AT _ _ _ Z) as [(_ & _ & ->)|(_ & Z')]; [apply CL|]; eauto. }
  split; [|split].
  - constructor; try exact A1; try exact A2.
    + intros X. change (p_root P (y_world y') <> ROne) in X. rewrite A3 in X. pose proof (i_root _ V X) as Z.
      destruct A4 as [A4|(r & ->)]; [exact (A4 Z)|]. exfalso. apply X.
      inversion S; subst. cbn in TK. apply KN. tauto.
    + intros X. change (y_state y' = EDITABLE) in X.
      assert (X' : y_state y = EDITABLE).
      { destruct a; cbn in EF; try (intuition congruence). destruct EF as (EF & _).
        destruct (wf_write _ _ _ D S) as [[Z _]|[[Z|Z] _]]; congruence. }
      destruct (i_edit _ V X') as [Z1 Z2]. split; [apply CL; eauto|auto].
    + intros q d X. destruct (AT _ _ _ X) as [(_ & _ & ->)|(Q & Z)]; [exact A5|left; eauto].
  - intros f H. destruct f; cbn [hp] in *.
    + exact (proj1 (proj2 (tick_step P _ _ _ _ _ _ [] KTop None B A S E H I))).
    + exact (proj1 (proj2 (tick_step P _ _ _ _ _ _ [] KFresh None B A S E H I))).
    + destruct H as [H _]. rewrite (H _ _ A) in L. discriminate.
    + destruct H as (H1 & H2 & H3 & H4). split; [auto|]. split.
      { intros X. rewrite (H2 X _ _ A) in L. discriminate. }
      split; [intros x X; change (p_root P (y_world y') = x); rewrite A3; auto|].
      intros X. change (Dn (y_world y')). apply CL; eauto.
  - intros cur X. destruct cur; cbn in *; congruence.
Qed.

(** ** Steps of a handler *)

Definition old_threads y y2 : Prop := forall t d, at_code y2 t KTick d -> at_code y t KTick d.

Lemma effect_threads : forall y p a y' k c', effect P p y a y' -> k <> KTick -> (forall t, a <> AStart t true) ->
  old_threads y (with_proc y' p (k, Some c')).
Proof.
  intros y p a y' k c' E NK NS t d A. unfold at_code, with_proc, with_procs in A. cbn in A.
  destruct (nth_set_inv _ _ _ _ _ A) as [[_ X]|[_ X]]; [congruence|].
  destruct E; unfold at_code in *; cbn in X; auto.
  - destruct (nth_app_one _ _ _ _ X) as [Z|[_ Z]]; [exact Z|congruence].
  - exfalso. eapply NS. reflexivity.
Qed.

Lemma keep_closed : forall y y2, old_threads y y2 -> all_closed y -> all_closed y2.
Proof. intros y y2 O H t c A. eauto. Qed.
Lemma keep_ended : forall y y2, old_threads y y2 -> all_ended y -> all_ended y2.
Proof. intros y y2 O H t c A. eauto. Qed.

Lemma inv_same : forall y y2, old_threads y y2 -> y_world y2 = y_world y -> y_state y2 = y_state y -> inv y ->
  inv y2 /\ forall f, hp y f -> hp y2 f.
Proof.
  intros y y2 O EW ES V. split.
  - constructor; rewrite ?EW, ?ES; try apply V.
    + intros X. destruct (i_edit _ V X) as [Z1 Z2]. split; [exact Z1|]. eapply keep_closed; eauto.
    + intros t c A. rewrite EW. exact (i_thr _ V _ _ (O _ _ A)).
  - intros f H. destruct f; cbn [hp holds] in *; rewrite ?EW, ?ES.
    + intros t c A. rewrite ?ES. exact (H _ _ (O _ _ A)).
    + intros t c A. rewrite ?ES. exact (H _ _ (O _ _ A)).
    + destruct H as [H1 H2]. split; [eapply keep_ended; eauto|exact H2].
    + destruct H as (H1 & H2 & H3 & H4). split; [eapply keep_closed; eauto|].
      split; [intros X; eapply keep_ended; eauto|auto].
Qed.

Lemma hp_end : forall y f, hp y f -> all_ended y -> hp y (f_end f).
Proof.
  intros y f H N. assert (C : all_closed y) by (intros t c A; apply closed_ended; eauto).
  destruct f; cbn [hp f_end] in *; auto; try (repeat split; auto; discriminate).
  destruct H as (H1 & H2 & H3). split; auto.
Qed.

Lemma handler_call : forall y y2 o r e d, inv y -> old_threads y y2 -> y_state y2 = y_state y -> o <> OSetup ->
  hp y (FClosed e (Some ROne) d) -> p_op P o (y_world y) (y_world y2) r ->
  inv y2 /\ hp y2 (FClosed e (Some ROne) (d || is_down o r)).
Proof.
  intros y y2 o r e d V O ES NS (H1 & H2 & H3 & H4) HO.
  destruct (H_op _ _ _ _ (H3 _ eq_refl) (i_iv _ V) HO) as (A1 & A2 & A3 & A4 & A5). specialize (A4 NS).
  split.
  - constructor; auto.
    + destruct (i_or _ V); auto.
    + rewrite ES. intros X. destruct (i_edit _ V X). split; [auto|eapply keep_closed; eauto].
    + intros t c A. destruct (i_thr _ V t c (O _ _ A)) as [X|(rk & ck & X & Y)]; [auto|right].
      exists rk, ck. split; [exact X|]. eapply knows_mono; [|exact A3|exact Y]. rewrite A1. symmetry. apply H3. reflexivity.
  - split; [eapply keep_closed; eauto|]. split; [intros X; eapply keep_ended; eauto|].
    split; [congruence|]. intros X. apply orb_true_iff in X. destruct X as [X|X]; [auto|].
    destruct o, r; try discriminate. eapply A5; reflexivity.
Qed.

(** Nobody ticks, or no thread knows anything about the nodes. *)
Lemma handler_change : forall y y2 e, inv y -> old_threads y y2 -> y_state y2 = y_state y ->
  all_closed y -> (e = true -> all_ended y) -> e = true \/ p_root P (y_world y) <> ROne ->
  Iv (y_world y2) -> Dn (y_world y2) -> inv y2 /\ hp y2 (FClosed e None true).
Proof.
  intros y y2 e V O ES H1 H2 H3 I2 D2. split.
  - constructor; auto.
    + intros _. split; [exact D2|]. eapply keep_closed; eauto.
    + intros t c A. destruct (i_thr _ V t c (O _ _ A)) as [X|(rk & ck & X & Y)]; [auto|].
      destruct H3 as [H3|H3]; [left; eapply H2; eauto|right]. exists rk, ck. split; [exact X|].
      destruct Y as [Y1 Y2]. destruct rk; [exfalso; apply H3; auto|]. split; [discriminate|]. intros Z.
      destruct (Y2 Z). discriminate.
  - split; [eapply keep_closed; eauto|]. split; [intros X; eapply keep_ended; eauto|]. split; [discriminate|auto].
Qed.

Lemma hp_top : forall y f, hp y f -> hp y FTop.
Proof.
  intros y f H. destruct f; cbn [hp holds] in *; auto.
  - intros t c A. destruct (H _ _ A); auto.
  - intros t c A. destruct H as [H _]. left. apply closed_ended. eauto.
  - intros t c A. left. destruct H as [H _]. eauto.
Qed.

Lemma flow_handler : forall me y k c a c' y' f cur, inv y -> base y -> k <> KTick -> at_code y me k c ->
  hk cur f c -> hp y f -> holds_cur y cur -> lstep c a c' -> effect P me y a y' ->
  let y2 := with_proc y' me (k, Some c') in
  inv y2 /\ (ended c' = true \/ exists cur' f', hk cur' f' c' /\ hp y2 f' /\ holds_cur y2 cur').
Proof.
  intros me y k c a c' y' f cur V B NK A HK H HC S E y2.
  assert (O : (forall t, a <> AStart t true) -> old_threads y y2) by (intros X; eapply effect_threads; eauto).
  assert (KEEP : (forall t, a <> AStart t true) -> y_world y' = y_world y -> y_state y' = y_state y ->
     inv y2 /\ forall f, hp y f -> hp y2 f) by (intros X X1 X2; apply inv_same; auto).
  assert (EASY : (forall t, a <> AStart t true) -> y_world y' = y_world y -> y_state y' = y_state y ->
     y_thread y' = y_thread y -> hk cur f c' ->
     inv y2 /\ (ended c' = true \/ exists cur' f', hk cur' f' c' /\ hp y2 f' /\ holds_cur y2 cur')).
  { intros X X1 X2 X3 X4. destruct (KEEP X X1 X2) as [K1 K2]. split; [exact K1|]. right. exists cur, f.
    split; [exact X4|]. split; [auto|]. destruct cur; cbn in *; congruence. }
  destruct S; cbn -[state_in] in HK; try tauto;
    try (inversion E; subst; apply EASY; try reflexivity; [discriminate|apply HK]; fail).
  - (* ReadState *)
    inversion E; subst. destruct (KEEP ltac:(discriminate) eq_refl eq_refl) as [K1 K2]. split; [exact K1|].
    right. exists cur, (f_see (y_state y') f). split; [apply HK|]. split; [|exact HC]. apply K2.
    assert (DE : tstate_eqb (y_state y') EDITABLE = true -> Dn (y_world y')).
    { intros X. apply (i_edit _ V). destruct (y_state y'); cbn in X; congruence. }
    assert (CT : (y_state y' <> TICKING -> y_state y' <> STOP_REQUESTED -> hp y' FTop -> all_closed y')).
    { intros X1 X2 X t d Z. destruct (X _ _ Z) as [|[|]]; tauto. }
    assert (CF : (y_state y' <> TICKING -> hp y' FFresh -> all_closed y')).
    { intros X1 X t d Z. destruct (X _ _ Z) as [|]; tauto. }
    destruct f; cbn [f_see].
    + destruct (y_state y') eqn:Z; try exact H; (split; [apply CT; [discriminate|discriminate|exact H]|]);
        repeat split; try discriminate; exact DE.
    + destruct (y_state y') eqn:Z; try exact H; (split; [apply CF; [discriminate|exact H]|]);
        repeat split; try discriminate; exact DE.
    + exact H.
    + destruct H as (H1 & H2 & H3 & H4). repeat split; auto. intros X. apply orb_true_iff in X. destruct X; auto.
  - (* WriteState *)
    inversion E; subst. specialize (O ltac:(discriminate)).
    assert (IV : (s = EDITABLE -> Dn (y_world y) /\ all_closed y) -> inv y2).
    { intros X. constructor; try apply V.
      - change (y_state y2) with s. intros Z. destruct (X Z). split; [assumption|]. eapply keep_closed; eauto.
      - intros t d Z. exact (i_thr _ V _ _ (O _ _ Z)). }
    assert (HF : forall e r d, hp y (FClosed e r d) -> hp y2 (FClosed e r d)).
    { intros e r d (H1 & H2 & H3 & H4). split; [eapply keep_closed; eauto|].
      split; [intros X; eapply keep_ended; eauto|auto]. }
    destruct s; try tauto.
    + destruct f as [| | |e r [|]]; try tauto. split; [|right; exists cur, (FClosed e r true); auto].
      apply IV. intros _. split; apply H; reflexivity.
    + destruct f as [| | |e r d]; try tauto. split; [apply IV; discriminate|right; exists cur, (FClosed e r d); auto].
    + destruct f as [| | |[|] r d]; try tauto. split; [apply IV; discriminate|right; exists cur, FReady].
      split; [exact HK|]. split; [|exact HC]. split; [|reflexivity]. eapply keep_ended; eauto. apply H. reflexivity.
    + split; [apply IV; discriminate|right].
      destruct f as [| | |e r d]; try tauto; [exists cur, FTop|exists cur, FTop|exists cur, (FClosed e r d); auto];
        (split; [exact HK|]); (split; [|exact HC]); intros t c X; auto.
  - (* ReadThread *)
    inversion E; subst. destruct (KEEP ltac:(discriminate) eq_refl eq_refl) as [K1 K2]. split; [exact K1|].
    right. exists (Some (y_thread y')). eexists. split; [apply HK; destruct cur; cbn in HC; auto|]. split; [|reflexivity].
    destruct (y_thread y') eqn:Z; apply K2; [exact H|]. apply hp_end; [exact H|].
    intros t d X. destruct (ended d) eqn:L; [reflexivity|]. exfalso.
    assert (y_thread y' = Some t) by (apply (b_one _ B); exists d; auto). congruence.
  - (* NewThread *)
    inversion E; subst. destruct (KEEP ltac:(discriminate) eq_refl eq_refl) as [K1 K2]. split; [exact K1|].
    right. exists None, f. split; [exact HK|]. split; [auto|exact I].
  - (* Alive *)
    inversion E; subst. destruct (KEEP ltac:(discriminate) eq_refl eq_refl) as [K1 K2]. split; [exact K1|].
    destruct HK as (-> & HT & HF). cbn in HC. right. destruct (is_live y' t) eqn:L.
    + exists (Some (Some t)), f. auto.
    + exists (Some (Some t)), (f_end f). split; [exact HF|]. split; [|exact HC]. apply K2. apply hp_end; [exact H|].
      intros t' d X. destruct (ended d) eqn:LD; [reflexivity|]. exfalso.
      assert (y_thread y' = Some t') by (apply (b_one _ B); exists d; auto). assert (t' = t) by congruence. subst t'.
      unfold is_live in L. unfold at_code in X. rewrite X, LD in L. discriminate.
  - (* StartT *)
    destruct HK as (-> & HK). destruct H as [H1 H2]. inversion E; subst.
    + assert (NT : me <> t) by (intros X; subst t; unfold at_code in A; congruence).
      assert (AT : forall q d, at_code y2 q KTick d -> (q = t /\ d = body LMain) \/ at_code y q KTick d).
      { intros q d X. unfold at_code, y2, with_proc, with_procs in X. cbn in X.
        destruct (nth_set_inv _ _ _ _ _ X) as [[? Z]|[? Z]]; [congruence|].
        destruct (nth_set_inv _ _ _ _ _ Z) as [[? Z']|[? Z']]; [left; split; [assumption|change (d = tick_main); congruence]|right; exact Z']. }
      split.
      * constructor; try apply V.
        { change (y_state y2) with (y_state y). rewrite H2. discriminate. }
        { intros q d X. destruct (AT _ _ X) as [[_ ->]|Z]; [|left; eauto]. right. exists false, false.
          split; [exact tk_main|]. split; discriminate. }
      * right. exists cur, FFresh. split; [exact HK|]. split; [|exact HC]. intros q d X. right. exact H2.
    + split; [apply KEEP; [discriminate|reflexivity|reflexivity]|left; reflexivity].
  - (* Root *)
    inversion E; subst. destruct (KEEP ltac:(discriminate) eq_refl eq_refl) as [K1 K2]. split; [exact K1|].
    right. exists cur, (f_root (p_root P (y_world y')) f). split; [apply HK|]. split; [|exact HC]. apply K2.
    destruct f; try exact H. destruct H as (H1 & H2 & H3 & H4). split; [exact H1|]. split; [exact H2|].
    split; [intros x X; congruence|]. intros X. apply orb_true_iff in X. destruct X as [X|X]; [auto|].
    apply (i_root _ V). destruct (p_root P (y_world y')); discriminate.
  - (* InCall *)
    inversion E; subst. match goal with X : p_op P _ _ _ _ |- _ => rename X into HO end.
    destruct f as [| | |e [[]|] d]; try tauto. destruct HK as (_ & NS & HK).
    assert (X : inv y2 /\ hp y2 (FClosed e (Some ROne) (d || is_down o r))).
    { eapply handler_call; [exact V|apply O; discriminate|reflexivity|exact NS|exact H|exact HO]. }
    split; [apply X|]. destruct r; try (left; reflexivity); right; eexists cur, _; (split; [apply HK|]); (split; [apply X|exact HC]).
  - (* Unlink *)
    inversion E; subst. match goal with X : p_unlink P _ _ |- _ => rename X into HO end.
    destruct f as [| | |e [[]|] [|]]; try tauto. destruct H as (H1 & H2 & H3 & H4).
    destruct (H_unlink _ _ (i_iv _ V) (H4 eq_refl) HO) as [I2 D2].
    assert (X : inv y2 /\ hp y2 (FClosed e None true)).
    { apply (handler_change y); auto; [apply O; discriminate|]. right. rewrite (H3 _ eq_refl). discriminate. }
    split; [apply X|]. right. exists cur, (FClosed e None true). split; [exact HK|]. split; [apply X|exact HC].
  - (* ClearSub *)
    inversion E; subst. match goal with X : p_subclear P _ _ |- _ => rename X into HO end.
    specialize (O ltac:(discriminate)).
    destruct (H_sub _ _ (i_iv _ V) HO) as (A1 & A2 & A3 & A4).
    split.
    + constructor.
      * exact A1.
      * destruct (i_or _ V); cbn; auto.
      * cbn. rewrite A2. intros X. apply A4. apply (i_root _ V X).
      * intros X. destruct (i_edit _ V X). split; [apply A4; assumption|eapply keep_closed; eauto].
      * intros t d X. destruct (i_thr _ V _ _ (O _ _ X)) as [Z|(rk & ck & Z1 & Z2)]; [auto|right].
        exists rk, ck. split; [exact Z1|]. eapply knows_mono; eauto.
    + right. exists cur, f. split; [exact HK|]. split; [|exact HC]. destruct f; cbn [hp holds] in *.
      * intros t c X. apply (H _ _ (O _ _ X)).
      * intros t c X. apply (H _ _ (O _ _ X)).
      * destruct H as [H1 H2]. split; [eapply keep_ended; eauto|exact H2].
      * destruct H as (H1 & H2 & H3 & H4). split; [eapply keep_closed; eauto|].
        split; [intros X; eapply keep_ended; eauto|]. split; [intros x X; cbn; rewrite A2; auto|intros X; apply A4; auto].
  - (* InEdit *)
    inversion E; subst. match goal with X : p_edit P _ _ _ |- _ => rename X into HO end.
    destruct f as [| | |[|] r [|]]; try tauto. destruct H as (H1 & H2 & H3 & H4).
    destruct (H_edit _ _ _ (i_iv _ V) (H4 eq_refl) HO) as [I2 D2].
    assert (X : inv y2 /\ hp y2 (FClosed true None true)).
    { apply (handler_change y); auto. apply O; discriminate. }
    split; [apply X|]. right. exists cur, (FClosed true None true). split; [apply HK|]. split; [apply X|exact HC].
  - (* Goto *)
    inversion E; subst. destruct (KEEP ltac:(discriminate) eq_refl eq_refl) as [K1 K2]. split; [exact K1|].
    right. exists None, FTop. split; [apply hk_body; exact HK|]. split; [|exact I]. apply K2. eapply hp_top; eauto.
Qed.

(** ** Runs *)

Definition fine y : Prop :=
  sound P y /\ inv y /\
  forall q k c, at_code y q k c -> k <> KTick -> ended c = true \/
    exists cur f, hk cur f c /\ hp y f /\ holds_cur y cur.

Lemma one_live : forall y q q' k k' c c', sound P y -> at_code y q k c -> at_code y q' k' c' ->
  k <> KTick -> k' <> KTick -> ended c = false -> ended c' = false -> q = q'.
Proof.
  intros y q q' k k' c c' S A A' N N' L L'. destruct S as [(_ & C & _)|(me & es & h & (_ & AL & _))].
  - rewrite (C _ _ _ A N) in L. discriminate.
  - rewrite (AL _ _ _ A N L), (AL _ _ _ A' N' L'). reflexivity.
Qed.

Lemma fine_step : forall y e y', fine y -> patient y e -> step P y e y' -> fine y'.
Proof.
  intros y e y' (SO & V & HH) [G1 G2] S. split; [eapply sound_step; eauto|].
  destruct S as [y k NK|y p k c a c' y' A S E].
  - cbn in G1. destruct (sound_calm P _ SO G1) as [B F].
    assert (O : old_threads y (arrival y k)).
    { intros t d X. destruct (at_arrival _ _ _ _ _ X) as [Z|(_ & Z & _)]; [exact Z|congruence]. }
    destruct (inv_same y (arrival y k) O eq_refl eq_refl V) as [V2 H2]. split; [exact V2|].
    intros q k' c' X NK'. destruct (at_arrival _ _ _ _ _ X) as [Z|(Z1 & Z2 & Z3)]; [left; exact (G1 _ _ _ Z NK')|].
    subst. right. destruct k as [|c|b]; [congruence| |].
    + exists None, FFresh. split; [apply hk_control|]. split; [apply H2; exact F|exact I].
    + exists None, (FClosed true None false). split; [apply hk_edit|]. split; [|exact I]. apply H2.
      assert (N : all_ended y).
      { intros t d Z. destruct (ended d) eqn:L; [reflexivity|]. exfalso. apply (G2 t). exists d. auto. }
      split; [intros t d Z; apply closed_ended; eauto|]. repeat split; auto; discriminate.
  - pose proof (sound_base P _ SO) as B. pose proof (lstep_live _ _ _ S) as L.
    assert (KD : k = KTick \/ k <> KTick) by (destruct k; [left; reflexivity|right|right]; discriminate).
    destruct KD as [->|KD].
    + destruct (flow_tick _ _ _ _ _ _ V B A S E) as (V2 & H2 & C2). split; [exact V2|].
      intros q k' d X NK'. destruct (step_others P _ _ _ _ _ _ _ _ _ E NK' X) as [(_ & Z & _)|Z]; [congruence|].
      destruct (HH _ _ _ Z NK') as [Z'|(cur & f & Z1 & Z2 & Z3)]; [auto|right]. exists cur, f. auto.
    + destruct (HH _ _ _ A KD) as [Z'|(cur & f & Z1 & Z2 & Z3)]; [congruence|].
      destruct (flow_handler p _ _ _ _ _ _ _ _ V B KD A Z1 Z2 Z3 S E) as (V2 & H2). split; [exact V2|].
      intros q k' d X NK'. destruct (step_others P _ _ _ _ _ _ _ _ _ E NK' X) as [(Q1 & Q2 & Q3)|Z].
      * subst. exact H2.
      * destruct (ended d) eqn:LD; [auto|]. assert (q = p) by (eapply one_live; eauto). subst q.
        assert (Z0 : at_code (with_proc y' p (k, Some c')) p k c').
        { unfold at_code, with_proc, with_procs. cbn. eapply nth_set_same. eapply (effect_keeps P); eauto. }
        assert (k' = k /\ d = c') as [-> ->] by (unfold at_code in *; split; congruence).
        rewrite <- LD. exact H2.
Qed.

Lemma fine_fresh : forall w, Iv w -> Dn w -> fine (fresh w).
Proof.
  intros w I0 D0. split; [apply fresh_sound|]. split.
  - constructor; cbn; auto.
    + intros _. split; [exact D0|]. intros [|t] c X; discriminate X.
    + intros [|t] c X; discriminate X.
  - intros [|q] k c X; discriminate X.
Qed.

Lemma fine_runs : forall y es y', runs patient P y es y' -> fine y -> fine y'.
Proof. intros y es y' R. induction R as [y|y es y1 e y2 R IH G S]; intros F; [exact F|]. exact (fine_step _ _ _ (IH F) G S). Qed.

Lemma fine_ticking : forall y t, fine y -> ticking y t -> Cu (y_world y).
Proof.
  intros y t (_ & V & HH) (k & f & A).
  assert (KD : k = KTick \/ k <> KTick) by (destruct k; [left; reflexivity|right|right]; discriminate).
  destruct KD as [->|KD].
  - destruct (i_thr _ V _ _ A) as [X|(rk & ck & X & Y)]; [discriminate|]. cbn in X. destruct X as (_ & X & _).
    apply Y. apply X. auto.
  - destruct (HH _ _ _ A KD) as [X|(cur & g & X & _)]; [discriminate|]. cbn in X.
    destruct g as [| | |e [[]|] d]; try tauto.
Qed.
Lemma fine_root : forall y t, fine y -> ticking y t -> p_root P (y_world y) = ROne.
Proof.
  intros y t (_ & V & HH) (k & f & A).
  assert (KD : k = KTick \/ k <> KTick) by (destruct k; [left; reflexivity|right|right]; discriminate).
  destruct KD as [->|KD].
  - destruct (i_thr _ V _ _ A) as [X|(rk & ck & X & Y)]; [discriminate|]. cbn in X. apply Y. apply X.
  - destruct (HH _ _ _ A KD) as [X|(cur & g & X & _)]; [discriminate|]. cbn in X.
    destruct g as [| | |e [[]|] d]; try tauto.
Qed.
Lemma fine_iv : forall y, fine y -> Iv (y_world y).
Proof. intros y (_ & V & _). apply V. Qed.
(** Links are only cut if there is no single root. *)
Lemma fine_unlink : forall y p y', fine y -> step P y (EAct p AUnlink) y' -> p_root P (y_world y) = RBad.
Proof.
  intros y p y' (SO & V & HH) S. inversion S as [|y0 p0 k c a c' y1 A L E]; subst. inversion L; subst.
  assert (KD : k = KTick \/ k <> KTick) by (destruct k; [left; reflexivity|right|right]; discriminate).
  destruct KD as [->|KD].
  - destruct (i_thr _ V _ _ A) as [X|(rk & ck & X & _)]; [discriminate|destruct X].
  - destruct (HH _ _ _ A KD) as [X|(cur & g & X & Y & _)]; [discriminate|]. cbn in X.
    destruct g as [| | |e [[]|] [|]]; try tauto. apply Y. reflexivity.
Qed.
End Flow.

(** ** The plant of ModelFlowExec.v *)

Section Wired.
Context {E : Type}.
Variable ev : env E.
Variable orphan : wired_nodes E -> bool.
Variable edits : wired_nodes E -> wired_nodes E -> bool -> Prop.
Hypothesis Hb : builds edits.
Hypothesis Hl : leaves_stop ev.
Let P := wired_plant ev orphan edits.
Implicit Types (w : wired_nodes E).

Definition all_rest w : Prop := forall n, In n (node_ids w) -> at_rest w n.

Lemma one_root : forall w, the_root (wn_nodes w) = ROne -> exists t, n_trees (wn_nodes w) = [t].
Proof. intros w H. unfold the_root in H. destruct (n_trees (wn_nodes w)) as [|t [|]]; try discriminate. eauto. Qed.

Lemma well_built_ext : forall w w', n_trees (wn_nodes w') = n_trees (wn_nodes w) -> wn_wires w' = wn_wires w ->
  well_built w -> well_built w'.
Proof. intros w w' H1 H2 [A B]. unfold well_built, node_ids. rewrite H1, H2. split; [exact A|exact B]. Qed.

Lemma connect_ok : forall l (c : conns),
  (forall x, In x l -> (exists s, iw_src x = Some s /\ c s <> None) /\ iw_tgt x <> None) ->
  exists c', connect l c = (c', Ok tt) /\
    (forall n k, c n = Some k -> c' n = Some (k ++ passes_on n l)) /\ (forall n, c n = None -> c' n = None).
Proof.
  induction l as [|x l IH]; intros c H; cbn [connect].
  - exists c. split; [reflexivity|]. split; [|auto]. intros n k X. cbn. rewrite app_nil_r. exact X.
  - destruct (H x (or_introl eq_refl)) as [(s & E1 & E2) E3]. unfold passes_on. cbn [flat_map]. fold (passes_on).
    rewrite E1. destruct (iw_tgt x) as [t|]; [|congruence]. destruct (c s) as [k|] eqn:Es; [|congruence].
    destruct (IH (fun n => if Nat.eqb n s then Some (k ++ [mkConn (iw_skey x) t (iw_tkey x)]) else c n)) as (c' & A & B & C).
    { intros z Hz. destruct (H z (or_intror Hz)) as [(s' & F1 & F2) F3]. split; [|exact F3]. exists s'. split; [exact F1|].
      destruct (Nat.eqb s' s); [discriminate|exact F2]. }
    exists c'. split; [exact A|]. split.
    + intros n k' X. rewrite Nat.eqb_sym. destruct (Nat.eqb n s) eqn:Q.
      * apply Nat.eqb_eq in Q. subst n. assert (k' = k) by congruence. subst k'.
        rewrite (B s (k ++ [mkConn (iw_skey x) t (iw_tkey x)])); [|rewrite Nat.eqb_refl; reflexivity].
        rewrite <- app_assoc. reflexivity.
      * rewrite (B n k'); [reflexivity|]. rewrite Q. exact X.
    + intros n X. apply C. destruct (Nat.eqb n s) eqn:Q; [|exact X]. apply Nat.eqb_eq in Q. congruence.
Qed.

Lemma w_init : forall w w' b, well_built w -> init_flow w w' b ->
  b = true /\ flows_as_shown w' /\ well_built w' /\ the_root (wn_nodes w') = the_root (wn_nodes w) /\
  (all_rest w -> all_rest w').
Proof.
  intros w w' b [B1 B2] H. unfold init_flow in H.
  set (c0 := (fun n => if existsb (Nat.eqb n) (node_ids w) then Some [] else None) : conns) in H.
  assert (IN : forall n, existsb (Nat.eqb n) (node_ids w) = true <-> In n (node_ids w)).
  { intros n. rewrite existsb_exists. split; [intros (m & X & Y); apply Nat.eqb_eq in Y; subst; exact X|].
    intros X. exists n. split; [exact X|apply Nat.eqb_refl]. }
  destruct (connect_ok (wn_wires w) c0) as (c & A & B & C).
  { intros x X. destruct (B2 x X) as [(s & Y1 & Y2) Y3]. split; [|exact Y3]. exists s. split; [exact Y1|].
    unfold c0. apply IN in Y2. rewrite Y2. discriminate. }
  rewrite A in H. destruct H as [-> ->]. split; [reflexivity|]. split.
  - split; cbn; intros n X.
    + apply (B n []). unfold c0. apply IN in X. rewrite X. reflexivity.
    + apply C. unfold c0. destruct (existsb (Nat.eqb n) (node_ids w)) eqn:Q; [|reflexivity]. apply IN in Q. contradiction.
  - split; [apply (well_built_ext w); [reflexivity|reflexivity|split; assumption]|]. split; [reflexivity|].
    intros X. exact X.
Qed.

Lemma w_op : forall o w w' r, the_root (wn_nodes w) = ROne -> well_built w -> wired_op ev o w w' r ->
  the_root (wn_nodes w') = ROne /\ well_built w' /\ (flows_as_shown w -> flows_as_shown w') /\
  (o <> OSetup -> all_rest w -> all_rest w') /\ (o = OShutdown -> forall s, r = Ok s -> all_rest w').
Proof.
  intros o w w' r R B [HW HO]. destruct (one_root _ R) as [t T]. unfold root_op in HO. rewrite T in HO.
  destruct HO as [T' C]. assert (WT : SpecTree.wf t) by (apply B; rewrite T; left; reflexivity).
  assert (FR := frame_tree E ev t o (n_world (wn_nodes w))). rewrite C in FR. cbn [fst] in FR. destruct FR as [_ FC].
  assert (IDS : node_ids w' = node_ids w) by (unfold node_ids; rewrite T, T'; reflexivity).
  assert (SD : o = OShutdown -> all_rest w').
  { intros ->. destruct (shutdown_tree_ok E ev t WT) with (w := n_world (wn_nodes w)) as (w1 & X & Y).
    { intros n k name cs X -> w0. apply Hl. }
    rewrite C in X. injection X as <- _. intros n X. right. apply Y. rewrite IDS in X. unfold node_ids in X.
    rewrite T in X. cbn in X. rewrite app_nil_r in X. exact X. }
  split; [unfold the_root; rewrite T'; reflexivity|].
  split; [apply (well_built_ext w); [congruence|exact HW|exact B]|].
  split. { intros [F1 F2]. unfold flows_as_shown. rewrite IDS, FC, HW. split; assumption. }
  split; [|intros X s _; apply SD; exact X].
  intros NS D. assert (OO : o = OShutdown \/ o = OTick \/ o = OUntick \/ o = OReset) by (destruct o; auto; contradiction).
  destruct OO as [OO|OO]; [apply SD, OO|].
  assert (IT : In (t_id t) (node_ids w)) by (unfold node_ids; rewrite T; cbn; destruct t; left; reflexivity).
  assert (DT : SpecTree.dead (w_st (n_world (wn_nodes w)) (t_id t)))
    by (destruct (D _ IT) as [X|X]; rewrite X; unfold SpecTree.dead; auto).
  destruct t as [n k name cs]. cbn [t_id] in DT.
  pose proof (refuse_dead E ev n k name (map (obj_of ev) cs) o (n_world (wn_nodes w)) (or_introl (conj DT OO))) as X.
  change (obj_of ev (ModelTree.T n k name cs)) with (make_obj ev n k name (map (obj_of ev) cs)) in C.
  rewrite X in C. injection C as C _. intros m Hm. rewrite IDS in Hm. unfold at_rest. rewrite <- C. apply D, Hm.
Qed.

Lemma unlink_ids : forall t, flat_map ids (all_nodes t) = ids t.
Proof.
  fix F 1. intros [n k name cs]. cbn. f_equal. induction cs as [|c cs IH]; [reflexivity|]. cbn.
  rewrite flat_map_app, F, IH. reflexivity.
Qed.
Lemma unlink_flat : forall l, flat_map ids (concat (map all_nodes l)) = flat_map ids l.
Proof. induction l as [|t l IH]; [reflexivity|]. cbn. rewrite flat_map_app, unlink_ids, IH. reflexivity. Qed.
Lemma all_nodes_single : forall t x, In x (all_nodes t) -> exists n k name, x = T n k name [].
Proof.
  fix F 1. intros [n k name cs] x [<-|X]; [eauto|]. induction cs as [|c cs IH]; [destruct X|].
  cbn in X. apply in_app_or in X. destruct X as [X|X]; [eapply F; exact X|apply IH, X].
Qed.
Lemma single_wf : forall n k name, SpecTree.wf (T n k name []).
Proof.
  intros n k name. split; [cbn; constructor; [intros []|constructor]|].
  intros n' k' name' cs' [X|[]]. injection X as <- <- <- <-. destruct k; cbn; auto.
Qed.

Lemma w_unlink : forall w w', well_built w -> all_rest w -> wired_unlink w w' -> well_built w' /\ all_rest w'.
Proof.
  intros w w' [B1 B2] D [HW [HT HWo]].
  assert (IDS : node_ids w' = node_ids w) by (unfold node_ids; rewrite HT; apply unlink_flat).
  split; [split|].
  - intros t X. rewrite HT in X. apply in_concat in X. destruct X as (l & X & Y). apply in_map_iff in X.
    destruct X as (t0 & <- & _). destruct (all_nodes_single _ _ Y) as (n & k & name & ->). apply single_wf.
  - rewrite HW, IDS. exact B2.
  - intros n X. rewrite IDS in X. unfold at_rest. rewrite HWo. apply D, X.
Qed.
Lemma w_edit : forall w w' b, well_built w -> all_rest w -> edits w w' b -> well_built w' /\ all_rest w'.
Proof.
  intros w w' b B D H. destruct (Hb _ _ _ H B) as [B' X]. split; [exact B'|]. intros n Y.
  destruct (X _ Y) as [Z|[Z1 Z2]]; [exact Z|]. unfold at_rest. rewrite Z2. apply D, Z1.
Qed.
Lemma w_state : forall w, well_built w -> the_root (wn_nodes w) = ROne -> all_rest w ->
  state_in (root_state (wn_nodes w)) [UNINITIALIZED; SHUTDOWN] = true.
Proof.
  intros w _ R D. destruct (one_root _ R) as [t T]. unfold root_state. rewrite T.
  assert (IT : In (t_id t) (node_ids w)) by (unfold node_ids; rewrite T; cbn; destruct t; left; reflexivity).
  destruct (D _ IT) as [X|X]; rewrite X; reflexivity.
Qed.

Lemma shown_flows : forall w es y t, empty_tree w -> runs patient P (fresh w) es y -> ticking y t ->
  flows_as_shown (y_world y).
Proof.
  intros w es y t [W1 W2] R T.
  assert (B : well_built w) by (split; [rewrite W1; intros ? []|rewrite W2; intros ? []]).
  assert (D : all_rest w) by (intros n X; unfold node_ids in X; rewrite W1 in X; destruct X).
  apply (fine_ticking P well_built all_rest flows_as_shown y t); [|exact T].
  apply (fine_runs P well_built all_rest flows_as_shown) with (y := fresh w) (es := es); [..|exact R|].
  - exact w_op.
  - exact w_state.
  - exact w_init.
  - intros ? ? ? X [-> _]. auto.
  - intros ? ? X ->. auto.
  - exact w_unlink.
  - exact w_edit.
  - apply fine_fresh; assumption.
Qed.
End Wired.
