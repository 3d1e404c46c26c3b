(** Proofs for C104: which requests end with an answer. *)
From Coq Require Import List Bool Arith Lia.
From Verif Require Import Base ModelExec SpecExec SpecLive ProofsExec ProofsExecRun ProofsExecProps ProofsExecAny ProofsLive ProofsLive2 ProofsLive3 ProofsLive4.
Import ListNotations.

(** What is known of the thread object: nothing, there is one, there is one that was not
    started. *)
Inductive kn : Set := KU | KS | KN.
(** The program raises nothing itself; [q]: no thread ticks. *)
Fixpoint nc (q : bool) (T : kn) (c : code) {struct c} : Prop :=
  match c with
  | Done _ _ => True
  | Crash | Init _ | Push _ => False
  | Goto l => T <> KU /\ match l with LOnceWait | LStopWait _ _ => True | _ => False end
  | ReadThread k => (T = KU -> nc q KU (k None)) /\ forall t, nc q (match T with KU => KS | _ => T end) (k (Some t))
  | NewThread k => nc q KN k
  | Alive _ k => (q = false -> T <> KN -> nc q T (k true)) /\ nc q T (k false)
  | StartT _ k => T = KN /\ nc false KS k
  | Call _ k | InCall _ k => (forall x, nc q T (k (Ok x))) /\ forall e, nc q T (k (Err e))
  | ReadState k => forall s, nc q T (k s)
  | RootState k => forall s, nc q T (k s)
  | WriteState _ k | JoinT _ k | WriteOnce _ k | WriteStop _ k | Unlink k
  | ClearSub k | Lock k | Unlock k => nc q T k
  | RosOk k | ReadOnce k | ReadStop k | Orphans k | Edit k | InEdit k => forall b, nc q T (k b)
  | Root k => forall r, nc q T (k r)
  end.
Ltac ncs := repeat (cbn -[state_in];
  match goal with
  | |- _ /\ _ => split
  | |- True => exact I
  | |- ?a = ?a => reflexivity
  | |- KU = KU -> _ => intros _
  | |- KS = KU -> _ => discriminate
  | |- KN = KU -> _ => discriminate
  | |- true = false -> _ => discriminate
  | |- false = false -> _ => intros _
  | |- KN <> KN -> _ => let H := fresh in intros H; destruct (H eq_refl)
  | |- KS <> KN -> _ => intros _
  | |- KU <> KN -> _ => intros _
  | |- _ <> _ => discriminate
  | |- forall x : tstate, _ => intros []
  | |- forall x : rootres, _ => intros []
  | |- forall x : option nat, _ => intros [?|]
  | |- forall x : bool, _ => intros []
  | |- forall x, _ => intro
  | |- context [state_in ?s ?l] => destruct (state_in s l)
  | |- context [state_eqb ?s ?l] => destruct (state_eqb s l)
  end).
Lemma nc_body : forall q T l, T <> KU -> (match l with LOnceWait | LStopWait _ _ => True | _ => False end) -> nc q T (body l).
Proof. intros q T l N H. destruct l; try contradiction; try destruct sd; destruct T; try congruence; destruct q; ncs. Qed.
Lemma nc_quiet : forall k, k <> KTick -> nc true KU (first_code k).
Proof. intros k N. destruct k as [|c|b]; [congruence| |destruct b; ncs]. destruct c; ncs. Qed.
Lemma nc_any : forall k, k <> KTick -> no_tick_command [EArrive k] -> nc false KU (first_code k).
Proof.
  intros k N H. destruct k as [|c|b]; [congruence| |destruct b; ncs].
  assert (X : arrives (KControl c) [EArrive (KControl c)]) by (left; reflexivity).
  destruct (H c X) as (H1 & H2 & H3). destruct c; try congruence; ncs.
Qed.

Section Live.
Context {W : Type}.
Variable P : plant W.
Implicit Types (y : sys W).

Definition semT y (q : bool) (T : kn) : Prop :=
  (q = true -> no_tick_thread y) /\
  match T with
  | KU => True
  | KS => y_thread y <> None
  | KN => exists t, y_thread y = Some t /\ nth_error (y_procs y) t = Some (KTick, None)
  end.
Lemma start_thread : forall y p k t f, sound P y -> at_code y p k (StartT t f) -> k <> KTick -> y_thread y = Some t.
Proof.
  intros y p k t f H A N. destruct H as [(_ & C & _)|(me & es & h & _ & AL & _ & k' & c & cur & rq & K & N' & A' & CH & _ & HC & _)].
  - specialize (C _ _ _ A N). discriminate.
  - assert (p = me) by (apply (AL _ _ _ A N); reflexivity). subst p.
    assert (c = StartT t f) by (unfold at_code in *; congruence). subst c. cbn in CH.
    destruct CH as (_ & -> & _). exact HC.
Qed.
Lemma nc_handler : forall y p k c a c' y' q T, sound P y -> at_code y p k c -> k <> KTick -> lstep c a c' -> effect P p y a y' ->
  nc q T c -> semT y q T -> (forall o, a <> AEnd o Raise) ->
  exists q' T', nc q' T' c' /\ semT (with_proc y' p (k, Some c')) q' T'.
Proof.
  intros y p k c a c' y' q T H A N S E G [M1 M2] NR. pose proof (sound_base P _ H) as B.
  assert (NT : no_tick_thread y -> (forall t, a <> AStart t true) -> no_tick_thread (with_proc y' p (k, Some c'))).
  { intros X NS t (d & Z & LD). destruct (tick_codes P _ _ _ _ _ _ _ _ _ A S E Z) as [(_ & K & _)|[(_ & Z')|(_ & _ & X')]].
    - congruence.
    - apply (X t). exists d. auto.
    - exact (NS _ X'). }
  assert (KP : forall z : sys W, y_thread z = y_thread y -> y_procs z = y_procs y ->
            match T with KU => True | KS => y_thread (with_proc z p (k, Some c')) <> None
            | KN => exists t, y_thread (with_proc z p (k, Some c')) = Some t /\ nth_error (y_procs (with_proc z p (k, Some c'))) t = Some (KTick, None) end).
  { intros z X1 X2. destruct T; [exact I| |]; cbn [with_proc with_procs y_thread y_procs]; rewrite X1; [exact M2|].
    destruct M2 as (t & T1 & T2). exists t. split; [exact T1|]. rewrite X2. rewrite nth_set_other; [exact T2|].
    intros <-. unfold at_code in A. congruence. }
  assert (SM : (forall t, a <> AStart t true) -> a <> ANewThread -> semT (with_proc y' p (k, Some c')) q T).
  { intros X1 X2. split; [intros Q; apply NT; auto|]. apply KP; clear -E X1 X2; destruct E; try reflexivity; try congruence; destruct (X1 _ eq_refl). }
  destruct S; cbn [nc] in G; try contradiction;
    try (exists q, T; split; [first [exact G|apply G]|apply SM; [intros ?; discriminate|discriminate]]; fail).
  - (* the thread object *)
    destruct G as [G1 G2]. inversion E; subst. destruct (y_thread y') as [t|] eqn:X.
    + eexists q, _. split; [apply G2|]. destruct T; try (apply SM; [intros ?; discriminate|discriminate]).
      split; [apply SM; [intros ?; discriminate|discriminate]|]. cbn. congruence.
    + destruct T.
      * exists q, KU. split; [apply G1; reflexivity|]. apply SM; [intros ?; discriminate|discriminate].
      * congruence.
      * destruct M2 as (t & T1 & _). congruence.
  - (* a new one *)
    exists q, KN. split; [exact G|]. split; [intros Q; apply NT; [auto|intros ?; discriminate]|]. inversion E; subst. cbn.
    exists (length (y_procs y)). split; [reflexivity|]. rewrite nth_set_other.
    + rewrite nth_error_app2 by lia. rewrite Nat.sub_diag. reflexivity.
    + pose proof (at_lt _ _ _ _ A). lia.
  - (* is it alive *)
    pose proof (alive_thread P _ _ _ _ _ H A N) as X. destruct G as [G1 G2]. exists q, T. inversion E; subst.
    split; [|apply SM; [intros ?; discriminate|discriminate]].
    destruct (is_live y' t) eqn:L; [|exact G2]. apply G1.
    + destruct q; [|reflexivity]. rewrite (not_alive _ _ B X (M1 eq_refl)) in L. discriminate.
    + intros ->. destruct M2 as (t' & T1 & T2). assert (t' = t) by congruence. subst t'.
      unfold is_live in L. rewrite T2 in L. discriminate.
  - (* start it *)
    pose proof (start_thread _ _ _ _ _ H A N) as X. destruct G as [-> G]. destruct M2 as (t' & T1 & T2).
    assert (t' = t) by congruence. subst t'. inversion E; subst; [|congruence].
    exists false, KS. split; [exact G|]. split; [discriminate|]. cbn. congruence.
  - (* a call *)
    exists q, T. split; [|apply SM; [intros ?; discriminate|discriminate]].
    destruct G as [G1 G2]. destruct r; auto. destruct (NR _ eq_refl).
  - (* jump *)
    destruct G as [G1 G2]. exists q, T. split; [apply nc_body; assumption|apply SM; [intros ?; discriminate|discriminate]].
Qed.

Definition sane_at y p : Prop :=
  inv P y /\ exists k c q T, k <> KTick /\ at_code y p k c /\
    (forall r kr cr, at_code y r kr cr -> kr <> KTick -> ended cr = false -> r = p) /\ nc q T c /\ semT y q T.
Lemma sane_at_step : forall y p r a y', sane_at y p -> step P y (EAct r a) y' -> one_at_a_time y (EAct r a) ->
  (r = p -> forall o, a <> AEnd o Raise) -> sane_at y' p.
Proof.
  intros y p r a y' (IV & k & c & q & T & NK & A & AL & G & M) S O NR. split; [exact (inv_step P _ _ _ IV S O)|].
  inversion S as [|y0 r0 kr cr a0 cr' y1 Ar LS E]; subst. pose proof (lstep_live _ _ _ LS) as L.
  assert (ALL : forall z q' kz d, at_code z q' kz d -> z = with_proc y1 r (kr, Some cr') -> kz <> KTick -> ended d = false -> q' = p).
  { intros z q' kz d Z -> NZ LZ. destruct (step_others P _ _ _ _ _ _ _ _ _ E NZ Z) as [(-> & -> & _)|Z']; [exact (AL _ _ _ Ar NZ L)|exact (AL _ _ _ Z' NZ LZ)]. }
  destruct (Nat.eq_dec r p) as [->|NQ].
  - assert (kr = k /\ cr = c) as [-> ->] by (unfold at_code in *; split; congruence).
    destruct (nc_handler _ _ _ _ _ _ _ _ _ (i_sound _ _ IV) A NK LS E G M (NR eq_refl)) as (q' & T' & G' & M').
    exists k, cr', q', T'. split; [exact NK|]. split; [|split; [intros q0 kz d Z; exact (ALL _ _ _ _ Z eq_refl)|auto]].
    unfold at_code, with_proc, with_procs. cbn. eapply nth_set_same. exact (effect_started P _ _ _ _ _ _ _ E A).
  - assert (kr = KTick) by (destruct kr; [reflexivity| |]; exfalso; apply NQ; exact (AL _ _ _ Ar ltac:(discriminate) L)). subst kr.
    exists k, c, q, T. split; [exact NK|]. split; [|split; [intros q0 kz d Z; exact (ALL _ _ _ _ Z eq_refl)|split; [exact G|]]].
    + unfold at_code, with_proc, with_procs. cbn. rewrite nth_set_other by congruence. exact (effect_started P _ _ _ _ _ _ _ E A).
    + destruct M as [M1 M2]. split; [intros Q; exfalso; apply (M1 Q r); exists cr; auto|].
      pose proof (wf_tick _ _ _ (b_wf _ (sound_base P _ (i_sound _ _ IV)) _ _ Ar) LS) as NT.
      destruct (tick_effect P _ _ _ _ E NT) as (EP & ET & _).
      destruct T; [exact I| |]; cbn [with_proc with_procs y_thread y_procs]; rewrite ET; [exact M2|].
      destruct M2 as (t & T1 & T2). exists t. split; [exact T1|]. rewrite EP, nth_set_other; [exact T2|].
      intros <-. unfold at_code in Ar. congruence.
Qed.
Lemma calls_app : forall a b, calls (a ++ b) = calls a ++ calls b.
Proof. induction a as [|[k|p x] a IH]; intros b0; cbn; [reflexivity|apply IH|]. destruct x; cbn; try apply IH. f_equal. apply IH. Qed.
Lemma sane_at_runs : forall y es y' p, runs one_at_a_time P y es y' -> no_arrivals es ->
  (forall o r, In (p, o, r) (calls es) -> r <> Raise) -> sane_at y p -> sane_at y' p.
Proof.
  intros y es y' p R. induction R as [y|y es y1 e y2 R IH G S]; intros NA NR H; [exact H|].
  destruct (no_arrival_app _ _ NA) as [N1 N2]. destruct e as [k|q a]; [destruct (N2 k); left; reflexivity|].
  assert (NR1 : forall o r, In (p, o, r) (calls es) -> r <> Raise) by (intros o r X; apply (NR o r); rewrite calls_app; apply in_or_app; left; exact X).
  refine (sane_at_step _ _ _ _ _ (IH N1 NR1 H) S G _). intros -> o ->. apply (NR o Raise); [|reflexivity].
  rewrite calls_app. apply in_or_app. right. left. reflexivity.
Qed.
Theorem no_crash : forall y0 k p es y, reachable P y0 -> handling P y0 k p es y ->
  no_tick_thread y0 \/ no_tick_command [EArrive k] -> (forall o r, In (p, o, r) (calls es) -> r <> Raise) ->
  ~ at_code y p k Crash.
Proof.
  intros y0 k p es y R0 (C & -> & NA & y1 & S & R) D NR X.
  assert (H : sane_at y1 (length (y_procs y0))).
  { split; [exact (inv_step P _ _ _ (inv_reachable P _ R0) S C)|]. inversion S as [z k0 N|]; subst.
    assert (Q : exists q, nc q KU (first_code k) /\ (q = true -> no_tick_thread y0)).
    { destruct D as [D|D]; [exists true|exists false]; (split; [auto using nc_quiet, nc_any|]); [auto|discriminate]. }
    destruct Q as (q & G & M). exists k, (first_code k), q, KU. split; [exact N|]. split; [|split; [|split; [exact G|split; [|exact I]]]].
    - unfold at_code, with_procs. cbn. rewrite nth_error_app2 by lia. rewrite Nat.sub_diag. reflexivity.
    - intros r kr cr Z NZ LZ. destruct (at_arrival _ _ _ _ _ Z) as [Z'|(-> & _)]; [|reflexivity]. rewrite (C _ _ _ Z' NZ) in LZ. discriminate.
    - intros Q t (d & Z & LD). destruct (at_arrival _ _ _ _ _ Z) as [Z'|(_ & <- & _)]; [|congruence]. apply (M Q t). exists d. auto. }
  destruct (sane_at_runs _ _ _ _ R NA NR H) as (_ & k' & c & q & T & _ & A & _ & G & _).
  assert (c = Crash) by (unfold at_code in *; congruence). subst c. exact G.
Qed.
End Live.
