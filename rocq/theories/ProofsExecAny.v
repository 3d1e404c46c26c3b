(** Properties of execution control under full concurrency: invariants over every
    interleaving of handlers and tick threads. *)
From Coq Require Import List Bool Arith Lia.
From Verif Require Import Base ModelExec SpecExec ProofsExec ProofsExecRun ProofsExecProps.
Import ListNotations.

Section Any.
Context {W : Type}.
Variable P : plant W.
Implicit Types (y : sys W).

Lemma with_proc_at : forall y p x q k c, at_code (with_proc y p x) q k c ->
  (q = p /\ x = (k, Some c)) \/ (q <> p /\ at_code y q k c).
Proof.
  intros y p x q k c A. unfold at_code, with_proc, with_procs in A. cbn in A.
  destruct (nth_set_inv _ _ _ _ _ A) as [[X Z]|X]; [left; auto|right; exact X].
Qed.

(** A property of the program of each process that every step of it preserves, and that
    every new process has, holds always. *)
Lemma effect_procs : forall y p a y' q k c, effect P p y a y' -> at_code y' q k c ->
  at_code y q k c \/ (k = KTick /\ c = body LMain /\ a = AStart q true).
Proof.
  intros y p a y' q k c E A. destruct E; unfold at_code, with_proc, with_procs in *; cbn -[body] in *; auto.
  - destruct (nth_app_one _ _ _ _ A) as [X|[_ X]]; [left; exact X|discriminate].
  - destruct (nth_set_inv _ _ _ _ _ A) as [[X Z]|[_ X]]; [right|left; exact X].
    subst. repeat split; auto; [congruence|change (c = tick_main); cbn in Z; congruence].
Qed.

(** ** ERROR *)

(** A program that, while the state is ERROR, answers false within [n] accesses, all of
    them harmless; [b]: there is a thread object. *)
Fixpoint erring (n : nat) (b : bool) (c : code) {struct c} : Prop :=
  match c with
  | Done ok _ => ok = false
  | ReadState k => match n with 0 => False | S n => erring n b (k TERROR) end
  | ReadThread k => match n with 0 => False | S n =>
      (b = false -> erring n false (k None)) /\ forall t, erring n true (k (Some t)) end
  | NewThread k => match n with 0 => False | S n => erring n true k end
  | Alive t k => match n with 0 => False | S n => forall x, erring n b (k x) end
  | _ => False
  end.
Lemma erring_first : forall k, k <> KTick -> k <> KControl SHUT_DOWN -> erring 7 false (first_code k).
Proof.
  intros k N1 N2. destruct k as [|c|b]; [congruence| |destruct b; reflexivity].
  assert (D : forall n b, erring (S n) b (dispatch c)).
  { intros n b. cbn. destruct c; cbn; congruence || reflexivity. }
  assert (R : forall b, erring 5 b (renew c)).
  { intros b. cbn -[dispatch]. split; [intros _; apply D|]. intros _. split; [discriminate|].
    intros t x. destruct x; cbn -[dispatch]; apply D. }
  cbn -[renew]. split; [intros _|intros _].
  - assert (M : forall b, erring 6 b (renew c)).
    { intros b. cbn -[dispatch]. split; [intros _; apply D|]. intros _. split; [discriminate|].
      intros t x. destruct x; cbn -[dispatch]; apply D. }
    apply M.
  - apply R.
Qed.
Lemma acts_snoc : forall p es q a, acts p (es ++ [EAct q a]) = acts p es + (if p =? q then 1 else 0).
Proof.
  intros p es q a. induction es as [|e es IH]; [cbn; destruct (p =? q); reflexivity|].
  destruct e as [k|r b]; cbn; rewrite IH; [reflexivity|]. destruct (p =? r); reflexivity.
Qed.

Lemma acts_arrive : forall p es k, acts p (es ++ [EArrive k]) = acts p es.
Proof.
  intros p es k. induction es as [|e es IH]; [reflexivity|].
  destruct e as [k'|r b]; cbn; rewrite IH; reflexivity.
Qed.
Definition failing y0 es y : Prop :=
  y_state y = TERROR /\ y_world y = y_world y0 /\ y_once y = y_once y0 /\ y_stop y = y_stop y0 /\
  (forall t c, at_code y t KTick c -> dying c) /\
  (forall p k c, at_code y p k c -> k <> KTick ->
     (p < length (y_procs y0) /\ ended c = true) \/
     (length (y_procs y0) <= p /\ exists n b, erring n b c /\ (b = true -> y_thread y <> None) /\ acts p es + n <= 7)) /\
  length (y_procs y0) <= length (y_procs y) /\
  (forall p, length (y_procs y) <= p -> acts p es = 0) /\
  (forall p a, In (EAct p a) es -> harmless a \/ a = ASetState TERROR).

Lemma failing_act : forall y0 es y p a y', failing y0 es y -> step P y (EAct p a) y' -> failing y0 (es ++ [EAct p a]) y'.
Proof.
  intros y0 es y p a y' (HS & HW & HO & HP & HT & HH & HL & HA & HE) S.
  inversion S as [|y1 p1 k c a1 c' y2 A LS E]; subst.
  assert (HLP : p < length (y_procs y)) by (apply nth_error_Some; unfold at_code in A; congruence).
  assert (KD : k = KTick \/ k <> KTick) by (destruct k; [left; reflexivity|right|right]; discriminate).
  destruct KD as [->|NK].
  - destruct (dying_step _ _ _ (HT _ _ A) LS) as [D ->]. inversion E; subst.
    split; [reflexivity|]. do 3 (split; [assumption|]). split.
    { intros t d X. destruct (with_proc_at _ _ _ _ _ _ X) as [[-> Z]|[_ Z]]; [injection Z as <-; exact D|apply (HT t); exact Z]. }
    split.
    { intros q k d X NK. destruct (with_proc_at _ _ _ _ _ _ X) as [[-> Z]|[NQ Z]]; [congruence|].
      destruct (HH _ _ _ Z NK) as [L|(L & n & b & X1 & X2 & X3)]; [left; exact L|right]. split; [exact L|].
      exists n, b. split; [exact X1|]. split; [exact X2|]. rewrite acts_snoc. apply Nat.eqb_neq in NQ. rewrite NQ. lia. }
    split; [cbn; rewrite set_nth_length; exact HL|]. split.
    { cbn. rewrite set_nth_length. intros q X. rewrite acts_snoc. assert (NQ : q <> p) by lia. apply Nat.eqb_neq in NQ. rewrite NQ, (HA _ X). reflexivity. }
    intros q a X. apply in_app_or in X. destruct X as [X|[X|[]]]; [eauto|]. injection X as -> ->. auto.
  - destruct (HH _ _ _ A NK) as [[_ L]|(L & n & b & X1 & X2 & X3)].
    { rewrite (lstep_live _ _ _ LS) in L. discriminate. }
    assert (GO : forall n' b', erring n' b' c' -> (b' = true -> y_thread y2 <> None) -> n = Datatypes.S n' ->
               harmless a -> y_state y2 = y_state y -> y_world y2 = y_world y -> y_once y2 = y_once y -> y_stop y2 = y_stop y ->
               (forall q k c, at_code y2 q k c -> at_code y q k c) -> length (y_procs y) <= length (y_procs y2) ->
               (y_thread y <> None -> y_thread y2 <> None) ->
               failing y0 (es ++ [EAct p a]) (with_proc y2 p (k, Some c'))).
    { intros n' b' G1 G2 -> G3 G4 G5 G6 G7 G8 G9 G10.
      split; [cbn; congruence|]. do 3 (split; [cbn; congruence|]). split.
      { intros t d X. destruct (with_proc_at _ _ _ _ _ _ X) as [[_ Z]|[_ Z]]; [congruence|]. eapply HT; eauto. }
      split.
      { intros q k1 d X NK1. destruct (with_proc_at _ _ _ _ _ _ X) as [[-> Z]|[NQ Z]].
        - injection Z as -> ->. right. split; [exact L|]. exists n', b'. split; [exact G1|]. split; [exact G2|].
          rewrite acts_snoc, Nat.eqb_refl. lia.
        - destruct (HH _ _ _ (G8 _ _ _ Z) NK1) as [L1|(L1 & n1 & b1 & Y1 & Y2 & Y3)]; [left; exact L1|right].
          split; [exact L1|]. exists n1, b1. split; [exact Y1|]. split; [cbn; auto|].
          rewrite acts_snoc. apply Nat.eqb_neq in NQ. rewrite NQ. lia. }
      split; [cbn; rewrite set_nth_length; lia|]. split.
      { cbn. rewrite set_nth_length. intros q X. rewrite acts_snoc. assert (NQ : q <> p) by lia. apply Nat.eqb_neq in NQ.
        rewrite NQ, HA by lia. reflexivity. }
      intros q a1 X. apply in_app_or in X. destruct X as [X|[X|[]]]; [eauto|]. injection X as -> ->. auto. }
    destruct LS; cbn in X1; try tauto; destruct n as [|n]; try tauto.
    + inversion E; subst. rewrite HS in *. eapply GO; eauto; exact I.
    + inversion E; subst. destruct (y_thread y2) eqn:Y.
      * eapply GO; try reflexivity; try exact I; auto; [apply X1|]; intros; congruence.
      * destruct b; [destruct X2; auto|]. eapply GO; try reflexivity; try exact I; auto; [apply X1; reflexivity|]; intros; congruence.
    + inversion E; subst. eapply GO; try reflexivity; try exact I; eauto.
      * cbn. discriminate.
      * intros q k1 c1 X. unfold at_code in *. cbn in X. destruct (nth_app_one _ _ _ _ X) as [Z|[_ Z]]; [exact Z|discriminate].
      * cbn. rewrite app_length. lia.
      * cbn. discriminate.
    + inversion E; subst. eapply GO; eauto; exact I.
Qed.
Lemma failing_arrive : forall y0 es y k y', failing y0 es y -> step P y (EArrive k) y' -> k <> KControl SHUT_DOWN ->
  failing y0 (es ++ [EArrive k]) y'.
Proof.
  intros y0 es y k y' (HS & HW & HO & HP & HT & HH & HL & HA & HE) S N. inversion S as [y1 k1 NK|]; subst.
  split; [exact HS|]. do 3 (split; [assumption|]). split.
  { intros t c X. destruct (at_arrival _ _ _ _ _ X) as [Z|(_ & Z & _)]; [eauto|congruence]. }
  split.
  { intros p k1 c X NK1. rewrite acts_arrive. destruct (at_arrival _ _ _ _ _ X) as [Z|(-> & -> & ->)]; [apply (HH _ _ _ Z NK1)|].
    right. split; [exact HL|]. exists 7, false. split; [apply erring_first; assumption|]. split; [discriminate|].
    rewrite HA; lia. }
  split; [cbn; rewrite app_length; cbn; lia|]. split.
  { cbn. rewrite app_length. intros p X. rewrite acts_arrive. apply HA. cbn in X. lia. }
  intros p a X. apply in_app_or in X. destruct X as [X|[X|[]]]; [eauto|discriminate].
Qed.

Lemma failing_runs : forall y0 es y, runs anything P y0 es y -> reachable P y0 -> calm y0 -> y_state y0 = TERROR ->
  ~ arrives (KControl SHUT_DOWN) es -> failing y0 es y.
Proof.
  intros y0 es y R. induction R as [y|y es y1 e y2 R IH G S]; intros RE C ST N.
  - pose proof (sound_base _ _ (reachable_sound _ _ RE)) as B.
    split; [exact ST|]. do 3 (split; [reflexivity|]). split; [intros; eapply b_err; eauto|]. split.
    { intros p k c A NK. left. split; [|eauto]. apply nth_error_Some. unfold at_code in A. congruence. }
    split; [lia|]. split; [reflexivity|]. intros p a [].
  - assert (N1 : ~ arrives (KControl SHUT_DOWN) es) by (intros X; apply N; apply in_or_app; left; exact X).
    specialize (IH RE C ST N1). destruct e as [k|p a]; [|eapply failing_act; eauto].
    eapply failing_arrive; eauto. intros ->. apply N. apply in_or_app. right. left. reflexivity.
Qed.

Theorem error_stays : forall y0 es y, reachable P y0 -> calm y0 -> y_state y0 = TERROR ->
  runs anything P y0 es y -> ~ arrives (KControl SHUT_DOWN) es ->
  y_state y = TERROR /\ y_world y = y_world y0 /\
  (forall p a, In (EAct p a) es -> harmless a \/ a = ASetState TERROR) /\
  forall p k c, at_code y p k c -> k <> KTick -> length (y_procs y0) <= p ->
    acts p es <= 7 /\
    (ended c = true -> exists ts, c = Done false ts) /\
    (ended c = false -> exists a y', step P y (EAct p a) y').
Proof.
  intros y0 es y RE C ST R N. destruct (failing_runs _ _ _ R RE C ST N) as (HS & HW & HO & HP & HT & HH & HL & HA & HE).
  repeat (split; [assumption|]). intros p k c A NK L. destruct (HH _ _ _ A NK) as [[X _]|(_ & n & b & X1 & X2 & X3)]; [lia|].
  split; [lia|]. split.
  - intros E. destruct c; try discriminate; cbn in X1; [subst; eauto|tauto].
  - intros E. destruct c; cbn in X1; try discriminate; try tauto;
      eexists; eexists; (eapply st_act; [exact A| |]); try (constructor; fail).
Qed.

(** ** Edits exclude each other *)

Fixpoint lk (b : bool) (c : code) {struct c} : Prop :=
  match c with
  | Done _ _ | Crash => b = false
  | ReadState k => forall s, lk b (k s)
  | WriteState _ k => lk b k
  | ReadThread k => b = false /\ forall o, lk b (k o)
  | NewThread k | StartT _ k | JoinT _ k | WriteOnce _ k | WriteStop _ k | Init k | Unlink k | ClearSub k => b = false /\ lk b k
  | Alive _ k | RosOk k | ReadOnce k | ReadStop k | Orphans k => b = false /\ forall x, lk b (k x)
  | Root k => b = false /\ forall r, lk b (k r)
  | Call _ k | InCall _ k => b = false /\ forall r, lk b (k r)
  | RootState k => b = false /\ forall s, lk b (k s)
  | Push k => b = false /\ forall r, lk b (k r)
  | Lock k => b = false /\ lk true k
  | Unlock k => b = true /\ lk false k
  | Edit k | InEdit k => b = true /\ forall x, lk b (k x)
  | Goto _ => b = false
  end.
Ltac lks := repeat (cbn -[state_in];
  match goal with
  | |- _ /\ _ => split
  | |- ?a = ?a => reflexivity
  | |- forall x : tstate, _ => intros []
  | |- forall x : rootres, _ => intros []
  | |- forall x : option nat, _ => intros [?|]
  | |- forall x : res _, _ => intros [?|?|]
  | |- forall x : bool, _ => intros []
  | |- forall x, _ => intro
  | |- context [state_in ?s ?l] => destruct (state_in s l)
  | |- context [state_eqb ?s ?l] => destruct (state_eqb s l)
  end).
Lemma lk_body : forall l, lk false (body l).
Proof. intros l. destruct l; try destruct sd; lks. Qed.
Lemma lk_first : forall k, lk false (first_code k).
Proof. intros k. destruct k as [|c|b]; [apply lk_body| |destruct b; lks]. destruct c; lks. Qed.
Lemma lk_step : forall b c a c', lk b c -> lstep c a c' ->
  match a with ALock => b = false /\ lk true c' | AUnlock => b = true /\ lk false c' | _ => lk b c' end.
Proof.
  intros b c a c' H S. destruct S; cbn in H; auto; lazymatch type of H with _ /\ _ => destruct H as [? H] | _ => idtac end; subst; auto.
  - destruct b0; cbn; auto.
  - destruct r; cbn; auto.
  - destruct b0; cbn; auto.
  - destruct r; cbn; auto.
  - apply lk_body.
Qed.
Definition locks y : Prop := forall p k c, at_code y p k c -> lk false c \/ (lk true c /\ y_lock y = Some p).
Lemma effect_lock : forall p y a y', effect P p y a y' ->
  y_lock y' = match a with ALock => Some p | AUnlock => None | _ => y_lock y end.
Proof. intros p y a y' E. destruct E; reflexivity. Qed.
Lemma locks_step : forall y e y', locks y -> step P y e y' -> locks y'.
Proof.
  intros y e y' H S. destruct S as [y k N|y p k c a c' y' A LS E].
  - intros q k' d X. destruct (at_arrival _ _ _ _ _ X) as [Z|(-> & -> & ->)]; [apply (H _ _ _ Z)|].
    left. apply lk_first.
  - pose proof (effect_lock _ _ _ _ E) as L. intros q kq d X. change (y_lock (with_proc y' p (k, Some c'))) with (y_lock y').
    destruct (with_proc_at _ _ _ _ _ _ X) as [[-> Z]|[NQ Z]].
    + injection Z as <- <-. destruct (H _ _ _ A) as [HL|[HL HY]]; pose proof (lk_step _ _ _ _ HL LS) as G; rewrite L;
        destruct a; auto; destruct G as [G1 G2]; try discriminate; auto.
    + destruct (effect_procs _ _ _ _ _ _ _ E Z) as [Z'|(-> & -> & ->)]; [|left; apply lk_body].
      destruct (H _ _ _ Z') as [HL|[HL HY]]; [left; exact HL|right]. split; [exact HL|]. rewrite L.
      destruct a; auto.
      * inversion E; subst. congruence.
      * destruct (H _ _ _ A) as [G|[G HY']]; [pose proof (lk_step _ _ _ _ G LS) as [X1 _]; discriminate|congruence].
Qed.
Theorem edits_exclude : forall y p q, reachable_any P y -> editing y p -> editing y q -> p = q.
Proof.
  intros y p q (w & es & R) (k1 & f1 & A1) (k2 & f2 & A2).
  assert (H : locks y).
  { clear A1 A2. remember (fresh w) as y0 eqn:E0. revert E0.
    induction R as [y|y es y1 e y2 R IH G S]; intros ->; [|eapply locks_step; eauto].
    intros q' k c A. unfold at_code in A. cbn in A. destruct q'; discriminate. }
  destruct (H _ _ _ A1) as [[X _]|[_ X]]; [discriminate|]. destruct (H _ _ _ A2) as [[Y _]|[_ Y]]; [discriminate|]. congruence.
Qed.

(** ** SETUP_AND_SHUTDOWN *)

Fixpoint unset (c : code) : Prop :=
  match c with
  | ReadState k => forall s, unset (k s)
  | WriteState _ k | NewThread k | JoinT _ k | WriteOnce _ k | WriteStop _ k | Init k | Unlink k | ClearSub k
  | Lock k | Unlock k => unset k
  | StartT _ _ => False
  | ReadThread k => forall o, unset (k o)
  | Alive _ k | RosOk k | ReadOnce k | ReadStop k | Orphans k | Edit k | InEdit k => forall x, unset (k x)
  | Root k => forall r, unset (k r)
  | Call o k | InCall o k => o <> OSetup /\ forall r, unset (k r)
  | RootState k => forall s, unset (k s)
  | Push k => forall r, unset (k r)
  | Goto (LStopWait _ _) => True
  | Goto _ => False
  | _ => True
  end.
Ltac uns := repeat (cbn -[state_in];
  match goal with
  | |- _ /\ _ => split
  | |- True => exact I
  | |- _ <> _ => discriminate
  | |- forall x : tstate, _ => intros []
  | |- forall x : rootres, _ => intros []
  | |- forall x : option nat, _ => intros [?|]
  | |- forall x : res _, _ => intros [?|?|]
  | |- forall x : bool, _ => intros []
  | |- forall x, _ => intro
  | |- context [state_in ?s ?l] => destruct (state_in s l)
  end).
Lemma unset_first : unset (first_code (KControl SETUP_AND_SHUTDOWN)).
Proof. uns. Qed.
Lemma unset_step : forall c a c', unset c -> lstep c a c' -> unset c' /\ a <> ABegin OSetup /\ forall t b, a <> AStart t b.
Proof.
  intros c a c' H S. destruct S; cbn in H; try contradiction; (split; [|split; [|intros; discriminate]]); try discriminate; auto.
  - destruct H. congruence.
  - destruct H. destruct r; cbn; auto.
  - destruct b; cbn; auto.
  - destruct r; cbn; auto.
  - destruct l; try tauto. destruct sd; uns.
Qed.
Theorem setup_never : forall y0 y1 es y, step P y0 (EArrive (KControl SETUP_AND_SHUTDOWN)) y1 ->
  runs anything P y1 es y -> let p := length (y_procs y0) in
  ~ In (EAct p (ABegin OSetup)) es /\ forall t b, ~ In (EAct p (AStart t b)) es.
Proof.
  intros y0 y1 es y S R p.
  enough (H : (exists c, at_code y p (KControl SETUP_AND_SHUTDOWN) c /\ unset c) /\
    ~ In (EAct p (ABegin OSetup)) es /\ forall t b, ~ In (EAct p (AStart t b)) es) by apply H.
  inversion S; subst. remember (with_procs y0 _) as y1 eqn:E1. revert E1. induction R as [y1|y1 es y2 e y3 R IH G S2]; intros ->.
  - split; [|split; [intros []|intros t b []]]. exists (first_code (KControl SETUP_AND_SHUTDOWN)). split; [|apply unset_first].
    unfold at_code, p. cbn -[control]. rewrite nth_error_app2 by lia. rewrite Nat.sub_diag. reflexivity.
  - destruct (IH S eq_refl) as ((c & A & U) & N1 & N2).
    inversion S2 as [yy k NK|yy q k d a d' y' Aq LS E]; subst.
    + split; [exists c; split; [apply at_arrival_old; exact A|exact U]|].
      split; intros; intros X; apply in_app_or in X; destruct X as [X|[X|[]]]; try discriminate; [apply N1; exact X|eapply N2; exact X].
    + pose proof (effect_started P _ _ _ _ _ _ _ E A) as A2. destruct (Nat.eq_dec q p) as [->|NQ].
      * assert (k = KControl SETUP_AND_SHUTDOWN /\ d = c) as [-> ->] by (unfold at_code in *; split; congruence).
        destruct (unset_step _ _ _ U LS) as (U2 & M1 & M2).
        split; [exists d'; split; [unfold at_code, with_proc, with_procs; cbn; eapply nth_set_same; exact A2|exact U2]|].
        split; intros; intros X; apply in_app_or in X; destruct X as [X|[X|[]]]; try (injection X as X);
          [apply N1; exact X|congruence|eapply N2; exact X|eapply M2; exact X].
      * split; [exists c; split; [unfold at_code, with_proc, with_procs in *; cbn; rewrite nth_set_other by congruence; exact A2|exact U]|].
        split; intros; intros X; apply in_app_or in X; destruct X as [X|[X|[]]]; try (injection X as X);
          [apply N1; exact X|congruence|eapply N2; exact X|congruence].
Qed.
End Any.
