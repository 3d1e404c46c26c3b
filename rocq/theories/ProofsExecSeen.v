(** A successful answer to STOP, SHUTDOWN or TICK_ONCE with full concurrency (C48, C49). *)
From Coq Require Import List Bool Arith Lia.
From Verif Require Import Base ModelExec SpecExec ProofsExec.
Import ListNotations.

(** The accesses of one process. *)
Fixpoint mine (p : nat) (es : list event) : list action :=
  match es with
  | [] => []
  | EAct q a :: l => if q =? p then a :: mine p l else mine p l
  | EArrive _ :: l => mine p l
  end.
Lemma mine_app : forall p a b, mine p (a ++ b) = mine p a ++ mine p b.
Proof. induction a as [|[k|q x] a IH]; intros b; cbn; auto. destruct (q =? p); cbn; rewrite IH; auto. Qed.

Inductive lpath : code -> list action -> code -> Prop :=
| lp_nil c : lpath c [] c
| lp_cons c a c1 l c2 : lstep c a c1 -> lpath c1 l c2 -> lpath c (a :: l) c2.
Lemma lp_snoc : forall c l c1 a c2, lpath c l c1 -> lstep c1 a c2 -> lpath c (l ++ [a]) c2.
Proof. intros c l c1 a c2 H. induction H; intros S; [repeat econstructor; eauto|]. cbn. econstructor; eauto. Qed.

Section Runs.
Context {W : Type} (P : plant W).
Lemma effect_proc : forall p y a y' q k c, effect P p y a y' -> nth_error (y_procs y) q = Some (k, Some c) ->
  nth_error (y_procs y') q = Some (k, Some c).
Proof.
  intros p y a y' q k c E H. destruct E; cbn; auto.
  - rewrite nth_error_app1; auto. apply nth_error_Some. congruence.
  - rewrite nth_set_other; auto. intros ->. congruence.
Qed.
Lemma runs_path : forall G y es y', runs G P y es y' -> forall p k c, at_code y p k c ->
  exists c', at_code y' p k c' /\ lpath c (mine p es) c'.
Proof.
  unfold at_code. intros G y es y' R. induction R as [y|y es y1 e y2 R IH _ S]; intros p k c H.
  - exists c. split; [auto|constructor].
  - destruct (IH _ _ _ H) as (c1 & H1 & L). rewrite mine_app.
    inversion S as [y0 k0 N|y0 q k0 c0 a c0' y0' Q LS E]; subst.
    + exists c1. cbn. rewrite app_nil_r. split; auto. rewrite nth_error_app1; auto.
      apply nth_error_Some. congruence.
    + pose proof (effect_proc _ _ _ _ _ _ _ E H1) as H2. cbn. destruct (Nat.eqb_spec q p) as [->|D].
      * rewrite H1 in Q. injection Q as <- <-. exists c0'. split; [|eapply lp_snoc; eauto].
        eapply nth_set_same; eauto.
      * exists c1. rewrite app_nil_r. split; auto. rewrite nth_set_other; auto.
Qed.
End Runs.

Definition sees (a : action) : Prop := exists t, a = AAlive t false.
(** Every way to a successful answer finds the thread ended. *)
Inductive must : code -> Prop :=
| m_false ts : must (Done false ts)
| m_crash : must Crash
| m_once : must (Goto LOnceWait)
| m_stop sd ts : must (Goto (LStopWait sd ts))
| m_step c : ended c = false -> (forall a c', lstep c a c' -> sees a \/ must c') -> must c.
(** The same from an access satisfying [trig] on. *)
Inductive until (trig : action -> Prop) : code -> Prop :=
| u_done b ts : until trig (Done b ts)
| u_crash : until trig Crash
| u_step c : ended c = false -> (forall a c', lstep c a c' -> (trig a /\ must c') \/ (~ trig a /\ until trig c')) -> until trig c.

Ltac ms := repeat first
  [ apply m_false | apply m_crash | apply m_once | apply m_stop
  | match goal with
    | |- must (if ?b then _ else _) => destruct b
    | |- must (match ?b with _ => _ end) => destruct b
    | |- must _ => apply m_step; [reflexivity|];
        let X := fresh in let a := fresh in let c' := fresh in intros a c' X; inversion X; clear X; subst
    | b : bool |- sees (AAlive _ ?b) \/ _ => is_var b; destruct b
    | |- sees (AAlive _ false) \/ _ => left; eexists; reflexivity
    | |- _ \/ must _ => right
    end].
Lemma must_once : must once_wait.
Proof. unfold once_wait, once_waited, answer, alive, join. ms. Qed.
Lemma must_stop : forall sd ts, must (stop_wait sd ts).
Proof. intros. unfold stop_wait, stop_waited, alive, join. ms. Qed.
Lemma must_path : forall c l c', lpath c l c' -> must c -> forall ts, c' = Done true ts -> exists t, In (AAlive t false) l.
Proof.
  induction 1 as [c|c a c1 l c2 S _ IH]; intros M ts E.
  - subst. inversion M; subst; discriminate.
  - assert (X : sees a \/ must c1).
    { inversion M; subst; auto; inversion S; subst; right; [apply must_once|apply must_stop]. }
    destruct X as [(t & ->)|X]; [exists t; left; auto|].
    destruct (IH X _ E) as (t & I). exists t. right. auto.
Qed.
Lemma until_path : forall trig c l c', lpath c l c' -> until trig c -> forall ts, c' = Done true ts ->
  forall a, In a l -> trig a -> exists l1 a l2 t, l = l1 ++ a :: l2 /\ trig a /\ In (AAlive t false) l2.
Proof.
  induction 1 as [c|c a c1 l c2 S L IH]; intros M ts E b I T; [destruct I|].
  inversion M as [| |? D N]; subst; [inversion S..|]. destruct (N _ _ S) as [(T1 & M1)|(T1 & M1)].
  - destruct (must_path _ _ _ L M1 _ eq_refl) as (t & J). exists [], a, l, t. auto.
  - destruct I as [->|I]; [tauto|]. destruct (IH M1 _ eq_refl _ I T) as (l1 & x & l2 & t & -> & Q & J).
    exists (a :: l1), x, l2, t. auto.
Qed.
Definition asks (a : action) : Prop := a = ASetState STOP_REQUESTED.
Definition begins (a : action) : Prop := exists t, a = AStart t true.
Ltac us := repeat first
  [ apply u_done | apply u_crash
  | match goal with
    | |- until _ (if ?b then _ else _) => destruct b
    | |- until _ (match ?b with _ => _ end) => destruct b
    | |- until _ _ => apply u_step; [reflexivity|];
        let X := fresh in let a := fresh in let c' := fresh in intros a c' X; inversion X; clear X; subst
    | |- (asks (ASetState STOP_REQUESTED) /\ _) \/ _ => left; split; [reflexivity|]; ms
    | |- (asks _ /\ _) \/ _ => right; split; [discriminate|]
    | b : bool |- (begins (AStart _ ?b) /\ _) \/ _ => is_var b; destruct b
    | |- (begins (AStart _ true) /\ _) \/ _ => left; split; [eexists; reflexivity|]; ms
    | |- (begins _ /\ _) \/ _ => right; split; [intros (? & ?); discriminate|]
    end ].
Lemma until_shut : forall ts, until asks (shutdown_part ts).
Proof. intros. unfold shutdown_part, answer. us. Qed.
Lemma until_fin : forall sd b ts, until asks (finish_stop sd b ts).
Proof. intros. unfold finish_stop. destruct sd; [apply until_shut|us]. Qed.
Ltac us1 := repeat first
  [ apply u_done | apply u_crash | apply until_fin
  | match goal with
    | |- until _ (if ?b then _ else _) => destruct b
    | |- until _ (match ?b with _ => _ end) => destruct b
    | |- until _ _ => apply u_step; [reflexivity|];
        let X := fresh in let a := fresh in let c' := fresh in intros a c' X; inversion X; clear X; subst
    | |- (asks (ASetState STOP_REQUESTED) /\ _) \/ _ => left; split; [reflexivity|]; ms
    | |- (asks _ /\ _) \/ _ => right; split; [discriminate|]
    end ].
Lemma until_part : forall sd s0 ts, until asks (stop_part sd s0 ts).
Proof. intros. unfold stop_part, alive, join. us1. Qed.
Lemma until_dispatch : forall c, c = STOP \/ c = SHUT_DOWN -> until asks (dispatch c).
Proof.
  intros c H. unfold dispatch. apply u_step; [reflexivity|]. intros a c' X. inversion X; subst.
  right. split; [discriminate|]. destruct s; destruct H as [-> | ->]; first [apply until_part|apply u_done].
Qed.
Ltac us2 L := repeat first
  [ apply L | apply u_done | apply u_crash
  | match goal with
    | |- until _ (if ?b then _ else _) => destruct b
    | |- until _ (match ?b with _ => _ end) => destruct b
    | |- until _ _ => apply u_step; [reflexivity|];
        let X := fresh in let a := fresh in let c' := fresh in intros a c' X; inversion X; clear X; subst
    | |- (asks _ /\ _) \/ _ => right; split; [discriminate|]
    | |- (begins _ /\ _) \/ _ => right; split; [intros (? & ?); discriminate|]
    end ].
Lemma until_stop : forall c, c = STOP \/ c = SHUT_DOWN -> until asks (control c).
Proof.
  intros c H. assert (R : until asks (renew c)).
  { pose proof (until_dispatch c H) as D. unfold renew, alive. us2 D. }
  unfold control, alive, join. us2 R.
Qed.
Lemma until_tonce : until begins tick_once_part.
Proof. unfold tick_once_part, there_and_alive, new_if_none, start, join, alive, answer. us. Qed.
Lemma until_once : until begins (control TICK_ONCE).
Proof.
  assert (D : until begins (dispatch TICK_ONCE)).
  { unfold dispatch. apply u_step; [reflexivity|]. intros a c' X. inversion X; subst.
    right. split; [intros (? & ?); discriminate|]. destruct s; first [apply until_tonce|apply u_done]. }
  assert (R : until begins (renew TICK_ONCE)) by (unfold renew, alive; us2 D).
  unfold control, alive, join. us2 R.
Qed.

Lemma mine_split : forall p es l1 a l2, mine p es = l1 ++ a :: l2 ->
  exists e1 e2, es = e1 ++ EAct p a :: e2 /\ mine p e1 = l1 /\ mine p e2 = l2.
Proof.
  induction es as [|[k|q b] es IH]; cbn; intros l1 a l2 H.
  - destruct l1; discriminate.
  - destruct (IH _ _ _ H) as (e1 & e2 & -> & M1 & M2). exists (EArrive k :: e1), e2. auto.
  - destruct (Nat.eqb_spec q p) as [->|D].
    + destruct l1 as [|c l1]; cbn in H; injection H as <- H.
      * exists [], es. auto.
      * destruct (IH _ _ _ H) as (e1 & e2 & -> & M1 & M2). exists (EAct p b :: e1), e2.
        cbn. rewrite Nat.eqb_refl, M1. auto.
    + destruct (IH _ _ _ H) as (e1 & e2 & -> & M1 & M2). exists (EAct q b :: e1), e2. cbn.
      rewrite (proj2 (Nat.eqb_neq _ _) D). auto.
Qed.
Lemma mine_In : forall p a es, In a (mine p es) <-> In (EAct p a) es.
Proof.
  induction es as [|[k|q b] es IH]; cbn; [tauto| |].
  - rewrite IH. split; auto. intros [X|X]; [discriminate|auto].
  - destruct (Nat.eqb_spec q p) as [->|D]; cbn; rewrite IH.
    + split; intros [X|X]; auto; left; congruence.
    + split; auto. intros [X|X]; [congruence|auto].
Qed.
Section Seen.
Context {W : Type} (P : plant W).
Lemma seen_gen : forall trig c, until trig (control c) -> forall G y0 y1 es y ts a,
  step P y0 (EArrive (KControl c)) y1 -> runs G P y1 es y -> answered y (length (y_procs y0)) true ts ->
  In (EAct (length (y_procs y0)) a) es -> trig a ->
  exists a', trig a' /\ ended_after (length (y_procs y0)) a' es.
Proof.
  intros trig c U G y0 y1 es y ts a S R (k & A) I T.
  inversion S as [? ? N|]; subst.
  assert (A0 : at_code (with_procs y0 (y_procs y0 ++ [(KControl c, Some (first_code (KControl c)))])) (length (y_procs y0)) (KControl c) (control c)).
  { unfold at_code. cbn. rewrite nth_error_app2, Nat.sub_diag; auto. }
  destruct (runs_path P _ _ _ _ R _ _ _ A0) as (c' & A1 & L).
  unfold at_code in A, A1. rewrite A1 in A. injection A as <- ->.
  destruct (until_path _ _ _ _ L U _ eq_refl _ (proj2 (mine_In _ _ _) I) T) as (l1 & b & l2 & t & E & Tb & J).
  destruct (mine_split _ _ _ _ _ E) as (e1 & e2 & -> & M1 & M2). subst l2. exists b. split; auto.
  exists (e1 ++ [EAct (length (y_procs y0)) b]), t, e2. rewrite <- app_assoc. split; [reflexivity|].
  split; [apply in_or_app; right; left; auto|apply mine_In; auto].
Qed.
Lemma stop_seen : forall c y0 y1 es y ts, c = STOP \/ c = SHUT_DOWN ->
  step P y0 (EArrive (KControl c)) y1 -> runs anything P y1 es y -> answered y (length (y_procs y0)) true ts ->
  In (EAct (length (y_procs y0)) (ASetState STOP_REQUESTED)) es ->
  ended_after (length (y_procs y0)) (ASetState STOP_REQUESTED) es.
Proof.
  intros c y0 y1 es y ts H S R A I. destruct (seen_gen _ _ (until_stop _ H) _ _ _ _ _ _ _ S R A I eq_refl) as (a & -> & X). auto.
Qed.
Lemma once_seen : forall y0 y1 es y ts t,
  step P y0 (EArrive (KControl TICK_ONCE)) y1 -> runs anything P y1 es y -> answered y (length (y_procs y0)) true ts ->
  In (EAct (length (y_procs y0)) (AStart t true)) es ->
  exists t', ended_after (length (y_procs y0)) (AStart t' true) es.
Proof.
  intros y0 y1 es y ts t S R A I.
  destruct (seen_gen _ _ until_once _ _ _ _ _ _ _ S R A I (ex_intro _ t eq_refl)) as (a & (t' & ->) & X). eauto.
Qed.
End Seen.

(** ** Each process executes its program *)
Section Programs.
Context {W : Type} (P : plant W).
Lemma mine_beyond : forall G w es y, runs G P (fresh w) es y -> forall l, length (y_procs y) <= l -> mine l es = [].
Proof.
  intros G w es y R. remember (fresh w) as y0 eqn:Y. induction R as [y|y es y1 e y2 R IH _ S]; intros l L; auto.
  specialize (IH Y). rewrite mine_app.
  inversion S as [y0 k0 N|y0 q k0 c0 a c0' y0' Q LS E]; subst; cbn in *.
  - rewrite IH; [auto|]. rewrite app_length in L. lia.
  - assert (LL : length (y_procs y1) <= length (y_procs y0')).
    { destruct E; cbn; rewrite ?set_nth_length, ?app_length; lia. }
    rewrite set_nth_length in L. rewrite IH by lia. destruct (Nat.eqb_spec q l) as [->|]; auto.
    assert (l < length (y_procs y1)) by (apply nth_error_Some; congruence). lia.
Qed.
Lemma runs_program : forall G w es y, runs G P (fresh w) es y -> forall p k o, nth_error (y_procs y) p = Some (k, o) ->
  match o with Some c => lpath (first_code k) (mine p es) c | None => mine p es = [] /\ k = KTick end.
Proof.
  intros G w es y R. remember (fresh w) as y0 eqn:Y. induction R as [y|y es y1 e y2 R IH _ S]; intros p k o H.
  - subst. destruct p; discriminate.
  - specialize (IH Y). rewrite mine_app.
    assert (B : forall l, length (y_procs y1) <= l -> mine l es = []) by (subst y; intros l; eapply mine_beyond; eauto).
    inversion S as [y0 k0 N|y0 q k0 c0 a c0' y0' Q LS E]; subst.
    + cbn in *. rewrite app_nil_r. apply nth_app_one in H. destruct H as [H|(-> & H)]; [exact (IH _ _ _ H)|].
      injection H as -> ->. rewrite B; [constructor|lia].
    + cbn. cbn in H. apply nth_set_inv in H. destruct H as [(-> & H)|(D & H)].
      * injection H as -> ->. rewrite Nat.eqb_refl. specialize (IH _ _ _ Q). cbn in IH. eapply lp_snoc; eauto.
      * rewrite (proj2 (Nat.eqb_neq q p)) by congruence. rewrite app_nil_r.
        destruct E; cbn in H; try exact (IH _ _ _ H).
        -- apply nth_app_one in H. destruct H as [H|(-> & H)]; [exact (IH _ _ _ H)|].
           injection H as -> ->. rewrite B; auto.
        -- apply nth_set_inv in H. destruct H as [(-> & H)|(D2 & H)]; [|exact (IH _ _ _ H)].
           injection H as -> ->. destruct (IH _ _ _ H0) as (-> & _). constructor.
Qed.
End Programs.

(** ** A tick thread ticks only a root it has found set up *)
Inductive noset : code -> Prop :=
| ns_done b ts : noset (Done b ts)
| ns_crash : noset Crash
| ns_loop : noset (Goto LLoop)
| ns_step c : ended c = false -> (forall a c', lstep c a c' -> a <> ABegin OSetup /\ noset c') -> noset c.
Inductive guarded : bool -> code -> Prop :=
| gd_done b x ts : guarded b (Done x ts)
| gd_crash b : guarded b Crash
| gd_step b c : ended c = false -> (forall a c', lstep c a c' ->
    (exists s, a = ARootState s /\ s <> UNINITIALIZED /\ s <> SHUTDOWN /\ (b = true -> s = IDLE) /\ noset c') \/
    (a <> ABegin OTick /\ exists b', (a = ABegin OSetup -> b' = true) /\ (b = true -> b' = true) /\ guarded b' c')) -> guarded b c.
Ltac ns := repeat first
  [ apply ns_done | apply ns_crash | apply ns_loop
  | match goal with
    | |- noset (if ?b then _ else _) => destruct b
    | |- noset (match ?b with _ => _ end) => destruct b
    | |- noset _ => apply ns_step; [reflexivity|];
        let X := fresh in let a := fresh in let c' := fresh in intros a c' X; inversion X; clear X; subst; (split; [discriminate|])
    end ].
Lemma noset_loop : noset tick_loop.
Proof. unfold tick_loop, tick_finish, tick_fail. ns. Qed.
Lemma noset_path : forall c l c', lpath c l c' -> noset c -> ~ In (ABegin OSetup) l.
Proof.
  induction 1 as [c|c a c1 l c2 S _ IH]; intros N; [intros []|].
  assert (X : a <> ABegin OSetup /\ noset c1).
  { inversion N; subst; try (inversion S; fail); [inversion S; subst; split; [discriminate|apply noset_loop]|auto]. }
  destruct X as [X Y]. intros [->|I]; [tauto|]. exact (IH Y I).
Qed.
Lemma guarded_path : forall c l c', lpath c l c' -> forall b, guarded b c -> forall l1 l2, l = l1 ++ ABegin OTick :: l2 ->
  exists k1 s k2, l1 = k1 ++ ARootState s :: k2 /\ s <> UNINITIALIZED /\ s <> SHUTDOWN /\ (b = true -> s = IDLE) /\
    (In (ABegin OSetup) l1 -> In (ABegin OSetup) k1 /\ s = IDLE).
Proof.
  induction 1 as [c|c a c1 l c2 S L IH]; intros b G l1 l2 E; [destruct l1; discriminate|].
  inversion G as [| |? ? D N]; subst; [inversion S..|].
  destruct (N _ _ S) as [(s & -> & A1 & A2 & A3 & A4)|(A1 & b' & A2 & A3 & A4)].
  - destruct l1 as [|x l1]; [discriminate|]. injection E as <- ->.
    exists [], s, l1. split; [auto|]. split; [auto|]. split; [auto|]. split; [auto|].
    intros [X|X]; [discriminate|]. exfalso. apply (noset_path _ _ _ L A4). apply in_or_app. auto.
  - destruct l1 as [|x l1]; [injection E as -> ->; tauto|]. injection E as <- ->.
    destruct (IH _ A4 _ _ eq_refl) as (k1 & s & k2 & -> & B1 & B2 & B3 & B4).
    exists (a :: k1), s, k2. split; [auto|]. split; [auto|]. split; [auto|]. split; [auto|].
    intros [->|X]; [split; [left; auto|auto]|]. destruct (B4 X) as [Y Z]. split; [right; auto|auto].
Qed.
Lemma guarded_main : guarded false tick_main.
Proof.
  unfold tick_main, tick_fail. apply gd_step; [reflexivity|]. intros a c' X. inversion X; clear X; subst.
  right. split; [discriminate|]. exists false. split; [discriminate|]. split; [auto|]. destruct b; cycle 1.
  - apply gd_step; [reflexivity|]. intros a c' X. inversion X; clear X; subst.
    right. split; [discriminate|]. exists false. split; [discriminate|]. split; [auto|]. destruct r; cycle 2.
    + apply gd_step; [reflexivity|]. intros a c' X. inversion X; clear X; subst.
      destruct (state_eqb s UNINITIALIZED || (state_eqb s SHUTDOWN || false)) eqn:SI.
      * right. split; [discriminate|]. exists false. split; [discriminate|]. split; [auto|].
        apply gd_step; [reflexivity|]. intros a c' X. inversion X; clear X; subst.
        right. split; [discriminate|]. exists false. split; [discriminate|]. split; [auto|].
        destruct b; [|constructor]. apply gd_step; [reflexivity|]. intros a c' X. inversion X; clear X; subst.
        right. split; [discriminate|]. exists true. split; [auto|]. split; [auto|].
        apply gd_step; [reflexivity|]. intros a c' X. inversion X; clear X; subst.
        right. split; [discriminate|]. exists true. split; [auto|]. split; [auto|].
        assert (Y : guarded true (RootState (fun s' => if state_eqb s' IDLE then Goto LLoop else WriteState TERROR (WriteState TERROR (Done true None))))).
        { apply gd_step; [reflexivity|]. intros a c' X. inversion X; clear X; subst. destruct (state_eqb s0 IDLE) eqn:E.
          - left. exists s0. destruct s0; try discriminate E. repeat split; try discriminate. apply ns_loop.
          - right. split; [discriminate|]. exists true. split; [auto|]. split; [auto|].
            apply gd_step; [reflexivity|]. intros a c' X. inversion X; clear X; subst.
            right. split; [discriminate|]. exists true. split; [auto|]. split; [auto|].
            apply gd_step; [reflexivity|]. intros a c' X. inversion X; clear X; subst.
            right. split; [discriminate|]. exists true. split; [auto|]. split; [auto|]. constructor. }
        destruct r; [exact Y|exact Y|constructor].
      * left. exists s. split; [auto|]. split; [intros ->; discriminate SI|]. split; [intros ->; discriminate SI|].
        split; [discriminate|]. apply ns_loop.
    + apply gd_step; [reflexivity|]. intros a c' X. inversion X; clear X; subst.
      right. split; [discriminate|]. exists false. split; [discriminate|]. split; [auto|]. constructor.
    + apply gd_step; [reflexivity|]. intros a c' X. inversion X; clear X; subst.
      right. split; [discriminate|]. exists false. split; [discriminate|]. split; [auto|]. constructor.
  - apply gd_step; [reflexivity|]. intros a c' X. inversion X; clear X; subst.
    right. split; [discriminate|]. exists false. split; [discriminate|]. split; [auto|]. constructor.
Qed.
Ltac nt := repeat match goal with
  | H : lstep _ _ _ |- _ => inversion H; clear H; subst; try discriminate
  end.
(** Only tick threads tick. *)
Inductive notick : code -> Prop :=
| nk_done b ts : notick (Done b ts)
| nk_crash : notick Crash
| nk_once : notick (Goto LOnceWait)
| nk_stop sd ts : notick (Goto (LStopWait sd ts))
| nk_step c : ended c = false -> (forall a c', lstep c a c' -> a <> ABegin OTick /\ notick c') -> notick c.
Ltac nk L := repeat first
  [ apply L | apply nk_done | apply nk_crash | apply nk_once | apply nk_stop
  | match goal with
    | |- notick (if ?b then _ else _) => destruct b
    | |- notick (match ?b with _ => _ end) => destruct b
    | |- notick _ => apply nk_step; [reflexivity|];
        let X := fresh in let a := fresh in let c' := fresh in intros a c' X; inversion X; clear X; subst; (split; [discriminate|])
    end ].
Lemma notick_shut : forall ts, notick (shutdown_part ts).
Proof. intros. unfold shutdown_part, answer. nk nk_done. Qed.
Lemma notick_fin : forall sd b ts, notick (finish_stop sd b ts).
Proof. intros. unfold finish_stop. destruct sd; [apply notick_shut|nk nk_done]. Qed.
Lemma notick_joined : forall sd ts, notick (stop_joined sd ts).
Proof. intros. unfold stop_joined. nk notick_fin. Qed.
Lemma notick_wait : forall sd ts, notick (stop_wait sd ts).
Proof. intros. unfold stop_wait, stop_waited, alive, join. nk notick_joined. Qed.
Lemma notick_once : notick once_wait.
Proof. unfold once_wait, once_waited, answer, alive, join. nk nk_done. Qed.
Lemma notick_part : forall sd s0 ts, notick (stop_part sd s0 ts).
Proof.
  intros. unfold stop_part, alive, join. destruct (tstate_eqb s0 TICKING); [nk notick_joined|].
  destruct (tstate_eqb s0 WAITING_FOR_TICK); nk notick_fin.
Qed.
Lemma notick_tonce : notick tick_once_part.
Proof. unfold tick_once_part, there_and_alive, new_if_none, start, join, alive, answer. nk nk_done. Qed.
Lemma notick_multi : forall b, notick (tick_multiple_part b).
Proof. intros. unfold tick_multiple_part, there_and_alive, new_if_none, start, join, alive, answer. nk nk_done. Qed.
Lemma notick_reset : notick reset_part.
Proof. unfold reset_part, there_and_alive, alive, answer. nk nk_done. Qed.
Lemma notick_dispatch : forall c, notick (dispatch c).
Proof.
  intros c. unfold dispatch. apply nk_step; [reflexivity|]. intros a c' X. inversion X; subst. split; [discriminate|].
  destruct s, c; try apply nk_done; try apply notick_part; try apply notick_tonce; try apply notick_multi; try apply notick_reset;
    unfold alive, answer; nk notick_part.
Qed.
Lemma notick_control : forall c, notick (control c).
Proof.
  intros c. assert (R : notick (renew c)) by (unfold renew, alive; nk (notick_dispatch c)).
  unfold control, alive, join. nk R.
Qed.
Lemma notick_edit : forall b, notick (edit b).
Proof. intros. unfold edit. nk nk_done. Qed.
Lemma notick_path : forall c l c', lpath c l c' -> notick c -> ~ In (ABegin OTick) l.
Proof.
  induction 1 as [c|c a c1 l c2 S _ IH]; intros N; [intros []|].
  assert (X : a <> ABegin OTick /\ notick c1).
  { inversion N; subst; try (inversion S; fail); auto;
      inversion S; subst; (split; [discriminate|]); [apply notick_once|apply notick_wait]. }
  destruct X as [X Y]. intros [->|I]; [tauto|]. exact (IH Y I).
Qed.
Section Ticks.
Context {W : Type} (P : plant W).
Lemma tick_after_setup : forall w es1 t es2 y, runs anything P (fresh w) (es1 ++ EAct t (ABegin OTick) :: es2) y ->
  (exists c, at_code y t KTick c) /\
  exists e1 s e2, es1 = e1 ++ EAct t (ARootState s) :: e2 /\ s <> UNINITIALIZED /\ s <> SHUTDOWN /\
    (In (EAct t (ABegin OSetup)) es1 -> In (EAct t (ABegin OSetup)) e1 /\ s = IDLE).
Proof.
  intros w es1 t es2 y R. pose proof (runs_program P _ _ _ _ R t) as K.
  destruct (nth_error (y_procs y) t) as [[k [c|]]|] eqn:N.
  - specialize (K _ _ eq_refl). cbn in K. rewrite mine_app in K. cbn in K. rewrite Nat.eqb_refl in K.
    assert (IN : In (ABegin OTick) (mine t es1 ++ ABegin OTick :: mine t es2)) by (apply in_or_app; right; left; auto).
    destruct k as [|c0|b].
    + split; [exists c; exact N|].
      destruct (guarded_path _ _ _ K _ guarded_main _ _ eq_refl) as (k1 & s & k2 & E & S1 & S2 & _ & S4).
      destruct (mine_split _ _ _ _ _ E) as (e1 & e2 & -> & M1 & M2). exists e1, s, e2.
      split; [auto|]. split; [auto|]. split; [auto|]. intros I. apply mine_In in I. destruct (S4 I) as [X Y].
      split; auto. apply mine_In. rewrite M1. auto.
    + exfalso. exact (notick_path _ _ _ K (notick_control c0) IN).
    + exfalso. exact (notick_path _ _ _ K (notick_edit b) IN).
  - specialize (K _ _ eq_refl). cbn in K. rewrite mine_app in K. cbn in K. rewrite Nat.eqb_refl in K.
    destruct K as [K _]. destruct (mine t es1); discriminate.
  - exfalso. clear K. apply nth_error_None in N.
    assert (B : mine t (es1 ++ EAct t (ABegin OTick) :: es2) = []).
    { eapply mine_beyond; eauto. }
    rewrite mine_app in B. cbn in B. rewrite Nat.eqb_refl in B. destruct (mine t es1); discriminate.
Qed.
End Ticks.
