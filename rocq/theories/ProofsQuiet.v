(** Proofs about what is left running when a tick reports a result. *)
From Coq Require Import List String ZArith Bool Arith Lia.
From Verif Require Import Base ModelData ModelUtility ModelTree SpecTree SpecQuiet ProofsTree ProofsLife ProofsWhole.
Import ListNotations.
Local Open Scope nat_scope.

(** The nodes that are not below one of the six classes. *)
Definition settles (k : kind) : bool :=
  match k with
  | KIgnoreRunning | KNameSwitch | KEnumSwitch _ | KThrottle | KThrottleSuccess | KIterateList => false
  | _ => true
  end.
Lemma settles_true : forall k, settles k = true -> settling k.
Proof. destruct k; simpl; auto; discriminate. Qed.
Lemma settles_false : forall k, settles k = false -> ~ settling k.
Proof. destruct k; simpl; auto; discriminate. Qed.

Fixpoint upper (t : tree) : list tree :=
  match t with T _ k _ cs => t :: (if settles k then flat_map upper cs else []) end.
Definition is_on {E} (w : world E) (n : nid) (k : kind) : bool :=
  settles k && match k with KOptional => a_exec (w_mem w n) | _ => true end.
Fixpoint uactive {E} (w : world E) (t : tree) : list tree :=
  match t with T n k _ cs => t :: (if is_on w n k then flat_map (uactive w) cs else []) end.

Lemma upper_sub : forall t s, In s (upper t) -> In s (subtrees t).
Proof.
  induction t as [n k name cs IH] using tree_ind'. intros s H. rewrite Forall_forall in IH. simpl in *.
  destruct H as [H|H]; [left; exact H|right]. destruct (settles k); [|destruct H].
  apply in_flat_map in H. destruct H as [c [Hc H]]. apply in_flat_map. eauto.
Qed.
Lemma uactive_sub : forall E (w : world E) t s, In s (uactive w t) -> In s (subtrees t).
Proof.
  intros E w. induction t as [n k name cs IH] using tree_ind'. intros s H. rewrite Forall_forall in IH. simpl in *.
  destruct H as [H|H]; [left; exact H|right]. destruct (is_on w n k); [|destruct H].
  apply in_flat_map in H. destruct H as [c [Hc H]]. apply in_flat_map. eauto.
Qed.
Lemma uactive_agree : forall E t (w w' : world E), agree (ids t) w w' -> uactive w' t = uactive w t.
Proof.
  intros E. induction t as [n k name cs IH] using tree_ind'. intros w w' H. rewrite Forall_forall in IH.
  assert (Hcs : flat_map (uactive w') cs = flat_map (uactive w) cs).
  { assert (Hc : forall c, In c cs -> uactive w' c = uactive w c).
    { intros c Hc. apply IH; auto. eapply agree_incl; [exact H|]. apply (incl_ids c n k name cs); auto. }
    clear - Hc. induction cs as [|c r IHr]; simpl; auto. rewrite Hc by (simpl; auto). rewrite IHr; auto. intros; apply Hc; simpl; auto. }
  simpl. rewrite Hcs. unfold is_on. destruct (H n) as [_ Hm]; [simpl; auto|]. rewrite Hm. reflexivity.
Qed.

(** Every node that the tree uses is in that part, or below one of the six classes. *)
Lemma active_split : forall E (w : world E) t x, In x (active w t) ->
  In x (uactive w t) \/
  exists n k name cs, In (T n k name cs) (active w t) /\ ~ settling k /\ In x (flat_map subtrees cs).
Proof.
  intros E w. induction t as [n k name cs IH] using tree_ind'. intros x H. rewrite Forall_forall in IH.
  assert (Hx : x = T n k name cs \/ (In x (flat_map (active w) cs) /\ incl (flat_map (active w) cs) (active w (T n k name cs)) /\
    (settles k = true -> is_on w n k = true))).
  { simpl in H. destruct H as [H|H]; [left; auto|right]. unfold is_on. simpl.
    destruct k; simpl; try (split; [exact H|split; [intros y Hy; right; exact Hy|auto; discriminate]]).
    destruct (a_exec (w_mem w n)); [|destruct H].
    split; [exact H|split; [intros y Hy; right; exact Hy|auto]]. }
  destruct Hx as [->|[Hx [Hi Ho]]]; [left; simpl; auto|].
  pose proof Hx as Hx'. apply in_flat_map in Hx'. destruct Hx' as [c [Hc Hx']].
  destruct (settles k) eqn:Ek.
  - destruct (IH c Hc x Hx') as [Hu|[n' [k' [name' [cs' [H1 [H2 H3]]]]]]].
    + left. simpl. rewrite (Ho eq_refl). right. apply in_flat_map. eauto.
    + right. exists n', k', name', cs'. split; [apply Hi; apply in_flat_map; eauto|auto].
  - right. exists n, k, name, cs. split; [simpl; auto|]. split; [apply settles_false; exact Ek|].
    apply in_flat_map. exists c. split; [exact Hc|]. eapply active_sub; eauto.
Qed.

(** Nothing that the tree uses is running, above the six classes. *)
Definition qt {E} (w : world E) (t : tree) : Prop :=
  forall n k name cs, In (T n k name cs) (uactive w t) -> w_st w n <> RUNNING.

Lemma qt_agree : forall E t (w w' : world E), agree (ids t) w w' -> qt w t -> qt w' t.
Proof.
  intros E t w w' H Ha n k name cs Hin. rewrite (uactive_agree _ _ _ _ H) in Hin.
  destruct (H n) as [A B].
  { apply uactive_sub in Hin. apply subtrees_ids in Hin. apply Hin. simpl; auto. }
  rewrite A. apply (Ha n k name cs); auto.
Qed.
Lemma qt_root : forall E (w : world E) t, qt w t -> w_st w (t_id t) <> RUNNING.
Proof. intros E w [n k name cs] H. apply (H n k name cs). simpl. auto. Qed.
Lemma qt_up : forall E (w : world E) n k name cs, w_st w n <> RUNNING ->
  (is_on w n k = true -> forall c, In c cs -> qt w c) -> qt w (T n k name cs).
Proof.
  intros E w n k name cs H1 H2 n' k' name' cs' [H|H]; [inversion H; subst; exact H1|].
  destruct (is_on w n k); [|destruct H]. apply in_flat_map in H. destruct H as [c [Hc H]].
  eapply (H2 eq_refl c Hc); eauto.
Qed.
Lemma qt_down : forall E (w : world E) n k name cs c, qt w (T n k name cs) -> is_on w n k = true -> In c cs -> qt w c.
Proof.
  intros E w n k name cs c H Ho Hc n' k' name' cs' Hin. apply (H n' k' name' cs'). simpl. right. rewrite Ho.
  apply in_flat_map. eauto.
Qed.
Lemma on_off : forall E (w : world E) n k, is_on w n k = true -> ~ off w n k.
Proof. intros E w n k H [-> H2]. unfold is_on in H. simpl in H. congruence. Qed.
Lemma off_on : forall E (w : world E) n k, settles k = true -> ~ off w n k -> is_on w n k = true.
Proof.
  intros E w n k H H1. unfold is_on. rewrite H. simpl. destruct k; auto. destruct (a_exec (w_mem w n)) eqn:Ea; auto.
  exfalso. apply H1. split; auto.
Qed.

(** What an operation may rely on, for a node in the state [sn]: the children that
    it will not touch any more are quiet.  Parallel does not touch children that
    have a result, the classes with memory those before the remembered one, and
    RepeatNoAutoReset its child after the last repetition. *)
Definition memc {E} (sn : state) (w : world E) (n : nid) (k : kind) (cs : list tree) : Prop :=
  match k with
  | KMemorySequence | KMemoryFallback =>
      finished sn = false -> forall i c, nth_error cs i = Some c -> i < a_lrc (w_mem w n) -> qt w c
  | KParallel | KParallelTolerance =>
      finished sn = false -> forall c, In c cs -> finished (w_st w (t_id c)) = true -> qt w c
  | KRepeatNoAutoReset =>
      (0 <= a_count (w_mem w n))%Z /\
      ((a_limit (w_mem w n) <= a_count (w_mem w n))%Z -> forall c, In c cs -> qt w c)
  | _ => True
  end.

(** A counter that only counts up from 0. *)
Definition cnt {E} (w : world E) (n : nid) (k : kind) : Prop :=
  k = KRepeatNoAutoReset -> (0 <= a_count (w_mem w n))%Z.

Definition kids_qt {E} (w : world E) (cs : list tree) : Prop := forall c, In c cs -> qt w c.
Definition kids_off_qt {E} (w : world E) (n : nid) (k : kind) (cs : list tree) : Prop :=
  forall c, In c cs -> off w n k \/ qt w c.

Definition local_ok {E} (w : world E) (n : nid) (k : kind) (cs : list tree) : Prop :=
  live (w_st w n) -> memc (w_st w n) w n k cs.

Definition Inv {E} (w : world E) (t : tree) : Prop :=
  forall n k name cs, In (T n k name cs) (upper t) -> local_ok w n k cs.
Definition kids_inv {E} (w : world E) (cs : list tree) : Prop := forall c, In c cs -> Inv w c.

Lemma memc_qt : forall E s (w : world E) n k cs, cnt w n k -> kids_qt w cs -> memc s w n k cs.
Proof.
  intros E s w n k cs H0 H. destruct k; simpl; auto.
  all: intros _ i c Hi _; apply H; eapply nth_error_In; eauto.
Qed.
Lemma memc_cnt : forall E s (w : world E) n k cs, memc s w n k cs -> cnt w n k.
Proof. intros E s w n k cs H ->. simpl in H. tauto. Qed.
Lemma kids_qt_off : forall E (w : world E) n k cs, kids_qt w cs -> kids_off_qt w n k cs.
Proof. intros E w n k cs H c Hc. right. auto. Qed.

Lemma t_id_ids : forall t, In (t_id t) (ids t).
Proof. destruct t; simpl; auto. Qed.
Lemma sub_child_ids : forall t n k name cs c,
  In (T n k name cs) (upper t) -> In c cs -> incl (ids c) (ids t).
Proof.
  intros t n k name cs c H Hc x Hx. apply upper_sub in H. apply subtrees_ids in H. apply H. simpl. right.
  apply in_flat_map. exists c. split; auto.
Qed.

Lemma memc_agree : forall E s (w w' : world E) n k cs, w_mem w' n = w_mem w n ->
  (forall c, In c cs -> agree (ids c) w w') -> memc s w n k cs -> memc s w' n k cs.
Proof.
  intros E s w w' n k cs H2 H3 B.
  assert (Q : forall c, In c cs -> qt w c -> qt w' c) by (intros c Hc; apply qt_agree; auto).
  unfold memc in *. rewrite H2. destruct k; auto.
  - intros Hf i c Hi Hlt. pose proof (nth_error_In _ _ Hi). eauto.
  - intros Hf i c Hi Hlt. pose proof (nth_error_In _ _ Hi). eauto.
  - intros Hf c Hc Hx. destruct (H3 c Hc (t_id c) (t_id_ids c)) as [A _]. rewrite A in Hx. auto.
  - intros Hf c Hc Hx. destruct (H3 c Hc (t_id c) (t_id_ids c)) as [A _]. rewrite A in Hx. auto.
  - destruct B as [B0 B]. split; auto.
Qed.

Lemma local_agree : forall E (w w' : world E) n k cs,
  w_st w' n = w_st w n -> w_mem w' n = w_mem w n ->
  (forall c, In c cs -> agree (ids c) w w') ->
  local_ok w n k cs -> local_ok w' n k cs.
Proof.
  intros E w w' n k cs H1 H2 H3 B. unfold local_ok in *. rewrite H1. intros Hl. eapply memc_agree; eauto.
Qed.

Lemma Inv_agree : forall E t (w w' : world E), agree (ids t) w w' -> Inv w t -> Inv w' t.
Proof.
  intros E t w w' Ha H n k name cs Hin.
  destruct (Ha n) as [A B]; [apply (subtrees_ids _ _ (upper_sub _ _ Hin)); simpl; auto|].
  eapply local_agree; eauto. intros c Hc. eapply agree_incl; [exact Ha|]. eapply sub_child_ids; eauto.
Qed.

Lemma Inv_intro : forall E (w : world E) n k name cs,
  local_ok w n k cs -> kids_inv w cs -> Inv w (T n k name cs).
Proof.
  intros E w n k name cs Hl Hk n' k' name' cs' Hin. simpl in Hin. destruct Hin as [Heq|Hin].
  - inversion Heq; subst. exact Hl.
  - destruct (settles k); [|destruct Hin]. apply in_flat_map in Hin. destruct Hin as [c [Hc Hin]]. eapply Hk; eauto.
Qed.
Lemma Inv_loose : forall E (w : world E) n k name cs, settles k = false -> Inv w (T n k name cs).
Proof.
  intros E w n k name cs Hs n' k' name' cs' Hin. simpl in Hin. rewrite Hs in Hin. destruct Hin as [Heq|[]].
  inversion Heq; subst. intros _. destruct k'; try discriminate; exact I.
Qed.
Lemma Inv_kids : forall E (w : world E) n k name cs, settles k = true -> Inv w (T n k name cs) -> kids_inv w cs.
Proof.
  intros E w n k name cs Hs H c Hc n' k' name' cs' Hin. apply (H n' k' name' cs'). simpl. rewrite Hs. right.
  apply in_flat_map. eauto.
Qed.

(** Nothing outside [S] changes (states and private memory). *)
Definition out {E} (S : list nid) (w w' : world E) : Prop :=
  forall m, ~ In m S -> w_st w' m = w_st w m /\ w_mem w' m = w_mem w m.

Lemma out_refl : forall E S (w : world E), out S w w.
Proof. intros E S w m _. auto. Qed.
Lemma out_trans : forall E S (a b c : world E), out S a b -> out S b c -> out S a c.
Proof. intros E S a b c H1 H2 m Hm. destruct (H1 m Hm), (H2 m Hm). split; congruence. Qed.
Lemma out_weaken : forall E S S' (a b : world E), incl S S' -> out S a b -> out S' a b.
Proof. intros E S S' a b Hi H m Hm. apply H. auto. Qed.
Lemma out_si : forall E S (a b : world E), stays_inside S a b -> out S a b.
Proof. intros E S a b [H _] m Hm. destruct (H m Hm) as [A [B _]]. auto. Qed.
Lemma out_agree : forall E S S' (a b : world E), out S a b -> disjoint S' S -> agree S' a b.
Proof. intros E S S' a b H Hd m Hm. apply H. apply Hd. exact Hm. Qed.

Lemma nodup_kids : forall cs c d, NoDup (flat_map ids cs) -> In c cs -> In d cs ->
  c = d \/ disjoint (ids c) (ids d).
Proof.
  induction cs as [|a r IH]; intros c d Hn Hc Hd; [destruct Hc|].
  simpl in Hn. apply NoDup_app_inv in Hn. destruct Hn as [N1 [N2 N3]].
  destruct Hc as [Hc|Hc], Hd as [Hd|Hd]; subst; auto.
  - right. intros x Hx Hx'. apply (N3 x Hx). apply in_flat_map. eauto.
  - right. intros x Hx Hx'. apply (N3 x Hx'). apply in_flat_map. eauto.
Qed.

Definition ends (o : op) : Prop := o = OSetup \/ o = OUntick \/ o = OReset.
Definition stops (o : op) : Prop := o = OUntick \/ o = OReset.

(** What stopping did to a child, unless an error was reported. *)
Definition step {E} (w w' : world E) (c : tree) : Prop :=
  qt w' c \/ (w_st w' (t_id c) = w_st w (t_id c) /\ (qt w c -> qt w' c)).
Lemma step_qt : forall E (w w' : world E) c, step w w' c -> qt w c -> qt w' c.
Proof. intros E w w' c [H|[_ H]] Hq; auto. Qed.
Lemma step_agree : forall E (w w' : world E) c, agree (ids c) w w' -> step w w' c.
Proof. intros E w w' c H. right. split; [apply H; apply t_id_ids|apply qt_agree; auto]. Qed.
Lemma step_fin : forall E (w w' : world E) c, step w w' c ->
  (finished (w_st w (t_id c)) = true -> qt w c) -> finished (w_st w' (t_id c)) = true -> qt w' c.
Proof. intros E w w' c [H|[H1 H]] Hq Hf; auto. rewrite H1 in Hf. auto. Qed.

Section Kids.
  Context {E : Type}.
  Variable ev : env E.
  Variable n : nid.

  (** What each child does. *)
  Record good (c : tree) (o : op) (w w' : world E) (r : res state) : Prop := {
    g_inv : Inv w' c;
    g_ok : forall s, r = Ok s -> o <> OShutdown -> s <> RUNNING -> qt w' c;
    g_stop : stops o -> r = Raise -> step w w' c;
    g_tick : o = OTick -> r = Raise -> finished (w_st w (t_id c)) = false ->
             finished (w_st w' (t_id c)) = true -> qt w' c }.
  Definition kept (cs : list tree) : Prop :=
    forall o c w w' r, In c cs -> Inv w c -> call o (obj_of ev c) w = (w', r) -> good c o w w' r.

  Lemma kept_tail : forall c r, kept (c :: r) -> kept r.
  Proof. intros c r H o c' w w' x Hc. apply H. simpl; auto. Qed.

  Lemma call_out : forall o c w w' r, call o (obj_of ev c) w = (w', r) -> out (ids c) w w'.
  Proof. intros o c w w' r H. pose proof (frame_tree E ev c o w) as K. rewrite H in K. apply out_si. exact K. Qed.

  Lemma call_ok : forall o c w w' s, o <> OShutdown -> call o (obj_of ev c) w = (w', Ok s) ->
    op_states o s /\ w_st w' (t_id c) = s.
  Proof. intros o [m k' nm cs] w w' s Ho H. exact (node_result E ev m k' nm _ o w w' s Ho H). Qed.

  Lemma ends_qt : forall o cs c w w' s, ends o -> kept cs -> In c cs -> Inv w c ->
    call o (obj_of ev c) w = (w', Ok s) -> qt w' c.
  Proof.
    intros o cs c w w' s Ho Hk Hc Hi H.
    assert (Ho' : o <> OShutdown) by (destruct Ho as [->|[->| ->]]; discriminate).
    destruct (call_ok o c w w' s Ho' H) as [A _].
    apply (g_ok _ _ _ _ _ (Hk o c w w' (Ok s) Hc Hi H) s eq_refl Ho').
    destruct Ho as [->|[->| ->]]; simpl in A; intuition congruence.
  Qed.
  Lemma tick_qt : forall cs c w w' s, kept cs -> In c cs -> Inv w c ->
    call OTick (obj_of ev c) w = (w', Ok s) -> s <> RUNNING -> qt w' c.
  Proof.
    intros cs c w w' s Hk Hc Hi H Hs.
    apply (g_ok _ _ _ _ _ (Hk OTick c w w' (Ok s) Hc Hi H) s eq_refl); [discriminate|exact Hs].
  Qed.

  (** One call on a child. *)
  Lemma other : forall cs c d o w w' r, NoDup (flat_map ids cs) -> In c cs -> In d cs ->
    call o (obj_of ev c) w = (w', r) -> c = d \/ agree (ids d) w w'.
  Proof.
    intros cs c d o w w' r Hn Hc Hd H. destruct (nodup_kids cs d c Hn Hd Hc) as [->|Hdis]; [left; reflexivity|right].
    eapply out_agree; [eapply call_out; eauto|exact Hdis].
  Qed.
  Lemma one : forall cs c o w w' r, NoDup (flat_map ids cs) -> kept cs -> In c cs -> kids_inv w cs ->
    call o (obj_of ev c) w = (w', r) -> kids_inv w' cs.
  Proof.
    intros cs c o w w' r Hn Hk Hc Hi H d Hd.
    destruct (other cs c d o w w' r Hn Hc Hd H) as [<-|Ha].
    - exact (g_inv _ _ _ _ _ (Hk o c w w' r Hc (Hi c Hc) H)).
    - eapply Inv_agree; [exact Ha|]. apply Hi; auto.
  Qed.

  Lemma tail_inv : forall c r w, kids_inv (E:=E) w (c :: r) -> kids_inv w r.
  Proof. intros c r w H d Hd. apply H. simpl; auto. Qed.

  Lemma head_agree : forall c r (w1 w2 : world E), NoDup (flat_map ids (c :: r)) ->
    out (flat_map ids r) w1 w2 -> agree (ids c) w1 w2.
  Proof.
    intros c r w1 w2 Hn Ho. simpl in Hn. apply NoDup_app_inv in Hn. destruct Hn as [_ [_ N]].
    eapply out_agree; eauto.
  Qed.
  Lemma head_agree_n : forall c r (w1 w2 : world E), ~ In n (flat_map ids (c :: r)) -> NoDup (flat_map ids (c :: r)) ->
    out (n :: flat_map ids r) w1 w2 -> agree (ids c) w1 w2.
  Proof.
    intros c r w1 w2 Hnn Hn Ho. simpl in Hn, Hnn. apply NoDup_app_inv in Hn. destruct Hn as [_ [_ N]].
    eapply out_agree; [exact Ho|].
    intros x Hx [Hx'|Hx']; [subst x; apply Hnn; apply in_or_app; auto|exact (N x Hx Hx')].
  Qed.
  Lemma tail_agree : forall c r (w1 w2 : world E) d, NoDup (flat_map ids (c :: r)) ->
    out (ids c) w1 w2 -> In d r -> agree (ids d) w1 w2.
  Proof.
    intros c r w1 w2 d Hn Ho Hd. simpl in Hn. apply NoDup_app_inv in Hn. destruct Hn as [_ [_ N]].
    eapply out_agree; [exact Ho|]. intros x Hx Hx'. apply (N x Hx'). apply in_flat_map; eauto.
  Qed.

  (** A step on the first child, then one on the others. *)
  Lemma cons_inv : forall c r (w1 w2 : world E), NoDup (flat_map ids (c :: r)) ->
    Inv w1 c -> kids_inv w2 r -> out (flat_map ids r) w1 w2 -> kids_inv w2 (c :: r).
  Proof.
    intros c r w1 w2 Hn Hc Hr Ho d [Hd|Hd]; [subst d|auto].
    eapply Inv_agree; [|exact Hc]. eapply head_agree; eauto.
  Qed.
  Lemma cons_inv_n : forall c r (w1 w2 : world E), ~ In n (flat_map ids (c :: r)) -> NoDup (flat_map ids (c :: r)) ->
    Inv w1 c -> kids_inv w2 r -> out (n :: flat_map ids r) w1 w2 -> kids_inv w2 (c :: r).
  Proof.
    intros c r w1 w2 Hnn Hn Hc Hr Ho d [Hd|Hd]; [subst d|auto].
    eapply Inv_agree; [|exact Hc]. eapply head_agree_n; eauto.
  Qed.
  Lemma head_inv : forall c r w w1, NoDup (flat_map ids (c :: r)) ->
    kids_inv (E:=E) w (c :: r) -> out (ids c) w w1 -> kids_inv w1 r.
  Proof.
    intros c r w w1 Hn Hi Ho d Hd.
    eapply Inv_agree; [|apply Hi; simpl; auto]. eapply tail_agree; eauto.
  Qed.
  Lemma nodup_tail : forall c (r : list tree), NoDup (flat_map ids (c :: r)) -> NoDup (flat_map ids r).
  Proof. intros c r H. simpl in H. apply NoDup_app_inv in H. tauto. Qed.
  Lemma incl_head : forall c (r : list tree), incl (ids c) (flat_map ids (c :: r)).
  Proof. intros c r x Hx. simpl. apply in_or_app; auto. Qed.
  Lemma incl_tail : forall c (r : list tree), incl (flat_map ids r) (flat_map ids (c :: r)).
  Proof. intros c r x Hx. simpl. apply in_or_app; auto. Qed.

  Lemma out_cons : forall c r (w w1 w2 : world E), out (ids c) w w1 -> out (flat_map ids r) w1 w2 ->
    out (flat_map ids (c :: r)) w w2.
  Proof.
    intros c r w w1 w2 H1 H2. eapply out_trans; [eapply out_weaken; [apply incl_head|exact H1]|].
    eapply out_weaken; [apply incl_tail|exact H2].
  Qed.

  (** *** The loops *)

  Definition loop_post (cs : list tree) (w w' : world E) : Prop :=
    kids_inv w' cs /\ out (flat_map ids cs) w w'.

  Lemma head_post : forall o c rest w w1 r, NoDup (flat_map ids (c :: rest)) -> kept (c :: rest) ->
    kids_inv w (c :: rest) -> call o (obj_of ev c) w = (w1, r) -> loop_post (c :: rest) w w1.
  Proof.
    intros o c rest w w1 r Hn Hk Hi Ec. split.
    - eapply one; eauto. simpl; auto.
    - eapply out_weaken; [apply incl_head|]. eapply call_out; eauto.
  Qed.
  Lemma cons_post : forall o c rest w w1 w2 r, NoDup (flat_map ids (c :: rest)) -> kept (c :: rest) ->
    kids_inv w (c :: rest) -> call o (obj_of ev c) w = (w1, r) -> loop_post rest w1 w2 -> loop_post (c :: rest) w w2.
  Proof.
    intros o c rest w w1 w2 r Hn Hk Hi Ec [A B]. split.
    - eapply cons_inv; [exact Hn| |exact A|exact B].
      exact (g_inv _ _ _ _ _ (Hk o c w w1 r (or_introl eq_refl) (Hi c (or_introl eq_refl)) Ec)).
    - eapply out_cons; [eapply call_out; eauto|exact B].
  Qed.
  Lemma skip_post : forall c rest w w2, NoDup (flat_map ids (c :: rest)) ->
    kids_inv w (c :: rest) -> loop_post rest w w2 -> loop_post (c :: rest) w w2.
  Proof.
    intros c rest w w2 Hn Hi [A B]. split.
    - eapply cons_inv; [exact Hn|apply Hi; simpl; auto|exact A|exact B].
    - eapply out_cons; [apply out_refl|exact B].
  Qed.

  Lemma qt_cons : forall c rest (w1 w2 : world E), NoDup (flat_map ids (c :: rest)) ->
    out (flat_map ids rest) w1 w2 -> qt w1 c -> kids_qt w2 rest -> kids_qt w2 (c :: rest).
  Proof.
    intros c rest w1 w2 Hn Ho H1 H2 d [Hd|Hd]; [subst d|auto].
    eapply qt_agree; [|exact H1]. eapply head_agree; eauto.
  Qed.

  Lemma step_head : forall c (w w1 w2 : world E), agree (ids c) w1 w2 -> step w w1 c -> step w w2 c.
  Proof.
    intros c w w1 w2 Ha [H|[H1 H]].
    - left. eapply qt_agree; eauto.
    - right. split; [rewrite <- H1; apply Ha; apply t_id_ids|]. intros Hq. eapply qt_agree; eauto.
  Qed.
  Lemma step_tail : forall d (w w1 w2 : world E), agree (ids d) w w1 -> step w1 w2 d -> step w w2 d.
  Proof.
    intros c w w1 w2 Ha [H|[H1 H]]; [left; exact H|].
    right. split; [rewrite H1; apply Ha; apply t_id_ids|]. intros Hq. apply H. eapply qt_agree; eauto.
  Qed.

  Lemma for_each_inv : forall o cs w w' r, ends o ->
    NoDup (flat_map ids cs) -> kept cs -> kids_inv w cs ->
    for_each (call o) (map (obj_of ev) cs) w = (w', r) ->
    loop_post cs w w' /\ (forall u, r = Ok u -> kids_qt w' cs) /\
    (stops o -> r = Raise -> forall c, In c cs -> step w w' c).
  Proof.
    intros o cs w w' r Ho.
    revert w. induction cs as [|c rest IH]; intros w Hn Hk Hi H; simpl in H.
    - inversion H; subst. split; [split; [exact Hi|apply out_refl]|]. split; [intros u _ c []|intros _ _ c []].
    - destruct (call o (obj_of ev c) w) as [w1 [s|e|]] eqn:Ec; simpl in H.
      + pose proof (call_out _ _ _ _ _ Ec) as O1.
        destruct (IH w1 (nodup_tail _ _ Hn) (kept_tail _ _ Hk) (head_inv _ _ _ _ Hn Hi O1) H) as [A [B C]].
        pose proof (ends_qt o (c :: rest) c w w1 s Ho Hk (or_introl eq_refl) (Hi c (or_introl eq_refl)) Ec) as Q.
        split; [eapply cons_post; eauto|]. destruct A as [A1 A2]. split.
        * intros u Hu. eapply qt_cons; eauto.
        * intros Hs Hr d [Hd|Hd]; [subst d; left; eapply qt_agree; [|exact Q]; eapply head_agree; eauto|].
          eapply step_tail; [eapply tail_agree; eauto|]. auto.
      + inversion H; subst. split; [eapply head_post; eauto|]. split; discriminate.
      + inversion H; subst. split; [eapply head_post; eauto|]. split; [discriminate|].
        intros Hs _ d [Hd|Hd].
        * subst d. exact (g_stop _ _ _ _ _ (Hk o c w w' Raise (or_introl eq_refl) (Hi c (or_introl eq_refl)) Ec) Hs eq_refl).
        * apply step_agree. eapply tail_agree; [exact Hn|eapply call_out; eauto|exact Hd].
  Qed.

  (** Untick the rest of the children after a child decided the result. *)
  Lemma untick_rest : forall c rest w w1 s w' r, NoDup (flat_map ids (c :: rest)) -> kept (c :: rest) ->
    kids_inv w (c :: rest) -> call OTick (obj_of ev c) w = (w1, Ok s) -> s <> RUNNING ->
    bind (for_each (call OUntick) (map (obj_of ev) rest) w1) (fun _ w2 => (w2, Ok s)) = (w', r) ->
    loop_post (c :: rest) w w' /\ (forall s', r = Ok s' -> s' = s /\ kids_qt w' (c :: rest)).
  Proof.
    intros c rest w w1 s w' r Hn Hk Hi Ec Hs H.
    pose proof (call_out _ _ _ _ _ Ec) as O1.
    pose proof (tick_qt (c :: rest) c w w1 s Hk (or_introl eq_refl) (Hi c (or_introl eq_refl)) Ec Hs) as Q.
    destruct (for_each (call OUntick) (map (obj_of ev) rest) w1) as [w2 r2] eqn:Ef.
    destruct (for_each_inv OUntick rest w1 w2 r2) as [A [B _]].
    { right; left; reflexivity. } { eapply nodup_tail; eauto. } { eapply kept_tail; eauto. } { eapply head_inv; eauto. } { exact Ef. }
    assert (w' = w2) by (destruct r2; simpl in H; congruence). subst w'.
    split; [eapply cons_post; eauto|]. intros s' ->. destruct r2 as [u| |]; simpl in H; inversion H; subst.
    split; [reflexivity|]. destruct A as [_ A]. eapply qt_cons; eauto.
  Qed.

  Definition loop_ok (cs : list tree) (w w' : world E) (r : res state) : Prop :=
    loop_post cs w w' /\ (forall s, r = Ok s -> s <> RUNNING -> kids_qt w' cs).

  Lemma sequence_loop_inv : forall cs w w' r,
    NoDup (flat_map ids cs) -> kept cs -> kids_inv w cs ->
    sequence_loop (map (obj_of ev) cs) w = (w', r) -> loop_ok cs w w' r.
  Proof.
    induction cs as [|c rest IH]; intros w w' r Hn Hk Hi H; cbn [sequence_loop map] in H.
    - inversion H; subst. split; [split; [exact Hi|apply out_refl]|]. intros s _ _ c [].
    - change (@o_tick E) with (call (E:=E) OTick) in H. change (@o_untick E) with (call (E:=E) OUntick) in H.
      destruct (call OTick (obj_of ev c) w) as [w1 [s|e|]] eqn:Ec; cbn [bind] in H.
      + pose proof (call_out _ _ _ _ _ Ec) as O1.
        destruct (state_eqb s SUCCEEDED) eqn:E1; cbn [negb] in H.
        * assert (s = SUCCEEDED) by (destruct s; simpl in E1; congruence). subst s.
          destruct (IH w1 w' r (nodup_tail _ _ Hn) (kept_tail _ _ Hk) (head_inv _ _ _ _ Hn Hi O1) H) as [A C].
          split; [eapply cons_post; eauto|]. destruct A as [_ A].
          intros s Hs Hs'. eapply qt_cons; eauto.
          eapply (tick_qt (c :: rest)); eauto; [left; reflexivity|apply Hi; left; reflexivity|discriminate].
        * destruct (state_eqb s RUNNING) eqn:E2; cbn [negb] in H.
          -- assert (s = RUNNING) by (destruct s; simpl in E2; congruence). subst s. inversion H; subst. split.
             ++ eapply head_post; eauto.
             ++ intros s Hs Hs'. inversion Hs; subst. congruence.
          -- assert (s <> RUNNING) by (intros ->; discriminate).
             destruct (untick_rest c rest w w1 s w' r) as [A B]; auto. split; auto. intros s' Hs' _. apply (B s'); auto.
      + inversion H; subst. split; [eapply head_post; eauto|discriminate].
      + inversion H; subst. split; [eapply head_post; eauto|discriminate].
  Qed.

  Lemma fallback_loop_inv : forall cs w w' r,
    NoDup (flat_map ids cs) -> kept cs -> kids_inv w cs ->
    fallback_loop (map (obj_of ev) cs) w = (w', r) -> loop_ok cs w w' r.
  Proof.
    induction cs as [|c rest IH]; intros w w' r Hn Hk Hi H; cbn [fallback_loop map] in H.
    - inversion H; subst. split; [split; [exact Hi|apply out_refl]|]. intros s _ _ c [].
    - change (@o_tick E) with (call (E:=E) OTick) in H. change (@o_untick E) with (call (E:=E) OUntick) in H.
      destruct (call OTick (obj_of ev c) w) as [w1 [s|e|]] eqn:Ec; cbn [bind] in H.
      + pose proof (call_out _ _ _ _ _ Ec) as O1.
        destruct (state_in s [SUCCEEDED; RUNNING]) eqn:E1.
        * destruct (state_eqb s SUCCEEDED) eqn:E2.
          -- assert (s <> RUNNING) by (intros ->; discriminate).
             destruct (untick_rest c rest w w1 s w' r) as [A B]; auto. split; auto. intros s' Hs' _. apply (B s'); auto.
          -- inversion H; subst. split; [eapply head_post; eauto|].
             intros s' Hs' Hr'. inversion Hs'; subst. destruct s'; simpl in *; congruence.
        * assert (s <> RUNNING) by (intros ->; discriminate).
          destruct (IH w1 w' r (nodup_tail _ _ Hn) (kept_tail _ _ Hk) (head_inv _ _ _ _ Hn Hi O1) H) as [A C].
          split; [eapply cons_post; eauto|]. destruct A as [_ A].
          intros s' Hs' Hr'. eapply qt_cons; eauto.
          eapply (tick_qt (c :: rest)); eauto; [left; reflexivity|apply Hi; left; reflexivity].
      + inversion H; subst. split; [eapply head_post; eauto|discriminate].
      + inversion H; subst. split; [eapply head_post; eauto|discriminate].
  Qed.

  (** The loops that skip children below the stored index. *)
  Definition below (w : world E) (index : nat) (cs : list tree) : Prop :=
    forall j c, nth_error cs j = Some c -> index + j < a_lrc (w_mem w n) -> qt w c.
  Definition mloop_ok (index : nat) (cs : list tree) (w w' : world E) (r : res state) : Prop :=
    kids_inv w' cs /\ out (n :: flat_map ids cs) w w' /\
    (forall s, r = Ok s -> s <> RUNNING -> kids_qt w' cs) /\
    (forall s, r = Ok s -> s = RUNNING -> index <= a_lrc (w_mem w' n) /\ below w' index cs) /\
    (r = Raise -> w_mem w' n = w_mem w n /\ below w' index cs).

  Lemma out_n_cons : forall c r (w w1 w2 : world E), out (ids c) w w1 -> out (n :: flat_map ids r) w1 w2 ->
    out (n :: flat_map ids (c :: r)) w w2.
  Proof.
    intros c r w w1 w2 H1 H2. eapply out_trans.
    - eapply out_weaken; [|exact H1]. intros x Hx. right. apply incl_head. exact Hx.
    - eapply out_weaken; [|exact H2]. intros x [Hx|Hx]; [left; auto|right; apply incl_tail; exact Hx].
  Qed.
  Lemma out_n : forall S (w w' : world E), out S w w' -> out (n :: S) w w'.
  Proof. intros S w w' H. eapply out_weaken; [|exact H]. intros x Hx. right. exact Hx. Qed.

  Lemma qt_cons_n : forall c rest (w1 w2 : world E), ~ In n (flat_map ids (c :: rest)) -> NoDup (flat_map ids (c :: rest)) ->
    out (n :: flat_map ids rest) w1 w2 -> qt w1 c -> kids_qt w2 rest -> kids_qt w2 (c :: rest).
  Proof.
    intros c rest w1 w2 Hnn Hn Ho H1 H2 d [Hd|Hd]; [subst d|auto].
    eapply qt_agree; [|exact H1]. eapply head_agree_n; eauto.
  Qed.
  Lemma not_in_tail : forall c (r : list tree), ~ In n (flat_map ids (c :: r)) -> ~ In n (flat_map ids r).
  Proof. intros c r H Hx. apply H. apply incl_tail. exact Hx. Qed.
  Lemma not_in_head : forall c (r : list tree), ~ In n (flat_map ids (c :: r)) -> ~ In n (ids c).
  Proof. intros c r H Hx. apply H. apply incl_head. exact Hx. Qed.

  (** One round of such a loop in which the child at [index] is ticked or skipped. *)
  Lemma mem_next : forall index c rest w w1 w' r,
    ~ In n (flat_map ids (c :: rest)) -> NoDup (flat_map ids (c :: rest)) ->
    Inv w1 c -> out (ids c) w w1 -> qt w1 c ->
    mloop_ok (S index) rest w1 w' r -> mloop_ok index (c :: rest) w w' r.
  Proof.
    intros index c rest w w1 w' r Hnn Hn I1 O1 C1 [A [B [C [D F]]]].
    assert (Hb : below w' (S index) rest -> below w' index (c :: rest)).
    { intros D2 j d Hj Hlt. destruct j as [|j]; simpl in Hj.
      - inversion Hj; subst d. eapply qt_agree; [|exact C1]. eapply head_agree_n; eauto.
      - apply (D2 j d Hj). lia. }
    split; [eapply cons_inv_n; eauto|]. split; [eapply out_n_cons; eauto|]. split; [|split].
    - intros s Hs Hs'. eapply qt_cons_n; eauto.
    - intros s Hs Hs'. destruct (D s Hs Hs') as [D1 D2]. split; [lia|auto].
    - intros Hr. destruct (F Hr) as [F1 F2]. split; [|auto].
      rewrite F1. apply O1. eapply not_in_head; eauto.
  Qed.

  Lemma below_tail : forall index c rest w w1, NoDup (flat_map ids (c :: rest)) ->
    ~ In n (flat_map ids (c :: rest)) -> out (ids c) w w1 ->
    below w index (c :: rest) -> below w1 (S index) rest.
  Proof.
    intros index c rest w w1 Hn Hnn Ho H j d Hj Hlt.
    destruct (Ho n (not_in_head _ _ Hnn)) as [_ Hm]. rewrite Hm in Hlt.
    eapply qt_agree; [eapply tail_agree; eauto; eapply nth_error_In; eauto|].
    apply (H (S j) d Hj). lia.
  Qed.

  Lemma mem_run : forall index c rest w w1, ~ In n (flat_map ids (c :: rest)) ->
    NoDup (flat_map ids (c :: rest)) -> kept (c :: rest) ->
    kids_inv w (c :: rest) -> call OTick (obj_of ev c) w = (w1, Ok RUNNING) ->
    mloop_ok index (c :: rest) w (mem_lrc w1 n index) (Ok RUNNING).
  Proof.
    intros index c rest w w1 Hnn Hn Hk Hi Ec.
    destruct (head_post _ _ _ _ _ _ Hn Hk Hi Ec) as [A B].
    split; [|split; [|split; [|split]]].
    - intros d Hd. eapply Inv_agree; [|apply A; exact Hd]. intros m Hm. simpl. split; auto.
      apply upd_neq. intros ->. apply Hnn. apply in_flat_map; eauto.
    - intros m Hm. destruct (B m) as [B1 B2]; [intros Hx; apply Hm; right; exact Hx|].
      simpl. rewrite B1. split; auto. rewrite upd_neq; auto. intros ->. apply Hm. left. reflexivity.
    - intros s Hs Hs'. congruence.
    - intros s _ _. simpl. rewrite upd_eq. simpl. split; [lia|].
      intros j d Hj Hlt. simpl in Hlt. rewrite upd_eq in Hlt. simpl in Hlt. lia.
    - discriminate.
  Qed.

  (** The child at [index] is ticked and ends the loop. *)
  Lemma mem_end : forall index c rest w w' r, ~ In n (flat_map ids (c :: rest)) ->
    index <? a_lrc (w_mem w n) = false -> loop_post (c :: rest) w w' ->
    (forall s, r = Ok s -> s <> RUNNING /\ kids_qt w' (c :: rest)) -> mloop_ok index (c :: rest) w w' r.
  Proof.
    intros index c rest w w' r Hnn El [A B] C. apply Nat.ltb_ge in El.
    split; [exact A|]. split; [apply out_n; exact B|]. split; [intros s Hs _; apply (C s Hs)|]. split.
    - intros s Hs Hr. destruct (C s Hs). contradiction.
    - intros _. destruct (B n Hnn) as [_ Hm]. split; [exact Hm|]. intros j d Hj Hlt. rewrite Hm in Hlt. lia.
  Qed.

  Lemma memory_sequence_loop_inv : forall cs index w w' r,
    ~ In n (flat_map ids cs) -> NoDup (flat_map ids cs) -> kept cs -> kids_inv w cs -> below w index cs ->
    memory_sequence_loop n index (map (obj_of ev) cs) w = (w', r) -> mloop_ok index cs w w' r.
  Proof.
    induction cs as [|c rest IH]; intros index w w' r Hnn Hn Hk Hi Hb H; cbn [memory_sequence_loop map] in H.
    - inversion H; subst. split; [exact Hi|]. split; [apply out_refl|]. split; [intros s _ _ c []|].
      split; [intros s Hs ->; congruence|discriminate].
    - change (@o_tick E) with (call (E:=E) OTick) in H. change (@o_untick E) with (call (E:=E) OUntick) in H.
      destruct (index <? a_lrc (w_mem w n)) eqn:El.
      { apply Nat.ltb_lt in El. eapply (mem_next index c rest w w); eauto.
        - apply Hi; simpl; auto.
        - apply out_refl.
        - apply (Hb 0 c eq_refl). lia.
        - apply IH; auto.
          + eapply not_in_tail; eauto.
          + eapply nodup_tail; eauto.
          + eapply kept_tail; eauto.
          + eapply tail_inv; eauto.
          + eapply below_tail; eauto. apply out_refl. }
      destruct (call OTick (obj_of ev c) w) as [w1 [s|e|]] eqn:Ec; cbn [bind] in H.
      + pose proof (call_out _ _ _ _ _ Ec) as O1.
        destruct (state_eqb s SUCCEEDED) eqn:E1; cbn [negb] in H.
        * assert (s = SUCCEEDED) by (destruct s; simpl in E1; congruence). subst s.
          eapply (mem_next index c rest w w1); eauto.
          { exact (g_inv _ _ _ _ _ (Hk OTick c w w1 _ (or_introl eq_refl) (Hi c (or_introl eq_refl)) Ec)). }
          { eapply (tick_qt (c :: rest)); eauto; [left; reflexivity|apply Hi; left; reflexivity|discriminate]. }
          apply IH; auto.
          { eapply not_in_tail; eauto. } { eapply nodup_tail; eauto. } { eapply kept_tail; eauto. } { eapply head_inv; eauto. }
          eapply below_tail; eauto.
        * destruct (state_eqb s RUNNING) eqn:E2.
          -- assert (s = RUNNING) by (destruct s; simpl in E2; congruence). subst s. inversion H; subst.
             apply mem_run; auto.
          -- assert (Hs : s <> RUNNING) by (intros ->; discriminate).
             destruct (untick_rest c rest w w1 s w' r) as [A B]; auto.
             apply mem_end; auto. intros s' Hs'. destruct (B s' Hs') as [-> B2]. auto.
      + inversion H; subst. apply mem_end; auto; [eapply head_post; eauto|discriminate].
      + inversion H; subst. apply mem_end; auto; [eapply head_post; eauto|discriminate].
  Qed.

  Lemma memory_fallback_loop_inv : forall cs index w w' r,
    ~ In n (flat_map ids cs) -> NoDup (flat_map ids cs) -> kept cs -> kids_inv w cs -> below w index cs ->
    memory_fallback_loop n index (map (obj_of ev) cs) w = (w', r) -> mloop_ok index cs w w' r.
  Proof.
    induction cs as [|c rest IH]; intros index w w' r Hnn Hn Hk Hi Hb H; cbn [memory_fallback_loop map] in H.
    - inversion H; subst. split; [exact Hi|]. split; [apply out_refl|]. split; [intros s _ _ c []|].
      split; [intros s Hs ->; congruence|discriminate].
    - change (@o_tick E) with (call (E:=E) OTick) in H. change (@o_untick E) with (call (E:=E) OUntick) in H.
      destruct (index <? a_lrc (w_mem w n)) eqn:El.
      { apply Nat.ltb_lt in El. eapply (mem_next index c rest w w); eauto.
        - apply Hi; simpl; auto.
        - apply out_refl.
        - apply (Hb 0 c eq_refl). lia.
        - apply IH; auto.
          + eapply not_in_tail; eauto.
          + eapply nodup_tail; eauto.
          + eapply kept_tail; eauto.
          + eapply tail_inv; eauto.
          + eapply below_tail; eauto. apply out_refl. }
      destruct (call OTick (obj_of ev c) w) as [w1 [s|e|]] eqn:Ec; cbn [bind] in H.
      + pose proof (call_out _ _ _ _ _ Ec) as O1.
        destruct (state_in s [SUCCEEDED; RUNNING]) eqn:E1.
        * destruct (state_eqb s RUNNING) eqn:E2.
          -- assert (s = RUNNING) by (destruct s; simpl in E2; congruence). subst s. inversion H; subst.
             apply mem_run; auto.
          -- assert (Hs : s <> RUNNING) by (intros ->; discriminate).
             destruct (untick_rest c rest w w1 s w' r) as [A B]; auto.
             apply mem_end; auto. intros s' Hs'. destruct (B s' Hs') as [-> B2]. auto.
        * assert (Hs : s <> RUNNING) by (intros ->; discriminate).
          eapply (mem_next index c rest w w1); eauto.
          { exact (g_inv _ _ _ _ _ (Hk OTick c w w1 _ (or_introl eq_refl) (Hi c (or_introl eq_refl)) Ec)). }
          { eapply (tick_qt (c :: rest)); eauto; [left; reflexivity|apply Hi; left; reflexivity]. }
          apply IH; auto.
          { eapply not_in_tail; eauto. } { eapply nodup_tail; eauto. } { eapply kept_tail; eauto. } { eapply head_inv; eauto. }
          eapply below_tail; eauto.
      + inversion H; subst. apply mem_end; auto; [eapply head_post; eauto|discriminate].
      + inversion H; subst. apply mem_end; auto; [eapply head_post; eauto|discriminate].
  Qed.

  (** Parallel nodes: the children with a result are quiet. *)
  Definition pcond (w : world E) (cs : list tree) : Prop :=
    forall c, In c cs -> finished (w_st w (t_id c)) = true -> qt w c.

  Lemma o_id_of : forall c, o_id (obj_of ev c) = t_id c.
  Proof. destruct c; reflexivity. Qed.

  Lemma pcond_cons : forall c rest (w w1 w2 : world E), NoDup (flat_map ids (c :: rest)) ->
    (finished (w_st w1 (t_id c)) = true -> qt w1 c) -> out (flat_map ids rest) w1 w2 ->
    pcond w2 rest -> pcond w2 (c :: rest).
  Proof.
    intros c rest w w1 w2 Hn Hc Ho Hp d [Hd|Hd]; [subst d|auto].
    pose proof (head_agree c rest w1 w2 Hn Ho) as Ha. intros Hf.
    destruct (Ha (t_id c) (t_id_ids c)) as [X _]. rewrite X in Hf. eapply qt_agree; eauto.
  Qed.
  Lemma pcond_tail : forall c rest (w w1 : world E), NoDup (flat_map ids (c :: rest)) ->
    out (ids c) w w1 -> pcond w (c :: rest) -> pcond w1 rest.
  Proof.
    intros c rest w w1 Hn Ho Hp d Hd Hf. pose proof (tail_agree c rest w w1 d Hn Ho Hd) as Ha.
    destruct (Ha (t_id d) (t_id_ids d)) as [X _]. rewrite X in Hf.
    eapply qt_agree; [exact Ha|]. apply Hp; simpl; auto.
  Qed.
  Lemma finished_not_running : forall s, finished s = true -> s <> RUNNING.
  Proof. intros s H ->. discriminate. Qed.

  Lemma parallel_loop_inv : forall cs a b w w' r,
    NoDup (flat_map ids cs) -> kept cs -> kids_inv w cs ->
    parallel_loop (map (obj_of ev) cs) a b w = (w', r) ->
    loop_post cs w w' /\ ((forall e, r <> Err e) -> pcond w cs -> pcond w' cs).
  Proof.
    induction cs as [|c rest IH]; intros a b w w' r Hn Hk Hi H; cbn [parallel_loop map] in H.
    - inversion H; subst. split; [split; [exact Hi|apply out_refl]|auto].
    - change (@o_tick E) with (call (E:=E) OTick) in H. rewrite o_id_of in H.
      destruct (finished (w_st w (t_id c))) eqn:Ef; cbn [negb] in H.
      + cbn [bind] in H.
        destruct (IH _ _ w w' r (nodup_tail _ _ Hn) (kept_tail _ _ Hk) (tail_inv _ _ _ Hi) H) as [A B].
        split; [eapply skip_post; eauto|]. intros He Hp. destruct A as [_ A].
        eapply (pcond_cons c rest w w); eauto; [intros Hf; apply Hp; simpl; auto|].
        apply B; auto. eapply pcond_tail; eauto. apply out_refl.
      + destruct (call OTick (obj_of ev c) w) as [w1 [s|e|]] eqn:Ec; cbn [bind] in H.
        * pose proof (call_out _ _ _ _ _ Ec) as O1.
          destruct (IH _ _ w1 w' r (nodup_tail _ _ Hn) (kept_tail _ _ Hk) (head_inv _ _ _ _ Hn Hi O1) H) as [A B].
          split; [eapply cons_post; eauto|]. intros He Hp. destruct A as [_ A].
          eapply (pcond_cons c rest w w1); eauto.
          -- intros Hf. eapply (tick_qt (c :: rest)); eauto; [left; reflexivity|apply Hi; left; reflexivity|].
             destruct (call_ok OTick c w w1 s) as [_ Q]; [discriminate|exact Ec|]. rewrite Q in Hf.
             apply finished_not_running. exact Hf.
          -- apply B; auto. eapply pcond_tail; eauto.
        * inversion H; subst. split; [eapply head_post; eauto|]. intros He. exfalso. eapply He; reflexivity.
        * inversion H; subst. split; [eapply head_post; eauto|]. intros _ Hp d [Hd|Hd] Hf.
          -- subst d.
             exact (g_tick _ _ _ _ _ (Hk OTick c w w' Raise (or_introl eq_refl) (Hi c (or_introl eq_refl)) Ec) eq_refl eq_refl Ef Hf).
          -- assert (Hq : pcond w' rest) by (eapply pcond_tail; [exact Hn|eapply call_out; eauto|exact Hp]). apply Hq; auto.
  Qed.

  Lemma untick_unfinished_inv : forall cs w w' r,
    NoDup (flat_map ids cs) -> kept cs -> kids_inv w cs -> pcond w cs ->
    untick_unfinished (map (obj_of ev) cs) w = (w', r) ->
    loop_post cs w w' /\ (forall u, r = Ok u -> kids_qt w' cs) /\ (r = Raise -> pcond w' cs).
  Proof.
    induction cs as [|c rest IH]; intros w w' r Hn Hk Hi Hp H; cbn [untick_unfinished map] in H.
    - inversion H; subst. split; [split; [exact Hi|apply out_refl]|]. split; [intros u _ c []|auto].
    - change (@o_untick E) with (call (E:=E) OUntick) in H. rewrite o_id_of in H.
      destruct (finished (w_st w (t_id c))) eqn:Ef.
      + assert (Q : qt w c) by (apply Hp; simpl; auto).
        destruct (IH w w' r (nodup_tail _ _ Hn) (kept_tail _ _ Hk) (tail_inv _ _ _ Hi)
                    (pcond_tail _ _ _ _ Hn (out_refl _ _ _) Hp) H) as [A [B C]].
        split; [eapply skip_post; eauto|]. destruct A as [_ A]. split.
        * intros u Hu. eapply qt_cons; eauto.
        * intros Hr. eapply (pcond_cons c rest w w); eauto.
      + destruct (call OUntick (obj_of ev c) w) as [w1 [s|e|]] eqn:Ec; cbn [bind] in H.
        * pose proof (call_out _ _ _ _ _ Ec) as O1.
          assert (Q : qt w1 c) by (eapply (ends_qt OUntick (c :: rest)); eauto;
            [right; left; reflexivity|left; reflexivity|apply Hi; left; reflexivity]).
          destruct (IH w1 w' r (nodup_tail _ _ Hn) (kept_tail _ _ Hk) (head_inv _ _ _ _ Hn Hi O1)
                      (pcond_tail _ _ _ _ Hn O1 Hp) H) as [A [B C]].
          split; [eapply cons_post; eauto|]. destruct A as [_ A]. split.
          -- intros u Hu. eapply qt_cons; eauto.
          -- intros Hr. eapply (pcond_cons c rest w w1); eauto.
        * inversion H; subst. split; [eapply head_post; eauto|]. split; discriminate.
        * inversion H; subst. split; [eapply head_post; eauto|]. split; [discriminate|]. intros _ d [Hd|Hd] Hf.
          -- subst d. eapply step_fin; [|apply Hp; left; reflexivity|exact Hf].
             exact (g_stop _ _ _ _ _ (Hk OUntick c w w' Raise (or_introl eq_refl) (Hi c (or_introl eq_refl)) Ec) (or_introl eq_refl) eq_refl).
          -- assert (Hq : pcond w' rest) by (eapply pcond_tail; [exact Hn|eapply call_out; eauto|exact Hp]). apply Hq; auto.
  Qed.
End Kids.

Lemma out_set_st_mem : forall E (w : world E) n key v,
  w_st (fst (out_set w n key v)) = w_st w /\ w_mem (fst (out_set w n key v)) = w_mem w.
Proof.
  intros E w n key v. unfold out_set. destruct (dget key (w_outs w n)); simpl; auto.
  destruct (set_value c v) as [c' [|e|]]; simpl; auto.
Qed.

Section Do.
  Context {E : Type}.
  Variable ev : env E.
  Variable n : nid.
  Variable k : kind.
  Variable cs : list tree.
  Hypothesis Hnn : ~ In n (flat_map ids cs).
  Hypothesis Hn : NoDup (flat_map ids cs).
  Hypothesis Hk : kept ev cs.

  (** After the body of an operation on a node that was in the state [sn]. *)
  Definition dpost (sn : state) (w' : world E) (r : res state) : Prop :=
    kids_inv w' cs /\
    (forall s, r = Ok s -> (s <> RUNNING -> kids_off_qt w' n k cs) /\ memc s w' n k cs) /\
    (live sn -> r = Raise -> memc sn w' n k cs).

  Lemma dpost_all : forall sn w' r, cnt w' n k -> kids_inv w' cs -> (forall s, r = Ok s -> kids_qt w' cs) ->
    (live sn -> r = Raise -> memc sn w' n k cs) -> dpost sn w' r.
  Proof.
    intros sn w' r H0 H1 H2 H3. split; auto. split; auto. intros s Hs. split.
    - intros _. apply kids_qt_off. eauto.
    - apply memc_qt; eauto.
  Qed.
  Lemma cnt_out : forall (w w' : world E), out (flat_map ids cs) w w' -> cnt w n k -> cnt w' n k.
  Proof. intros w w' H Hc Hx. destruct (H n Hnn) as [_ ->]. auto. Qed.
  Lemma cnt_call : forall o c w w' r, In c cs -> call o (obj_of ev c) w = (w', r) -> cnt w n k -> cnt w' n k.
  Proof.
    intros o c w w' r Hc H. apply cnt_out. eapply out_weaken; [|eapply call_out; eauto].
    intros x Hx. apply in_flat_map; eauto.
  Qed.
  Lemma dpost_err : forall sn w' e, kids_inv w' cs -> dpost sn w' (Err e).
  Proof. intros. split; auto. split; intros; discriminate. Qed.
  Lemma dpost_raise : forall sn w', kids_inv w' cs -> (live sn -> memc sn w' n k cs) -> dpost sn w' Raise.
  Proof. intros. split; auto. split; [intros; discriminate|auto]. Qed.

  (** Changes of the world that the children do not notice. *)
  Definition same (w w1 : world E) : Prop := out [n] w w1.
  Lemma same_agree : forall w w1 c, same w w1 -> In c cs -> agree (ids c) w w1.
  Proof.
    intros w w1 c H Hc. eapply out_agree; [exact H|].
    intros x Hx [Hx'|[]]. subst x. apply Hnn. apply in_flat_map; eauto.
  Qed.
  Lemma same_inv : forall w w1, same w w1 -> kids_inv w cs -> kids_inv w1 cs.
  Proof. intros w w1 H Hi c Hc. eapply Inv_agree; [|apply Hi; auto]. eapply same_agree; eauto. Qed.
  Lemma same_refl : forall w, same w w.
  Proof. intros w. apply out_refl. Qed.
  Lemma same_qt : forall w w1, same w w1 -> kids_qt w cs -> kids_qt w1 cs.
  Proof. intros w w1 H Hc c Hin. eapply qt_agree; [eapply same_agree; eauto|]. auto. Qed.

  Ltac ssame := let m := fresh "m" in let Hm0 := fresh "Hm0" in intros m Hm0; simpl; repeat (rewrite upd_neq; [|intros ->; apply Hm0; left; reflexivity]); auto.

  Lemma memc_step : forall s (w w' : world E), w_mem w' n = w_mem w n ->
    (forall c, In c cs -> step w w' c) -> memc s w n k cs -> memc s w' n k cs.
  Proof.
    intros s w w' H2 H3 B. pose proof (fun c Hc => step_qt E w w' c (H3 c Hc)) as Q.
    unfold memc in *. rewrite H2. destruct k; auto.
    - intros Hf i c Hi Hlt. pose proof (nth_error_In _ _ Hi). eauto.
    - intros Hf i c Hi Hlt. pose proof (nth_error_In _ _ Hi). eauto.
    - intros Hf c Hc. eapply step_fin; eauto.
    - intros Hf c Hc. eapply step_fin; eauto.
    - destruct B as [B0 B]. split; auto.
  Qed.

  Lemma each_d : forall o sn w w' r s0, ends o -> cnt w n k -> kids_inv w cs ->
    (live sn -> stops o /\ memc sn w n k cs) ->
    each_then (call o) (map (obj_of ev) cs) s0 w = (w', r) -> dpost sn w' r.
  Proof.
    intros o sn w w' r s0 Ho Hcn Hi Hs H. unfold each_then in H.
    destruct (for_each (call o) (map (obj_of ev) cs) w) as [w1 r1] eqn:Ef.
    destruct (for_each_inv ev o cs w w1 r1 Ho Hn Hk Hi Ef) as [[A B] [C D]].
    destruct r1 as [u|e|]; simpl in H; inversion H; subst.
    - apply dpost_all; auto; [eapply cnt_out; eauto| |discriminate]. intros s _. eapply C; eauto.
    - apply dpost_err; auto.
    - apply dpost_raise; auto. intros Hl. destruct (Hs Hl) as [S1 S2].
      destruct (B n Hnn) as [_ Hm]. eapply memc_step; eauto.
  Qed.

  Lemma one_kid : List.length cs <= 1 -> cs = [] \/ exists c, cs = [c].
  Proof. clear. intros H. destruct cs as [|c [|d r]]; simpl in H; eauto. lia. Qed.

  Lemma kid_qt : forall (w : world E) c, cs = [c] -> qt w c -> kids_qt w cs.
  Proof. intros w c H Hc d Hd. rewrite H in Hd. destruct Hd as [Hd|[]]. subst. exact Hc. Qed.
  Lemma no_kid_qt : forall (w : world E), cs = [] -> kids_qt w cs.
  Proof. intros w H d Hd. rewrite H in Hd. destruct Hd. Qed.
  Lemma kid_in : forall c, cs = [c] -> In c cs.
  Proof. intros c H. rewrite H. simpl. auto. Qed.

  Lemma one' : forall c o w w' r, In c cs -> kids_inv w cs ->
    call o (obj_of ev c) w = (w', r) -> kids_inv w' cs.
  Proof. intros c o w w' r Hc Hi H. eapply one; eauto. Qed.
  Lemma child_mem : forall w c w1 o r, In c cs -> call o (obj_of ev c) w = (w1, r) -> w_mem w1 n = w_mem w n.
  Proof.
    intros w c w1 o r Hc H. pose proof (call_out ev o c w w1 r H) as Ho. apply Ho.
    intros Hx. apply Hnn. apply in_flat_map; eauto.
  Qed.

  (** Stopping the only child raised. *)
  Lemma kid_step : forall c o w w', cs = [c] -> stops o -> kids_inv w cs ->
    call o (obj_of ev c) w = (w', Raise) -> forall d, In d cs -> step w w' d.
  Proof.
    intros c o w w' Ecs Ho Hi H d Hd. pose proof (kid_in c Ecs) as Hc.
    rewrite Ecs in Hd. destruct Hd as [Hd|[]]. subst d.
    exact (g_stop _ _ _ _ _ (Hk o c w w' Raise Hc (Hi c Hc) H) Ho eq_refl).
  Qed.

  Lemma first_d : forall o sn w w' r s0, ends o -> cnt w n k -> kids_inv w cs ->
    (live sn -> stops o /\ memc sn w n k cs) ->
    List.length cs <= 1 ->
    first_or (call o) (map (obj_of ev) cs) s0 w = (w', r) -> dpost sn w' r.
  Proof.
    intros o sn w w' r s0 Ho Hcn Hi Hs Hl H. destruct (one_kid Hl) as [Ecs|[c Ecs]]; rewrite Ecs in H; simpl in H.
    - inversion H; subst. apply dpost_all; auto; [|discriminate]. intros s _. apply no_kid_qt; auto.
    - pose proof (kid_in c Ecs) as Hc. apply dpost_all.
      + eapply cnt_call; eauto.
      + eapply one'; eauto.
      + intros s ->. apply (kid_qt w' c Ecs). eapply ends_qt; eauto.
      + intros Hl' ->. destruct (Hs Hl') as [S1 S2]. eapply memc_step; [eapply child_mem; eauto| |exact S2].
        eapply kid_step; eauto.
  Qed.

  (** No memory condition for the class. *)
  Definition plain : Prop := forall s w, @memc E s w n k cs.

  Lemma dpost_plain : forall sn w' r, plain -> kids_inv w' cs ->
    (forall s, r = Ok s -> s <> RUNNING -> kids_off_qt w' n k cs) -> dpost sn w' r.
  Proof. intros sn w' r Hp Hi H. split; auto. split; auto. intros s Hs. split; eauto. Qed.

  Lemma optional_d : forall o sn w w' r s0, o <> OShutdown -> k = KOptional -> kids_inv w cs ->
    List.length cs <= 1 ->
    optional_do (call o) n (map (obj_of ev) cs) s0 w = (w', r) -> dpost sn w' r.
  Proof.
    intros o sn w w' r s0 Ho Hko Hi Hl H. unfold optional_do in H.
    assert (Hp : plain) by (intros s x; unfold memc; rewrite Hko; exact I).
    destruct (a_exec (w_mem w n)) eqn:Ea.
    - destruct (one_kid Hl) as [Ecs|[c Ecs]]; rewrite Ecs in H; simpl in H.
      { inversion H; subst. apply dpost_plain; auto. discriminate. }
      pose proof (kid_in c Ecs) as Hc. apply dpost_plain; auto.
      + eapply one'; eauto.
      + intros s -> Hs. apply kids_qt_off. apply (kid_qt w' c Ecs).
        apply (g_ok _ _ _ _ _ (Hk o c w w' (Ok s) Hc (Hi c Hc) H) s eq_refl Ho Hs).
    - inversion H; subst. apply dpost_plain; auto. intros s _ _ c Hc. left. split; auto.
  Qed.

  (** *** Setup, untick and reset of every class *)

  Lemma optional_setup_d : forall sn w w' r, k = KOptional -> kids_inv w cs -> List.length cs <= 1 ->
    a_exec (w_mem w n) = false ->
    optional_setup_loop n (map (obj_of ev) cs) w = (w', r) -> dpost sn w' r.
  Proof.
    intros sn w w' r Hko Hi Hl Hx H.
    assert (Hp : plain) by (intros s x; unfold memc; rewrite Hko; exact I).
    destruct (one_kid Hl) as [Ecs|[c Ecs]]; rewrite Ecs in H; simpl in H.
    - inversion H; subst. apply dpost_plain; auto. intros s _ _. apply kids_qt_off. apply no_kid_qt; auto.
    - pose proof (kid_in c Ecs) as Hc.
      destruct (o_util (obj_of ev c) w) as [u|e|].
      + destruct (can_execute u).
        * change (@o_setup E) with (call (E:=E) OSetup) in H.
          assert (Hi' : kids_inv (mem_exec w n true) cs) by (eapply same_inv; [|exact Hi]; ssame).
          apply dpost_plain; auto.
          -- eapply one'; eauto.
          -- intros s -> _. apply kids_qt_off. apply (kid_qt w' c Ecs).
             refine (ends_qt ev OSetup cs c _ w' s _ Hk Hc (Hi' c Hc) H). left; reflexivity.
        * inversion H; subst. apply dpost_plain; auto. intros s _ _ d Hd. left. split; auto.
      + inversion H; subst. apply dpost_err; auto.
      + inversion H; subst. apply dpost_plain; auto. discriminate.
  Qed.
  Lemma leaf_d : forall sn w' r, cs = [] -> cnt w' n k -> dpost sn w' r.
  Proof.
    intros sn w' r H Hcn. apply dpost_all; auto.
    - intros c Hc. rewrite H in Hc. destruct Hc.
    - intros s _. apply no_kid_qt; auto.
    - intros _ _. apply memc_qt; auto. apply no_kid_qt; auto.
  Qed.

  Lemma plain_cnt : forall (w : world E), plain -> cnt w n k.
  Proof. intros w H. apply memc_cnt with IDLE cs. apply H. Qed.
  Ltac scnt := intros Hkk; first [congruence | simpl; rewrite ?upd_eq; simpl; try rewrite upd_eq; simpl; lia
     | match goal with Hm : memc _ _ _ KRepeatNoAutoReset _ |- _ => exact (proj1 Hm) end].

  Lemma dead_not_live : forall s (P : Prop), dead s -> live s -> P.
  Proof. intros s P H1 H2. exfalso. exact (H2 H1). Qed.

  Ltac seach Hside := match goal with H : each_then (call ?o) _ ?s0 ?w0 = (?w1, ?r0) |- dpost ?sn _ _ =>
    refine (each_d o sn w0 w1 r0 s0 _ _ _ _ H); [unfold ends; auto|scnt|eapply same_inv; [|eassumption]; ssame|Hside] end.
  Ltac sfirst Har Hside := match goal with H : first_or (call ?o) _ ?s0 ?w0 = (?w1, ?r0) |- dpost ?sn _ _ =>
    refine (first_d o sn w0 w1 r0 s0 _ _ _ _ Har H); [unfold ends; auto|scnt|eapply same_inv; [|eassumption]; ssame|Hside] end.
  Ltac sdead := let Hl := fresh in intros Hl; eapply dead_not_live; [eassumption|exact Hl].

  Ltac serr Har H :=
    match type of H with
    | match ?x with Ok _ => _ | Err _ => _ | Raise => _ end = _ => destruct x as [?|?|]; serr Har H
    | (if ?b then _ else _) = _ => destruct b; serr Har H
    | (_, Raise) = (_, ?r) => inversion H; subst; apply dpost_raise; [eapply same_inv; [|eassumption]; ssame|sdead]
    | (_, Err _) = _ => inversion H; subst; apply dpost_err; eapply same_inv; [|eassumption]; ssame
    | each_then _ _ _ _ = _ => seach sdead
    | first_or _ _ _ _ = _ => sfirst Har sdead
    end.

  Lemma do_setup_d : forall sn w w' r, arity_ok k (List.length cs) -> kids_inv w cs -> dead sn ->
    do_setup ev n k (map (obj_of ev) cs) w = (w', r) -> dpost sn w' r.
  Proof.
    intros sn w w' r Har Hi Hdd H. destruct k eqn:Ek; simpl in Har; unfold do_setup in H; cbn zeta in H;
      change (@o_setup E) with (call (E:=E) OSetup) in H;
      unfold with_in in H.
    all: try (apply leaf_d; [destruct cs; [reflexivity|discriminate]|intros Hkk; congruence]).
    all: try (seach sdead; fail).
    all: try (sfirst Har sdead; fail).
    all: try match goal with Hx : ?kk = KOptional |- _ =>
      eapply optional_setup_d; [exact Hx| |exact Har| |exact H];
        [eapply same_inv; [|exact Hi]; ssame|simpl; rewrite upd_eq; reflexivity] end.
    all: serr Har H.
  Qed.

  (** The own memory changes in a way that asks for less. *)
  Lemma memc_lrc0 : forall s (w : world E), k = KMemorySequence \/ k = KMemoryFallback -> memc s (mem_lrc w n 0) n k cs.
  Proof.
    intros s w [-> | ->] Hf i c _ Hlt; simpl in Hlt; rewrite upd_eq in Hlt; simpl in Hlt; lia.
  Qed.
  Ltac splain := let Hl := fresh in intros Hl; split; [unfold stops; auto|first [apply memc_lrc0; auto; fail
    | match goal with Q : k = _ |- _ => rewrite Q end; first [exact I | assumption]]].

  Lemma do_untick_d : forall sn w w' r, arity_ok k (List.length cs) -> kids_inv w cs -> memc sn w n k cs ->
    do_untick ev n k (map (obj_of ev) cs) w = (w', r) -> dpost sn w' r.
  Proof.
    intros sn w w' r Har Hi Hm H. destruct k eqn:Ek; simpl in Har; unfold do_untick in H; cbn zeta in H;
      try change (@o_untick E) with (call (E:=E) OUntick) in H.
    all: try (apply leaf_d; [destruct cs; [reflexivity|discriminate]|intros Hkk; congruence]).
    all: try (seach splain; fail).
    all: try (sfirst Har splain; fail).
    eapply optional_d; [| | | |exact H]; auto. discriminate.
  Qed.

  Lemma do_reset_d : forall sn w w' r, arity_ok k (List.length cs) -> kids_inv w cs -> memc sn w n k cs ->
    do_reset ev n k (map (obj_of ev) cs) w = (w', r) -> dpost sn w' r.
  Proof.
    intros sn w w' r Har Hi Hm H. destruct k eqn:Ek; simpl in Har; unfold do_reset in H; cbn zeta in H;
      try change (@o_reset E) with (call (E:=E) OReset) in H.
    all: try (apply leaf_d; [destruct cs; [reflexivity|discriminate]|intros Hkk; congruence]).
    all: try (seach splain; fail).
    all: try (sfirst Har splain; fail).
    - destruct (Z.ltb (a_count _) _) eqn:Ez; [sfirst Har splain|].
      inversion H; subst w' r. apply dpost_all; auto; [scnt| |discriminate]. intros s _. intros c Hc. apply (proj2 Hm); auto.
      apply Z.ltb_ge in Ez. exact Ez.
    - eapply optional_d; eauto. discriminate.
  Qed.

  (** Stopping raised: every child was stopped, or is as it was. *)
  Lemma stop_steps : forall o w w', stops o -> arity_ok k (List.length cs) -> kids_inv w cs ->
    do_op ev o n k (map (obj_of ev) cs) w = (w', Raise) ->
    ~ off w n k /\ forall c, In c cs -> step w w' c.
  Proof.
    intros o w w' Ho Har Hi H.
    assert (HE : forall w1 s0, same w w1 -> each_then (call o) (map (obj_of ev) cs) s0 w1 = (w', Raise) ->
      forall c, In c cs -> step w w' c).
    { intros w1 s0 Hs He c Hc. unfold each_then in He.
      destruct (for_each (call o) (map (obj_of ev) cs) w1) as [w2 r2] eqn:Ef.
      assert (Hi1 : kids_inv w1 cs) by (eapply same_inv; eauto).
      assert (Hen : ends o) by (destruct Ho; unfold ends; auto).
      destruct (for_each_inv ev o cs w1 w2 r2 Hen Hn Hk Hi1 Ef) as [_ [_ D]].
      destruct r2 as [u|e|]; simpl in He; inversion He; subst.
      eapply step_tail; [eapply same_agree; eauto|]. auto. }
    assert (HF : forall w1 s0, List.length cs <= 1 -> same w w1 -> first_or (call o) (map (obj_of ev) cs) s0 w1 = (w', Raise) ->
      forall c, In c cs -> step w w' c).
    { intros w1 s0 Hl Hs He d Hd. destruct (one_kid Hl) as [Ecs|[c Ecs]]; rewrite Ecs in He; simpl in He; [discriminate|].
      eapply step_tail; [eapply same_agree; eauto|]. eapply (kid_step c o w1 w'); eauto. eapply same_inv; eauto. }
    destruct Ho as [-> | ->]; destruct k eqn:Ek; simpl in Har; simpl in H;
      try change (@o_reset E) with (call (E:=E) OReset) in H; try change (@o_untick E) with (call (E:=E) OUntick) in H.
    all: try (split; [intros [Q _]; discriminate|]).
    all: try (intros c Hc; destruct cs; [destruct Hc|discriminate]).
    all: try (eapply HE; [|exact H]; ssame; fail).
    all: try (eapply HF; [exact Har| |exact H]; ssame; fail).
    - unfold optional_do in H. destruct (a_exec (w_mem w n)) eqn:Ea; [|discriminate].
      split; [intros [_ Q]; congruence|]. intros d Hd.
      destruct (one_kid Har) as [Ecs|[c Ecs]]; rewrite Ecs in H; simpl in H; [rewrite Ecs in Hd; destruct Hd|].
      refine (kid_step c OUntick w w' Ecs _ Hi H d Hd). left; reflexivity.
    - destruct (Z.ltb _ _); [|discriminate]. eapply HF; [exact Har| |exact H]. ssame.
    - unfold optional_do in H. destruct (a_exec (w_mem w n)) eqn:Ea; [|discriminate].
      split; [intros [_ Q]; congruence|]. intros d Hd.
      destruct (one_kid Har) as [Ecs|[c Ecs]]; rewrite Ecs in H; simpl in H; [rewrite Ecs in Hd; destruct Hd|].
      refine (kid_step c OReset w w' Ecs _ Hi H d Hd). right; reflexivity.
  Qed.

  (** *** Tick *)

  Lemma reset_if_finished_d : forall w w' r, kids_inv w cs ->
    reset_if_finished n (map (obj_of ev) cs) w = (w', r) ->
    kids_inv w' cs /\ out (flat_map ids cs) w w' /\
    (forall u, r = Ok u -> (finished (w_st w n) = true /\ kids_qt w' cs) \/ (finished (w_st w n) = false /\ w' = w)) /\
    (r = Raise -> finished (w_st w n) = true).
  Proof.
    intros w w' r Hi H. unfold reset_if_finished in H. change (@o_reset E) with (call (E:=E) OReset) in H.
    destruct (finished (w_st w n)).
    - destruct (for_each_inv ev OReset cs w w' r) as [[A B] [C _]]; auto; [unfold ends; auto|].
      split; auto. split; auto. split; auto. intros u Hu. left. split; auto. eapply C; eauto.
    - inversion H; subst. split; auto. split; [apply out_refl|]. split; [auto|discriminate].
  Qed.

  Lemma loop_d : forall sn w w' r, plain -> loop_ok cs w w' r -> dpost sn w' r.
  Proof.
    intros sn w w' r Hp [[A B] C]. apply dpost_plain; auto. intros s Hs Hs'. apply kids_qt_off. eauto.
  Qed.

  Lemma sequence_d : forall sn w w' r, plain -> kids_inv w cs ->
    sequence_tick n (map (obj_of ev) cs) w = (w', r) -> dpost sn w' r.
  Proof.
    intros sn w w' r Hp Hi H. unfold sequence_tick in H.
    destruct (map (obj_of ev) cs) as [|x l] eqn:El.
    - assert (Ecs : cs = []) by (destruct cs; [reflexivity|discriminate]).
      inversion H; subst w' r. apply leaf_d; [auto|apply plain_cnt; auto].
    - rewrite <- El in H. destruct (reset_if_finished n (map (obj_of ev) cs) w) as [w1 r1] eqn:Er.
      destruct (reset_if_finished_d w w1 r1 Hi Er) as [A _].
      destruct r1 as [u|e|]; cbn [bind] in H.
      + eapply loop_d; [exact Hp|]. eapply sequence_loop_inv; eauto.
      + inversion H; subst. apply dpost_err; auto.
      + inversion H; subst. apply dpost_plain; auto. discriminate.
  Qed.

  Lemma fallback_d : forall sn w w' r, plain -> kids_inv w cs ->
    fallback_tick n (map (obj_of ev) cs) w = (w', r) -> dpost sn w' r.
  Proof.
    intros sn w w' r Hp Hi H. unfold fallback_tick in H.
    destruct (map (obj_of ev) cs) as [|x l] eqn:El.
    - assert (Ecs : cs = []) by (destruct cs; [reflexivity|discriminate]).
      inversion H; subst w' r. apply leaf_d; [auto|apply plain_cnt; auto].
    - rewrite <- El in H. destruct (reset_if_finished n (map (obj_of ev) cs) w) as [w1 r1] eqn:Er.
      destruct (reset_if_finished_d w w1 r1 Hi Er) as [A _].
      destruct r1 as [u|e|]; cbn [bind] in H.
      + eapply loop_d; [exact Hp|]. eapply fallback_loop_inv; eauto.
      + inversion H; subst. apply dpost_err; auto.
      + inversion H; subst. apply dpost_plain; auto. discriminate.
  Qed.

  Lemma mem_not_cnt : forall w : world E, k = KMemorySequence \/ k = KMemoryFallback -> cnt w n k.
  Proof. intros w Hmk Hkk. destruct Hmk; congruence. Qed.
  Lemma below_memc : forall s (w : world E), k = KMemorySequence \/ k = KMemoryFallback -> below n w 0 cs -> memc s w n k cs.
  Proof. intros s w [-> | ->] Hb Hf i c Hi Hlt; exact (Hb i c Hi Hlt). Qed.

  Lemma mloop_d : forall sn w w' r, k = KMemorySequence \/ k = KMemoryFallback ->
    mloop_ok n 0 cs w w' r -> dpost sn w' r.
  Proof.
    intros sn w w' r Hmk [A [B [C [D F]]]]. split; auto. split.
    - intros s Hs. split; [intros Hs'; apply kids_qt_off; eauto|].
      assert (Hd : s <> RUNNING \/ s = RUNNING) by (destruct s; (left; discriminate) || (right; reflexivity)).
      destruct Hd as [Hd|Hd]; [apply memc_qt; [apply mem_not_cnt; auto|eauto]|].
      destruct (D s Hs Hd) as [_ Hb]. apply below_memc; auto.
    - intros _ Hr. destruct (F Hr) as [_ Hb]. apply below_memc; auto.
  Qed.

  Lemma mem_start : forall w w1 r, k = KMemorySequence \/ k = KMemoryFallback -> kids_inv w cs ->
    memc (w_st w n) w n k cs ->
    (if finished (w_st w n) then for_each (call OReset) (map (obj_of ev) cs) (mem_lrc w n 0) else (w, Ok tt)) = (w1, r) ->
    kids_inv w1 cs /\ (forall u, r = Ok u -> below n w1 0 cs) /\ (r = Raise -> below n w1 0 cs).
  Proof.
    intros w w1 r Hmk Hi Hm H. destruct (finished (w_st w n)) eqn:Ef.
    - assert (Hi' : kids_inv (mem_lrc w n 0) cs) by (eapply same_inv; [|exact Hi]; ssame).
      destruct (for_each_inv ev OReset cs (mem_lrc w n 0) w1 r) as [[A B] [C _]]; auto; [unfold ends; auto|].
      split; auto. split.
      + intros u Hu j c Hj _. apply (C u Hu). eapply nth_error_In; eauto.
      + intros _ j c Hj Hlt. destruct (B n Hnn) as [_ X]. rewrite X in Hlt. simpl in Hlt. rewrite upd_eq in Hlt. simpl in Hlt. lia.
    - inversion H; subst. split; auto. split; [|discriminate]. intros _ _ j c Hj Hlt.
      destruct Hmk as [Hmk|Hmk]; rewrite Hmk in Hm; exact (Hm Ef j c Hj Hlt).
  Qed.

  Lemma memory_sequence_d : forall w w' r, k = KMemorySequence -> kids_inv w cs -> memc (w_st w n) w n k cs ->
    memory_sequence_tick n (map (obj_of ev) cs) w = (w', r) -> dpost (w_st w n) w' r.
  Proof.
    intros w w' r Hmk Hi Hm H. unfold memory_sequence_tick in H.
    destruct (map (obj_of ev) cs) as [|x l] eqn:El.
    - assert (Ecs : cs = []) by (destruct cs; [reflexivity|discriminate]).
      inversion H; subst w' r. apply leaf_d; [auto|rewrite Hmk; intros Hkk; discriminate].
    - rewrite <- El in H. change (@o_reset E) with (call (E:=E) OReset) in H.
      match type of H with context [bind ?x _] => destruct x as [w1 r1] eqn:Er end.
      destruct (mem_start w w1 r1 (or_introl Hmk) Hi Hm Er) as [A [B C]].
      destruct r1 as [u|e|]; cbn [bind] in H.
      + eapply mloop_d; [left; exact Hmk|]. eapply memory_sequence_loop_inv; eauto.
      + inversion H; subst. apply dpost_err; auto.
      + inversion H; subst. apply dpost_raise; auto. intros _. apply below_memc; auto.
  Qed.
  Lemma memory_fallback_d : forall w w' r, k = KMemoryFallback -> kids_inv w cs -> memc (w_st w n) w n k cs ->
    memory_fallback_tick n (map (obj_of ev) cs) w = (w', r) -> dpost (w_st w n) w' r.
  Proof.
    intros w w' r Hmk Hi Hm H. unfold memory_fallback_tick in H.
    destruct (map (obj_of ev) cs) as [|x l] eqn:El.
    - assert (Ecs : cs = []) by (destruct cs; [reflexivity|discriminate]).
      inversion H; subst w' r. apply leaf_d; [auto|rewrite Hmk; intros Hkk; discriminate].
    - rewrite <- El in H. change (@o_reset E) with (call (E:=E) OReset) in H.
      match type of H with context [bind ?x _] => destruct x as [w1 r1] eqn:Er end.
      destruct (mem_start w w1 r1 (or_intror Hmk) Hi Hm Er) as [A [B C]].
      destruct r1 as [u|e|]; cbn [bind] in H.
      + eapply mloop_d; [right; exact Hmk|]. eapply memory_fallback_loop_inv; eauto.
      + inversion H; subst. apply dpost_err; auto.
      + inversion H; subst. apply dpost_raise; auto. intros _. apply below_memc; auto.
  Qed.

  Lemma parallel_d : forall tol w w' r, k = KParallel \/ k = KParallelTolerance -> kids_inv w cs ->
    memc (w_st w n) w n k cs ->
    parallel_tick n (map (obj_of ev) cs) tol w = (w', r) -> dpost (w_st w n) w' r.
  Proof.
    intros tol w w' r Hpk Hi Hm H. unfold parallel_tick in H.
    assert (HP : forall s (w0 : world E), (finished s = false -> pcond w0 cs) -> memc s w0 n k cs)
      by (intros s w0 X; destruct Hpk as [-> | ->]; exact X).
    assert (Hc0 : forall w0 : world E, cnt w0 n k) by (intros w0 Hkk; destruct Hpk; congruence).
    assert (Hm' : finished (w_st w n) = false -> pcond w cs) by (destruct Hpk as [X|X]; rewrite X in Hm; exact Hm).
    destruct (reset_if_finished n (map (obj_of ev) cs) w) as [w1 r1] eqn:Er.
    destruct (reset_if_finished_d w w1 r1 Hi Er) as [A1 [_ [B1 C1]]].
    destruct r1 as [u|e|]; cbn [bind] in H.
    2:{ inversion H; subst. apply dpost_err; auto. }
    2:{ inversion H; subst. apply dpost_raise; auto. intros _. apply HP. rewrite (C1 eq_refl). discriminate. }
    assert (P1 : pcond w1 cs).
    { destruct (B1 u eq_refl) as [[_ Q]|[Q ->]]; [intros c Hc _; apply Q; auto|auto]. }
    destruct (parallel_loop (map (obj_of ev) cs) 0 0 w1) as [w2 r2] eqn:Ep.
    destruct (parallel_loop_inv ev cs _ _ w1 w2 r2 Hn Hk A1 Ep) as [[A2 _] P2].
    destruct r2 as [sf|e|]; cbn [bind] in H.
    2:{ inversion H; subst. apply dpost_err; auto. }
    2:{ inversion H; subst. apply dpost_raise; auto. intros _. apply HP. intros _. apply P2; auto. discriminate. }
    assert (P2' : pcond w2 cs) by (apply P2; auto; discriminate). clear P2.
    assert (HU : forall s0, bind (untick_unfinished (map (obj_of ev) cs) w2) (fun _ w3 => (w3, Ok s0)) = (w', r) -> dpost (w_st w n) w' r).
    { intros s0 HU. destruct (untick_unfinished (map (obj_of ev) cs) w2) as [w3 r3] eqn:Eu.
      destruct (untick_unfinished_inv ev cs w2 w3 r3 Hn Hk A2 P2' Eu) as [[U1 _] [U2 U3]].
      destruct r3 as [u3|e|]; cbn [bind] in HU; inversion HU; subst.
      - apply dpost_all; auto; [intros s _; eapply U2; eauto|discriminate].
      - apply dpost_err; auto.
      - apply dpost_raise; auto. }
    destruct (Z.leb _ _); [eapply HU; eauto|]. destruct (Z.ltb _ _); [eapply HU; eauto|].
    inversion H; subst. split; auto. split; [|discriminate].
    intros s Hs. inversion Hs; subst. split; [congruence|]. apply HP. auto.
  Qed.

  (** Decorators: one tick of the only child and what it means. *)
  Lemma child_tick : forall w c w1 r, cs = [c] -> kids_inv w cs -> call OTick (obj_of ev c) w = (w1, r) ->
    kids_inv w1 cs /\ (forall s, r = Ok s -> s <> RUNNING -> kids_qt w1 cs).
  Proof.
    intros w c w1 r Ecs Hi H. pose proof (kid_in c Ecs) as Hc. split; [eapply one'; eauto|].
    intros s -> Hs. apply (kid_qt w1 c Ecs). eapply tick_qt; eauto.
  Qed.

  (** The child has just been ticked to an end. *)
  Lemma reset_running_d : forall sn c w w' r, cs = [c] -> cnt w n k -> kids_inv w cs ->
    (live sn -> plain \/ kids_qt w cs) ->
    reset_running (obj_of ev c) w = (w', r) -> dpost sn w' r.
  Proof.
    intros sn c w w' r Ecs Hcn Hi Hq H. unfold reset_running in H. change (@o_reset E) with (call (E:=E) OReset) in H.
    pose proof (kid_in c Ecs) as Hc.
    destruct (call OReset (obj_of ev c) w) as [w1 r1] eqn:Ec.
    assert (Hi1 : kids_inv w1 cs) by (eapply one'; eauto).
    assert (Hc1 : cnt w1 n k) by (eapply cnt_call; eauto).
    destruct r1 as [s|e|]; cbn [bind] in H; inversion H; subst.
    - apply dpost_all; auto; [|discriminate]. intros s' _. apply (kid_qt w' c Ecs).
      refine (ends_qt ev OReset cs c _ w' s _ Hk Hc (Hi c Hc) Ec). unfold ends; auto.
    - apply dpost_err; auto.
    - apply dpost_raise; auto. intros Hl. destruct (Hq Hl) as [Hp|Hqq]; [apply Hp|].
      apply memc_qt; auto. intros d Hd. eapply step_qt; [|apply Hqq; exact Hd].
      eapply kid_step; eauto. right; reflexivity.
  Qed.

  Lemma map_tick_d : forall sn f s0 w w' r, plain -> List.length cs <= 1 -> kids_inv w cs ->
    (forall s, f s <> RUNNING -> s <> RUNNING) ->
    map_tick f (map (obj_of ev) cs) s0 w = (w', r) -> dpost sn w' r.
  Proof.
    intros sn f s0 w w' r Hp Hl Hi Hf H. unfold map_tick in H.
    change (@o_tick E) with (call (E:=E) OTick) in H.
    destruct (one_kid Hl) as [Ecs|[c Ecs]]; [apply leaf_d; [auto|apply plain_cnt; auto]|rewrite Ecs in H; cbn [map] in H].
    destruct (call OTick (obj_of ev c) w) as [w1 r1] eqn:Ec.
    destruct (child_tick w c w1 r1 Ecs Hi Ec) as [A B].
    destruct r1 as [s|e|]; cbn [bind] in H; inversion H; subst; apply dpost_plain; auto; try discriminate.
    intros s' Hs' Hr'. apply kids_qt_off. apply (B s eq_refl). apply Hf. congruence.
  Qed.

  Lemma restart_d : forall sn s0 w w' r, plain -> List.length cs <= 1 -> kids_inv w cs ->
    restart_on_tick s0 (map (obj_of ev) cs) w = (w', r) -> dpost sn w' r.
  Proof.
    intros sn s0 w w' r Hp Hl Hi H. unfold restart_on_tick in H.
    change (@o_tick E) with (call (E:=E) OTick) in H.
    destruct (one_kid Hl) as [Ecs|[c Ecs]]; [apply leaf_d; [auto|apply plain_cnt; auto]|rewrite Ecs in H; cbn [map] in H].
    destruct (call OTick (obj_of ev c) w) as [w1 r1] eqn:Ec.
    destruct (child_tick w c w1 r1 Ecs Hi Ec) as [A B].
    destruct r1 as [s|e|]; cbn [bind] in H.
    - destruct (state_eqb s s0); [eapply reset_running_d; eauto; apply plain_cnt; auto|].
      inversion H; subst. apply dpost_plain; auto. intros s' Hs' Hr'. apply kids_qt_off. eauto.
    - inversion H; subst. apply dpost_err; auto.
    - inversion H; subst. apply dpost_plain; auto. discriminate.
  Qed.

  Lemma repeat_always_d : forall sn w w' r, plain -> List.length cs <= 1 -> kids_inv w cs ->
    repeat_always_tick (map (obj_of ev) cs) w = (w', r) -> dpost sn w' r.
  Proof.
    intros sn w w' r Hp Hl Hi H. unfold repeat_always_tick in H.
    change (@o_tick E) with (call (E:=E) OTick) in H.
    destruct (one_kid Hl) as [Ecs|[c Ecs]]; [apply leaf_d; [auto|apply plain_cnt; auto]|rewrite Ecs in H; cbn [map] in H].
    destruct (call OTick (obj_of ev c) w) as [w1 r1] eqn:Ec.
    destruct (child_tick w c w1 r1 Ecs Hi Ec) as [A B].
    destruct r1 as [s|e|]; cbn [bind] in H.
    - destruct (negb _); [eapply reset_running_d; eauto; apply plain_cnt; auto|].
      inversion H; subst. apply dpost_plain; auto. intros s' Hs' Hr'. congruence.
    - inversion H; subst. apply dpost_err; auto.
    - inversion H; subst. apply dpost_plain; auto. discriminate.
  Qed.

  Lemma retry_d : forall sn w w' r, plain -> List.length cs <= 1 -> kids_inv w cs ->
    retry_tick n (map (obj_of ev) cs) w = (w', r) -> dpost sn w' r.
  Proof.
    intros sn w w' r Hp Hl Hi H. unfold retry_tick in H.
    change (@o_tick E) with (call (E:=E) OTick) in H.
    destruct (one_kid Hl) as [Ecs|[c Ecs]]; [apply leaf_d; [auto|apply plain_cnt; auto]|rewrite Ecs in H; cbn [map] in H].
    destruct (call OTick (obj_of ev c) w) as [w1 r1] eqn:Ec.
    destruct (child_tick w c w1 r1 Ecs Hi Ec) as [A B].
    destruct r1 as [s|e|]; cbn [bind] in H.
    - destruct (state_eqb s FAILED) eqn:E1.
      + destruct (Z.ltb _ _).
        * refine (reset_running_d sn c _ w' r Ecs _ _ _ H); [apply plain_cnt; auto| |auto]. eapply same_inv; [|exact A]. ssame.
        * inversion H; subst. assert (Hs : same w1 (mem_count w1 n 0%Z)) by ssame.
          apply dpost_plain; auto; [eapply same_inv; eauto|].
          intros s' Hs' Hr'. apply kids_qt_off. eapply same_qt; [exact Hs|].
          apply (B s eq_refl). destruct s; discriminate.
      + inversion H; subst. apply dpost_plain; auto. intros s' Hs' Hr'. apply kids_qt_off. eauto.
    - inversion H; subst. apply dpost_err; auto.
    - inversion H; subst. apply dpost_plain; auto. discriminate.
  Qed.

  Lemma repeat_d : forall sn w w' r,
    plain \/ (k = KRepeatNoAutoReset /\ (0 <= a_count (w_mem w n) < a_limit (w_mem w n))%Z) ->
    List.length cs <= 1 -> kids_inv w cs ->
    repeat_tick n (map (obj_of ev) cs) w = (w', r) -> dpost sn w' r.
  Proof.
    intros sn w w' r Hp Hl Hi H. unfold repeat_tick in H.
    change (@o_tick E) with (call (E:=E) OTick) in H.
    assert (Hcn : forall w1 : world E, w_mem w1 n = w_mem w n -> cnt w1 n k).
    { intros w1 Hm. destruct Hp as [Hp|[_ Hlt]]; [apply plain_cnt; auto|]. intros _. rewrite Hm. lia. }
    destruct (one_kid Hl) as [Ecs|[c Ecs]]; rewrite Ecs in H; cbn [map] in H.
    { inversion H; subst. apply leaf_d; auto. }
    pose proof (kid_in c Ecs) as Hc.
    destruct (call OTick (obj_of ev c) w) as [w1 r1] eqn:Ec.
    destruct (child_tick w c w1 r1 Ecs Hi Ec) as [A B].
    pose proof (child_mem w c w1 OTick r1 Hc Ec) as Hm.
    assert (Hmc : forall s, memc s w1 n k cs).
    { intros s. destruct Hp as [Hp|[-> Hlt]]; [apply Hp|]. simpl. rewrite Hm. split; [lia|]. intros Hle. lia. }
    destruct r1 as [s|e|]; cbn [bind] in H.
    - assert (HQ : forall s', s' = s -> dpost sn w1 (Ok s')).
      { intros s' ->. split; auto. split; [|discriminate]. intros s'' Hs''. inversion Hs''; subst s''. split; auto.
        intros Hr'. apply kids_qt_off. eauto. }
      destruct (state_eqb s SUCCEEDED) eqn:E1.
      + assert (Es : s = SUCCEEDED) by (destruct s; simpl in E1; congruence).
        destruct (Z.ltb _ _).
        * refine (reset_running_d sn c _ w' r Ecs _ _ _ H).
          -- destruct Hp as [Hp|[_ Hlt]]; [apply plain_cnt; auto|]. intros _. simpl. rewrite upd_eq. simpl. rewrite Hm. lia.
          -- eapply same_inv; [|exact A]; ssame.
          -- intros _. right. eapply same_qt; [|apply (B s eq_refl); rewrite Es; discriminate]. ssame.
        * inversion H; subst. apply HQ. reflexivity.
      + inversion H; subst. apply HQ. reflexivity.
    - inversion H; subst. apply dpost_err; auto.
    - inversion H; subst. apply dpost_raise; auto.
  Qed.

  Lemma repeat_nar_d : forall sn w w' r, k = KRepeatNoAutoReset -> List.length cs <= 1 -> kids_inv w cs -> memc sn w n k cs ->
    repeat_nar_tick n (map (obj_of ev) cs) w = (w', r) -> dpost sn w' r.
  Proof.
    intros sn w w' r Hmk Hl Hi Hm H. unfold repeat_nar_tick in H.
    destruct (in_value_as as_bool w n "reset") as [b|e|].
    2:{ inversion H; subst. apply dpost_err; auto. }
    2:{ inversion H; subst. apply dpost_raise; auto. }
    cbn zeta in H. rewrite Hmk in Hm. simpl in Hm. destruct Hm as [Hm0 Hm].
    set (w1 := if b then mem_count w n 0%Z else w) in *.
    assert (Hs : same w w1) by (subst w1; destruct b; [ssame|apply same_refl]).
    assert (Hi1 : kids_inv w1 cs) by (eapply same_inv; eauto).
    assert (Hc1 : (0 <= a_count (w_mem w1 n))%Z /\ a_limit (w_mem w1 n) = a_limit (w_mem w n) /\
                  (a_count (w_mem w1 n) <= a_count (w_mem w n))%Z).
    { subst w1. destruct b; simpl; rewrite ?upd_eq; simpl; repeat split; lia. }
    destruct Hc1 as [C1 [C2 C3]].
    destruct (Z.ltb _ _) eqn:Ez.
    - eapply repeat_d; eauto. right. split; auto. apply Z.ltb_lt in Ez. lia.
    - inversion H; subst w' r. apply Z.ltb_ge in Ez.
      apply dpost_all; auto; [intros _; exact C1| |discriminate].
      intros s _. eapply same_qt; [exact Hs|]. intros c Hc. apply Hm; auto. lia.
  Qed.

  Lemma watch_d : forall sn w w' r, plain -> List.length cs <= 1 -> kids_inv w cs ->
    watch_tick n (map (obj_of ev) cs) w = (w', r) -> dpost sn w' r.
  Proof.
    intros sn w w' r Hp Hl Hi H. unfold watch_tick in H.
    change (@o_tick E) with (call (E:=E) OTick) in H. change (@o_untick E) with (call (E:=E) OUntick) in H.
    destruct (one_kid Hl) as [Ecs|[c Ecs]]; [apply leaf_d; [auto|apply plain_cnt; auto]|rewrite Ecs in H; cbn [map] in H].
    destruct (any_updated w n ["watch"%string]) as [u|e|].
    2:{ inversion H; subst. apply dpost_err; auto. }
    2:{ inversion H; subst. apply dpost_plain; auto. discriminate. }
    assert (HT : forall w1, kids_inv w1 cs -> call OTick (obj_of ev c) w1 = (w', r) -> dpost sn w' r).
    { intros w1 Hi1 H1. destruct (child_tick w1 c w' r Ecs Hi1 H1) as [A B].
      apply dpost_plain; auto. intros s Hs Hs'. apply kids_qt_off. eauto. }
    destruct u; cbn [bind] in H; [|eapply HT; eauto].
    destruct (call OUntick (obj_of ev c) w) as [w1 r1] eqn:Eu.
    assert (Hi1 : kids_inv w1 cs) by (eapply one'; [apply kid_in; exact Ecs|exact Hi|exact Eu]).
    destruct r1 as [s|e|]; cbn [bind] in H.
    - apply (HT w1); auto.
    - inversion H; subst. apply dpost_err; auto.
    - inversion H; subst. apply dpost_plain; auto. discriminate.
  Qed.

  Lemma getter_d : forall sn g w w' r, plain -> List.length cs <= 1 -> kids_inv w cs ->
    getter_tick g n (map (obj_of ev) cs) w = (w', r) -> dpost sn w' r.
  Proof.
    intros sn g w w' r Hp Hl Hi H. unfold getter_tick in H.
    change (@o_tick E) with (call (E:=E) OTick) in H.
    assert (HF : forall w1 r1, first_or (call OTick) (map (obj_of ev) cs) SUCCEEDED w = (w1, r1) ->
      kids_inv w1 cs /\ (forall s, r1 = Ok s -> s <> RUNNING -> kids_qt w1 cs)).
    { intros w1 r1 H1. destruct (one_kid Hl) as [Ecs|[c Ecs]]; rewrite Ecs in H1; cbn [map first_or] in H1.
      - inversion H1; subst. split; auto. intros s _ _. apply no_kid_qt; auto.
      - eapply child_tick; eauto. }
    destruct (first_or (call OTick) (map (obj_of ev) cs) SUCCEEDED w) as [w1 r1] eqn:Ef.
    destruct (HF w1 r1 eq_refl) as [A B].
    destruct r1 as [s|e|]; cbn [bind] in H.
    2:{ inversion H; subst. apply dpost_err; auto. }
    2:{ inversion H; subst. apply dpost_plain; auto. discriminate. }
    specialize (B s eq_refl).
    destruct (state_in s [FAILED; RUNNING]) eqn:E1.
    { inversion H; subst. apply dpost_plain; auto. intros s' Hs' Hr'. apply kids_qt_off. apply B. congruence. }
    assert (Hs : s <> RUNNING) by (intros ->; discriminate). specialize (B Hs).
    assert (HQ : forall w2 r2, w_st w2 = w_st w1 -> w_mem w2 = w_mem w1 -> dpost sn w2 r2).
    { intros w2 r2 Q1 Q2. assert (Hsm : same w1 w2) by (intros m _; rewrite Q1, Q2; auto).
      apply dpost_plain; auto; [eapply same_inv; eauto|]. intros s' _ _. apply kids_qt_off. eapply same_qt; eauto. }
    destruct (any_updated w1 n (getter_keys g)) as [u|e|]; try (inversion H; subst; apply HQ; reflexivity).
    destruct (getter_read g w1 n) as [[v|]|e|]; try (inversion H; subst; apply HQ; reflexivity).
    destruct (u || a_stale (w_mem w1 n)); try (inversion H; subst; apply HQ; reflexivity).
    pose proof (out_set_st_mem E w1 n (getter_out g) v) as [Q1 Q2].
    destruct (out_set w1 n (getter_out g) v) as [w2 [u2|e|]]; simpl in *; inversion H; subst; apply HQ; auto.
  Qed.

  Lemma do_tick_d : forall w w' r, settling k -> arity_ok k (List.length cs) -> kids_inv w cs -> memc (w_st w n) w n k cs ->
    do_tick ev n k (map (obj_of ev) cs) w = (w', r) -> dpost (w_st w n) w' r.
  Proof.
    intros w w' r Hset Har Hi Hm H.
    assert (Hp : match k with KMemorySequence | KMemoryFallback | KRepeatNoAutoReset | KParallel | KParallelTolerance => True
                 | _ => plain end).
    { unfold plain. destruct k; simpl; auto. }
    destruct k eqn:Ek; simpl in Har, Hset; try contradiction; unfold do_tick in H.
    - apply leaf_d; [destruct cs; [reflexivity|discriminate]|intros Hkk; congruence].
    - eapply sequence_d; eauto.
    - eapply memory_sequence_d; eauto. rewrite Ek. exact Hm.
    - eapply fallback_d; eauto.
    - eapply memory_fallback_d; eauto. rewrite Ek. exact Hm.
    - eapply parallel_d; eauto. rewrite Ek. exact Hm.
    - eapply parallel_d; eauto. rewrite Ek. exact Hm.
    - eapply map_tick_d; eauto. intros s. destruct s; simpl; congruence.
    - eapply map_tick_d; eauto. intros s. destruct s; simpl; congruence.
    - eapply restart_d; eauto.
    - eapply map_tick_d; eauto. intros s. destruct s; simpl; congruence.
    - eapply retry_d; eauto.
    - eapply repeat_d; eauto.
    - eapply repeat_nar_d; eauto. rewrite Ek. exact Hm.
    - eapply repeat_always_d; eauto.
    - eapply restart_d; eauto.
    - eapply restart_d; eauto.
    - change (@o_tick E) with (call (E:=E) OTick) in H.
      eapply optional_d; [| | | |exact H]; auto. discriminate.
    - eapply watch_d; eauto.
    - eapply getter_d; eauto.
  Qed.

  (** The body of an operation leaves the state of the node to the wrapper. *)
  Lemma do_op_st : forall o w, w_st (fst (do_op ev o n k (map (obj_of ev) cs) w)) n = w_st w n.
  Proof.
    intros o w.
    apply (do_op_rel ev (fun a b : world E => w_st b n = w_st a n)) with (phase := True) (okop := fun _ => True); auto.
    - intros a b c H1 H2. congruence.
    - intros c o' w0 _ Hc. apply in_map_iff in Hc. destruct Hc as [t [Ht Hin]]. subst c.
      destruct (call o' (obj_of ev t) w0) as [w1 r1] eqn:Ec.
      destruct (call_out ev o' t w0 w1 r1 Ec n) as [X _]; [|exact X].
      intros Hx. apply Hnn. apply in_flat_map; eauto.
  Qed.
End Do.

(** ** Whole trees *)

Lemma qt_intro : forall E (w : world E) n k name cs, w_st w n <> RUNNING -> kids_off_qt w n k cs ->
  qt w (T n k name cs).
Proof.
  intros E w n k name cs H1 H2. apply qt_up; auto. intros Ho c Hc.
  destruct (H2 c Hc) as [H3|H3]; [exfalso; exact (on_off _ _ _ _ Ho H3)|exact H3].
Qed.

Section Settle.
  Context {E : Type}.
  Variables (w w' : world E) (n : nid) (k : kind) (name : string) (cs : list tree).
  Hypothesis Hnn : ~ In n (flat_map ids cs).
  Hypothesis H1 : forall m, m <> n -> w_st w' m = w_st w m.
  Hypothesis H2 : forall m, w_mem w' m = w_mem w m.

  Lemma settle_agree : forall c, In c cs -> agree (ids c) w w'.
  Proof.
    intros c Hc m Hm. split; [|apply H2]. apply H1. intros Hx. subst m. apply Hnn. apply in_flat_map; eauto.
  Qed.

  Lemma settle_node : forall sn r, dpost n k cs sn w r ->
    (dead (w_st w' n) \/ (exists s, r = Ok s /\ w_st w' n = s) \/ (r = Raise /\ live sn /\ w_st w' n = sn)) ->
    Inv w' (T n k name cs).
  Proof.
    intros sn r [A [B C]] H3. apply Inv_intro.
    - intros Hl. destruct H3 as [H3|[[s [-> H3]]|[-> [H4 H3]]]].
      + exfalso. exact (Hl H3).
      + rewrite H3. destruct (B s eq_refl) as [_ B2]. eapply memc_agree; [apply H2|apply settle_agree|exact B2].
      + rewrite H3. eapply memc_agree; [apply H2|apply settle_agree|auto].
    - intros c Hc. eapply Inv_agree; [apply settle_agree; auto|]. apply A; auto.
  Qed.
  Lemma settle_qt : forall sn s, dpost n k cs sn w (Ok s) -> w_st w' n = s -> s <> RUNNING ->
    qt w' (T n k name cs).
  Proof.
    intros sn s [_ [B _]] Hs Hr. apply qt_intro; [congruence|].
    intros c Hc. destruct (B s eq_refl) as [B1 _].
    destruct (B1 Hr c Hc) as [[Ho1 Ho2]|Hq]; [left; split; [exact Ho1|rewrite H2; exact Ho2]|right].
    eapply qt_agree; [apply settle_agree; auto|exact Hq].
  Qed.
End Settle.

Lemma dead_broken : dead BROKEN. Proof. unfold dead; auto. Qed.

Ltac wst := simpl; intros; rewrite ?upd_neq by auto; reflexivity.

Lemma shutdown_children_inv : forall E (ev : env E) cs w e w' r, NoDup (flat_map ids cs) -> kept ev cs -> kids_inv w cs ->
  shutdown_children (map (obj_of ev) cs) w e = (w', r) ->
  kids_inv w' cs /\ out (flat_map ids cs) w w'.
Proof.
  intros E ev cs. induction cs as [|c rest IH]; intros w e w' r Hn Hk Hi H; cbn [shutdown_children map] in H.
  - inversion H; subst. split; [exact Hi|apply out_refl].
  - change (@o_shutdown E) with (call (E:=E) OShutdown) in H.
    destruct (call OShutdown (obj_of ev c) w) as [w1 r1] eqn:Ec.
    pose proof (call_out ev _ _ _ _ _ Ec) as O1.
    assert (I1 : Inv w1 c) by (apply (Hk OShutdown c w w1 r1); simpl; auto; apply Hi; simpl; auto).
    assert (HS : forall e1, shutdown_children (map (obj_of ev) rest) w1 e1 = (w', r) ->
       kids_inv w' (c :: rest) /\ out (flat_map ids (c :: rest)) w w').
    { intros e1 H1.
      destruct (IH w1 e1 w' r (nodup_tail _ _ Hn) (kept_tail ev _ _ Hk) (head_inv _ _ _ _ Hn Hi O1) H1) as [A B].
      split; [eapply cons_inv; eauto|eapply out_cons; eauto]. }
    destruct r1 as [s|e1|]; [eapply HS; eauto|eapply HS; eauto|].
    inversion H; subst. split.
    + eapply cons_inv; [exact Hn|exact I1|eapply head_inv; eauto|apply out_refl].
    + eapply out_weaken; [apply incl_head|exact O1].
Qed.

Lemma kind_leaf : forall k, k = KLeaf \/ k <> KLeaf.
Proof. destruct k; (left; reflexivity) || (right; discriminate). Qed.

(** An operation that did not get past the guard. *)
Lemma good_guard : forall E t o (w : world E), Inv w t -> good t o w w (Err EGuard).
Proof. intros E t o w H. constructor; auto; discriminate. Qed.
Lemma good_err : forall E t o (w w' : world E) e, Inv w' t -> good t o w w' (Err e).
Proof. intros E t o w w' e H. constructor; auto; discriminate. Qed.
Lemma good_ok : forall E t o (w w' : world E) s, Inv w' t -> (s <> RUNNING -> qt w' t) -> good t o w w' (Ok s).
Proof. intros E t o w w' s H H1. constructor; auto; try discriminate. intros s' Hs _. inversion Hs; subst. auto. Qed.

(** The only shape of a result of [op]'s wrapper that is left: the body raised. *)
Lemma raise_st : forall E (ev : env E) o n k cs w w', ~ In n (flat_map ids cs) ->
  do_op ev o n k (map (obj_of ev) cs) w = (w', Raise) -> w_st w' n = w_st w n.
Proof. intros E ev o n k cs w w' Hnn H. pose proof (do_op_st ev n k cs Hnn o w) as X. rewrite H in X. exact X. Qed.

Lemma stop_good : forall E (ev : env E) n k name cs o w w0 w', ~ In n (flat_map ids cs) -> NoDup (flat_map ids cs) ->
  kept ev cs -> settles k = true -> stops o -> arity_ok k (List.length cs) -> kids_inv w0 cs -> w_st w0 = w_st w -> w_mem w0 = w_mem w ->
  do_op ev o n k (map (obj_of ev) cs) w0 = (w', Raise) -> Inv w' (T n k name cs) ->
  good (T n k name cs) o w w' Raise.
Proof.
  intros E ev n k name cs o w w0 w' Hnn Hn Hk Hset Ho Har Hi Q1 Q2 Hd HI.
  assert (Hst : w_st w' n = w_st w n) by (rewrite (raise_st _ _ _ _ _ _ _ _ Hnn Hd), Q1; reflexivity).
  destruct (stop_steps ev n k cs Hnn Hn Hk o w0 w' Ho Har Hi Hd) as [S1 S2].
  constructor; auto; try discriminate.
  - intros _ _. right. split; [exact Hst|]. intros Hq. apply qt_intro.
    + rewrite Hst. exact (qt_root _ _ _ Hq).
    + intros c Hc. right. eapply step_qt; [apply S2; exact Hc|].
      eapply qt_agree; [intros m _; rewrite Q1, Q2; auto|].
      eapply qt_down; [exact Hq| |exact Hc]. apply off_on; [exact Hset|].
      intros [X1 X2]. apply S1. split; auto. rewrite Q2. exact X2.
  - intros -> _. destruct Ho; discriminate.
Qed.

(** One of the six classes. *)
Lemma loose_good : forall E (ev : env E) n k name cs o w w' r, ~ In n (flat_map ids cs) -> settles k = false ->
  call o (obj_of ev (T n k name cs)) w = (w', r) -> good (T n k name cs) o w w' r.
Proof.
  intros E ev n k name cs o w w' r Hnn Hs H.
  assert (Hq : w_st w' n <> RUNNING -> qt w' (T n k name cs)).
  { intros Hr. apply qt_up; auto. unfold is_on. rewrite Hs. discriminate. }
  assert (HS : stops o -> r = Raise -> w_st w' n = w_st w n).
  { intros Ho ->. simpl obj_of in H. rewrite call_make in H. destruct Ho as [-> | ->].
    - destruct (node_untick_cases E n (do_op ev OUntick n k (map (obj_of ev) cs)) w) as [[_ Heq]|[Hl Heq]];
        rewrite Heq in H; [discriminate|]. unfold untick_live in H. cbn zeta in H.
      destruct (do_op ev OUntick n k (map (obj_of ev) cs) w) as [w3 [s3|e|]] eqn:Ed; [destruct (state_in s3 _); discriminate|discriminate|].
      inversion H; subst. exact (raise_st _ _ _ _ _ _ _ _ Hnn Ed).
    - destruct (node_reset_cases E n (do_op ev OReset n k (map (obj_of ev) cs)) w) as [[_ Heq]|[Hl Heq]];
        rewrite Heq in H; [discriminate|]. unfold reset_live in H. cbn zeta in H.
      match type of H with context [do_op ev OReset n k _ ?x] =>
        destruct (do_op ev OReset n k (map (obj_of ev) cs) x) as [w3 [s3|e|]] eqn:Ed end; [destruct (state_in s3 _); discriminate|discriminate|].
      inversion H; subst. exact (raise_st _ _ _ _ _ _ _ _ Hnn Ed). }
  constructor.
  - apply Inv_loose; exact Hs.
  - intros s -> Ho Hr. apply Hq. destruct (call_ok ev o _ _ _ _ Ho H) as [_ X]. cbn [t_id] in X. congruence.
  - intros Ho Hr. right. split; [exact (HS Ho Hr)|]. intros Hx. apply Hq. rewrite (HS Ho Hr). exact (qt_root _ _ _ Hx).
  - intros _ _ _ Hf. apply Hq. intros Hx. cbn [t_id] in Hf. rewrite Hx in Hf. discriminate.
Qed.

Theorem good_call : forall E (ev : env E) t, wf t ->
  forall o w w' r, Inv w t -> call o (obj_of ev t) w = (w', r) -> good t o w w' r.
Proof.
  intros E ev. induction t as [n k name cs IH] using tree_ind'. intros Hwf o w w' r Hinv H.
  rewrite Forall_forall in IH. pose proof (wf_fresh _ _ _ _ Hwf) as [Hnn [Hn Har]].
  destruct (settles k) eqn:Hst0; [|eapply loose_good; eauto].
  assert (Hk : kept ev cs).
  { intros o' c w0 w1 r1 Hc. apply IH; auto. eapply wf_child; eauto. }
  assert (Hsk : settling k) by (apply settles_true; exact Hst0).
  pose proof (Inv_kids _ _ _ _ _ _ Hst0 Hinv) as Hi.
  assert (Hlm : local_ok w n k cs) by (apply (Hinv n k name cs); simpl; auto).
  assert (Hsame : forall (w1 : world E), w_st w1 = w_st w -> w_mem w1 = w_mem w ->
     kids_inv w1 cs /\ (live (w_st w n) -> memc (w_st w1 n) w1 n k cs)).
  { intros w1 Q1 Q2. split.
    - intros c Hc. eapply Inv_agree; [|apply Hi; auto]. intros m _. rewrite Q1, Q2. auto.
    - intros Hl. rewrite Q1. eapply memc_agree; [rewrite Q2; reflexivity| |apply Hlm; exact Hl].
      intros c Hc m _. rewrite Q1, Q2. auto. }
  simpl obj_of in H. rewrite call_make in H. destruct o.
  - destruct (node_setup_cases E n (do_op ev OSetup n k (map (obj_of ev) cs)) w) as [[_ [_ Heq]]|[Hd Heq]];
      rewrite Heq in H; [inversion H; subst; apply good_guard; exact Hinv|].
    assert (Hdd : dead (w_st w n)) by (unfold dead; tauto).
    unfold setup_live in H. cbn zeta in H.
    match type of H with context [do_op ev OSetup n k _ ?x] => destruct (Hsame x eq_refl eq_refl) as [Hi1 _];
      destruct (do_op ev OSetup n k (map (obj_of ev) cs) x) as [w3 r3] eqn:Ed end.
    pose proof (do_setup_d ev n k cs Hnn Hn Hk _ _ _ _ Har Hi1 Hdd Ed) as D.
    destruct r3 as [s3|e|].
    + destruct (state_in s3 [IDLE]); inversion H; subst; [apply good_ok|apply good_err].
      * eapply settle_node; [exact Hnn|wst|wst|exact D|right; left; eexists; split; [reflexivity|simpl; apply upd_eq]].
      * intros Hr. eapply settle_qt; [exact Hnn|wst|wst|exact D|simpl; apply upd_eq|exact Hr].
      * eapply settle_node; [exact Hnn|wst|wst|exact D|right; left; eexists; split; [reflexivity|simpl; apply upd_eq]].
    + inversion H; subst. apply good_err.
      eapply settle_node; [exact Hnn|wst|wst|exact D|left; simpl; rewrite upd_eq; apply dead_broken].
    + inversion H; subst. pose proof (raise_st _ _ _ _ _ _ _ _ Hnn Ed) as Hst. simpl in Hst.
      assert (Hdd' : dead (w_st w' n)) by (rewrite Hst; exact Hdd).
      constructor; try discriminate.
      * eapply settle_node; [exact Hnn|reflexivity|reflexivity|exact D|left; exact Hdd'].
      * intros [Q|Q]; discriminate.
  - destruct (node_tick_cases E n (do_op ev OTick n k (map (obj_of ev) cs)) w) as [[_ Heq]|[Hl Heq]];
      rewrite Heq in H; [inversion H; subst; apply good_guard; exact Hinv|].
    unfold tick_live in H. destruct (negb _).
    { inversion H; subst. apply good_err. apply Inv_intro.
      - intros Q. exfalso. apply Q. simpl. rewrite upd_eq. apply dead_broken.
      - intros c Hc. eapply Inv_agree; [apply set_st_agree; eapply child_disj; eauto|]. apply Hi; auto. }
    match type of H with context [do_op ev OTick n k _ ?x] => destruct (Hsame x eq_refl eq_refl) as [Hi1 Hm1];
      destruct (do_op ev OTick n k (map (obj_of ev) cs) x) as [w3 r3] eqn:Ed end.
    pose proof (do_tick_d ev n k cs Hnn Hn Hk _ _ _ Hsk Har Hi1 (Hm1 Hl) Ed) as D. simpl w_st in D.
    destruct r3 as [s3|e|].
    + cbn zeta in H. destruct (state_in s3 _).
      * match type of H with context [push_outputs ?x n] =>
          pose proof (push_outputs_frame E n x) as [P1 [P2 _]]; destruct (push_outputs x n) as [w5 r5] end.
        simpl in P1, P2.
        assert (A1 : forall m, m <> n -> w_st w5 m = w_st w3 m) by (intros m Hm; rewrite P1; apply upd_neq; auto).
        assert (A2 : forall m, w_mem w5 m = w_mem w3 m) by (intros m; rewrite P2; reflexivity).
        assert (A3 : w_st w5 n = s3) by (rewrite P1; apply upd_eq).
        assert (A4 : Inv w5 (T n k name cs)).
        { eapply settle_node; [exact Hnn|exact A1|exact A2|exact D|right; left; exists s3; split; [reflexivity|exact A3]]. }
        assert (A5 : s3 <> RUNNING -> qt w5 (T n k name cs)).
        { intros Hr. eapply settle_qt; [exact Hnn|exact A1|exact A2|exact D|exact A3|exact Hr]. }
        destruct r5 as [u|e5|]; inversion H; subst.
        -- apply good_ok; auto.
        -- apply good_err. eapply settle_node; [exact Hnn| | |exact D|].
           ++ intros m Hm. simpl. rewrite upd_neq by auto. auto.
           ++ intros m. simpl. auto.
           ++ left. simpl. rewrite upd_eq. apply dead_broken.
        -- constructor; auto; try discriminate.
           ++ intros [Q|Q]; discriminate.
           ++ intros _ _ _ Hf. apply A5. intros Hx. cbn [t_id] in Hf. rewrite Hx in Hf. discriminate.
      * inversion H; subst. apply good_err.
        eapply settle_node; [exact Hnn|wst|wst|exact D|right; left; eexists; split; [reflexivity|simpl; apply upd_eq]].
    + inversion H; subst. apply good_err.
      eapply settle_node; [exact Hnn|wst|wst|exact D|left; simpl; rewrite upd_eq; apply dead_broken].
    + inversion H; subst. pose proof (raise_st _ _ _ _ _ _ _ _ Hnn Ed) as Hst. simpl in Hst.
      constructor; try discriminate.
      * eapply settle_node; [exact Hnn|reflexivity|reflexivity|exact D|right; right; auto].
      * intros [Q|Q]; discriminate.
      * intros _ _ F1 F2. cbn [t_id] in F1, F2. rewrite Hst in F2. congruence.
  - destruct (node_untick_cases E n (do_op ev OUntick n k (map (obj_of ev) cs)) w) as [[_ Heq]|[Hl Heq]];
      rewrite Heq in H; [inversion H; subst; apply good_guard; exact Hinv|].
    unfold untick_live in H. cbn zeta in H.
    destruct (do_op ev OUntick n k (map (obj_of ev) cs) w) as [w3 r3] eqn:Ed.
    pose proof (do_untick_d ev n k cs Hnn Hn Hk _ _ _ _ Har Hi (Hlm Hl) Ed) as D.
    destruct r3 as [s3|e|].
    + destruct (state_in s3 [IDLE; PAUSED]); inversion H; subst; [apply good_ok|apply good_err].
      * eapply settle_node; [exact Hnn|wst|wst|exact D|right; left; eexists; split; [reflexivity|simpl; apply upd_eq]].
      * intros Hr. eapply settle_qt; [exact Hnn|wst|wst|exact D|simpl; apply upd_eq|exact Hr].
      * eapply settle_node; [exact Hnn|wst|wst|exact D|right; left; eexists; split; [reflexivity|simpl; apply upd_eq]].
    + inversion H; subst. apply good_err.
      eapply settle_node; [exact Hnn|wst|wst|exact D|left; simpl; rewrite upd_eq; apply dead_broken].
    + inversion H; subst. pose proof (raise_st _ _ _ _ _ _ _ _ Hnn Ed) as Hst.
      eapply stop_good; [exact Hnn|exact Hn|exact Hk|exact Hst0|left; reflexivity|exact Har|exact Hi|reflexivity|reflexivity|exact Ed|].
      eapply settle_node; [exact Hnn|reflexivity|reflexivity|exact D|right; right; auto].
  - destruct (node_reset_cases E n (do_op ev OReset n k (map (obj_of ev) cs)) w) as [[_ Heq]|[Hl Heq]];
      rewrite Heq in H; [inversion H; subst; apply good_guard; exact Hinv|].
    unfold reset_live in H. cbn zeta in H.
    match type of H with context [do_op ev OReset n k _ ?x] => destruct (Hsame x eq_refl eq_refl) as [Hi1 Hm1];
      destruct (do_op ev OReset n k (map (obj_of ev) cs) x) as [w3 r3] eqn:Ed end.
    pose proof (do_reset_d ev n k cs Hnn Hn Hk _ _ _ _ Har Hi1 (Hm1 Hl) Ed) as D. simpl w_st in D.
    destruct r3 as [s3|e|].
    + destruct (state_in s3 [IDLE]); inversion H; subst; [apply good_ok|apply good_err].
      * eapply settle_node; [exact Hnn|wst|wst|exact D|right; left; eexists; split; [reflexivity|simpl; apply upd_eq]].
      * intros Hr. eapply settle_qt; [exact Hnn|wst|wst|exact D|simpl; apply upd_eq|exact Hr].
      * eapply settle_node; [exact Hnn|wst|wst|exact D|right; left; eexists; split; [reflexivity|simpl; apply upd_eq]].
    + inversion H; subst. apply good_err.
      eapply settle_node; [exact Hnn|wst|wst|exact D|left; simpl; rewrite upd_eq; apply dead_broken].
    + inversion H; subst. pose proof (raise_st _ _ _ _ _ _ _ _ Hnn Ed) as Hst. simpl in Hst.
      eapply stop_good; [exact Hnn|exact Hn|exact Hk|exact Hst0|right; reflexivity|exact Har|exact Hi1|reflexivity|reflexivity|exact Ed|].
      eapply settle_node; [exact Hnn|reflexivity|reflexivity|exact D|right; right; auto].
  - (* shutdown *)
    assert (HG : Inv w' (T n k name cs)).
    2:{ constructor; auto; try discriminate; try congruence. intros [Q|Q]; discriminate. }
    destruct (kind_leaf k) as [Hlf|Hlf].
    { subst k. simpl in Har. destruct cs; [|discriminate].
      apply Inv_intro; [intros _; exact I|intros c []]. }
    unfold node_shutdown in H.
    assert (HO : exists w1, (match w_st w n with
        | SHUTDOWN => (w, Ok SHUTDOWN)
        | _ => match do_op ev OShutdown n k (map (obj_of ev) cs) w with
               | (w1, Err _) => (set_st w1 n BROKEN, Err EState)
               | (w1, Raise) => (w1, Raise)
               | (w1, Ok s) => if state_in s [SHUTDOWN] then (set_st w1 n s, Ok s) else (set_st w1 n s, Err EState)
               end
        end) = (w1, Ok SHUTDOWN) /\ w_st w1 n = SHUTDOWN /\ out [n] w w1).
    { assert (HD : exists w1, do_op ev OShutdown n k (map (obj_of ev) cs) w = (w1, Ok SHUTDOWN) /\ out [n] w w1).
      { destruct k; try congruence; simpl; eexists; (split; [reflexivity|]); try apply out_refl;
          intros m Hm; simpl; split; auto; rewrite upd_neq; auto; intros ->; apply Hm; left; reflexivity. }
      destruct HD as [w1 [HD Ho]].
      destruct (state_eqb (w_st w n) SHUTDOWN) eqn:Es.
      - assert (Es' : w_st w n = SHUTDOWN) by (destruct (w_st w n); simpl in Es; congruence).
        exists w. rewrite Es'. split; auto. split; auto. apply out_refl.
      - exists (set_st w1 n SHUTDOWN). split.
        + rewrite HD. simpl state_in. cbv iota. destruct (w_st w n); try reflexivity. discriminate.
        + split; [simpl; apply upd_eq|]. eapply out_trans; [exact Ho|].
          intros m Hm. simpl. split; auto. apply upd_neq. intros ->. apply Hm. left; reflexivity. }
    destruct HO as [w1 [HO [HO1 HO2]]]. cbn zeta in H.
    match type of H with bind ?x _ = _ => change x with (match w_st w n with
        | SHUTDOWN => (w, Ok SHUTDOWN)
        | _ => match do_op ev OShutdown n k (map (obj_of ev) cs) w with
               | (w1, Err _) => (set_st w1 n BROKEN, Err EState)
               | (w1, Raise) => (w1, Raise)
               | (w1, Ok s) => if state_in s [SHUTDOWN] then (set_st w1 n s, Ok s) else (set_st w1 n s, Err EState)
               end
        end) in H end.
    rewrite HO in H. cbn [bind] in H.
    assert (Hi1 : kids_inv w1 cs) by (eapply same_inv; eauto).
    assert (HF : forall r2, shutdown_children (map (obj_of ev) cs) w1 None = (w', r2) -> Inv w' (T n k name cs)).
    { intros r2 Hs. destruct (shutdown_children_inv E ev cs w1 None w' r2 Hn Hk Hi1 Hs) as [A B].
      apply Inv_intro; auto. destruct (B n Hnn) as [B1 _].
      intros Q. exfalso. apply Q. rewrite B1, HO1. right; left; reflexivity. }
    destruct (shutdown_children (map (obj_of ev) cs) w1 None) as [w2 [[e|]|e|]] eqn:Es; inversion H; subst;
      (eapply HF; reflexivity).
Qed.

Theorem quiet_history : forall E (ev : env E) t w0 l w,
  wf t ->
  history ev w0 l w -> (forall t' o r, In (t', o, r) l -> t' = t) ->
  Inv w0 t -> Inv w t.
Proof.
  intros E ev t w0 l w Hwf H. induction H as [w|w t' o r w1 l w2 Hc H IH|w w1 l w2 H1 H2 H IH]; intros Hl Hi; auto.
  - apply IH; [intros t2 o2 r2 H2; apply (Hl t2 o2 r2); simpl; auto|].
    assert (Ht : t' = t) by (apply (Hl t' o r); simpl; auto). subst t'.
    exact (g_inv _ _ _ _ _ (good_call E ev t Hwf o w w1 r Hi Hc)).
  - apply IH; auto. eapply Inv_agree; [|exact Hi]. intros m _. auto.
Qed.

Lemma Inv_fresh : forall E (w : world E) t, (forall m, In m (ids t) -> w_st w m = UNINITIALIZED) -> Inv w t.
Proof.
  intros E w t H n k name cs Hin Hl. exfalso. apply Hl.
  rewrite H; [left; reflexivity|]. apply (subtrees_ids _ _ (upper_sub _ _ Hin)). simpl; auto.
Qed.

Theorem quiet_result : forall E (ev : env E) t w0 l w w' s,
  wf t ->
  (forall m, In m (ids t) -> w_st w0 m = UNINITIALIZED) ->
  history ev w0 l w -> (forall t' o r, In (t', o, r) l -> t' = t) ->
  call OTick (obj_of ev t) w = (w', Ok s) -> s <> RUNNING -> qt w' t.
Proof.
  intros E ev t w0 l w w' s Hwf H0 Hh Hl Hc Hr.
  apply (g_ok _ _ _ _ _ (good_call E ev t Hwf OTick w w' (Ok s)
    (quiet_history E ev t w0 l w Hwf Hh Hl (Inv_fresh E w0 t H0)) Hc) s eq_refl); [discriminate|exact Hr].
Qed.

Theorem running_below : forall E (ev : env E) t w0 l w w' s,
  wf t ->
  (forall m, In m (ids t) -> w_st w0 m = UNINITIALIZED) ->
  history ev w0 l w -> (forall t' o r, In (t', o, r) l -> t' = t) ->
  call OTick (obj_of ev t) w = (w', Ok s) -> s <> RUNNING ->
  forall x, In x (active w' t) -> w_st w' (t_id x) = RUNNING ->
  exists n k name cs, In (T n k name cs) (active w' t) /\ ~ settling k /\ In x (flat_map subtrees cs).
Proof.
  intros E ev t w0 l w w' s Hwf H0 Hh Hl Hc Hr x Hx Hrun.
  destruct (active_split E w' t x Hx) as [Hu|Hu]; [|exact Hu].
  pose proof (quiet_result E ev t w0 l w w' s Hwf H0 Hh Hl Hc Hr) as Q.
  destruct x as [n k name cs]. exfalso. exact (Q n k name cs Hu Hrun).
Qed.
Theorem settling_quiet : forall E (ev : env E) t w0 l w w' s,
  wf t -> all_settling t ->
  (forall m, In m (ids t) -> w_st w0 m = UNINITIALIZED) ->
  history ev w0 l w -> (forall t' o r, In (t', o, r) l -> t' = t) ->
  call OTick (obj_of ev t) w = (w', Ok s) -> s <> RUNNING ->
  nothing_running w' t.
Proof.
  intros E ev t w0 l w w' s Hwf Hs H0 Hh Hl Hc Hr x Hx Hrun.
  destruct (running_below E ev t w0 l w w' s Hwf H0 Hh Hl Hc Hr x Hx Hrun) as [n [k [name [cs [H1 [H2 _]]]]]].
  apply H2. eapply Hs. eapply active_sub; eauto.
Qed.
