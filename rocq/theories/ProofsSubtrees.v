(** Proofs about subtree managers. *)
From Coq Require Import Bool Arith Lia List.
From Verif Require Import Base ModelSubtrees SpecSubtrees.
Import ListNotations.

Section Managers.
Context {M : Type}.
Implicit Types h : heap M.

Lemma upd_same : forall h m g, upd h m g m = g.
Proof. intros. unfold upd. rewrite Nat.eqb_refl. reflexivity. Qed.
Lemma upd_other : forall h m g x, x <> m -> upd h m g x = h x.
Proof. intros h m g x N. unfold upd. destruct (Nat.eqb_spec x m); [congruence|reflexivity]. Qed.

(** ** Nesting *)

Lemma within_trans : forall h a b c, within h a b -> within h b c -> within h a c.
Proof. intros h a b c A B. induction B; [exact A|]. eapply w_in; eassumption. Qed.
Lemma within_one : forall h a b, in_ h a b -> within h a b.
Proof. intros h a b I. eapply w_in; [constructor|exact I]. Qed.
Lemma within_first : forall h m y, within h m y -> m = y \/ exists x, in_ h m x /\ within h x y.
Proof.
  intros h m y W. induction W as [|x y W IH I]; [left; reflexivity|]. right. destruct IH as [<-|(z & Z & W')].
  - exists y. split; [exact I|constructor].
  - exists z. split; [exact Z|]. eapply w_in; eassumption.
Qed.
Definition same_nested h h' : Prop := forall x, m_nested (h' x) = m_nested (h x).
Lemma in_same : forall h h' p x, same_nested h h' -> in_ h p x <-> in_ h' p x.
Proof. intros h h' p x S. unfold in_. rewrite (S p). tauto. Qed.
Lemma within_same : forall h h' m x, same_nested h h' -> within h m x -> within h' m x.
Proof. intros h h' m x S W. induction W; [constructor|]. eapply w_in; [eassumption|]. apply (in_same h h'); assumption. Qed.
Lemma same_sym : forall h h', same_nested h h' -> same_nested h' h.
Proof. intros h h' S x. symmetry. apply S. Qed.

(** ** Setters *)

Section Setter.
Variable change : mgr M -> mgr M.
Hypothesis keep : forall g, m_nested (change g) = m_nested g.
Hypothesis idem : forall g, change (change g) = change g.

Definition post (A : mid -> Prop) h h' : Prop :=
  forall x, (A x -> h' x = change (h x)) /\ (h' x = h x \/ A x /\ h' x = change (h x)).
Lemma post_nested : forall A h h', post A h h' -> same_nested h h'.
Proof. intros A h h' P x. destruct (P x) as [_ [E|[_ E]]]; rewrite E; auto. Qed.
Lemma post_seq : forall A B h h1 h2, post A h h1 -> post B h1 h2 -> post (fun x => A x \/ B x) h h2.
Proof.
  intros A B h h1 h2 P Q x. destruct (P x) as [P1 P2], (Q x) as [Q1 Q2]. split.
  - intros [X|X].
    + rewrite (P1 X) in Q2. rewrite idem in Q2. destruct Q2 as [E|[_ E]]; exact E.
    + rewrite (Q1 X). destruct P2 as [E|[_ E]]; rewrite E; [reflexivity|apply idem].
  - destruct Q2 as [E|[X E]]; rewrite E.
    + destruct P2 as [F|[Y F]]; [left|right]; auto.
    + right. split; [auto|]. destruct P2 as [F|[Y F]]; rewrite F; [reflexivity|apply idem].
Qed.
Lemma post_iff : forall A B h h', (forall x, A x <-> B x) -> post A h h' -> post B h h'.
Proof. intros A B h h' E P x. destruct (P x) as [P1 P2]. split; [intros X; apply P1, E, X|]. destruct P2 as [F|[Y F]]; [auto|right]. rewrite <- E. auto. Qed.

Fixpoint set_list (rec : heap M -> mid -> option (heap M)) (l : list (nid * mid)) h : option (heap M) :=
  match l with [] => Some h | (_, x) :: r => match rec h x with Some h' => set_list rec r h' | None => None end end.
Lemma set_all_S : forall f h m,
  set_all change (S f) h m = set_list (set_all change f) (m_nested (h m)) (upd h m (change (h m))).
Proof.
  intros f h m. cbn [set_all]. generalize (upd h m (change (h m))). generalize (m_nested (h m)).
  induction l as [|[k x] l IH]; intros g; [reflexivity|]. cbn [set_list]. destruct (set_all change f g x); auto.
Qed.
Lemma set_list_post : forall rec l h h',
  (forall h0 x h1, same_nested h h0 -> rec h0 x = Some h1 -> post (within h0 x) h0 h1) -> set_list rec l h = Some h' ->
  post (fun y => exists k x, In (k, x) l /\ within h x y) h h'.
Proof.
  intros rec l. induction l as [|[k x] l IH]; intros h h' R H; cbn in H.
  - injection H as <-. intros y. split; [intros (? & ? & [] & _)|left; reflexivity].
  - destruct (rec h x) as [h1|] eqn:E; [|discriminate].
    assert (P := R h x h1 (fun _ => eq_refl) E). assert (S := post_nested _ _ _ P).
    apply IH in H; [|intros h0 z h2 S0; apply R; intros w; rewrite (S0 w); apply S].
    eapply post_iff; [|exact (post_seq _ _ _ _ _ P H)]. intros y. cbn. split.
    + intros [W|(k' & z & I & W)]; [exists k, x; auto|]. exists k', z. split; [auto|]. eapply within_same; [apply same_sym; exact S|exact W].
    + intros (k' & z & [I|I] & W); [injection I as <- <-; auto|right]. exists k', z. split; [exact I|]. eapply within_same; eassumption.
Qed.
Lemma set_all_post : forall f h m h', set_all change f h m = Some h' -> post (within h m) h h'.
Proof.
  induction f as [|f IH]; intros h m h' H; [discriminate|]. rewrite set_all_S in H.
  assert (P : post (eq m) h (upd h m (change (h m)))).
  { intros x. split; [intros <-; apply upd_same|]. destruct (Nat.eq_dec x m) as [->|N].
    - right. split; [reflexivity|apply upd_same].
    - left. apply upd_other. exact N. }
  assert (S := post_nested _ _ _ P). apply set_list_post in H; [|intros; apply IH; assumption].
  eapply post_iff; [|exact (post_seq _ _ _ _ _ P H)]. intros y. cbn. split.
  - intros [<-|(k & x & I & W)]; [constructor|]. eapply within_trans; [apply within_one; exists k; exact I|].
    eapply within_same; [apply same_sym; exact S|exact W].
  - intros W. apply within_first in W. destruct W as [W|(x & (k & I) & W)]; [left; exact W|right]. exists k, x. split; [exact I|].
    eapply within_same; eassumption.
Qed.

Lemma set_list_total : forall rec l h,
  (forall h0 k x, same_nested h h0 -> In (k, x) l -> exists h1, rec h0 x = Some h1 /\ same_nested h0 h1) ->
  exists h', set_list rec l h = Some h' /\ same_nested h h'.
Proof.
  intros rec l. induction l as [|[k x] l IH]; intros h R; cbn; [exists h; split; [reflexivity|intros z; reflexivity]|].
  destruct (R h k x (fun _ => eq_refl) (or_introl eq_refl)) as (h1 & E & S). rewrite E.
  destruct (IH h1) as (h' & E' & S').
  - intros h0 k' z S0 I. apply (R h0 k' z); [intros w; rewrite (S0 w); apply S|right; exact I].
  - exists h'. split; [exact E'|]. intros w. rewrite (S' w). apply S.
Qed.
Lemma set_all_total : forall h m, Acc (fun x y => in_ h y x) m ->
  exists f, forall f' h0, f <= f' -> same_nested h h0 -> exists h1, set_all change f' h0 m = Some h1.
Proof.
  intros h m A. induction A as [m _ IH].
  assert (L : forall l, incl l (m_nested (h m)) ->
    exists f, forall k x f' h0, In (k, x) l -> f <= f' -> same_nested h h0 -> exists h1, set_all change f' h0 x = Some h1).
  { induction l as [|[k x] l IHl]; intros I; [exists 0; intros ? ? ? ? []|].
    destruct (IHl (fun z Z => I z (or_intror Z))) as [f1 F1].
    destruct (IH x) as [f2 F2]; [exists k; apply I; left; reflexivity|]. exists (f1 + f2).
    intros k' y f' h0 [E|E] L S; [injection E as <- <-; apply F2; [lia|exact S]|]. eapply F1; [exact E|lia|exact S]. }
  destruct (L _ (incl_refl _)) as [f F]. exists (S f). intros [|f'] h0 Le S; [lia|]. rewrite set_all_S.
  destruct (set_list_total (set_all change f') (m_nested (h0 m)) (upd h0 m (change (h0 m)))) as (h' & E & _).
  - intros h1 k x S1 I. assert (S2 : same_nested h h1).
    { intros w. rewrite (S1 w), <- (S w). unfold upd. destruct (Nat.eqb_spec w m) as [->|]; auto. }
    rewrite (S m) in I. destruct (F k x f' h1 I ltac:(lia) S2) as [h2 E]. exists h2. split; [exact E|].
    apply set_all_post in E. exact (post_nested _ _ _ E).
  - exists h'. exact E.
Qed.
End Setter.

Lemma pub_post : forall v f h m h', set_pub v f h m = Some h' -> post (with_pub v) (within h m) h h'.
Proof. intros v f h m h'. apply set_all_post; [reflexivity|]. intros g. reflexivity. Qed.
Lemma data_post : forall v f h m h', set_data v f h m = Some h' -> post (with_data v) (within h m) h h'.
Proof. intros v f h m h'. apply set_all_post; [reflexivity|]. intros g. reflexivity. Qed.

(** ** add_nested_manager *)

Lemma nset_in : forall A k (v : A) l k' v', In (k', v') (nset k v l) -> (k', v') = (k, v) \/ In (k', v') l.
Proof.
  intros A k v l. induction l as [|[a b] l IH]; intros k' v' I; cbn in I.
  - destruct I as [I|[]]. left. symmetry. exact I.
  - destruct (Nat.eqb k a).
    + destruct I as [I|I]; [left; symmetry; exact I|right; right; exact I].
    + destruct I as [I|I]; [right; left; exact I|]. destruct (IH _ _ I) as [E|E]; [left; exact E|right; right; exact E].
Qed.
Lemma nset_has : forall A k (v : A) l, In (k, v) (nset k v l).
Proof. intros A k v l. induction l as [|[a b] l IH]; cbn; [auto|]. destruct (Nat.eqb k a); [left; reflexivity|right; exact IH]. Qed.

Lemma nget_nset : forall A k (v : A) l, nget k (nset k v l) = Some v.
Proof.
  intros A k v l. induction l as [|[a b] l IH]; cbn; [rewrite Nat.eqb_refl; reflexivity|].
  destruct (Nat.eqb k a) eqn:E; cbn; [rewrite Nat.eqb_refl; reflexivity|rewrite E; exact IH].
Qed.
Lemma nget_other : forall A k k' (v : A) l, k' <> k -> nget k' (nset k v l) = nget k' l.
Proof.
  intros A k k' v l N. apply Nat.eqb_neq in N. induction l as [|[a b] l IH]; cbn; [rewrite N; reflexivity|].
  destruct (Nat.eqb_spec k a) as [<-|E]; cbn; [rewrite N; reflexivity|]. rewrite IH. reflexivity.
Qed.

Lemma add_spec : forall fuel h m id n h', ~ within h n m -> add_nested fuel h m id n = Some h' ->
  exists h2, h' = add_insert h2 m id n /\ same_nested h h2 /\ h2 m = h m /\
    (forall x, m_msgs (h2 x) = m_msgs (h x)) /\
    (forall x, within h n x -> m_pub (h2 x) = m_pub (h m) /\ m_data (h2 x) = m_data (h m)) /\
    (forall x, h2 x = h x \/ within h n x).
Proof.
  intros fuel h m id n h' N H. unfold add_nested in H. destruct (add_pub fuel h m n) as [h1|] eqn:E1; [|discriminate].
  destruct (add_data fuel h1 m n) as [h2|] eqn:E2; [|discriminate]. injection H as <-. exists h2. split; [reflexivity|].
  apply pub_post in E1. apply data_post in E2.
  assert (S1 := post_nested (with_pub (m_pub (h m))) (fun _ => eq_refl) _ _ _ E1).
  assert (S2 := post_nested (with_data (m_data (h1 m))) (fun _ => eq_refl) _ _ _ E2).
  assert (W : forall x, within h1 n x -> within h n x) by (intros x; apply within_same, same_sym, S1).
  assert (W' : forall x, within h n x -> within h1 n x) by (intros x; apply within_same, S1).
  assert (M1 : h1 m = h m) by (destruct (E1 m) as [_ [E|[X _]]]; [exact E|contradiction]).
  assert (M2 : h2 m = h m) by (destruct (E2 m) as [_ [E|[X _]]]; [congruence|apply W in X; contradiction]).
  split; [intros x; rewrite (S2 x); apply S1|]. split; [exact M2|]. split; [|split].
  - intros x. destruct (E1 x) as [_ [A|[_ A]]], (E2 x) as [_ [B|[_ B]]]; rewrite B, ?A; cbn; rewrite ?A; reflexivity.
  - intros x X. destruct (E1 x) as [A _], (E2 x) as [B _]. rewrite (B (W' _ X)), (A X), M1. cbn. auto.
  - intros x. destruct (E1 x) as [_ [A|[A _]]], (E2 x) as [_ [B|[B _]]]; auto. left. congruence.
Qed.
Lemma insert_nested : forall h m id n p k x, In (k, x) (m_nested (add_insert h m id n p)) ->
  p = m /\ k = id /\ x = n \/ In (k, x) (m_nested (h p)).
Proof.
  intros h m id n p k x I. unfold add_insert in I. destruct (Nat.eq_dec p m) as [->|N].
  - rewrite upd_same in I. cbn in I. apply nset_in in I. destruct I as [I|I]; [injection I as -> ->; auto|right; exact I].
  - rewrite upd_other in I by exact N. auto.
Qed.
Lemma insert_flags : forall h m id n p, m_pub (add_insert h m id n p) = m_pub (h p) /\ m_data (add_insert h m id n p) = m_data (h p).
Proof.
  intros h m id n p. unfold add_insert. destruct (Nat.eq_dec p m) as [->|N]; [rewrite upd_same|rewrite upd_other by exact N]; auto.
Qed.

(** ** Histories *)

Definition agree h : Prop := forall p x, in_ h p x -> m_pub (h x) = m_pub (h p) /\ m_data (h x) = m_data (h p).
Definition unique h : Prop := forall p p' k k' x,
  In (k, x) (m_nested (h p)) -> In (k', x) (m_nested (h p')) -> p = p' /\ k = k'.
Definition ginv h : Prop := agree h /\ unique h /\ acyclic h.

Lemma ginv_shrink : forall h h', (forall x, m_pub (h' x) = m_pub (h x) /\ m_data (h' x) = m_data (h x)) ->
  (forall x, incl (m_nested (h' x)) (m_nested (h x))) -> ginv h -> ginv h'.
Proof.
  intros h h' F I (A & U & C). assert (J : forall p x, in_ h' p x -> in_ h p x) by (intros p x (k & K); exists k; apply I; exact K).
  split; [|split].
  - intros p x X. destruct (F p) as [-> ->], (F x) as [-> ->]. apply A, J, X.
  - intros p p' k k' x X Y. eapply U; apply I; eassumption.
  - intros m. specialize (C m). induction C as [m _ IH]. constructor. intros x X. apply IH, J, X.
Qed.
(** Within [m], but nested in [p]: then [p] is within [m], if [p] does not nest [m]. *)
Lemma parent_within : forall h m p x, unique h -> within h m x -> in_ h p x -> x = m \/ within h m p.
Proof.
  intros h m p x U W (k & I). destruct W as [|p' x W (k' & I')]; [left; reflexivity|right].
  destruct (U _ _ _ _ _ I I') as [-> _]. exact W.
Qed.
Lemma ginv_set : forall change h m h', (forall g, m_nested (change g) = m_nested g) ->
  (forall g g', m_pub g = m_pub g' -> m_data g = m_data g' -> m_pub (change g) = m_pub (change g') /\ m_data (change g) = m_data (change g')) ->
  post change (within h m) h h' -> top h m -> ginv h -> ginv h'.
Proof.
  intros change h m h' K L P T (A & U & C). assert (S := post_nested _ K _ _ _ P). split; [|split].
  - intros p x X. apply (in_same h h' p x S) in X. destruct (A _ _ X) as [A1 A2].
    destruct (P x) as [_ [EX|[W EX]]], (P p) as [P1 [EP|[W' EP]]].
    + rewrite EX, EP. auto.
    + destruct (P x) as [P2 _]. rewrite (P2 (w_in _ _ _ _ W' X)), EP. apply L; assumption.
    + destruct (parent_within _ _ _ _ U W X) as [->|W']; [exfalso; exact (T _ X)|]. rewrite (P1 W'), EX. apply L; assumption.
    + rewrite EX, EP. apply L; assumption.
  - intros p p' k k' x X Y. rewrite (S p) in X. rewrite (S p') in Y. eapply U; eassumption.
  - intros y. specialize (C y). induction C as [y _ IH]. constructor. intros x X. apply IH. apply (in_same h h' y x S). exact X.
Qed.
Lemma ginv_add : forall fuel h m id n h', ginv h ->
  (forall p k, In (k, n) (m_nested (h p)) -> p = m /\ k = id) -> ~ within h n m ->
  add_nested fuel h m id n = Some h' -> ginv h'.
Proof.
  intros fuel h m id n h' (A & U & C) O N H. apply add_spec in H; [|exact N].
  destruct H as (h2 & -> & S & M2 & _ & F & R). split; [|split].
  - intros p x (k & X). destruct (insert_flags h2 m id n p) as [-> ->], (insert_flags h2 m id n x) as [-> ->].
    apply insert_nested in X. destruct X as [(-> & -> & ->)|X].
    + rewrite M2. apply F. constructor.
    + rewrite (S p) in X. assert (I : in_ h p x) by (exists k; exact X). destruct (A _ _ I) as [A1 A2].
      destruct (R x) as [EX|W], (R p) as [EP|W'].
      * rewrite EX, EP. auto.
      * destruct (F _ W') as [-> ->]. apply F. eapply w_in; eassumption.
      * destruct (parent_within _ _ _ _ U W I) as [->|W'].
        -- destruct (O _ _ X) as [-> _]. rewrite M2. apply F. exact W.
        -- destruct (F _ W') as [-> ->]. apply F. exact W.
      * destruct (F _ W') as [-> ->]. apply F. exact W.
  - intros p p' k k' x X Y. apply insert_nested in X. apply insert_nested in Y.
    destruct X as [(-> & -> & ->)|X], Y as [(-> & -> & Y)|Y].
    + auto.
    + rewrite (S p') in Y. destruct (O _ _ Y). auto.
    + subst x. rewrite (S p) in X. destruct (O _ _ X). auto.
    + rewrite (S p) in X. rewrite (S p') in Y. eapply U; eassumption.
  - set (h' := add_insert h2 m id n).
    assert (J : forall p x, in_ h' p x -> p = m /\ x = n \/ in_ h p x).
    { intros p x (k & X). apply insert_nested in X. destruct X as [(-> & _ & ->)|X]; [auto|right]. rewrite (S p) in X. exists k. exact X. }
    assert (K : forall y, within h n y -> Acc (fun x y => in_ h' y x) y).
    { intros y. specialize (C y). induction C as [y _ IH]. intros W. constructor. intros x X.
      destruct (J _ _ X) as [(-> & ->)|X']; [contradiction|]. apply IH; [exact X'|]. eapply w_in; eassumption. }
    intros y. specialize (C y). induction C as [y _ IH]. constructor. intros x X.
    destruct (J _ _ X) as [(-> & ->)|X']; [apply K; constructor|apply IH; exact X'].
Qed.
Lemma managed_inv : forall h, managed h -> ginv h.
Proof.
  intros h G. induction G as [|h m v fuel h' G IH T H|h m v fuel h' G IH T H|h m k id msg G IH|h m id n fuel h' G IH O N H|h m G IH|h m id G IH].
  - split; [intros p x (k & [])|]. split; [intros p p' k k' x []|]. intros m. constructor. intros x (k & []).
  - apply pub_post in H. eapply ginv_set; [| |exact H|exact T|exact IH]; [reflexivity|]. cbn. auto.
  - apply data_post in H. eapply ginv_set; [| |exact H|exact T|exact IH]; [reflexivity|]. cbn. auto.
  - eapply ginv_shrink; [| |exact IH]; intros x; unfold add_msg; destruct (Nat.eq_dec x m) as [->|X];
      rewrite ?upd_same, ?upd_other by exact X; cbn; auto using incl_refl.
  - eapply ginv_add; eassumption.
  - eapply ginv_shrink; [| |exact IH]; intros x; unfold clear; destruct (Nat.eq_dec x m) as [->|X];
      rewrite ?upd_same, ?upd_other by exact X; cbn; auto using incl_refl. intros z [].
  - eapply ginv_shrink; [| |exact IH]; intros x; unfold remove; destruct (Nat.eq_dec x m) as [->|X];
      rewrite ?upd_same, ?upd_other by exact X; cbn; auto using incl_refl. intros z Z. apply filter_In in Z. apply Z.
Qed.
Lemma agree_within : forall h m x, agree h -> within h m x -> m_pub (h x) = m_pub (h m) /\ m_data (h x) = m_data (h m).
Proof.
  intros h m x A W. induction W as [|x y W IH I]; [auto|]. destruct (A _ _ I) as [-> ->]. exact IH.
Qed.

(** ** Getters *)

Fixpoint get_list (rec : mid -> option (list M)) (l : list (nid * mid)) (acc : list M) : option (list M) :=
  match l with [] => Some acc | (_, x) :: r => match rec x with Some a => get_list rec r (acc ++ a) | None => None end end.
Lemma get_S : forall k f h m, get k (S f) h m =
  if negb (m_pub (h m)) then Some [] else get_list (get k f h) (m_nested (h m)) (map snd (m_msgs (h m) k)).
Proof.
  intros k f h m. cbn [get]. destruct (negb (m_pub (h m))); [reflexivity|]. generalize (map snd (m_msgs (h m) k)). generalize (m_nested (h m)).
  induction l as [|[i x] l IH]; intros acc; [reflexivity|]. cbn [get_list]. destruct (get k f h x); auto.
Qed.
Lemma get_list_spec : forall rec (Q : mid -> M -> Prop) l acc r,
  (forall i x a, In (i, x) l -> rec x = Some a -> forall z, In z a <-> Q x z) -> get_list rec l acc = Some r ->
  forall z, In z r <-> In z acc \/ exists i x, In (i, x) l /\ Q x z.
Proof.
  intros rec Q l. induction l as [|[i x] l IH]; intros acc r R H z; cbn in H.
  - injection H as <-. split; [auto|]. intros [?|(i & x & [] & _)]. assumption.
  - destruct (rec x) as [a|] eqn:E; [|discriminate]. rewrite (IH _ _ (fun i y b I => R i y b (or_intror I)) H z).
    rewrite in_app_iff, (R i x a (or_introl eq_refl) E z). split.
    + intros [[Z|Z]|(i' & y & I & Y)]; [auto|right; exists i, x; cbn; auto|right; exists i', y; cbn; auto].
    + intros [Z|(i' & y & [I|I] & Y)]; [auto|injection I as <- <-; auto|right; exists i', y; auto].
Qed.
Lemma get_spec : forall k f h m r, agree h -> m_pub (h m) = true -> get k f h m = Some r ->
  forall z, In z r <-> exists x id, within h m x /\ In (id, z) (m_msgs (h x) k).
Proof.
  intros k f h. induction f as [|f IH]; intros m r A P H z; [discriminate|]. rewrite get_S, P in H. cbn [negb] in H.
  assert (R : forall i x a, In (i, x) (m_nested (h m)) -> get k f h x = Some a -> forall z, In z a <->
    (fun y z => exists x id, within h y x /\ In (id, z) (m_msgs (h x) k)) x z).
  { intros i y a I G. apply IH; [exact A| |exact G]. destruct (A m y ltac:(exists i; exact I)) as [-> _]. exact P. }
  rewrite (get_list_spec _ _ _ _ _ R H z), in_map_iff. split.
  - intros [([id z'] & E & I)|(i & y & I & x & id & W & Z)].
    + cbn in E. subst z'. exists m, id. split; [constructor|exact I].
    + exists x, id. split; [|exact Z]. eapply within_trans; [apply within_one; exists i; exact I|exact W].
  - intros (x & id & W & Z). apply within_first in W. destruct W as [<-|(y & (i & I) & W)].
    + left. exists (id, z). auto.
    + right. exists i, y. split; [exact I|]. exists x, id. auto.
Qed.
Lemma get_total : forall k h m, Acc (fun x y => in_ h y x) m ->
  exists f, forall f', f <= f' -> exists r, get k f' h m = Some r.
Proof.
  intros k h m A. induction A as [m _ IH].
  assert (L : forall l, incl l (m_nested (h m)) ->
    exists f, forall f' acc, f <= f' -> exists r, get_list (get k f' h) l acc = Some r).
  { induction l as [|[i x] l IHl]; intros I; [exists 0; cbn; eauto|].
    destruct (IHl (fun z Z => I z (or_intror Z))) as [f1 F1].
    destruct (IH x) as [f2 F2]; [exists i; apply I; left; reflexivity|]. exists (f1 + f2). intros f' acc Le. cbn.
    destruct (F2 f') as [a ->]; [lia|]. apply F1. lia. }
  destruct (L _ (incl_refl _)) as [f F]. exists (S f). intros [|f'] Le; [lia|]. rewrite get_S.
  destruct (negb (m_pub (h m))); [eauto|]. apply F. lia.
Qed.
End Managers.
