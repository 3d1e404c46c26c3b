(** Proofs about the utility calculation. *)
From Coq Require Import List ZArith QArith Qminmax Bool Arith Lia Lqa Permutation.
From Verif Require Import Base ModelUtility SpecUtility.
Import ListNotations.
Local Open Scope Q_scope.

Ltac conjs := repeat match goal with |- _ /\ _ => split end.

(** Cost [q] lies in span [s]. *)
Definition within (s : span) (q : Q) : Prop :=
  (s_hl s = true -> s_l s <= q) /\ (s_hu s = true -> q <= s_u s).

Lemma within_add : forall a b x y, within a x -> within b y -> within (span_add a b) (x + y).
Proof.
  intros a b x y [A1 A2] [B1 B2]. split; simpl; intros H; apply andb_true_iff in H; destruct H as [H1 H2].
  - specialize (A1 H1). specialize (B1 H2). lra.
  - specialize (A2 H1). specialize (B2 H2). lra.
Qed.

Lemma within_eq : forall s x y, x == y -> within s x -> within s y.
Proof. intros s x y He [A B]. split; intros H; rewrite <- He; auto. Qed.

Definition nonempty (s : span) : Prop := s_hl s = true -> s_hu s = true -> s_l s <= s_u s.

Lemma nonempty_in : forall s, nonempty s -> exists q, within s q.
Proof.
  intros [hl l hu u] H. unfold nonempty, within in *. simpl in *. destruct hl, hu.
  - exists l. split; intros; [lra|auto].
  - exists l. split; intros; [lra|discriminate].
  - exists u. split; intros; [discriminate|lra].
  - exists 0. split; discriminate.
Qed.

(** Lowest and highest members. *)
Definition lowest (s : span) (P : Q -> Prop) : Prop :=
  forall m, (forall q, P q -> m <= q) -> s_hl s = true /\ m <= s_l s.
Definition highest (s : span) (P : Q -> Prop) : Prop :=
  forall m, (forall q, P q -> q <= m) -> s_hu s = true /\ s_u s <= m.

Lemma span_lowest : forall s, nonempty s -> lowest s (within s).
Proof.
  intros [hl l hu u] H m Hm. unfold nonempty, within in *. simpl in *. destruct hl.
  - split; auto. apply Hm. split; intros; [lra|auto].
  - exfalso. destruct hu.
    + pose proof (Hm (Qmin u (m - 1))) as Hx. assert (Qmin u (m - 1) <= m - 1) by apply Q.le_min_r.
      assert (m <= Qmin u (m - 1)); [apply Hx; split; [discriminate|intros; apply Q.le_min_l]|lra].
    + assert (m <= m - 1); [apply Hm; split; discriminate|lra].
Qed.

Lemma span_highest : forall s, nonempty s -> highest s (within s).
Proof.
  intros [hl l hu u] H m Hm. unfold nonempty, within in *. simpl in *. destruct hu.
  - split; auto. apply Hm. split; intros; [auto|lra].
  - exfalso. destruct hl.
    + pose proof (Hm (Qmax l (m + 1))) as Hx. assert (m + 1 <= Qmax l (m + 1)) by apply Q.le_max_r.
      assert (Qmax l (m + 1) <= m); [apply Hx; split; [intros; apply Q.le_max_l|discriminate]|lra].
    + assert (m + 1 <= m); [apply Hm; split; discriminate|lra].
Qed.

(** A sum of two spans is the span of the sums. *)
Definition plus_set (P R : Q -> Prop) (q : Q) : Prop := exists x y, P x /\ R y /\ q == x + y.

Lemma lowest_plus : forall a b P R, (exists x, P x) -> (exists y, R y) ->
  lowest a P -> lowest b R -> lowest (span_add a b) (plus_set P R).
Proof.
  intros a b P R [x0 Hx0] [y0 Hy0] Ha Hb m Hm. simpl.
  assert (H1 : forall y, R y -> s_hl a = true /\ m - y <= s_l a).
  { intros y Hy. apply Ha. intros x Hx. assert (m <= x + y); [|lra]. apply Hm. exists x, y. conjs; auto; lra. }
  assert (H2 : s_hl b = true /\ m - s_l a <= s_l b).
  { apply Hb. intros y Hy. destruct (H1 y Hy) as [_ H]. lra. }
  destruct (H1 y0 Hy0) as [H3 _]. destruct H2 as [H4 H5]. rewrite H3, H4. split; auto. lra.
Qed.

Lemma highest_plus : forall a b P R, (exists x, P x) -> (exists y, R y) ->
  highest a P -> highest b R -> highest (span_add a b) (plus_set P R).
Proof.
  intros a b P R [x0 Hx0] [y0 Hy0] Ha Hb m Hm. simpl.
  assert (H1 : forall y, R y -> s_hu a = true /\ s_u a <= m - y).
  { intros y Hy. apply Ha. intros x Hx. assert (x + y <= m); [|lra]. apply Hm. exists x, y. conjs; auto; lra. }
  assert (H2 : s_hu b = true /\ s_u b <= m - s_u a).
  { apply Hb. intros y Hy. destruct (H1 y Hy) as [_ H]. lra. }
  destruct (H1 y0 Hy0) as [H3 _]. destruct H2 as [H4 H5]. rewrite H3, H4. split; auto. lra.
Qed.

Lemma lowest_ext : forall s (P R : Q -> Prop), (forall q, R q -> exists q', P q' /\ q' == q) ->
  (forall q, P q -> exists q', R q' /\ q' == q) -> lowest s P -> lowest s R.
Proof.
  intros s P R H1 H2 H m Hm. apply H. intros q Hq. destruct (H2 q Hq) as [q' [Hr He]]. rewrite <- He. auto.
Qed.
Lemma highest_ext : forall s (P R : Q -> Prop), (forall q, P q -> exists q', R q' /\ q' == q) -> highest s P -> highest s R.
Proof.
  intros s P R H2 H m Hm. apply H. intros q Hq. destruct (H2 q Hq) as [q' [Hr He]]. rewrite <- He. auto.
Qed.

Section Walk.
Variables (on stop : bounds -> span).
Notation on_ := (fun b => within (on b)).
Notation stop_ := (fun b => within (stop b)).

(** Adding up from the left, with an accumulator. *)
Definition from (P : Q -> Prop) (bs : list bounds) (q : Q) : Prop :=
  exists x qs, P x /\ Forall2 on_ bs qs /\ q == x + sum qs.

Lemma total_within : forall bs acc x qs, within acc x -> Forall2 on_ bs qs ->
  within (fold_left (fun a c => span_add a (on c)) bs acc) (x + sum qs).
Proof.
  induction bs as [|b bs IH]; intros acc x qs Hx HF; inversion HF; subst; simpl.
  - eapply within_eq; [|exact Hx]. lra.
  - eapply within_eq; [|apply IH; [apply within_add; eauto|eassumption]]. simpl. lra.
Qed.

Lemma total_tight : forall bs acc P, (exists x, P x) -> Forall (fun b => nonempty (on b)) bs ->
  lowest acc P -> highest acc P ->
  let s := fold_left (fun a c => span_add a (on c)) bs acc in
  (exists x, from P bs x) /\ lowest s (from P bs) /\ highest s (from P bs).
Proof.
  induction bs as [|b bs IH]; intros acc P [x0 Hx0] HF Hlo Hhi; simpl.
  - assert (Hfrom : forall q, P q -> from P [] q).
    { intros q Hq. exists q, []. conjs; auto. simpl. lra. }
    split; [eauto|]. split; [eapply lowest_ext; [| |exact Hlo]|eapply highest_ext; [|exact Hhi]].
    + intros q [x [qs [Hp [H2 He]]]]. inversion H2; subst. exists x. split; auto. simpl in He. lra.
    + intros q Hq. exists q. split; auto. lra.
    + intros q Hq. exists q. split; auto. lra.
  - inversion HF; subst. destruct (nonempty_in _ H1) as [y0 Hy0].
    destruct (IH (span_add acc (on b)) (plus_set P (within (on b)))) as [Hex [Hl Hh]]; auto.
    + exists (x0 + y0), x0, y0. conjs; auto; lra.
    + apply lowest_plus; eauto using span_lowest.
    + apply highest_plus; eauto using span_highest.
    + assert (Hto : forall q, from (plus_set P (within (on b))) bs q -> from P (b :: bs) q).
      { intros q [z [qs [[x [y [Hx [Hy Hz]]]] [HF2 He]]]]. exists x, (y :: qs). conjs; auto. simpl. lra. }
      assert (Hfr : forall q, from P (b :: bs) q -> from (plus_set P (within (on b))) bs q).
      { intros q [x [qs [Hx [HF2 He]]]]. inversion HF2; subst. simpl in He. exists (x + y), l'. split; [|split; auto; lra].
        exists x, y. conjs; auto; lra. }
      split; [destruct Hex as [q Hq]; exists q; auto|]. split.
      * eapply lowest_ext; [| |exact Hl]; intros q Hq; exists q; split; auto; lra.
      * eapply highest_ext; [|exact Hh]; intros q Hq; exists q; split; auto; lra.
Qed.

(** The paths that end at one child. *)
Definition ends (P : Q -> Prop) (bs : list bounds) (q : Q) : Prop :=
  exists pre b post x qs y, bs = pre ++ b :: post /\ P x /\ Forall2 on_ pre qs /\ stop_ b y /\ q == x + sum qs + y.

Lemma paths_within : forall bs acc x q, within acc x ->
  (exists pre b post qs y, bs = pre ++ b :: post /\ Forall2 on_ pre qs /\ stop_ b y /\ q == x + sum qs + y) ->
  exists s, In s (paths on stop acc bs) /\ within s q.
Proof.
  induction bs as [|b bs IH]; intros acc x q Hx [pre [b' [post [qs [y [He [HF [Hy Hq]]]]]]]].
  - destruct pre; discriminate.
  - destruct pre as [|p pre']; simpl in He; inversion He; subst.
    + inversion HF; subst. exists (span_add acc (stop b')). split; [left; auto|].
      eapply within_eq; [|apply within_add; [exact Hx|exact Hy]]. simpl in Hq. lra.
    + inversion HF; subst. destruct (IH (span_add acc (on p)) (x + y0) q) as [s [Hs Hw]].
      * apply within_add; auto.
      * exists pre', b', post, l', y. conjs; auto; try (apply Hy). simpl in Hq. lra.
      * exists s. split; auto. right. auto.
Qed.

(** Every path is tight for the costs of that path. *)
Lemma paths_tight : forall bs acc P s, (exists x, P x) ->
  Forall (fun b => nonempty (on b) /\ nonempty (stop b)) bs -> lowest acc P -> highest acc P ->
  In s (paths on stop acc bs) ->
  exists R : Q -> Prop, (exists q, R q) /\ (forall q, R q -> ends P bs q) /\ lowest s R /\ highest s R.
Proof.
  induction bs as [|b bs IH]; intros acc P s [x0 Hx0] HF Hlo Hhi Hin; [destruct Hin|].
  inversion HF as [|? ? [Hn1 Hn2] HF']; subst. destruct Hin as [<-|Hin].
  - destruct (nonempty_in _ Hn2) as [y0 Hy0]. exists (plus_set P (within (stop b))). split; [exists (x0 + y0), x0, y0; conjs; auto; lra|].
    split; [|split; [apply lowest_plus|apply highest_plus]; eauto using span_lowest, span_highest].
    intros q [x [y [Hx [Hy He]]]]. exists [], b, bs, x, [], y. conjs; auto; try apply Hy. simpl. lra.
  - destruct (nonempty_in _ Hn1) as [y0 Hy0].
    destruct (IH (span_add acc (on b)) (plus_set P (within (on b))) s) as [R [He [Hsub [Hl Hh]]]]; auto.
    + exists (x0 + y0), x0, y0; conjs; auto; lra.
    + apply lowest_plus; eauto using span_lowest.
    + apply highest_plus; eauto using span_highest.
    + exists R. split; auto. split; auto. intros q Hq. destruct (Hsub q Hq) as [pre [b' [post [z [qs [y [A [[x [t [B1 [B2 B3]]]] [C [D F]]]]]]]]]].
      exists (b :: pre), b', post, x, (t :: qs), y. subst bs. conjs; auto; try apply D. simpl. lra.
Qed.
End Walk.

(** ** Minimum and maximum of lists *)

Lemma qmin_le : forall l x, In x l -> qmin_list l <= x.
Proof.
  induction l as [|a l IH]; intros x [].
  - subst a. simpl. destruct l; [lra|]. destruct (Qle_bool x (qmin_list (q :: l))) eqn:E; [lra|].
    assert (~ x <= qmin_list (q :: l)) by (intros H; apply Qle_bool_iff in H; congruence). lra.
  - specialize (IH x H). simpl. destruct l as [|q l]; [destruct H|].
    destruct (Qle_bool a (qmin_list (q :: l))) eqn:E; [|auto]. apply Qle_bool_iff in E. lra.
Qed.
Lemma qmin_in : forall l, l <> [] -> exists x, In x l /\ x == qmin_list l.
Proof.
  induction l as [|a l IH]; intros H; [congruence|]. simpl. destruct l as [|q l]; [exists a; split; [auto|lra]|].
  destruct (Qle_bool a (qmin_list (q :: l))); [exists a; split; [auto|lra]|].
  destruct IH as [x [Hx He]]; [discriminate|]. exists x. split; auto.
Qed.
Lemma qmax_ge : forall l x, In x l -> x <= qmax_list l.
Proof.
  induction l as [|a l IH]; intros x [].
  - subst a. simpl. destruct l; [lra|]. destruct (Qle_bool (qmax_list (q :: l)) x) eqn:E; [lra|].
    assert (~ qmax_list (q :: l) <= x) by (intros H; apply Qle_bool_iff in H; congruence). lra.
  - specialize (IH x H). simpl. destruct l as [|q l]; [destruct H|].
    destruct (Qle_bool (qmax_list (q :: l)) a) eqn:E; [|auto]. apply Qle_bool_iff in E. lra.
Qed.
Lemma qmax_in : forall l, l <> [] -> exists x, In x l /\ x == qmax_list l.
Proof.
  induction l as [|a l IH]; intros H; [congruence|]. simpl. destruct l as [|q l]; [exists a; split; [auto|lra]|].
  destruct (Qle_bool (qmax_list (q :: l)) a); [exists a; split; [auto|lra]|].
  destruct IH as [x [Hx He]]; [discriminate|]. exists x. split; auto.
Qed.

Lemma envelope_within : forall l s q, In s l -> within s q -> within (envelope l) q.
Proof.
  intros l s q Hin [A B]. split; simpl; intros H; rewrite forallb_forall in H.
  - apply Qle_trans with (s_l s); [apply qmin_le; apply in_map; auto|auto].
  - apply Qle_trans with (s_u s); [auto|apply qmax_ge; apply in_map; auto].
Qed.

Lemma envelope_tight : forall l (P : Q -> Prop), l <> [] ->
  (forall s, In s l -> exists R : Q -> Prop, (exists q, R q) /\ (forall q, R q -> P q) /\ lowest s R /\ highest s R) ->
  lowest (envelope l) P /\ highest (envelope l) P.
Proof.
  intros l P Hne H. split; intros m Hm; simpl.
  - assert (Hall : forall s, In s l -> s_hl s = true /\ m <= s_l s).
    { intros s Hs. destruct (H s Hs) as [R [_ [Hsub [Hl _]]]]. apply Hl. intros q Hq. auto. }
    split; [apply forallb_forall; intros s Hs; apply Hall; auto|].
    destruct (qmin_in (map s_l l)) as [x [Hx He]]; [destruct l; [congruence|discriminate]|].
    apply in_map_iff in Hx. destruct Hx as [s [<- Hs]]. rewrite <- He. apply Hall; auto.
  - assert (Hall : forall s, In s l -> s_hu s = true /\ s_u s <= m).
    { intros s Hs. destruct (H s Hs) as [R [_ [Hsub [_ Hh]]]]. apply Hh. intros q Hq. auto. }
    split; [apply forallb_forall; intros s Hs; apply Hall; auto|].
    destruct (qmax_in (map s_u l)) as [x [Hx He]]; [destruct l; [congruence|discriminate]|].
    apply in_map_iff in Hx. destruct Hx as [s [<- Hs]]. rewrite <- He. apply Hall; auto.
Qed.

(** ** Both node classes *)

Section Node.
Variables (on stop : bounds -> span).
Notation on_ := (fun b => within (on b)).
Notation stop_ := (fun b => within (stop b)).

Lemma node_all_sound : forall bs q, all_on on_ bs q -> within (total on bs) q.
Proof.
  intros bs q [qs [HF He]]. eapply within_eq; [|apply (total_within on bs span0 0 qs); auto].
  - rewrite He. lra.
  - split; simpl; lra.
Qed.

Lemma node_stop_sound : forall bs q, stopped on_ stop_ bs q -> within (envelope (paths on stop span0 bs)) q.
Proof.
  intros bs q [pre [b [post [qs [x [He [HF [Hx Hq]]]]]]]].
  destruct (paths_within on stop bs span0 0 q) as [s [Hs Hw]].
  - split; simpl; lra.
  - exists pre, b, post, qs, x. conjs; auto; try apply Hx. lra.
  - eapply envelope_within; eauto.
Qed.

Lemma span0_tight : lowest span0 (fun q => q == 0) /\ highest span0 (fun q => q == 0).
Proof.
  split; intros m Hm; simpl; (split; [auto|]); apply Hm; lra.
Qed.

Lemma node_all_tight : forall bs, Forall (fun b => nonempty (on b)) bs ->
  lowest (total on bs) (all_on on_ bs) /\ highest (total on bs) (all_on on_ bs).
Proof.
  intros bs HF. destruct span0_tight as [Hl Hh].
  destruct (total_tight on bs span0 (fun q => q == 0)) as [_ [H1 H2]]; auto.
  { exists 0. lra. }
  assert (Hfr : forall q, from on (fun q => q == 0) bs q -> all_on on_ bs q).
  { intros q [x [qs [Hx [H He]]]]. exists qs. split; auto. rewrite He, Hx. lra. }
  assert (Hto : forall q, all_on on_ bs q -> from on (fun q => q == 0) bs q).
  { intros q [qs [H He]]. exists 0, qs. conjs; auto; lra. }
  split; [eapply lowest_ext; [| |exact H1]|eapply highest_ext; [|exact H2]]; intros q Hq; exists q; split; auto; lra.
Qed.

Lemma node_stop_tight : forall bs, bs <> [] -> Forall (fun b => nonempty (on b) /\ nonempty (stop b)) bs ->
  lowest (envelope (paths on stop span0 bs)) (stopped on_ stop_ bs) /\
  highest (envelope (paths on stop span0 bs)) (stopped on_ stop_ bs).
Proof.
  intros bs Hne HF. destruct span0_tight as [Hl Hh].
  apply envelope_tight.
  - destruct bs; [congruence|discriminate].
  - intros s Hs. destruct (paths_tight on stop bs span0 (fun q => q == 0) s) as [R [A [B [C D]]]]; auto.
    { exists 0. lra. }
    exists R. split; auto. split; auto. intros q Hq. destruct (B q Hq) as [pre [b [post [x [qs [y [E [Hx [F [G Hq2]]]]]]]]]].
    exists pre, b, post, qs, y. conjs; auto; try apply G. rewrite Hq2, Hx. lra.
Qed.
End Node.

(** Results of the children that let the calculation go through. *)
Lemma sequence_scan_ok : forall bs, Forall (fun b => can_execute b = true) bs ->
  sequence_scan (map Ok bs) = Ok (Some bs).
Proof. induction bs as [|b bs IH]; intros HF; simpl; auto. inversion HF; subst. rewrite H1, IH; auto. Qed.
Lemma fallback_scan_ok : forall bs, Forall (fun b => can_execute b = true) bs ->
  fallback_scan (map Ok bs) = Ok (Some bs).
Proof. induction bs as [|b bs IH]; intros HF; simpl; auto. inversion HF; subst. rewrite H1, IH; auto. Qed.

(** ** Parallel *)

Lemma qsum_sum : forall l, qsum l = sum l.
Proof. reflexivity. Qed.

Lemma sum_perm : forall l l', Permutation l l' -> sum l == sum l'.
Proof. intros l l' H. induction H; simpl; lra. Qed.

(** Sums of the first elements of a sorted list. *)
Section Sorted.
Variable R : Q -> Q -> Prop.
Hypothesis Radd : forall a b c d, R a b -> R c d -> R (a + c) (b + d).
Hypothesis R0 : R 0 0.

Fixpoint sorted (l : list Q) : Prop :=
  match l with [] => True | x :: r => (forall y, In y r -> R x y) /\ sorted r end.

Hypothesis Rrefl : forall x, R x x.
Hypothesis Req : forall a b c, R a b -> b == c -> R a c.

Lemma in_perm_cons : forall (x : Q) l, In x l -> exists l', Permutation l (x :: l').
Proof.
  intros x l H. apply in_split in H. destruct H as [a [b ->]]. exists (a ++ b). symmetry. apply Permutation_middle.
Qed.

Lemma firstn_best : forall l g rest, sorted l -> Permutation l (g ++ rest) ->
  R (sum (firstn (List.length g) l)) (sum g).
Proof.
  induction l as [|x l IH]; intros g rest Hs Hp.
  - apply Permutation_nil in Hp. apply app_eq_nil in Hp. destruct Hp as [-> ->]. simpl. apply R0.
  - destruct Hs as [Hx Hs]. destruct g as [|g0 g'].
    + simpl. apply R0.
    + assert (Hin : In x ((g0 :: g') ++ rest)) by (eapply Permutation_in; [exact Hp|left; auto]).
      apply in_app_or in Hin. destruct Hin as [Hin|Hin].
      * destruct (in_perm_cons _ _ Hin) as [g'' Hg].
        assert (Hl : List.length g'' = List.length g') by (apply Permutation_length in Hg; simpl in Hg; lia).
        assert (Hp' : Permutation l (g'' ++ rest)).
        { apply Permutation_cons_inv with x. rewrite Hp. rewrite Hg. reflexivity. }
        specialize (IH g'' rest Hs Hp'). simpl firstn. rewrite <- Hl. simpl sum.
        eapply Req; [apply Radd; [apply Rrefl|exact IH]|].
        symmetry. rewrite (sum_perm _ _ Hg). simpl. lra.
      * destruct (in_perm_cons _ _ Hin) as [rest' Hr].
        assert (Hp' : Permutation l (g' ++ (g0 :: rest'))).
        { apply Permutation_cons_inv with x. rewrite Hp. rewrite Hr. simpl.
          rewrite <- Permutation_middle. rewrite perm_swap. constructor. rewrite Permutation_middle. reflexivity. }
        specialize (IH g' (g0 :: rest') Hs Hp'). simpl. apply Radd; auto.
        apply Hx. eapply Permutation_in; [symmetry; exact Hp'|]. apply in_or_app. right. left. auto.
Qed.
End Sorted.

Section Sort.
Variable key : bounds -> Q.

Lemma ins_asc_perm : forall x l, Permutation (ins_asc key x l) (x :: l).
Proof.
  intros x l. induction l as [|y l IH]; simpl; auto. destruct (Qle_bool (key x) (key y)); auto.
  rewrite IH. apply perm_swap.
Qed.
Lemma sort_asc_perm : forall l, Permutation (sort_asc key l) l.
Proof. induction l as [|x l IH]; simpl; auto. rewrite ins_asc_perm. auto. Qed.
Lemma ins_desc_perm : forall x l, Permutation (ins_desc key x l) (x :: l).
Proof.
  intros x l. induction l as [|y l IH]; simpl; auto. destruct (Qle_bool (key y) (key x)); auto.
  rewrite IH. apply perm_swap.
Qed.
Lemma sort_desc_perm : forall l, Permutation (sort_desc key l) l.
Proof. induction l as [|x l IH]; simpl; auto. rewrite ins_desc_perm. auto. Qed.

Lemma Qle_bool_false : forall a b, Qle_bool a b = false -> b <= a.
Proof.
  intros a b H. assert (~ a <= b) by (intros H'; apply Qle_bool_iff in H'; congruence). lra.
Qed.

Lemma ins_asc_sorted : forall x l, sorted Qle (map key l) -> sorted Qle (map key (ins_asc key x l)).
Proof.
  intros x l. induction l as [|y l IH]; intros Hs; [simpl; split; auto; intros ? []|]. simpl.
  destruct (Qle_bool (key x) (key y)) eqn:E.
  - apply Qle_bool_iff in E. simpl. split; [|exact Hs]. intros z [<-|Hz]; auto. destruct Hs as [Hy _]. specialize (Hy z Hz). lra.
  - apply Qle_bool_false in E. destruct Hs as [Hy Hs]. simpl. split; auto. intros z Hz.
    apply in_map_iff in Hz. destruct Hz as [b [<- Hb]].
    apply (Permutation_in _ (ins_asc_perm x l)) in Hb. destruct Hb as [<-|Hb]; auto. apply Hy. apply in_map; auto.
Qed.
Lemma sort_asc_sorted : forall l, sorted Qle (map key (sort_asc key l)).
Proof. induction l as [|x l IH]; simpl; auto. apply ins_asc_sorted. exact IH. Qed.

Definition Qge (a b : Q) : Prop := b <= a.
Lemma ins_desc_sorted : forall x l, sorted Qge (map key l) -> sorted Qge (map key (ins_desc key x l)).
Proof.
  intros x l. induction l as [|y l IH]; intros Hs; [simpl; split; auto; intros ? []|]. simpl.
  destruct (Qle_bool (key y) (key x)) eqn:E.
  - apply Qle_bool_iff in E. simpl. split; [|exact Hs]. intros z [<-|Hz]; auto. destruct Hs as [Hy _]. specialize (Hy z Hz). unfold Qge in *. lra.
  - apply Qle_bool_false in E. destruct Hs as [Hy Hs]. simpl. split; auto. intros z Hz.
    apply in_map_iff in Hz. destruct Hz as [b [<- Hb]].
    apply (Permutation_in _ (ins_desc_perm x l)) in Hb. destruct Hb as [<-|Hb]; auto. apply Hy. apply in_map; auto.
Qed.
Lemma sort_desc_sorted : forall l, sorted Qge (map key (sort_desc key l)).
Proof. induction l as [|x l IH]; simpl; auto. apply ins_desc_sorted. exact IH. Qed.

Lemma slice_firstn : forall A k (l : list A), (0 <= k)%Z -> slice_to k l = firstn (Z.to_nat k) l.
Proof. intros A k l H. unfold slice_to. apply Z.leb_le in H. rewrite H. auto. Qed.

(** The group of cheapest children is cheaper than any other group. *)
Lemma cheapest : forall bs g rest k, (0 <= k)%Z -> Permutation bs (g ++ rest) -> Z.of_nat (List.length g) = k ->
  qsum (map key (slice_to k (sort_asc key bs))) <= sum (map key g).
Proof.
  intros bs g rest k Hk Hp Hl. rewrite slice_firstn by auto. subst k. rewrite Nat2Z.id. rewrite <- firstn_map.
  rewrite <- (map_length key g). change qsum with sum.
  apply (firstn_best Qle) with (rest := map key rest).
  - intros; lra.
  - lra.
  - intros; lra.
  - intros a b c H1 H2. rewrite <- H2. auto.
  - apply sort_asc_sorted.
  - rewrite <- map_app. apply Permutation_map. rewrite sort_asc_perm. auto.
Qed.
Lemma dearest : forall bs g rest k, (0 <= k)%Z -> Permutation bs (g ++ rest) -> Z.of_nat (List.length g) = k ->
  sum (map key g) <= qsum (map key (slice_to k (sort_desc key bs))).
Proof.
  intros bs g rest k Hk Hp Hl. rewrite slice_firstn by auto. subst k. rewrite Nat2Z.id. rewrite <- firstn_map.
  rewrite <- (map_length key g). change qsum with sum.
  apply (firstn_best Qge) with (rest := map key rest).
  - unfold Qge; intros; lra.
  - unfold Qge; lra.
  - unfold Qge; intros; lra.
  - unfold Qge. intros a b c H1 H2. rewrite <- H2. auto.
  - apply sort_desc_sorted.
  - rewrite <- map_app. apply Permutation_map. rewrite sort_desc_perm. auto.
Qed.

Lemma slice_split : forall (s : list bounds -> list bounds) k bs, (0 <= k <= Z.of_nat (List.length bs))%Z ->
  Permutation (s bs) bs ->
  exists rest, Permutation bs (slice_to k (s bs) ++ rest) /\ Z.of_nat (List.length (slice_to k (s bs))) = k.
Proof.
  intros s k bs Hk Hp. rewrite slice_firstn by lia. exists (skipn (Z.to_nat k) (s bs)). split.
  - rewrite firstn_skipn. symmetry. auto.
  - rewrite firstn_length_le; [lia|]. rewrite (Permutation_length Hp). lia.
Qed.
End Sort.

Lemma Forall2_sum_le : forall (c : bounds -> Q -> Prop) key g qs,
  (forall b q, In b g -> c b q -> key b <= q) -> Forall2 c g qs -> sum (map key g) <= sum qs.
Proof.
  intros c key g qs H HF. induction HF; simpl; [lra|].
  assert (key x <= y) by (apply H; simpl; auto). assert (sum (map key l) <= sum l') by (apply IHHF; intros; apply H; simpl; auto). lra.
Qed.
Lemma Forall2_sum_ge : forall (c : bounds -> Q -> Prop) key g qs,
  (forall b q, In b g -> c b q -> q <= key b) -> Forall2 c g qs -> sum qs <= sum (map key g).
Proof.
  intros c key g qs H HF. induction HF; simpl; [lra|].
  assert (y <= key x) by (apply H; simpl; auto). assert (sum l' <= sum (map key l)) by (apply IHHF; intros; apply H; simpl; auto). lra.
Qed.

(** One of the four bounds of Parallel. *)
Lemma group_lower : forall (has : bounds -> bool) key (c : bounds -> Q -> Prop) k bs q,
  (forall b q, has b = true -> c b q -> key b <= q) -> (0 <= k)%Z ->
  Forall (fun b => has b = true) bs -> chosen c k bs q ->
  snd (group_bound has key (slice_to k (sort_asc key bs))) <= q.
Proof.
  intros has key c k bs q Hc Hk HF [g [rest [qs [Hp [Hl [H2 He]]]]]]. rewrite He.
  assert (Hin : forall b, In b bs -> has b = true) by (apply Forall_forall; auto).
  unfold group_bound.
  assert (Hall : forallb has (slice_to k (sort_asc key bs)) = true).
  { apply forallb_forall. intros b Hb. apply Hin. apply (Permutation_in _ (sort_asc_perm key bs)).
    rewrite slice_firstn in Hb by auto. rewrite <- (firstn_skipn (Z.to_nat k)). apply in_or_app. auto. }
  rewrite Hall. simpl. eapply Qle_trans; [eapply cheapest; eauto|].
  eapply Forall2_sum_le; [|exact H2]. intros b x Hb Hx. apply Hc; auto. apply Hin. eapply Permutation_in; [symmetry; exact Hp|]. apply in_or_app; auto.
Qed.
Lemma group_upper : forall (has : bounds -> bool) key (c : bounds -> Q -> Prop) k bs q,
  (forall b q, has b = true -> c b q -> q <= key b) -> (0 <= k)%Z ->
  Forall (fun b => has b = true) bs -> chosen c k bs q ->
  q <= snd (group_bound has key (slice_to k (sort_desc key bs))).
Proof.
  intros has key c k bs q Hc Hk HF [g [rest [qs [Hp [Hl [H2 He]]]]]]. rewrite He.
  assert (Hin : forall b, In b bs -> has b = true) by (apply Forall_forall; auto).
  unfold group_bound.
  assert (Hall : forallb has (slice_to k (sort_desc key bs)) = true).
  { apply forallb_forall. intros b Hb. apply Hin. apply (Permutation_in _ (sort_desc_perm key bs)).
    rewrite slice_firstn in Hb by auto. rewrite <- (firstn_skipn (Z.to_nat k)). apply in_or_app. auto. }
  rewrite Hall. simpl. eapply Qle_trans; [|eapply dearest; eauto].
  eapply Forall2_sum_ge; [|exact H2]. intros b x Hb Hx. apply Hc; auto. apply Hin. eapply Permutation_in; [symmetry; exact Hp|]. apply in_or_app; auto.
Qed.

Lemma oks_map : forall A (l : list A), oks (map Ok l) = l.
Proof. induction l as [|a l IH]; simpl; auto. f_equal. auto. Qed.
Lemma no_raise : forall (l : list bounds), existsb is_raise (map Ok l) = false.
Proof. induction l; simpl; auto. Qed.
Lemma no_err : forall (l : list bounds), existsb is_err (map Ok l) = false.
Proof. induction l; simpl; auto. Qed.

(** ** The theorems for objects *)
From Verif Require Import ModelTree SpecTree ProofsTree.

Lemma utils_map : forall E (w : world E) (cs : list (obj E)) bs,
  Forall2 (fun c b => o_util c w = Ok b) cs bs -> map (fun c => o_util c w) cs = map Ok bs.
Proof. intros E w cs bs H. induction H; simpl; auto. f_equal; auto. Qed.

Lemma sequence_bounds : forall bs, Forall (fun b => can_execute b = true) bs ->
  exists b, utility_sequence (map Ok bs) = Ok b /\ can_execute b = true /\
    (forall q, sequence_succeeds bs q -> success_cost b q) /\
    (forall q, sequence_fails bs q -> failure_cost b q) /\
    (Forall consistent bs -> tightest (has_ls b) (ls b) (has_us b) (us b) (sequence_succeeds bs)) /\
    (Forall consistent bs -> bs <> [] -> tightest (has_lf b) (lf b) (has_uf b) (uf b) (sequence_fails bs)).
Proof.
  intros bs HF. unfold utility_sequence. destruct bs as [|b0 bs0] eqn:Eb.
  - simpl. eexists. split; [reflexivity|]. split; auto. conjs.
    + intros q Hq. apply (node_all_sound succ_span []). exact Hq.
    + intros q [pre [b [post [qs [x [He _]]]]]]. destruct pre; discriminate.
    + intros _. apply (node_all_tight succ_span []). constructor.
    + congruence.
  - rewrite <- Eb in *. destruct (map Ok bs) eqn:Em; [subst; discriminate|]. rewrite <- Em. clear r l Em.
    rewrite sequence_scan_ok by auto. eexists. split; [reflexivity|]. split; auto. conjs.
    + exact (node_all_sound succ_span bs).
    + exact (node_stop_sound succ_span fail_span bs).
    + intros Hc. apply (node_all_tight succ_span bs). eapply Forall_impl; [|exact Hc]. intros b [H1 _]. exact H1.
    + intros Hc Hne. apply (node_stop_tight succ_span fail_span bs); auto.
Qed.

Lemma fallback_bounds : forall bs, Forall (fun b => can_execute b = true) bs ->
  exists b, utility_fallback (map Ok bs) = Ok b /\ can_execute b = true /\
    (forall q, fallback_succeeds bs q -> success_cost b q) /\
    (forall q, fallback_fails bs q -> failure_cost b q) /\
    (Forall consistent bs -> bs <> [] -> tightest (has_ls b) (ls b) (has_us b) (us b) (fallback_succeeds bs)) /\
    (Forall consistent bs -> tightest (has_lf b) (lf b) (has_uf b) (uf b) (fallback_fails bs)).
Proof.
  intros bs HF. unfold utility_fallback. destruct bs as [|b0 bs0] eqn:Eb.
  - simpl. eexists. split; [reflexivity|]. split; auto. conjs.
    + intros q [pre [b [post [qs [x [He _]]]]]]. destruct pre; discriminate.
    + intros q Hq. apply (node_all_sound fail_span []). exact Hq.
    + congruence.
    + intros _. apply (node_all_tight fail_span []). constructor.
  - rewrite <- Eb in *. destruct (map Ok bs) eqn:Em; [subst; discriminate|]. rewrite <- Em. clear r l Em.
    rewrite fallback_scan_ok by auto. eexists. split; [reflexivity|]. split; auto. conjs.
    + exact (node_stop_sound fail_span succ_span bs).
    + exact (node_all_sound fail_span bs).
    + intros Hc Hne. apply (node_stop_tight fail_span succ_span bs); auto.
      eapply Forall_impl; [|exact Hc]. intros b [H1 H2]. split; [exact H2|exact H1].
    + intros Hc. apply (node_all_tight fail_span bs). eapply Forall_impl; [|exact Hc]. intros b [_ H1]. exact H1.
Qed.

Lemma parallel_bounds : forall k bs, (0 <= k <= Z.of_nat (List.length bs))%Z ->
  Forall (fun b => can_execute b = true) bs ->
  exists b, utility_parallel k (map Ok bs) = Ok b /\ can_execute b = true /\
    let f := (1 + (Z.of_nat (List.length bs) - k))%Z in
    (Forall (fun c => has_ls c = true) bs ->
       has_ls b = true /\ (forall q, chosen success_cost k bs q -> ls b <= q) /\
       (Forall consistent bs -> exists q, chosen success_cost k bs q /\ q == ls b)) /\
    (Forall (fun c => has_us c = true) bs ->
       has_us b = true /\ (forall q, chosen success_cost k bs q -> q <= us b) /\
       (Forall consistent bs -> exists q, chosen success_cost k bs q /\ q == us b)) /\
    (Forall (fun c => has_lf c = true) bs ->
       has_lf b = true /\ (forall q, chosen failure_cost f bs q -> lf b <= q) /\
       (Forall consistent bs -> (1 <= k)%Z -> exists q, chosen failure_cost f bs q /\ q == lf b)) /\
    (Forall (fun c => has_uf c = true) bs ->
       has_uf b = true /\ (forall q, chosen failure_cost f bs q -> q <= uf b) /\
       (Forall consistent bs -> (1 <= k)%Z -> exists q, chosen failure_cost f bs q /\ q == uf b)).
Proof.
  intros k bs Hk HF. unfold utility_parallel. rewrite map_length.
  destruct (Z.ltb (Z.of_nat (List.length bs)) k) eqn:E; [apply Z.ltb_lt in E; lia|].
  rewrite no_raise, no_err, oks_map.
  assert (Hx : forallb can_execute bs = true) by (apply forallb_forall; apply Forall_forall; auto).
  rewrite Hx. cbv zeta.
  set (f := (1 + (Z.of_nat (List.length bs) - k))%Z).
  assert (Hf : (0 <= f)%Z) by (unfold f; lia).
  assert (Hsub : forall (s : list bounds -> list bounds) m (has : bounds -> bool), (0 <= m)%Z -> Permutation (s bs) bs ->
    Forall (fun c => has c = true) bs -> forallb has (slice_to m (s bs)) = true).
  { intros s m has Hm Hp HH. apply forallb_forall. intros b Hb. rewrite Forall_forall in HH. apply HH.
    apply (Permutation_in _ Hp). rewrite slice_firstn in Hb by auto. rewrite <- (firstn_skipn (Z.to_nat m)). apply in_or_app. auto. }
  assert (Hatt : forall (s : list bounds -> list bounds) m (c : bounds -> Q -> Prop) key, (0 <= m <= Z.of_nat (List.length bs))%Z ->
    Permutation (s bs) bs -> (forall b, In b bs -> c b (key b)) ->
    exists q, chosen c m bs q /\ q == qsum (map key (slice_to m (s bs)))).
  { intros s m c key Hm Hp Hc. destruct (slice_split s m bs Hm Hp) as [rest [Hr Hl]].
    exists (sum (map key (slice_to m (s bs)))). split; [|change qsum with sum; lra].
    exists (slice_to m (s bs)), rest, (map key (slice_to m (s bs))). conjs; auto; [|lra].
    assert (Hin : forall b, In b (slice_to m (s bs)) -> In b bs).
    { intros b Hb. eapply Permutation_in; [symmetry; exact Hr|]. apply in_or_app; auto. }
    revert Hin. generalize (slice_to m (s bs)). intros l. induction l; simpl; constructor; auto. }
  destruct (group_bound has_ls ls _) as [h1 v1] eqn:G1. destruct (group_bound has_us us _) as [h2 v2] eqn:G2.
  destruct (group_bound has_lf lf _) as [h3 v3] eqn:G3. destruct (group_bound has_uf uf _) as [h4 v4] eqn:G4.
  eexists. split; [reflexivity|]. split; auto. simpl. conjs; intros HH.
  - assert (Hb := Hsub (sort_asc ls) k has_ls ltac:(lia) (sort_asc_perm _ _) HH).
    assert (Hval := fun q => group_lower has_ls ls success_cost k bs q ltac:(intros b x Hh [Ha _]; auto) ltac:(lia) HH).
    rewrite G1 in Hval. unfold group_bound in G1. rewrite Hb in G1. inversion G1; subst. split; auto. split; auto.
    intros Hc. apply Hatt; auto using sort_asc_perm. intros b Hin. rewrite Forall_forall in Hc. destruct (Hc b Hin) as [Hc1 _].
    rewrite Forall_forall in HH. split; intros; [lra|]. apply Hc1; auto.
  - assert (Hb := Hsub (sort_desc us) k has_us ltac:(lia) (sort_desc_perm _ _) HH).
    assert (Hval := fun q => group_upper has_us us success_cost k bs q ltac:(intros b x Hh [_ Ha]; auto) ltac:(lia) HH).
    rewrite G2 in Hval. unfold group_bound in G2. rewrite Hb in G2. inversion G2; subst. split; auto. split; auto.
    intros Hc. apply Hatt; auto using sort_desc_perm. intros b Hin. rewrite Forall_forall in Hc. destruct (Hc b Hin) as [Hc1 _].
    rewrite Forall_forall in HH. split; intros; [|lra]. apply Hc1; auto.
  - assert (Hb := Hsub (sort_asc lf) f has_lf ltac:(lia) (sort_asc_perm _ _) HH).
    assert (Hval := fun q => group_lower has_lf lf failure_cost f bs q ltac:(intros b x Hh [Ha _]; auto) ltac:(lia) HH).
    rewrite G3 in Hval. unfold group_bound in G3. rewrite Hb in G3. inversion G3; subst. split; auto. split; auto.
    intros Hc Hk1. apply Hatt; auto using sort_asc_perm; [unfold f; lia|]. intros b Hin. rewrite Forall_forall in Hc. destruct (Hc b Hin) as [_ Hc1].
    rewrite Forall_forall in HH. split; intros; [lra|]. apply Hc1; auto.
  - assert (Hb := Hsub (sort_desc uf) f has_uf ltac:(lia) (sort_desc_perm _ _) HH).
    assert (Hval := fun q => group_upper has_uf uf failure_cost f bs q ltac:(intros b x Hh [_ Ha]; auto) ltac:(lia) HH).
    rewrite G4 in Hval. unfold group_bound in G4. rewrite Hb in G4. inversion G4; subst. split; auto. split; auto.
    intros Hc Hk1. apply Hatt; auto using sort_desc_perm; [unfold f; lia|]. intros b Hin. rewrite Forall_forall in Hc. destruct (Hc b Hin) as [_ Hc1].
    rewrite Forall_forall in HH. split; intros; [|lra]. apply Hc1; auto.
Qed.

(** Lower bounds when some children have none. *)
Lemma group_lower_pos : forall (has : bounds -> bool) key (c : bounds -> Q -> Prop) k bs q,
  (forall b q, has b = true -> c b q -> key b <= q) -> (forall b, In b bs -> has b = false -> key b == 0) -> (0 <= k)%Z ->
  chosen_pos c k bs q -> fst (group_bound has key (slice_to k (sort_asc key bs))) = true ->
  snd (group_bound has key (slice_to k (sort_asc key bs))) <= q.
Proof.
  intros has key c k bs q Hc Hz Hk [g [rest [qs [Hp [Hl [H2 [Hpos He]]]]]]] Hh. rewrite He. unfold group_bound in *.
  destruct (forallb has _); [|discriminate]. cbn [snd]. eapply Qle_trans; [eapply cheapest; eauto|].
  assert (Hin : forall b, In b g -> In b bs) by (intros b Hb; eapply Permutation_in; [symmetry; exact Hp|]; apply in_or_app; auto).
  clear Hp Hl He Hh. revert Hpos Hin. induction H2 as [|b x g qs Hx H2 IH]; intros Hpos Hin; simpl; [lra|].
  inversion Hpos as [|? ? P1 P2]; subst. specialize (IH P2 (fun b Hb => Hin b (or_intror Hb))).
  assert (key b <= x); [|lra]. destruct (has b) eqn:Hb; [apply Hc; auto|]. rewrite (Hz b (Hin b (or_introl eq_refl)) Hb). exact P1.
Qed.
(** A group of all children. *)
Lemma group_whole : forall (has : bounds -> bool) key (s : list bounds -> list bounds) bs, Permutation (s bs) bs ->
  fst (group_bound has key (slice_to (Z.of_nat (List.length bs)) (s bs))) = true -> Forall (fun b => has b = true) bs.
Proof.
  intros has key s bs Hp H. unfold group_bound in H. destruct (forallb has _) eqn:F; [|discriminate].
  rewrite slice_firstn, Nat2Z.id, <- (Permutation_length Hp), firstn_all in F by lia.
  rewrite forallb_forall in F. apply Forall_forall. intros b Hb. apply F. eapply Permutation_in; [symmetry; exact Hp|exact Hb].
Qed.
Lemma parallel_flags : forall k bs, (0 <= k <= Z.of_nat (List.length bs))%Z -> Forall (fun b => can_execute b = true) bs ->
  exists b, utility_parallel k (map Ok bs) = Ok b /\
    let f := (1 + (Z.of_nat (List.length bs) - k))%Z in
    (has_ls b, ls b) = group_bound has_ls ls (slice_to k (sort_asc ls bs)) /\
    (has_us b, us b) = group_bound has_us us (slice_to k (sort_desc us bs)) /\
    (has_lf b, lf b) = group_bound has_lf lf (slice_to f (sort_asc lf bs)) /\
    (has_uf b, uf b) = group_bound has_uf uf (slice_to f (sort_desc uf bs)).
Proof.
  intros k bs Hk HF. unfold utility_parallel. rewrite map_length.
  destruct (Z.ltb (Z.of_nat (List.length bs)) k) eqn:E; [apply Z.ltb_lt in E; lia|].
  rewrite no_raise, no_err, oks_map.
  assert (Hx : forallb can_execute bs = true) by (apply forallb_forall; apply Forall_forall; auto).
  rewrite Hx. cbv zeta.
  destruct (group_bound has_ls ls _) as [h1 v1] eqn:G1. destruct (group_bound has_us us _) as [h2 v2] eqn:G2.
  destruct (group_bound has_lf lf _) as [h3 v3] eqn:G3. destruct (group_bound has_uf uf _) as [h4 v4] eqn:G4.
  eexists. split; [reflexivity|]. auto.
Qed.
Lemma parallel_open : forall k bs b, (0 <= k <= Z.of_nat (List.length bs))%Z -> Forall (fun b => can_execute b = true) bs ->
  utility_parallel k (map Ok bs) = Ok b ->
  let f := (1 + (Z.of_nat (List.length bs) - k))%Z in
  (Forall blank bs ->
    (has_ls b = true -> forall q, chosen_pos success_cost k bs q -> ls b <= q) /\
    (has_lf b = true -> forall q, chosen_pos failure_cost f bs q -> lf b <= q)) /\
  (k = Z.of_nat (List.length bs) -> forall q, chosen success_cost k bs q -> success_cost b q) /\
  (k = 1%Z -> forall q, chosen failure_cost f bs q -> failure_cost b q).
Proof.
  intros k bs b Hk HF HU f. destruct (parallel_flags k bs Hk HF) as [b' [HU' [G1 [G2 [G3 G4]]]]].
  rewrite HU in HU'. injection HU' as <-.
  destruct (parallel_bounds k bs Hk HF) as [b' [HU' [_ [P1 [P2 [P3 P4]]]]]]. rewrite HU in HU'. injection HU' as <-.
  change (1 + (Z.of_nat (List.length bs) - k))%Z with f in G3, G4, P3, P4. assert (Hf : (0 <= f)%Z) by (unfold f; lia). split; [|split].
  - intros HB. rewrite Forall_forall in HB. split; intros H q Hq.
    + change (ls b) with (snd (has_ls b, ls b)). rewrite G1.
      apply group_lower_pos with (c := success_cost); auto; [intros x y A [B _]; auto|intros x Hx; apply (HB x Hx)|lia|rewrite <- G1; exact H].
    + change (lf b) with (snd (has_lf b, lf b)). rewrite G3.
      apply group_lower_pos with (c := failure_cost); auto; [intros x y A [B _]; auto|intros x Hx; apply (HB x Hx)|rewrite <- G3; exact H].
  - intros E q Hq. split; intros H.
    + apply P1; auto. apply (group_whole has_ls ls (sort_asc ls)); [apply sort_asc_perm|]. rewrite <- E, <- G1. exact H.
    + apply P2; auto. apply (group_whole has_us us (sort_desc us)); [apply sort_desc_perm|]. rewrite <- E, <- G2. exact H.
  - intros E q Hq. assert (Ef : f = Z.of_nat (List.length bs)) by (unfold f; lia). split; intros H.
    + apply P3; auto. apply (group_whole has_lf lf (sort_asc lf)); [apply sort_asc_perm|]. rewrite <- Ef, <- G3. exact H.
    + apply P4; auto. apply (group_whole has_uf uf (sort_desc uf)); [apply sort_desc_perm|]. rewrite <- Ef, <- G4. exact H.
Qed.

(** ** Whole trees *)

Section WholeTree.
Context {E : Type}.
Variable ev : env E.
Variable w : world E.
Notation leaf := (fun n => ev_util ev n (w_ins w n) (w_ext w)).

Definition sound_at (t : tree) : Prop := executable leaf t ->
  exists b, o_util (obj_of ev t) w = Ok b /\ can_execute b = true /\
    forall q, (costs leaf t true q -> success_cost b q) /\ (costs leaf t false q -> failure_cost b q).

Lemma all_executable : forall cs, Forall sound_at cs ->
  (fix all (l : list tree) : Prop := match l with [] => True | c :: r => executable leaf c /\ all r end) cs ->
  exists bs, Forall2 (fun c b => o_util c w = Ok b) (map (obj_of ev) cs) bs /\
    Forall (fun b => can_execute b = true) bs /\
    Forall2 (fun t b => forall q, (costs leaf t true q -> success_cost b q) /\ (costs leaf t false q -> failure_cost b q)) cs bs.
Proof.
  induction cs as [|c cs IH]; intros HF HE; simpl.
  - exists []. conjs; constructor.
  - inversion HF; subst. destruct HE as [He HE]. destruct (IH H2 HE) as [bs [A [B C]]].
    destruct (H1 He) as [b [A1 [B1 C1]]]. exists (b :: bs). conjs; constructor; auto.
Qed.

Definition outcome_cost (out : bool) := if out then success_cost else failure_cost.

Lemma every_all : forall out cs bs q,
  Forall2 (fun t b => forall q, (costs leaf t true q -> success_cost b q) /\ (costs leaf t false q -> failure_cost b q)) cs bs ->
  (fix every (l : list tree) (q : Q) : Prop :=
    match l with [] => q == 0 | c :: r => exists x y, costs leaf c out x /\ every r y /\ q == x + y end) cs q ->
  all_on (outcome_cost out) bs q.
Proof.
  intros out cs bs q HF. revert q. induction HF as [|t b cs bs Hb HF IH]; intros q Hq.
  - exists []. split; [constructor|exact Hq].
  - destruct Hq as [x [y [Hx [Hy He]]]]. destruct (IH y Hy) as [qs [H1 H2]]. exists (x :: qs). split.
    + constructor; auto. destruct (Hb x) as [Ht Hf]. destruct out; simpl; auto.
    + simpl. rewrite He, H2. lra.
Qed.

Lemma first_not_stopped : forall out cs bs q,
  Forall2 (fun t b => forall q, (costs leaf t true q -> success_cost b q) /\ (costs leaf t false q -> failure_cost b q)) cs bs ->
  (fix first_not (l : list tree) (q : Q) : Prop :=
    match l with
    | [] => False
    | c :: r => costs leaf c (negb out) q \/ exists x y, costs leaf c out x /\ first_not r y /\ q == x + y
    end) cs q ->
  stopped (outcome_cost out) (outcome_cost (negb out)) bs q.
Proof.
  intros out cs bs q HF. revert q. induction HF as [|t b cs bs Hb HF IH]; intros q Hq.
  - destruct Hq.
  - destruct Hq as [Hq|[x [y [Hx [Hy He]]]]].
    + exists [], b, bs, [], q. conjs; auto. destruct (Hb q) as [Ht Hf]. destruct out; simpl; auto.
      simpl. lra.
    + destruct (IH y Hy) as [pre [b' [post [qs [z [H1 [H2 [H3 H4]]]]]]]]. exists (b :: pre), b', post, (x :: qs), z.
      subst bs. conjs; auto. constructor; auto. destruct (Hb x) as [Ht Hf]. destruct out; simpl; auto.
      simpl. lra.
Qed.

Lemma whole_sound : forall t, sound_at t.
Proof.
  apply (tree_ind' sound_at). intros n k name cs HF Hex. simpl obj_of.
  assert (Hu : forall bs, Forall2 (fun c b => o_util c w = Ok b) (map (obj_of ev) cs) bs ->
     map (fun c => o_util c w) (map (obj_of ev) cs) = map Ok bs) by (intros; apply utils_map; auto).
  destruct k; simpl in Hex; try contradiction.
  - destruct Hex as [b [Hb Hc]]. exists b. simpl. conjs; auto. intros q. split; intros [b' [Hb' Hq]]; assert (b' = b) by congruence; subst; auto.
  - destruct (all_executable cs HF Hex) as [bs [A [B C]]]. destruct (sequence_bounds bs B) as [b [H1 [H2 [H3 [H4 _]]]]].
    exists b. unfold make_obj. cbn [o_util]. unfold do_util. rewrite (Hu bs A). conjs; auto. intros q. split; intros Hq.
    + apply H3. exact (every_all true cs bs q C Hq).
    + apply H4. exact (first_not_stopped true cs bs q C Hq).
  - destruct (all_executable cs HF Hex) as [bs [A [B C]]]. destruct (sequence_bounds bs B) as [b [H1 [H2 [H3 [H4 _]]]]].
    exists b. unfold make_obj. cbn [o_util]. unfold do_util. rewrite (Hu bs A). conjs; auto. intros q. split; intros Hq.
    + apply H3. exact (every_all true cs bs q C Hq).
    + apply H4. exact (first_not_stopped true cs bs q C Hq).
  - destruct (all_executable cs HF Hex) as [bs [A [B C]]]. destruct (fallback_bounds bs B) as [b [H1 [H2 [H3 [H4 _]]]]].
    exists b. unfold make_obj. cbn [o_util]. unfold do_util. rewrite (Hu bs A). conjs; auto. intros q. split; intros Hq.
    + apply H3. exact (first_not_stopped false cs bs q C Hq).
    + apply H4. exact (every_all false cs bs q C Hq).
  - destruct (all_executable cs HF Hex) as [bs [A [B C]]]. destruct (fallback_bounds bs B) as [b [H1 [H2 [H3 [H4 _]]]]].
    exists b. unfold make_obj. cbn [o_util]. unfold do_util. rewrite (Hu bs A). conjs; auto. intros q. split; intros Hq.
    + apply H3. exact (first_not_stopped false cs bs q C Hq).
    + apply H4. exact (every_all false cs bs q C Hq).
Qed.
End WholeTree.

(** ** Decorators *)
Lemma one_run : forall k b o q, runs k [o] o -> run_costs b o q -> decorated k b o q.
Proof.
  intros k b o q R H. exists [o], [q]. split; [exact R|]. split; [repeat constructor; exact H|]. cbn. lra.
Qed.
Lemma one_run_inv : forall k b o q, (forall l, runs k l o -> l = [o]) -> decorated k b o q -> exists x, run_costs b o x /\ q == x.
Proof.
  intros k b o q R (l & qs & H & F & S). apply R in H. subst l. inversion F as [|? x ? ? A B]; subst. inversion B; subst.
  exists x. split; [exact A|]. cbn in S. lra.
Qed.
Lemma pass_sound : forall k b, (forall l o, runs k l o <-> l = [o]) ->
  (forall q, decorated k b true q -> success_cost b q) /\ (forall q, decorated k b false q -> failure_cost b q) /\
  (consistent b -> tightest (has_ls b) (ls b) (has_us b) (us b) (decorated k b true) /\
                   tightest (has_lf b) (lf b) (has_uf b) (uf b) (decorated k b false)).
Proof.
  intros k b R. assert (D : forall o q, run_costs b o q -> decorated k b o q) by (intros; apply one_run; [apply R; reflexivity|assumption]).
  split; [|split].
  - intros q H. apply one_run_inv in H; [|intros; apply R; assumption]. destruct H as (x & [A B] & E). split; intros; rewrite E; auto.
  - intros q H. apply one_run_inv in H; [|intros; apply R; assumption]. destruct H as (x & [A B] & E). split; intros; rewrite E; auto.
  - intros [C1 C2]. specialize (D true) as D1. specialize (D false) as D2. cbn in D1, D2. unfold success_cost, failure_cost in *.
    assert (T : forall hl l hu u (P : Q -> Prop), (forall q, (hl = true -> l <= q) /\ (hu = true -> q <= u) -> P q) ->
                (hl = true -> hu = true -> l <= u) -> tightest hl l hu u P).
    { intros hl l hu u P H C. split; intros m M.
      - destruct hl.
        + split; [reflexivity|]. apply M, H. split; intros; [lra|auto].
        + exfalso. destruct hu.
          * destruct (Qlt_le_dec u m); [pose proof (M u)|pose proof (M (m - 1))]; [assert (P u) by (apply H; split; intros; [discriminate|lra]); specialize (H0 H1); lra|].
            assert (P (m - 1)) by (apply H; split; intros; [discriminate|lra]). specialize (H0 H1). lra.
          * assert (P (m - 1)) by (apply H; split; intros; discriminate). specialize (M _ H0). lra.
      - destruct hu.
        + split; [reflexivity|]. apply M, H. split; intros; [auto|lra].
        + exfalso. destruct hl.
          * destruct (Qlt_le_dec m l).
            -- assert (P l) by (apply H; split; intros; [lra|discriminate]). specialize (M _ H0). lra.
            -- assert (P (m + 1)) by (apply H; split; intros; [lra|discriminate]). specialize (M _ H0). lra.
          * assert (P (m + 1)) by (apply H; split; intros; discriminate). specialize (M _ H0). lra. }
    split; apply T; auto.
Qed.
Lemma optional_bounds : forall E (ev : env E) n name (c : obj E) w b, o_util c w = Ok b ->
  exists b', o_util (make_obj ev n KOptional name [c]) w = Ok b' /\ can_execute b' = true /\
    (forall q, optional_ends b true q -> success_cost b' q) /\ (forall q, optional_ends b false q -> failure_cost b' q) /\
    (can_execute b = true -> consistent b ->
       tightest (has_ls b') (ls b') (has_us b') (us b') (optional_ends b true) /\
       tightest (has_lf b') (lf b') (has_uf b') (uf b') (optional_ends b false)) /\
    (can_execute b = false -> has_ls b' = false /\ has_us b' = false /\ has_lf b' = false /\ has_uf b' = false).
Proof.
  intros E ev n name c w b H. cbn [o_util make_obj]. unfold do_util. cbn [map utility_optional]. rewrite H.
  destruct (can_execute b) eqn:X.
  - exists b. split; [reflexivity|]. split; [exact X|]. unfold optional_ends. rewrite X.
    destruct (pass_sound KOptional b (fun l o => conj (fun H => H) (fun H => H))) as (A & B & C).
    split; [exact A|]. split; [exact B|]. split; [auto|discriminate].
  - eexists. split; [reflexivity|]. split; [reflexivity|]. split; [split; discriminate|]. split; [split; discriminate|].
    split; [discriminate|auto].
Qed.
Lemma watch_bounds : forall E (ev : env E) n name (c : obj E) w b, o_util c w = Ok b ->
  exists b', o_util (make_obj ev n KWatch name [c]) w = Ok b' /\ can_execute b' = can_execute b /\
    (forall q, decorated KWatch b true q -> success_cost b' q) /\ (forall q, decorated KWatch b false q -> failure_cost b' q) /\
    (consistent b ->
       tightest (has_ls b') (ls b') (has_us b') (us b') (decorated KWatch b true) /\
       tightest (has_lf b') (lf b') (has_uf b') (uf b') (decorated KWatch b false)).
Proof.
  intros E ev n name c w b H. exists b. split; [exact H|]. split; [reflexivity|].
  exact (pass_sound KWatch b (fun l o => conj (fun H => H) (fun H => H))).
Qed.
Lemma sum_pos : forall qs, Forall (fun x => 0 <= x) qs -> 0 <= sum qs.
Proof. induction 1; cbn; [lra|]. unfold sum in *. lra. Qed.
Lemma sum_has : forall (P : bool -> Q -> Prop) l qs o, Forall2 P l qs -> Forall (fun x => 0 <= x) qs -> In o l ->
  exists x, P o x /\ x <= sum qs.
Proof.
  intros P. induction l as [|a l IH]; intros qs o F N I; [destruct I|]. inversion F as [|? x ? qs' A B]; subst.
  inversion N as [|? ? N1 N2]; subst. pose proof (sum_pos _ N2) as S. unfold sum in *. cbn [fold_right]. destruct I as [->|I].
  - exists x. split; [exact A|]. lra.
  - destruct (IH _ _ B N2 I) as (y & Y & L). exists y. split; [exact Y|]. lra.
Qed.
Lemma repeating_bounds : forall E (ev : env E) n k name (c : obj E) w b, o_util c w = Ok b ->
  In k [KRetry; KRepeat; KUntilSuccess; KRepeatIfFail; KRepeatUntilFail] ->
  exists b', o_util (make_obj ev n k name [c]) w = Ok b' /\ can_execute b' = can_execute b /\
    (has_ls b' = true -> forall q, decorated_pos k b true q -> ls b' <= q) /\
    (has_lf b' = true -> forall q, decorated_pos k b false q -> lf b' <= q).
Proof.
  intros E ev n k name c w b H K. exists b.
  assert (U : o_util (make_obj ev n k name [c]) w = Ok b).
  { cbn [In] in K. repeat (destruct K as [<-|K]; [exact H|]). destruct K. }
  split; [exact U|]. split; [reflexivity|].
  assert (G : forall o l, runs k l o -> In o l).
  { intros o l R. cbn [In] in K.
    destruct K as [<-|[<-|[<-|[<-|[<-|[]]]]]]; cbn [runs] in R.
    - destruct R as (m & ->). destruct o; [apply in_or_app; right|]; left; reflexivity.
    - destruct R as (m & ->). destruct o; [|apply in_or_app; right]; left; reflexivity.
    - destruct R as (-> & m & ->). apply in_or_app; right; left; reflexivity.
    - destruct R as (-> & m & ->). apply in_or_app; right; left; reflexivity.
    - destruct R as (-> & m & ->). apply in_or_app; right; left; reflexivity. }
  split; intros HB q (l & qs & R & F & N & S); destruct (sum_has _ _ _ _ F N (G _ _ R)) as (x & [A _] & L);
    rewrite S; specialize (A HB); lra.
Qed.
