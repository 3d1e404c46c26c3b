(** Proofs about shared objects (C102). *)
From Coq Require Import String Bool Arith List Lia.
From Verif Require Import Base ModelData ModelAlias SpecAlias.
Import ListNotations.

Lemma upd_same {A} (f : nat -> A) i x : upd f i x i = x.
Proof. unfold upd. now rewrite Nat.eqb_refl. Qed.
Lemma upd_other {A} (f : nat -> A) i x j : j <> i -> upd f i x j = f j.
Proof. unfold upd. intros H. destruct (Nat.eqb_spec i j); congruence || (destruct (Nat.eqb_spec j i); congruence). Qed.

(** *** Reachability *)

Definition agree (h h' : heap) (v : pv) : Prop := forall l, reach h v l -> h_at h' l = h_at h l.

Lemma agree_in h h' l k x : agree h h' (Ref l) -> In (k, x) (o_items (h_at h l)) -> agree h h' x.
Proof. intros A I m R. apply A. exact (re_in h l k x m I R). Qed.

Lemma reach_agree h h' v l : reach h v l -> agree h h' v -> reach h' v l.
Proof.
  intros R. induction R as [l | l k x m I R IH]; intros A; [constructor |].
  apply (re_in h' l k x m).
  - rewrite (A l (re_here h l)). exact I.
  - apply IH. exact (agree_in h h' l k x A I).
Qed.
Lemma reach_agree_back h h' v l : reach h' v l -> agree h h' v -> reach h v l.
Proof.
  intros R. induction R as [l | l k x m I R IH]; intros A; [constructor |].
  rewrite (A l (re_here h l)) in I. apply (re_in h l k x m I). apply IH. exact (agree_in h h' l k x A I).
Qed.

Lemma show_agree n h h' v : agree h h' v -> show n h' v = show n h v.
Proof.
  revert v. induction n as [|n IH]; intros v A; [reflexivity |].
  destruct v as [x | l]; [reflexivity |]. cbn [show].
  rewrite (A l (re_here h l)). f_equal.
  apply map_ext_in. intros [k x] I. cbn [fst snd]. f_equal. apply IH. exact (agree_in h h' l k x A I).
Qed.
Lemma same_agree h h' v : agree h h' v -> same h v h' v.
Proof. intros A n. symmetry. exact (show_agree n h h' v A). Qed.

Lemma reach_trans h v l m : reach h v l -> reach h (Ref l) m -> reach h v m.
Proof. intros R. induction R as [l | l k x j I R IH]; intros M; [exact M |]. exact (re_in h l k x m I (IH M)). Qed.

(** *** deepcopy *)

Lemma copy_reach h v h' v' f : v' = rename f v ->
  (forall l, reach h v l -> h_next h <= f l < h_next h' /\ h_at h' (f l) = rename_obj f (h_at h l)) ->
  forall m, reach h' v' m -> exists l, reach h v l /\ m = f l.
Proof.
  intros -> C m R. remember (rename f v) as x eqn:E. revert v E C.
  induction R as [l | l k x m I R IH]; intros v E C.
  - destruct v as [y | j]; cbn in E; [discriminate |]. injection E as ->. exists j. split; [constructor | reflexivity].
  - destruct v as [y | j]; cbn in E; [discriminate |]. injection E as ->.
    destruct (C j (re_here h j)) as [_ At]. rewrite At in I. cbn in I.
    apply in_map_iff in I. destruct I as ([k' z] & Ez & Iz). cbn [fst snd] in Ez. injection Ez as Ek Ex.
    destruct (IH z (eq_sym Ex)) as (i & Ri & Ei).
    + intros i Ri. apply C. exact (re_in h j k' z i Iz Ri).
    + exists i. split; [exact (re_in h j k' z i Iz Ri) | exact Ei].
Qed.
Lemma copy_new h v h' v' : deepcopy h v h' v' -> forall m, reach h' v' m -> h_next h <= m < h_next h'.
Proof.
  intros (f & E & _ & _ & C & _) m R. destruct (copy_reach h v h' v' f E C m R) as (l & Rl & ->). exact (proj1 (C l Rl)).
Qed.
Lemma copy_old h v h' v' x : deepcopy h v h' v' -> exists_in h x -> agree h h' x.
Proof. intros (f & _ & _ & O & _) X l R. apply O. exact (X l R). Qed.
Lemma copy_show n h h' f v :
  (forall l, reach h v l -> h_next h <= f l < h_next h' /\ h_at h' (f l) = rename_obj f (h_at h l)) ->
  show n h' (rename f v) = show n h v.
Proof.
  revert v. induction n as [|n IH]; intros v C; [reflexivity |].
  destruct v as [x | l]; [reflexivity |]. cbn [show rename].
  destruct (C l (re_here h l)) as [_ ->]. unfold rename_obj. cbn [o_kind o_items]. f_equal.
  rewrite map_map. apply map_ext_in. intros [k x] I. cbn [fst snd]. f_equal. apply IH.
  intros m R. apply C. exact (re_in h l k x m I R).
Qed.
Lemma copy_same h v h' v' : deepcopy h v h' v' -> same h v h' v'.
Proof. intros (f & -> & _ & _ & C & _) n. symmetry. exact (copy_show n h h' f v C). Qed.
Lemma copy_next h v h' v' : deepcopy h v h' v' -> h_next h <= h_next h'.
Proof. intros (f & _ & N & _). exact N. Qed.

(** deepcopy is possible: copy everything. *)
Lemma copy_exists h v : exists_in h v -> exists h' v', deepcopy h v h' v'.
Proof.
  intros X. set (f := fun l => h_next h + l).
  exists (mkH (fun l => if l <? h_next h then h_at h l else rename_obj f (h_at h (l - h_next h))) (h_next h + h_next h)).
  exists (rename f v). exists f. cbn [h_at h_next]. split; [reflexivity |]. split; [lia |]. split; [| split].
  - intros l L. apply Nat.ltb_lt in L. now rewrite L.
  - intros l R. pose proof (X l R). split; [unfold f; lia |].
    assert (E : (f l <? h_next h) = false) by (apply Nat.ltb_ge; unfold f; lia). rewrite E.
    assert (E2 : f l - h_next h = l) by (unfold f; lia). now rewrite E2.
  - unfold f. intros l m _ _ E. lia.
Qed.

(** *** The invariant *)

Definition inv (w : world) : Prop :=
  (forall c v, k_value (w_cont w c) = Some v -> exists_in (w_heap w) v) /\
  (forall x, In x (w_vars w) -> exists_in (w_heap w) x) /\
  (forall c v x l, k_value (w_cont w c) = Some v -> In x (w_vars w) ->
     reach (w_heap w) v l -> reach (w_heap w) x l -> False).

Lemma start_inv w : start w -> inv w.
Proof. intros [V C]. split; [exact C |]. rewrite V. split; intros; contradiction. Qed.

Lemma held_exists w v : inv w -> held w v -> exists_in (w_heap w) v.
Proof.
  intros (_ & V & _) H l R. destruct v as [y | j]; [inversion R |].
  destruct H as (x & I & Rj). apply (V x I). exact (reach_trans (w_heap w) x j l Rj R).
Qed.

(** Reachability after a write, and after an allocation. *)
Lemma write_reach w l o x m : held w (Ref l) -> held_obj w o -> reach (write (w_heap w) l o) x m ->
  reach (w_heap w) x m \/ held w (Ref m).
Proof.
  intros _ HO R. remember (write (w_heap w) l o) as h' eqn:E. induction R as [j | j k x m I R IH].
  - left. constructor.
  - subst h'. cbn [write h_at] in I.
    destruct (Nat.eq_dec j l) as [-> | D].
    + rewrite upd_same in I. destruct IH as [R' | Hm]; [| now right].
      right. pose proof (HO k x I) as Hx. destruct x as [y | i]; [inversion R' |].
      destruct Hx as (z & Iz & Rz). exists z. split; [exact Iz |]. exact (reach_trans (w_heap w) z i m Rz R').
    + rewrite (upd_other _ _ _ _ D) in I. destruct IH as [R' | Hm]; [| now right]. left. exact (re_in _ j k x m I R').
Qed.
Lemma alloc_reach w o x m : inv w -> held_obj w o -> x = Ref (h_next (w_heap w)) \/ exists_in (w_heap w) x ->
  reach (alloc (w_heap w) o) x m -> reach (w_heap w) x m \/ m = h_next (w_heap w) \/ held w (Ref m).
Proof.
  intros I HO X R. remember (alloc (w_heap w) o) as h' eqn:E. revert X. induction R as [j | j k x m It R IH]; intros X.
  - left. constructor.
  - subst h'. cbn [alloc h_at] in It.
    destruct (Nat.eq_dec j (h_next (w_heap w))) as [-> | D].
    + rewrite upd_same in It. pose proof (HO k x It) as Hx. pose proof (held_exists w x I Hx) as Ex.
      destruct (IH (or_intror Ex)) as [R' | Hm]; [| now right]. right. right.
      destruct x as [y | i]; [inversion R' |]. destruct Hx as (z & Iz & Rz). exists z. split; [exact Iz |].
      exact (reach_trans (w_heap w) z i m Rz R').
    + rewrite (upd_other _ _ _ _ D) in It.
      assert (Ex : exists_in (w_heap w) x).
      { destruct X as [E | X]; [injection E as E; contradiction |]. intros i Ri. apply X. exact (re_in _ j k x i It Ri). }
      destruct (IH (or_intror Ex)) as [R' | Hm]; [| now right]. left. exact (re_in _ j k x m It R').
Qed.

Lemma write_agree w l o c v : inv w -> held w (Ref l) -> k_value (w_cont w c) = Some v ->
  agree (w_heap w) (write (w_heap w) l o) v.
Proof.
  intros (_ & _ & S) (x & Ix & Rx) E m R. cbn [write h_at]. destruct (Nat.eq_dec m l) as [-> | D].
  - exfalso. exact (S c v x l E Ix R Rx).
  - exact (upd_other _ _ _ _ D).
Qed.
Lemma alloc_agree h o v : exists_in h v -> agree h (alloc h o) v.
Proof. intros X m R. cbn [alloc h_at]. apply upd_other. pose proof (X m R). lia. Qed.

Lemma exists_agree h h' v : exists_in h v -> agree h h' v -> h_next h <= h_next h' -> exists_in h' v.
Proof. intros X A N l R. pose proof (X l (reach_agree_back h h' v l R A)). lia. Qed.

Lemma step_inv differs w e w' : inv w -> step differs w e w' -> inv w'.
Proof.
  intros I St. pose proof I as I0. destruct I as (C & V & S).
  destruct St as [c h' v G | c v h' k r H SV | c | c b | l o H HO | o HO]; unfold inv; cbn [w_heap w_cont w_vars].
  - destruct G as [E | v h' v' E D]; cbn [opt_list app].
    + exact I0.
    + assert (N := copy_next _ _ _ _ D). assert (F := copy_new _ _ _ _ D).
      assert (AC : forall c v, k_value (w_cont w c) = Some v -> agree (w_heap w) h' v)
        by (intros c' u Eu; exact (copy_old _ _ _ _ u D (C c' u Eu))).
      assert (AV : forall x, In x (w_vars w) -> agree (w_heap w) h' x)
        by (intros x Ix; exact (copy_old _ _ _ _ x D (V x Ix))).
      split; [| split].
      * intros c' u Eu. exact (exists_agree _ _ _ (C c' u Eu) (AC c' u Eu) N).
      * intros x [<- | Ix]; [intros l R; exact (proj2 (F l R)) | exact (exists_agree _ _ _ (V x Ix) (AV x Ix) N)].
      * intros c' u x l Eu [<- | Ix] Ru Rx.
        -- pose proof (C c' u Eu l (reach_agree_back _ _ _ _ Ru (AC c' u Eu))). pose proof (F l Rx). lia.
        -- exact (S c' u x l Eu Ix (reach_agree_back _ _ _ _ Ru (AC c' u Eu)) (reach_agree_back _ _ _ _ Rx (AV x Ix))).
  - destruct SV as [B | B Df | h' v' B Df D].
    + assert (Eq : forall c', k_value (upd (w_cont w) c (w_cont w c) c') = k_value (w_cont w c')).
      { intros c'. destruct (Nat.eq_dec c' c) as [-> | N]; [now rewrite upd_same | now rewrite upd_other]. }
      split; [| split]; [intros c' u; rewrite Eq; apply C | exact V | intros c' u x l; rewrite Eq; apply S].
    + assert (Eq : forall c', k_value (upd (w_cont w) c (with_upd (w_cont w c) false) c') = k_value (w_cont w c')).
      { intros c'. destruct (Nat.eq_dec c' c) as [-> | N]; [now rewrite upd_same | now rewrite upd_other]. }
      split; [| split]; [intros c' u; rewrite Eq; apply C | exact V | intros c' u x l; rewrite Eq; apply S].
    + assert (N := copy_next _ _ _ _ D). assert (F := copy_new _ _ _ _ D).
      assert (AC : forall c v, k_value (w_cont w c) = Some v -> agree (w_heap w) h' v)
        by (intros c' u Eu; exact (copy_old _ _ _ _ u D (C c' u Eu))).
      assert (AV : forall x, In x (w_vars w) -> agree (w_heap w) h' x)
        by (intros x Ix; exact (copy_old _ _ _ _ x D (V x Ix))).
      split; [| split].
      * intros c' u Eu. destruct (Nat.eq_dec c' c) as [-> | Nc].
        -- rewrite upd_same in Eu. cbn in Eu. injection Eu as <-. intros l R. exact (proj2 (F l R)).
        -- rewrite (upd_other _ _ _ _ Nc) in Eu. exact (exists_agree _ _ _ (C c' u Eu) (AC c' u Eu) N).
      * intros x Ix. exact (exists_agree _ _ _ (V x Ix) (AV x Ix) N).
      * intros c' u x l Eu Ix Ru Rx. destruct (Nat.eq_dec c' c) as [-> | Nc].
        -- rewrite upd_same in Eu. cbn in Eu. injection Eu as <-.
           pose proof (V x Ix l (reach_agree_back _ _ _ _ Rx (AV x Ix))). pose proof (F l Ru). lia.
        -- rewrite (upd_other _ _ _ _ Nc) in Eu.
           exact (S c' u x l Eu Ix (reach_agree_back _ _ _ _ Ru (AC c' u Eu)) (reach_agree_back _ _ _ _ Rx (AV x Ix))).
  - assert (Eq : forall c' v, k_value (upd (w_cont w) c (reset_value (w_cont w c)) c') = Some v -> k_value (w_cont w c') = Some v).
    { intros c' v. destruct (Nat.eq_dec c' c) as [-> | N]; [rewrite upd_same | now rewrite upd_other].
      unfold reset_value. destruct (k_static (w_cont w c)); [trivial | discriminate]. }
    split; [| split]; [intros c' u E; exact (C c' u (Eq c' u E)) | exact V | intros c' u x l E; exact (S c' u x l (Eq c' u E))].
  - assert (Eq : forall c', k_value (upd (w_cont w) c (with_upd (w_cont w c) b) c') = k_value (w_cont w c')).
    { intros c'. destruct (Nat.eq_dec c' c) as [-> | N]; [now rewrite upd_same | now rewrite upd_other]. }
    split; [| split]; [intros c' u; rewrite Eq; apply C | exact V | intros c' u x l; rewrite Eq; apply S].
  - assert (AC : forall c v, k_value (w_cont w c) = Some v -> agree (w_heap w) (write (w_heap w) l o) v)
      by (intros c' u Eu; exact (write_agree w l o c' u I0 H Eu)).
    split; [| split].
    + intros c' u Eu. exact (exists_agree _ _ _ (C c' u Eu) (AC c' u Eu) (Nat.le_refl _)).
    + intros x Ix m R. destruct (write_reach w l o x m H HO R) as [R' | Hm]; [exact (V x Ix m R') |].
      exact (held_exists w (Ref m) I0 Hm m (re_here _ m)).
    + intros c' u x m Eu Ix Ru Rx. pose proof (reach_agree_back _ _ _ _ Ru (AC c' u Eu)) as Ru'.
      destruct (write_reach w l o x m H HO Rx) as [R' | (y & Iy & Ry)]; [exact (S c' u x m Eu Ix Ru' R') |].
      exact (S c' u y m Eu Iy Ru' Ry).
  - assert (AC : forall c v, k_value (w_cont w c) = Some v -> agree (w_heap w) (alloc (w_heap w) o) v)
      by (intros c' u Eu; exact (alloc_agree _ o u (C c' u Eu))).
    assert (Nx : h_next (w_heap w) <= h_next (alloc (w_heap w) o)) by (cbn; lia).
    assert (AR : forall x m, In x (Ref (h_next (w_heap w)) :: w_vars w) -> reach (alloc (w_heap w) o) x m ->
              m = h_next (w_heap w) \/ held w (Ref m)).
    { intros x m Ix R. destruct (alloc_reach w o x m I0 HO) as [R' | R']; [| exact R | | exact R'].
      - destruct Ix as [<- | Ix]; [now left | right; exact (V x Ix)].
      - destruct Ix as [<- | Ix].
        + inversion R as [j Ej | j k z i Iz Rz]; subst; [now left |]. cbn [alloc h_at] in Iz. rewrite upd_same in Iz.
          pose proof (HO k z Iz) as Hz. pose proof (held_exists w z I0 Hz) as Ez.
          destruct (alloc_reach w o z m I0 HO (or_intror Ez) Rz) as [Rz' | A]; [| exact A].
          right. destruct z as [y | i]; [inversion Rz' |]. destruct Hz as (y & Iy & Ry). exists y. split; [exact Iy |].
          exact (reach_trans _ y i m Ry Rz').
        + right. exists x. split; [exact Ix | exact R']. }
    split; [| split].
    + intros c' u Eu. exact (exists_agree _ _ _ (C c' u Eu) (AC c' u Eu) Nx).
    + intros x Ix m R. cbn. destruct (AR x m Ix R) as [-> | Hm]; [lia |].
      pose proof (held_exists w (Ref m) I0 Hm m (re_here _ m)). lia.
    + intros c' u x m Eu Ix Ru Rx. pose proof (reach_agree_back _ _ _ _ Ru (AC c' u Eu)) as Ru'.
      destruct (AR x m Ix Rx) as [-> | (y & Iy & Ry)].
      * pose proof (C c' u Eu _ Ru'). lia.
      * exact (S c' u y m Eu Iy Ru' Ry).
Qed.

Lemma run_inv differs w l w' : start w -> run differs w l w' -> inv w'.
Proof. intros S R. induction R as [w | w l w' e w'' R IH St]; [exact (start_inv w S) | exact (step_inv differs w' e w'' (IH S) St)]. Qed.

(** *** What the steps do *)

Lemma keeps_agree c w w' : k_value (w_cont w' c) = k_value (w_cont w c) ->
  (forall v, k_value (w_cont w c) = Some v -> agree (w_heap w) (w_heap w') v) -> keeps c w w'.
Proof.
  intros E A. unfold keeps, same_opt. rewrite E. destruct (k_value (w_cont w c)) as [v|]; [| exact I].
  exact (same_agree _ _ v (A v eq_refl)).
Qed.

Lemma step_keeps differs w e w' c : inv w -> step differs w e w' -> ~ assigns c e -> keeps c w w'.
Proof.
  intros I St NA. pose proof I as (C & V & S).
  destruct St as [d h' v G | d v h' k r H SV | d | d b | l o H HO | o HO].
  - apply keeps_agree; [reflexivity |]. cbn [w_heap]. destruct G as [E | v h' v' E D].
    + intros u _ m _. reflexivity.
    + intros u Eu. exact (copy_old _ _ _ _ u D (C c u Eu)).
  - destruct SV as [B | B Df | h' v' B Df D].
    + apply keeps_agree; cbn [w_heap w_cont]; [| intros u _ m _; reflexivity].
      destruct (Nat.eq_dec c d) as [-> | N]; [now rewrite upd_same | now rewrite upd_other].
    + cbn [assigns] in NA. apply keeps_agree; cbn [w_heap w_cont]; [| intros u _ m _; reflexivity].
      rewrite upd_other; [reflexivity |]. intros E. apply NA. now symmetry.
    + cbn [assigns] in NA. apply keeps_agree; cbn [w_heap w_cont].
      * rewrite upd_other; [reflexivity |]. intros E. apply NA. now symmetry.
      * intros u Eu. exact (copy_old _ _ _ _ u D (C c u Eu)).
  - cbn [assigns] in NA. apply keeps_agree; cbn [w_heap w_cont]; [| intros u _ m _; reflexivity].
    rewrite upd_other; [reflexivity |]. intros E. apply NA. now symmetry.
  - apply keeps_agree; cbn [w_heap w_cont]; [| intros u _ m _; reflexivity].
    destruct (Nat.eq_dec c d) as [-> | N]; [now rewrite upd_same | now rewrite upd_other].
  - apply keeps_agree; [reflexivity |]. cbn [w_heap w_cont]. intros u Eu. exact (write_agree w l o c u I H Eu).
  - apply keeps_agree; [reflexivity |]. cbn [w_heap w_cont]. intros u Eu. exact (alloc_agree _ o u (C c u Eu)).
Qed.

Lemma keeps_trans c w1 w2 w3 : keeps c w1 w2 -> keeps c w2 w3 -> keeps c w1 w3.
Proof.
  unfold keeps, same_opt.
  destruct (k_value (w_cont w1 c)) as [a|], (k_value (w_cont w2 c)) as [b|], (k_value (w_cont w3 c)) as [d|]; try tauto.
  intros H K n. now rewrite (H n).
Qed.
Lemma keeps_refl c w : keeps c w w.
Proof. apply keeps_agree; [reflexivity | intros v _ l _; reflexivity]. Qed.

Lemma run_keeps differs w l w' c : inv w -> run differs w l w' -> (forall e, In e l -> ~ assigns c e) -> keeps c w w' /\ inv w'.
Proof.
  intros I R. induction R as [w | w l w' e w'' R IH St]; intros NA; [split; [apply keeps_refl | exact I] |].
  destruct (IH I) as [K J]. { intros e' Ie. apply NA. apply in_or_app. now left. }
  split; [| exact (step_inv differs w' e w'' J St)].
  apply (keeps_trans c w w' w'' K). apply (step_keeps differs w' e w'' c J St). apply NA. apply in_or_app. right. now left.
Qed.

(** get_value. *)
Lemma get_same h c h' v : get_value h c h' v -> same_opt h (k_value c) h' v.
Proof. intros [E | u h2 u' E D]; rewrite E; cbn; [trivial | exact (copy_same _ _ _ _ D)]. Qed.

(** set_value. *)
Lemma set_same differs w w' c v r : inv w -> step differs w (ESet c v (Ok r)) w' ->
  differs (w_heap w) (k_value (w_cont w c)) v = true ->
  exists v', k_value (w_cont w' c) = Some v' /\ same (w_heap w) v (w_heap w') v'.
Proof.
  intros I St Df. inversion St as [ | d u h' k r' H SV | | | | ]; subst. cbn [w_heap w_cont]. rewrite upd_same.
  inversion SV as [ | B Df' | h2 v' B Df' D]; subst; [congruence |]. cbn [k_value].
  exists v'. split; [reflexivity | exact (copy_same _ _ _ _ D)].
Qed.
Lemma set_kept differs w w' c v r : inv w -> step differs w (ESet c v (Ok r)) w' ->
  differs (w_heap w) (k_value (w_cont w c)) v = false -> keeps c w w'.
Proof.
  intros I St Df. inversion St as [ | d u h' k r' H SV | | | | ]; subst.
  inversion SV as [ | B Df' | h2 v' B Df' D]; subst; [| congruence].
  apply keeps_agree; cbn [w_heap w_cont]; [now rewrite upd_same | intros u _ l _; reflexivity].
Qed.

(** What a program holds changes only when a program changes it. *)
Lemma held_same differs w e w' v : inv w -> step differs w e w' -> held w v ->
  (forall l o, e = EWrite l o -> ~ reach (w_heap w) v l) -> same (w_heap w) v (w_heap w') v.
Proof.
  intros I St Hv NW. pose proof (held_exists w v I Hv) as X. apply same_agree.
  destruct St as [d h' u G | d u h' k r H SV | d | d b | l o H HO | o HO]; cbn [w_heap].
  - destruct G as [E | u h' u' E D]; [intros m _; reflexivity | exact (copy_old _ _ _ _ v D X)].
  - destruct SV as [B | B Df | h' u' B Df D]; [intros m _; reflexivity | intros m _; reflexivity | exact (copy_old _ _ _ _ v D X)].
  - intros m _. reflexivity.
  - intros m _. reflexivity.
  - intros m R. cbn [write h_at]. apply upd_other. intros ->. exact (NW l o eq_refl R).
  - exact (alloc_agree _ o v X).
Qed.

(** *** Together *)

Lemma private differs w l w1 e w2 c : start w -> run differs w l w1 -> step differs w1 e w2 -> ~ assigns c e -> keeps c w1 w2.
Proof. intros S R St NA. exact (step_keeps differs w1 e w2 c (run_inv differs w l w1 S R) St NA). Qed.

Lemma stored differs w l w1 w2 l2 w3 c v : start w -> run differs w l w1 ->
  step differs w1 (ESet c v (Ok tt)) w2 -> differs (w_heap w1) (k_value (w_cont w1 c)) v = true ->
  run differs w2 l2 w3 -> (forall e, In e l2 -> ~ assigns c e) ->
  exists v', k_value (w_cont w3 c) = Some v' /\ same (w_heap w1) v (w_heap w3) v'.
Proof.
  intros S R St Df R2 NA. pose proof (run_inv differs w l w1 S R) as I.
  destruct (set_same differs w1 w2 c v tt I St Df) as (v' & E & Sm).
  destruct (run_keeps differs w2 l2 w3 c (step_inv _ _ _ _ I St) R2 NA) as [K _].
  unfold keeps, same_opt in K. rewrite E in K. destruct (k_value (w_cont w3 c)) as [u|]; [| contradiction].
  exists u. split; [reflexivity |]. intros n. now rewrite (Sm n).
Qed.

Lemma given differs w l w1 c v w2 : start w -> run differs w l w1 -> step differs w1 (EGet c v) w2 ->
  same_opt (w_heap w1) (k_value (w_cont w1 c)) (w_heap w2) v /\ (forall u, v = Some u -> held w2 u).
Proof.
  intros S R St. inversion St as [d h' u G | | | | | ]; subst. cbn [w_heap]. split.
  - exact (get_same _ _ _ _ G).
  - intros u ->. destruct u as [x | m]; [exact I |]. exists (Ref m). split; [now left | constructor].
Qed.

Lemma untouched differs w l w1 e w2 v : start w -> run differs w l w1 -> step differs w1 e w2 -> held w1 v ->
  (forall m o, e = EWrite m o -> ~ reach (w_heap w1) v m) -> same (w_heap w1) v (w_heap w2) v.
Proof. intros S R St. exact (held_same differs w1 e w2 v (run_inv differs w l w1 S R) St). Qed.

Lemma possible differs w l w1 c : start w -> run differs w l w1 -> exists v w2, step differs w1 (EGet c v) w2.
Proof.
  intros S R. pose proof (run_inv differs w l w1 S R) as (C & _). destruct (k_value (w_cont w1 c)) as [v|] eqn:E.
  - destruct (copy_exists (w_heap w1) v (C c v E)) as (h' & v' & D). exists (Some v'). eexists. apply st_get. exact (gv_copy _ _ v h' v' E D).
  - exists None. eexists. apply st_get. exact (gv_none _ _ E).
Qed.
Lemma possible_set differs w l w1 c v : start w -> run differs w l w1 -> held w1 v -> exists r w2, step differs w1 (ESet c v r) w2.
Proof.
  intros S R H. pose proof (run_inv differs w l w1 S R) as I. destruct (k_static (w_cont w1 c) && k_upd (w_cont w1 c)) eqn:B.
  - exists (Err EData). eexists. exact (st_set differs w1 c v _ _ _ H (sv_static differs (w_heap w1) (w_cont w1 c) v B)).
  - destruct (differs (w_heap w1) (k_value (w_cont w1 c)) v) eqn:Df.
    + destruct (copy_exists (w_heap w1) v (held_exists w1 v I H)) as (h' & v' & D).
      exists (Ok tt). eexists. exact (st_set differs w1 c v _ _ _ H (sv_new differs (w_heap w1) (w_cont w1 c) v h' v' B Df D)).
    + exists (Ok tt). eexists. exact (st_set differs w1 c v _ _ _ H (sv_same differs (w_heap w1) (w_cont w1 c) v B Df)).
Qed.
