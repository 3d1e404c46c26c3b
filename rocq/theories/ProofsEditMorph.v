(** Proofs about editing, part 8: morph_node and set_options. *)
From Coq Require Import String ZArith Bool Arith Lia Relations List.
From Verif Require Import Base ModelData ModelEdit SpecEdit ProofsEdit ProofsEditOps ProofsEditMove ProofsEditCycle ProofsEditWire ProofsEditAdd ProofsEditReplace.
Import ListNotations.

Lemma NoDup_map_inj : forall {A B} (f : A -> B) l x y, NoDup (map f l) -> In x l -> In y l -> f x = f y -> x = y.
Proof.
  intros A B f. induction l as [|a l IH]; intros x y N Hx Hy E; [destruct Hx|]. cbn [map] in N. apply NoDup_cons_iff in N. destruct N as [N1 N2].
  destruct Hx as [->|Hx], Hy as [->|Hy]; auto.
  - elim N1. rewrite E. apply in_map. exact Hy.
  - elim N1. rewrite <- E. apply in_map. exact Hx.
Qed.
Lemma NoDup_map_rev : forall {A B} (f : A -> B) l, NoDup (map f l) -> NoDup l.
Proof. intros A B f l. apply NoDup_map_inv. Qed.
Lemma NoDup_app_r : forall {A} (l m : list A), NoDup (l ++ m) -> NoDup m.
Proof. intros A. induction l as [|a l IH]; intros m H; auto. cbn in H. apply NoDup_cons_iff in H. apply IH. tauto. Qed.

Lemma hand_over_spec : forall old new l done h, old <> new -> n_children (h old) = l -> n_children (h new) = done ->
  NoDup (ids_of h (done ++ l)) -> (forall m, f_max (n_cfg (h new)) = Some m -> length done + length l <= m) ->
  exists h', hand_over h old new (ids_of h l) = (h', Ok tt) /\ same_ids h h' /\
    (forall x, n_children (h' x) = if Nat.eqb x old then [] else if Nat.eqb x new then (done ++ l)%list else n_children (h x)) /\
    (forall x, n_parent (h' x) = if mem x l then Some new else n_parent (h x)).
Proof.
  intros old new. induction l as [|c l IH]; intros done h Hne El Ed Nd Hm.
  - exists h. cbn [ids_of map hand_over]. split; [reflexivity|]. split; [apply same_ids_refl|]. split; [|reflexivity].
    intros x. destruct (Nat.eqb_spec x old) as [->|]; auto. destruct (Nat.eqb_spec x new) as [->|]; auto. rewrite app_nil_r. exact Ed.
  - assert (Ndl : NoDup (ids_of h (c :: l))) by (unfold ids_of in *; rewrite map_app in Nd; apply NoDup_app_r in Nd; exact Nd).
    assert (Ndc : NoDup (n_children (h old))) by (rewrite El; eapply NoDup_map_rev; exact Ndl).
    destruct (remove_child_total h old c Ndc) as [h1 E1].
    { rewrite El. left. reflexivity. }
    { rewrite El. intros c' Hc' E. eapply (NoDup_map_inj (fun o => n_id (h o))); [exact Ndl|exact Hc'|left; reflexivity|exact E]. }
    destruct (remove_child_spec _ _ _ _ _ Ndc E1) as (_ & _ & S1 & C1 & P1).
    assert (Ncl : ~ In c l) by (rewrite El in Ndc; apply NoDup_cons_iff in Ndc; tauto).
    assert (Cold : n_children (h1 old) = l).
    { rewrite C1, Nat.eqb_refl, El, without_self. apply without_id. exact Ncl. }
    assert (Cnew : n_children (h1 new) = done).
    { rewrite C1. destruct (Nat.eqb_spec new old); [congruence|exact Ed]. }
    destruct (add_child_total h1 new c None) as [h2 E2].
    { intros m Hmm. destruct (S1 new) as [_ Ecfg]. rewrite Ecfg in Hmm. specialize (Hm m Hmm). rewrite Cnew. cbn [length] in Hm. lia. }
    { rewrite Cnew, (same_ids_of _ _ _ S1). destruct (S1 c) as [-> _]. unfold ids_of in *. rewrite map_app in Nd. cbn [map] in Nd.
      apply NoDup_remove_2 in Nd. intros X. apply Nd. apply in_or_app. left. exact X. }
    destruct (add_child_spec _ _ _ _ _ E2) as (_ & _ & S2 & C2 & P2).
    assert (S12 : same_ids h h2) by (eapply same_ids_trans; eauto).
    destruct (IH (done ++ [c])%list h2 Hne) as (h' & E' & S' & C' & P').
    { rewrite C2. destruct (Nat.eqb_spec old new); [congruence|exact Cold]. }
    { rewrite C2, Nat.eqb_refl, insert_last, Cnew. reflexivity. }
    { rewrite (same_ids_of _ _ _ S12), <- app_assoc. exact Nd. }
    { intros m Hmm. destruct (S12 new) as [_ Ecfg]. rewrite Ecfg in Hmm. specialize (Hm m Hmm). rewrite app_length. cbn [length] in *. lia. }
    exists h'. split.
    { cbn [ids_of map hand_over]. rewrite E1, E2. change (map (fun o => n_id (h o)) l) with (ids_of h l). rewrite <- (same_ids_of h h2 l S12). exact E'. }
    split; [eapply same_ids_trans; eauto|]. split.
    + intros x. rewrite C'. destruct (Nat.eqb_spec x old); auto. destruct (Nat.eqb_spec x new) as [->|].
      * rewrite <- app_assoc. reflexivity.
      * rewrite C2. destruct (Nat.eqb_spec x new); [congruence|]. rewrite C1. destruct (Nat.eqb_spec x old); [congruence|reflexivity].
    + intros x. rewrite P'. unfold mem. cbn [existsb]. fold (mem x l). destruct (mem x l); [rewrite orb_true_r; reflexivity|].
      rewrite orb_false_r, P2, P1. destruct (Nat.eqb x c); reflexivity.
Qed.

(** ** The new object replaces the old one *)

Record renamed (g : mgr) (n : nid) (oo : oid) (c : config) (h' : oid -> nobj) : Prop := {
  rn_id : forall x, x <> g_next g -> n_id (h' x) = n_id (g_heap g x) /\ n_cfg (h' x) = n_cfg (g_heap g x);
  rn_new : n_id (h' (g_next g)) = n /\ n_cfg (h' (g_next g)) = c;
  rn_ch : forall x, reg (g_nodes g) (g_heap g) x -> n_children (h' (swap oo (g_next g) x)) = map (swap oo (g_next g)) (n_children (g_heap g x));
  rn_pa : forall x, reg (g_nodes g) (g_heap g) x -> n_parent (h' (swap oo (g_next g) x)) = option_map (swap oo (g_next g)) (n_parent (g_heap g x)) }.

Lemma renamed_HW : forall g n oo c h' g', HWg g -> nget n (g_nodes g) = Some oo -> renamed g n oo c h' ->
  (forall m, f_max c = Some m -> length (kids g n) <= m) ->
  g_heap g' = h' -> g_next g' = S (g_next g) ->
  (forall i, nget i (g_nodes g') = if Nat.eqb i n then Some (g_next g) else nget i (g_nodes g)) -> NoDup (order g') ->
  HWg g' /\ (forall j, cfg g' j = if Nat.eqb j n then Some c else cfg g j) /\
  (forall j, kids g' j = kids g j) /\ (forall j, par g' j = par g j).
Proof.
  intros g n oo c h' g' W Eo [Rid [Rn1 Rn2] Rch Rpa] Room Eh En Eg Nd.
  destruct (HWg_ids _ _ _ W Eo) as (Roo & Ioo & _). set (no := g_next g) in *. set (s := swap oo no) in *.
  assert (Fr : forall x, reg (g_nodes g) (g_heap g) x -> x <> no).
  { intros x Hx. destruct (hw_id _ _ _ W _ _ Hx) as [_ L]. unfold no. lia. }
  assert (Sid : forall x, reg (g_nodes g) (g_heap g) x -> n_id (h' (s x)) = n_id (g_heap g x)).
  { intros x Hx. unfold s, swap. destruct (Nat.eqb_spec x oo) as [->|]; [congruence|]. apply Rid. auto. }
  assert (Reg : forall x, reg (g_nodes g) (g_heap g) x -> reg (g_nodes g') h' (s x)).
  { intros x Hx. unfold reg. rewrite Sid, Eg by auto. unfold s, swap. destruct (Nat.eqb_spec (n_id (g_heap g x)) n) as [E|E].
    - assert (x = oo) by (eapply reg_eq; [exact Hx|exact Roo|congruence]). subst. rewrite Nat.eqb_refl. reflexivity.
    - destruct (Nat.eqb_spec x oo) as [->|]; [congruence|exact Hx]. }
  assert (Back : forall y, reg (g_nodes g') h' y -> exists x, reg (g_nodes g) (g_heap g) x /\ y = s x).
  { intros y Hy. unfold reg in Hy. rewrite Eg in Hy. destruct (Nat.eqb_spec (n_id (h' y)) n) as [E|E].
    - injection Hy as <-. exists oo. split; auto. unfold s, swap. rewrite Nat.eqb_refl. reflexivity.
    - assert (y <> no) by (intros ->; congruence). destruct (Rid y H) as [Ei _]. rewrite Ei in Hy, E. exists y. split; [exact Hy|].
      unfold s, swap. destruct (Nat.eqb_spec y oo) as [->|]; [congruence|reflexivity]. }
  assert (Inj : forall x y, reg (g_nodes g) (g_heap g) x -> reg (g_nodes g) (g_heap g) y -> s x = s y -> x = y).
  { intros x y Hx Hy E. apply (reg_eq _ _ _ _ Hx Hy). rewrite <- (Sid x Hx), <- (Sid y Hy), E. reflexivity. }
  assert (Kid : forall x d, reg (g_nodes g) (g_heap g) x -> In d (n_children (g_heap g x)) -> reg (g_nodes g) (g_heap g) d).
  { intros x d Hx Hd. apply (hw_child _ _ _ W _ _ Hx Hd). }
  assert (W' : HWg g').
  { unfold HWg. rewrite Eh, En. split.
    - exact Nd.
    - intros i o H. rewrite Eg in H. destruct (Nat.eqb_spec i n) as [->|Hi].
      + injection H as <-. split; [exact Rn1|unfold no; lia].
      + destruct (hw_id _ _ _ W _ _ H) as [E L]. split; [|lia]. rewrite <- E. apply Rid. unfold no. lia.
    - intros o H. destruct (Back o H) as (x & Rx & ->). rewrite Rch by auto.
      assert (N := hw_nodup _ _ _ W _ Rx). assert (K := Kid x).
      assert (K' : forall d, In d (n_children (g_heap g x)) -> reg (g_nodes g) (g_heap g) d) by auto. clear K.
      induction (n_children (g_heap g x)) as [|d l IH]; [constructor|]. apply NoDup_cons_iff in N. destruct N as [N1 N2]. cbn [map]. constructor.
      + intros X. apply in_map_iff in X. destruct X as (e & E & He). apply Inj in E; [subst; auto| |]; apply K'; [right|left]; auto.
      + apply IH; auto. intros e He. apply K'. right. exact He.
    - intros o d H Hd. destruct (Back o H) as (x & Rx & ->). rewrite Rch in Hd by auto. apply in_map_iff in Hd. destruct Hd as (e & <- & He).
      destruct (hw_child _ _ _ W _ _ Rx He) as [Re Pe]. split; [auto|]. rewrite Rpa, Pe by auto. reflexivity.
    - intros o p H Hp. destruct (Back o H) as (x & Rx & ->). rewrite Rpa in Hp by auto.
      destruct (n_parent (g_heap g x)) as [q|] eqn:Eq; [|discriminate]. cbn in Hp. injection Hp as <-.
      destruct (hw_par _ _ _ W _ _ Rx Eq) as [Rq Iq]. split; [auto|]. rewrite Rch by auto. apply (in_map s). exact Iq.
    - intros o m H Hm. destruct (Back o H) as (x & Rx & ->). rewrite Rch by auto. rewrite map_length.
      clear H. unfold s, swap in Hm. destruct (Nat.eqb_spec x oo) as [E|]; [subst x|].
      + rewrite Rn2 in Hm. specialize (Room m Hm). rewrite <- Ioo, kids_reg in Room by auto. unfold ids_of in Room. rewrite map_length in Room. exact Room.
      + destruct (Rid x (Fr x Rx)) as [_ Ec]. rewrite Ec in Hm. apply (hw_max _ _ _ W _ _ Rx Hm). }
  split; [exact W'|].
  assert (Obj : forall x, reg (g_nodes g) (g_heap g) x -> obj g' (n_id (g_heap g x)) = Some (h' (s x))).
  { intros x Rx. pose proof (Reg x Rx) as R'. unfold reg in R'. rewrite Sid in R' by auto. unfold obj. rewrite R', Eh. reflexivity. }
  assert (Non : forall j, ~ present g j -> obj g' j = None).
  { intros j Hj. unfold obj. rewrite Eg. destruct (Nat.eqb_spec j n) as [->|]; [elim Hj; unfold present; rewrite Eo; discriminate|].
    unfold present in Hj. destruct (nget j (g_nodes g)); [elim Hj; discriminate|reflexivity]. }
  split; [|split].
  - intros j. destruct (present_dec g j) as [Pj|Pj].
    + destruct (HW_present _ _ W Pj) as (x & _ & Rx & <-). unfold cfg at 1. rewrite Obj by auto. cbn [option_map].
      unfold s, swap. destruct (Nat.eqb_spec x oo) as [->|Hx]; [rewrite Ioo, Nat.eqb_refl, Rn2; reflexivity|].
      destruct (Nat.eqb_spec (n_id (g_heap g x)) n) as [E|E]; [elim Hx; eapply reg_eq; [exact Rx|exact Roo|congruence]|].
      rewrite cfg_reg by auto. f_equal. apply Rid. auto.
    + unfold cfg. rewrite Non by auto. destruct (Nat.eqb_spec j n) as [->|]; [elim Pj; unfold present; rewrite Eo; discriminate|].
      unfold obj. unfold present in Pj. destruct (nget j (g_nodes g)); [elim Pj; discriminate|reflexivity].
  - intros j. destruct (present_dec g j) as [Pj|Pj].
    + destruct (HW_present _ _ W Pj) as (x & _ & Rx & <-). rewrite kids_reg by auto. unfold kids. rewrite Obj, Eh, Rch by auto.
      unfold ids_of. rewrite map_map. apply map_ext_in. intros d Hd. apply Sid. eapply Kid; eauto.
    + rewrite (kids_nil g) by auto. unfold kids. rewrite Non by auto. reflexivity.
  - intros j. destruct (present_dec g j) as [Pj|Pj].
    + destruct (HW_present _ _ W Pj) as (x & _ & Rx & <-). rewrite par_reg by auto. unfold par. rewrite Obj, Eh, Rpa by auto.
      destruct (n_parent (g_heap g x)) as [q|] eqn:Eq; [|reflexivity]. cbn. f_equal. apply Sid. apply (hw_par _ _ _ W _ _ Rx Eq).
    + rewrite (par_none g) by auto. unfold par. rewrite Non by auto. reflexivity.
Qed.

Lemma insert_at_length : forall {A} (x : A) l1 l2, insert (Some (Z.of_nat (length l1))) x (l1 ++ l2) = (l1 ++ x :: l2)%list.
Proof.
  intros A x l1 l2. unfold insert. rewrite (proj2 (Z.ltb_ge (Z.of_nat (length l1)) 0)) by lia.
  destruct (slice_insert_split (Z.of_nat (length l1)) x (l1 ++ l2)) as (a & b & E & -> & Hl).
  rewrite (proj2 (Z.ltb_ge (Z.of_nat (length l1)) 0)) in Hl by lia. rewrite app_length in Hl.
  assert (La : length a = length l1) by lia. clear Hl. revert a La E. induction l1 as [|y l1 IH]; intros [|z a] La E; try discriminate; cbn [app] in *.
  - subst. reflexivity.
  - injection E as <- E. injection La as La. f_equal. apply IH; auto.
Qed.

Lemma exchange : forall g n oo c, HWg g -> nget n (g_nodes g) = Some oo ->
  (forall m, f_max c = Some m -> length (kids g n) <= m) ->
  let h := g_heap (fst (register g n c)) in
  exists hp h', put_in_place h oo (g_next g) = (hp, Ok tt) /\
    hand_over hp oo (g_next g) (ids_of hp (n_children (hp oo))) = (h', Ok tt) /\ renamed g n oo c h'.
Proof.
  intros g n oo c W Eo Room h. destruct (HWg_ids _ _ _ W Eo) as (Roo & Ioo & Loo). set (no := g_next g) in *.
  set (s := swap oo no).
  assert (Hno : h no = mkN n c None []) by (unfold h, register; cbn; unfold upd; fold no; rewrite Nat.eqb_refl; reflexivity).
  assert (Hx : forall x, x <> no -> h x = g_heap g x).
  { intros x Nx. unfold h, register. cbn. unfold upd. fold no. apply Nat.eqb_neq in Nx. rewrite Nx. reflexivity. }
  assert (Fr : forall x, reg (g_nodes g) (g_heap g) x -> x <> no).
  { intros x R. destruct (hw_id _ _ _ W _ _ R) as [_ L]. unfold no. lia. }
  assert (Hon : oo <> no) by (apply Fr; exact Roo).
  assert (Kid : forall x d, reg (g_nodes g) (g_heap g) x -> In d (n_children (g_heap g x)) -> reg (g_nodes g) (g_heap g) d).
  { intros x d R Hd. apply (hw_child _ _ _ W _ _ R Hd). }
  assert (Ids : forall l, (forall d, In d l -> reg (g_nodes g) (g_heap g) d) -> ids_of h l = ids_of (g_heap g) l).
  { intros l Hl. unfold ids_of. apply map_ext_in. intros d Hd. rewrite Hx; auto. }
  assert (SIds : forall l, (forall d, In d l -> reg (g_nodes g) (g_heap g) d) -> ids_of h (map s l) = ids_of (g_heap g) l).
  { intros l Hl. unfold ids_of. rewrite map_map. apply map_ext_in. intros d Hd. unfold s, swap.
    destruct (Nat.eqb_spec d oo) as [->|]; [rewrite Hno; cbn [n_id]; congruence|]. rewrite Hx; auto. }
  assert (Sfix : forall l, ~ In oo l -> map s l = l) by (intros l Hl; apply swap_id; exact Hl).
  (* the first step *)
  assert (Put : exists hp, put_in_place h oo no = (hp, Ok tt) /\ same_ids h hp /\
     (forall x, reg (g_nodes g) (g_heap g) x -> n_children (hp x) = map s (n_children (g_heap g x))) /\ n_children (hp no) = [] /\
     n_parent (hp no) = n_parent (g_heap g oo) /\
     (forall x, reg (g_nodes g) (g_heap g) x -> x <> oo -> n_parent (hp x) = n_parent (g_heap g x))).
  { unfold put_in_place. rewrite (Hx oo Hon). destruct (n_parent (g_heap g oo)) as [p|] eqn:Ep.
    2:{ exists h. split; auto. split; [apply same_ids_refl|]. split.
        - intros x R. rewrite Hx by auto. symmetry. apply Sfix. intros X. destruct (hw_child _ _ _ W _ _ R X). congruence.
        - rewrite Hno. cbn. split; auto. split; auto. intros x R _. rewrite Hx; auto. }
    destruct (hw_par _ _ _ W _ _ Roo Ep) as [Rp Ip]. pose proof (Fr p Rp) as Hpn.
    pose proof (hw_nodup _ _ _ W _ Rp) as Np.
    destruct (@in_split oid oo _ Ip) as (l1 & l2 & El).
    assert (N12 : ~ In oo l1 /\ ~ In oo l2).
    { rewrite El in Np. apply NoDup_remove_2 in Np. split; intros X; apply Np; apply in_or_app; auto. }
    assert (Uniq : forall d, In d (n_children (g_heap g p)) -> n_id (g_heap g d) = n -> d = oo).
    { intros d Hd E. eapply reg_eq; [eapply Kid; eauto|exact Roo|congruence]. }
    assert (Ci : child_index h p (n_id (g_heap g oo)) = Some (length l1)).
    { unfold child_index. rewrite (Hx p Hpn). change (map (fun o => n_id (h o)) (n_children (g_heap g p))) with (ids_of h (n_children (g_heap g p))).
      rewrite Ids by (intros d Hd; eapply Kid; eauto). rewrite El. unfold ids_of. rewrite map_app. cbn [map].
      rewrite index_app; [rewrite map_length; reflexivity|]. intros X. apply in_map_iff in X. destruct X as (d & E & Hd).
      rewrite Ioo in E. assert (d = oo) by (apply Uniq; auto; rewrite El; apply in_or_app; auto). subst. tauto. }
    rewrite Ci.
    assert (Np' : NoDup (n_children (h p))) by (rewrite Hx by auto; exact Np).
    destruct (remove_child_total h p oo Np') as [h1 E1].
    { rewrite Hx by auto. exact Ip. }
    { rewrite Hx by auto. intros d Hd E. apply Uniq; auto. rewrite (Hx oo Hon), Hx in E by (apply Fr; eapply Kid; eauto). congruence. }
    rewrite (Hx oo Hon) in E1. rewrite E1.
    destruct (remove_child_spec _ _ _ _ _ Np' E1) as (_ & _ & S1 & C1 & P1).
    assert (C1p : n_children (h1 p) = (l1 ++ l2)%list).
    { rewrite C1, Nat.eqb_refl, (Hx p Hpn), El, without_app, without_self, !without_id by tauto. reflexivity. }
    assert (Rl : forall d, In d (l1 ++ l2) -> reg (g_nodes g) (g_heap g) d /\ d <> oo).
    { intros d Hd. assert (In d (n_children (g_heap g p))) by (rewrite El; apply in_or_app; apply in_app_or in Hd; destruct Hd; [left|right; right]; auto).
      split; [eapply Kid; eauto|]. intros ->. apply in_app_or in Hd. tauto. }
    destruct (add_child_total h1 p no (Some (Z.of_nat (length l1)))) as [h2 E2].
    { intros m Hm. destruct (S1 p) as [_ Ec]. rewrite Ec, (Hx p Hpn) in Hm. pose proof (hw_max _ _ _ W _ _ Rp Hm) as L. rewrite C1p.
      rewrite El in L. rewrite app_length in *. cbn [length] in L. lia. }
    { rewrite C1p, (same_ids_of _ _ _ S1). destruct (S1 no) as [-> _]. rewrite Hno. cbn [n_id]. rewrite Ids by (intros d Hd; apply Rl; auto).
      intros X. unfold ids_of in X. apply in_map_iff in X. destruct X as (d & E & Hd). destruct (Rl d Hd) as [Rd Nd]. apply Nd.
      eapply reg_eq; [exact Rd|exact Roo|congruence]. }
    rewrite E2. destruct (add_child_spec _ _ _ _ _ E2) as (_ & _ & S2 & C2 & P2).
    exists h2. split; [reflexivity|]. split; [eapply same_ids_trans; eauto|]. split.
    { intros x R. rewrite C2. destruct (Nat.eqb_spec x p) as [->|Hxp].
      - rewrite C1p, insert_at_length, El, map_app. cbn [map]. rewrite !Sfix by tauto. unfold s, swap. rewrite Nat.eqb_refl. reflexivity.
      - rewrite C1. apply Nat.eqb_neq in Hxp. rewrite Hxp, Hx by auto. symmetry. apply Sfix. intros X.
        destruct (hw_child _ _ _ W _ _ R X) as [_ Y]. apply Nat.eqb_neq in Hxp. congruence. }
    split.
    { rewrite C2. destruct (Nat.eqb_spec no p); [congruence|]. rewrite C1. destruct (Nat.eqb_spec no p); [congruence|]. rewrite Hno. reflexivity. }
    split; [rewrite P2, Nat.eqb_refl; reflexivity|].
    intros x R Hxo. rewrite P2, P1. destruct (Nat.eqb_spec x no) as [->|]; [elim (Fr no R); reflexivity|].
    apply Nat.eqb_neq in Hxo. rewrite Hxo, Hx by auto. reflexivity. }
  destruct Put as (hp & Ep & Sp & Cp & Cn & Pn & Pp).
  assert (Idp : forall l, ids_of hp l = ids_of h l) by (intros l; apply same_ids_of; exact Sp).
  destruct (hand_over_spec oo no (map s (n_children (g_heap g oo))) [] hp Hon) as (h' & Eh & Sh & Ch & Ph).
  - apply Cp. exact Roo.
  - exact Cn.
  - cbn [app]. rewrite Idp, SIds by (intros d Hd; eapply Kid; eauto). eapply NoDup_ids; eauto.
  - intros m Hm. destruct (Sp no) as [_ Ec]. rewrite Ec, Hno in Hm. cbn in Hm. specialize (Room m Hm). rewrite <- Ioo, kids_reg in Room by auto.
    unfold ids_of in Room. rewrite map_length in *. cbn. exact Room.
  - exists hp, h'. split; [exact Ep|]. split; [rewrite (Cp oo Roo); exact Eh|].
    assert (SS : same_ids h h') by (eapply same_ids_trans; eauto).
    assert (Sne : forall x, s x <> oo) by (intros x; unfold s, swap; destruct (Nat.eqb_spec x oo); congruence).
    assert (Sin : forall x, reg (g_nodes g) (g_heap g) x -> (mem (s x) (map s (n_children (g_heap g oo))) = true <-> n_parent (g_heap g x) = Some oo)).
    { intros x R. rewrite mem_In, in_map_iff. split.
      - intros (d & E & Hd). destruct (hw_child _ _ _ W _ _ Roo Hd) as [Rd Pd].
        assert (d = x); [|congruence]. unfold s, swap in E. pose proof (Fr x R). pose proof (Fr d Rd).
        destruct (Nat.eqb_spec d oo), (Nat.eqb_spec x oo); congruence.
      - intros E. exists x. split; auto. apply (hw_par _ _ _ W _ _ R E). }
    split.
    + intros x Nx. fold no in Nx. destruct (SS x) as [-> ->]. rewrite Hx by auto. auto.
    + fold no. destruct (SS no) as [-> ->]. rewrite Hno. auto.
    + fold no. fold s. intros x R. rewrite Ch. destruct (Nat.eqb_spec (s x) oo) as [E|_]; [elim (Sne x E)|].
      destruct (Nat.eqb_spec (s x) no) as [E|E].
      * assert (x = oo) by (unfold s, swap in E; pose proof (Fr x R); destruct (Nat.eqb_spec x oo); congruence). subst. reflexivity.
      * assert (x <> oo) by (intros ->; apply E; unfold s, swap; rewrite Nat.eqb_refl; reflexivity).
        replace (s x) with x by (unfold s, swap; destruct (Nat.eqb_spec x oo); congruence). apply Cp. exact R.
    + fold no. fold s. intros x R. rewrite Ph. pose proof (Sin x R) as I. destruct (mem (s x) (map s (n_children (g_heap g oo)))) eqn:Em.
      * destruct I as [I _]. rewrite (I eq_refl). cbn. unfold s, swap. rewrite Nat.eqb_refl. reflexivity.
      * assert (Hpo : n_parent (g_heap g x) <> Some oo) by (intros E; apply I in E; discriminate).
        assert (X : option_map s (n_parent (g_heap g x)) = n_parent (g_heap g x)).
        { destruct (n_parent (g_heap g x)) as [q|]; [|reflexivity]. cbn. f_equal. unfold s, swap. destruct (Nat.eqb_spec q oo); congruence. }
        rewrite X. unfold s, swap. destruct (Nat.eqb_spec x oo) as [->|Hxo]; [exact Pn|]. apply Pp; auto.
Qed.

(** ** The wirings *)

Lemma check_ignore : forall g l, check_wirings g true l = Some (filter (validate_wiring g) l).
Proof.
  intros g. induction l as [|w l IH]; [reflexivity|]. cbn [check_wirings filter]. rewrite IH. destruct (validate_wiring g w); reflexivity.
Qed.
Lemma wire_ignoring : forall g l, g_state g = EDITABLE ->
  wire_data l true g = (publish_structure (set_wires g (g_wires g ++ filter (validate_wiring g) l)%list), Ok tt).
Proof. intros g l H. unfold wire_data, edit_service. rewrite H, check_ignore. reflexivity. Qed.

Lemma om_validate : forall g g' w, only_mirror g g' -> validate_wiring g' w = validate_wiring g w.
Proof.
  intros g g' w M. apply eq_true_iff_eq. rewrite !validate_good. split; apply good_ext; intros; [symmetry|]; apply cfg_om; exact M.
Qed.
Lemma validate_ext : forall g g', (forall i, cfg g' i = cfg g i) -> forall w, validate_wiring g' w = validate_wiring g w.
Proof. intros g g' H w. apply eq_true_iff_eq. rewrite !validate_good. split; apply good_ext; intros; auto. Qed.

Lemma reconfigured_intro : forall g g' n c l, RG g ->
  (forall j, cfg g' j = if Nat.eqb j n then Some c else cfg g j) ->
  (forall j, kids g' j = kids g j) -> (forall j, par g' j = par g j) -> g_name g' = g_name g -> g_state g' = g_state g ->
  l = wires_of g n ->
  g_wires g' = (filter (fun w => negb (wiring_has_id w n)) (g_wires g) ++ filter (validate_wiring g') l)%list ->
  reconfigured g g' n c.
Proof.
  intros g g' n c l R C K P N S -> Wi. unfold reconfigured. split; [exact C|]. split; [exact K|]. split; [exact P|].
  assert (Has : forall w, In w (g_wires g) -> (wiring_has_id w n = true <-> mentions w n)).
  { intros w Hw. eapply good_has_id. apply (rg_wires _ R). exact Hw. }
  split; [|split; [|split; [exact N|exact S]]].
  - intros w. rewrite Wi, in_app_iff, !filter_In. unfold wires_of. rewrite filter_In. rewrite validate_good. split.
    + intros [[Hw Hn]|[[Hw Hn] Hg]]; split; auto. eapply good_ext; [|apply (rg_wires _ R); exact Hw].
      intros i Hi. rewrite C. destruct (Nat.eqb_spec i n) as [->|]; auto. apply Has in Hi; auto. rewrite Hi in Hn. discriminate.
    + intros [Hw Hg]. destruct (wiring_has_id w n) eqn:E; [right|left]; auto.
  - intros p Hp. rewrite Wi, filter_app.
    assert (E1 : forall l, (forall w, In w l -> In w (g_wires g)) -> filter p (filter (fun w => negb (wiring_has_id w n)) l) = filter p l).
    { induction l as [|w l IH]; intros Hl; [reflexivity|]. cbn [filter]. assert (IH' : filter p (filter (fun w => negb (wiring_has_id w n)) l) = filter p l) by (apply IH; intros x Hx; apply Hl; right; auto).
      destruct (wiring_has_id w n) eqn:E; cbn [negb filter].
      - rewrite IH'. destruct (p w) eqn:Epw; auto. elim (Hp w Epw). apply Has; auto. apply Hl. left. auto.
      - rewrite IH'. reflexivity. }
    rewrite E1 by auto. 
    assert (E2 : forall l, (forall w, In w l -> p w = false) -> filter p l = []).
    { induction l as [|w l IH]; intros Hl; [reflexivity|]. cbn [filter]. rewrite (Hl w) by (left; auto). apply IH. intros x Hx. apply Hl. right. auto. }
    rewrite (E2 (filter (validate_wiring g') (wires_of g n))); [apply app_nil_r|]. intros w Hw. apply filter_In in Hw. destruct Hw as [Hw _]. unfold wires_of in Hw. apply filter_In in Hw. destruct Hw as [Hw Hn].
    destruct (p w) eqn:Epw; auto. elim (Hp w Epw). apply Has; auto.
Qed.

(** ** The two services *)


Lemma ndel_keys : forall {A} n (l : list (nid * A)), map fst (ndel n l) = without n (map fst l).
Proof.
  intros A n l. unfold ndel, without. rewrite filter_map. reflexivity.
Qed.
Lemma ndel_get : forall {A} n (l : list (nid * A)) i, nget i (ndel n l) = if Nat.eqb i n then None else nget i l.
Proof.
  intros A n. induction l as [|[k v] l IH]; intros i; cbn; [destruct (Nat.eqb i n); reflexivity|].
  destruct (Nat.eqb_spec n k) as [->|Hk]; cbn.
  - unfold ndel in IH. rewrite IH. destruct (Nat.eqb_spec i k); reflexivity.
  - unfold ndel in IH. rewrite IH. destruct (Nat.eqb_spec i k) as [->|]; auto. destruct (Nat.eqb_spec k n); congruence.
Qed.

Lemma morph_spec : forall t x g g' r, HWg g -> RG g -> g_state g = EDITABLE -> room_for g t x -> morph_node t x g = (g', r) ->
  HWg g' /\
  ((r = Ok tt /\ exists n c, ros_to_uuid t = Some n /\ present g n /\ x = Ok c /\ reconfigured g g' n c /\ order_last g g' n) \/
   (is_ok r = false /\ same_tree g g' /\ (forall n c, ros_to_uuid t = Some n -> present g n -> x = Ok c -> False))).
Proof.
  intros t x g g' r W R Hs Room H. apply edit_service_cases in H. destruct H as [(N & _)|(_ & gx & H & ->)]; [congruence|].
  assert (Ref : forall b r', is_ok r' = false -> g = b -> (forall n c, ros_to_uuid t = Some n -> present g n -> x = Ok c -> False) ->
     HWg (publish_structure b) /\ ((r' = Ok tt /\ exists n c, ros_to_uuid t = Some n /\ present g n /\ x = Ok c /\ reconfigured g (publish_structure b) n c /\ order_last g (publish_structure b) n) \/
       (is_ok r' = false /\ same_tree g (publish_structure b) /\ (forall n c, ros_to_uuid t = Some n -> present g n -> x = Ok c -> False)))).
  { intros b r' E -> Hx. split; [eapply om_HW; [apply om_publish|exact W]|]. right. split; auto. split; auto. apply om_same, om_publish. }
  cbv beta zeta in H.
  destruct (ros_to_uuid t) as [n|] eqn:Et; [|injection H as <- <-; apply Ref; [reflexivity|reflexivity|discriminate]].
  destruct (nget n (g_nodes g)) as [oo|] eqn:Eo.
  2:{ injection H as <- <-. apply Ref; [reflexivity|reflexivity|]. intros n' c E Pn. injection E as <-. elim Pn. exact Eo. }
  destruct (instantiate g (uuid_to_ros n) x) as [g1 r1] eqn:Ei.
  destruct (instantiate_cases _ _ _ _ _ Ei) as [(-> & Hr1 & Hno)|(c & n' & Ex & En & -> & ->)].
  { assert (Nx : forall n' c, Some n = Some n' -> present g n' -> x = Ok c -> False) by (intros n' c _ _ E; eapply Hno; [exact E|reflexivity]).
    destruct Hr1 as [[e ->] | ->]; injection H as <- <-; apply Ref; auto. }
  cbn in En. injection En as <-. clear Ref.
  rewrite (register_old g n c oo R Eo) in H. rewrite (unwire_own (fst (register g n c)) n Hs) in H.
  assert (Rm : forall m, f_max c = Some m -> length (kids g n) <= m) by (intros m Hm; eapply Room; eauto).
  destruct (exchange g n oo c W Eo Rm) as (hp & h' & Ep & Eh & Rn).
  set (g1 := fst (register g n c)) in *.
  set (g2 := publish_structure (set_wires g1 (filter (fun w => negb (wiring_has_id w n)) (g_wires g1)))) in *.
  assert (M2 : only_mirror (set_wires g1 (filter (fun w => negb (wiring_has_id w n)) (g_wires g1))) g2) by apply om_publish.
  destruct M2 as (H2 & X2 & D2 & W2 & S2 & N2 & _). change (g_heap g2 = g_heap g1) in H2. cbn in X2, D2, W2, S2, N2.
  rewrite H2 in H.
  rewrite Ep, Eh in H. set (g4 := set_kids _ _) in H.
  assert (S4 : g_state g4 = EDITABLE) by (unfold g4; cbn; rewrite S2; exact Hs).
  rewrite (wire_ignoring g4 _ S4) in H. injection H as <- <-.
  assert (Pn : present g n) by (unfold present; rewrite Eo; discriminate).
  assert (Nodes4 : g_nodes g4 = nset n (g_next g) (ndel n (nset n (g_next g) (g_nodes g)))) by (unfold g4; cbn; rewrite D2; reflexivity).
  assert (Get4 : forall i, nget i (g_nodes g4) = if Nat.eqb i n then Some (g_next g) else nget i (g_nodes g)).
  { intros i. rewrite Nodes4, nget_nset. destruct (Nat.eqb_spec i n); auto. rewrite ndel_get, nget_nset. destruct (Nat.eqb_spec i n); congruence. }
  assert (Ord4 : order g4 = (without n (order g) ++ [n])%list).
  { unfold order. rewrite Nodes4, nset_keys. unfold nhas. rewrite ndel_get, Nat.eqb_refl, ndel_keys, nset_keys.
    unfold nhas. rewrite Eo. reflexivity. }
  destruct (renamed_HW g n oo c h' g4 W Eo Rn Rm) as (W4 & C4 & K4 & P4).
  { reflexivity. }
  { unfold g4. cbn. exact X2. }
  { exact Get4. }
  { rewrite Ord4. apply NoDup_snoc; [apply NoDup_filter', W|]. intros X. apply In_without in X. tauto. }
  set (g5 := set_wires g4 _).
  assert (OM : only_mirror g5 (publish_structure (publish_structure g5))) by (eapply om_trans; apply om_publish).
  assert (W5 : HWg g5) by exact W4.
  split; [eapply om_HW; [exact OM|exact W5]|]. left. split; auto. exists n, c. split; auto. split; auto. split; auto.
  destruct (om_same _ _ OM) as (O6 & K6 & P6 & C6 & Wi6 & N6 & S6).
  split.
  - apply (reconfigured_intro g _ n c (wires_of g1 n)); auto.
    + intros j. rewrite C6. apply C4.
    + intros j. rewrite K6. apply K4.
    + intros j. rewrite P6. apply P4.
    + rewrite N6. unfold g5, g4. cbn. exact N2.
    + rewrite S6. change (g_state g5) with (g_state g4). rewrite S4. symmetry. exact Hs.
    + assert (Wf : g_wires g5 = (filter (fun w => negb (wiring_has_id w n)) (g_wires g) ++ filter (validate_wiring g4) (wires_of g1 n))%list).
      { unfold g5. cbn [g_wires set_wires]. f_equal. exact W2. }
      rewrite Wi6, Wf. f_equal.
      apply filter_ext. intros w. symmetry. apply validate_ext. intros i.
      rewrite C6. reflexivity.
  - unfold order_last. rewrite O6. exact Ord4.
Qed.

Lemma options_spec : forall t x g g' r, HWg g -> RG g -> g_state g = EDITABLE -> room_for g t x -> set_options t x g = (g', r) ->
  HWg g' /\
  ((r = Ok tt /\ exists n c, ros_to_uuid t = Some n /\ present g n /\ x = Ok c /\ reconfigured g g' n c /\ order g' = order g) \/
   (is_ok r = false /\ same_tree g g' /\ (forall n c, ros_to_uuid t = Some n -> present g n -> x = Ok c -> False))).
Proof.
  intros t x g g' r W R Hs Room H. apply edit_service_cases in H. destruct H as [(N & _)|(_ & gx & H & ->)]; [congruence|].
  assert (Ref : forall b r', is_ok r' = false -> only_mirror g b -> (forall n c, ros_to_uuid t = Some n -> present g n -> x = Ok c -> False) ->
     HWg (publish_structure b) /\ ((r' = Ok tt /\ exists n c, ros_to_uuid t = Some n /\ present g n /\ x = Ok c /\ reconfigured g (publish_structure b) n c /\ order (publish_structure b) = order g) \/
       (is_ok r' = false /\ same_tree g (publish_structure b) /\ (forall n c, ros_to_uuid t = Some n -> present g n -> x = Ok c -> False)))).
  { intros b r' E M Hx. assert (M' : only_mirror g (publish_structure b)) by (eapply om_trans; [exact M|apply om_publish]).
    split; [eapply om_HW; [exact M'|exact W]|]. right. split; auto. split; auto. apply om_same. exact M'. }
  cbv beta zeta in H.
  destruct (ros_to_uuid t) as [n|] eqn:Et; [|injection H as <- <-; apply Ref; [reflexivity|apply om_refl|discriminate]].
  destruct (nget n (g_nodes g)) as [oo|] eqn:Eo.
  2:{ injection H as <- <-. apply Ref; [reflexivity|apply om_refl|]. intros n' c E Pn. injection E as <-. elim Pn. exact Eo. }
  destruct (instantiate (sync_children g) (uuid_to_ros n) x) as [g1 r1] eqn:Ei.
  destruct (instantiate_cases _ _ _ _ _ Ei) as [(-> & Hr1 & Hno)|(c & n' & Ex & En & -> & ->)].
  { assert (Nx : forall n' c, Some n = Some n' -> present g n' -> x = Ok c -> False) by (intros n' c _ _ E; eapply Hno; [exact E|reflexivity]).
    destruct Hr1 as [[e ->] | ->]; injection H as <- <-; apply Ref; auto; apply om_sync. }
  cbn in En. injection En as <-. clear Ref.
  set (gs := sync_children g) in *.
  assert (Ws : HWg gs) by (eapply om_HW; [apply om_sync|exact W]).
  assert (Rm : forall m, f_max c = Some m -> length (kids g n) <= m) by (intros m Hm; eapply Room; eauto).
  assert (Eos : nget n (g_nodes gs) = Some oo) by exact Eo.
  rewrite (unwire_own (fst (register gs n c)) n Hs) in H.
  destruct (exchange gs n oo c Ws Eos) as (hp & h' & Ep & Eh & Rn).
  { intros m Hm. destruct (sync_view g) as (SK & _). unfold gs. rewrite SK. auto. }
  change (g_next gs) with (g_next g) in *.
  set (g1 := fst (register gs n c)) in *.
  set (g2 := publish_structure (set_wires g1 (filter (fun w => negb (wiring_has_id w n)) (g_wires g1)))) in *.
  assert (M2 : only_mirror (set_wires g1 (filter (fun w => negb (wiring_has_id w n)) (g_wires g1))) g2) by apply om_publish.
  destruct M2 as (H2 & X2 & D2 & W2 & S2 & N2 & _). change (g_heap g2 = g_heap g1) in H2. cbn in X2, D2, W2, S2, N2.
  rewrite H2 in H. rewrite Ep in H. set (g4 := set_kids _ _) in H.
  assert (S4 : g_state g4 = EDITABLE) by (unfold g4; cbn; rewrite S2; exact Hs).
  rewrite (wire_ignoring g4 _ S4) in H. cbn [fst] in H. set (g5w := set_wires g4 _) in H.
  assert (M5 : only_mirror g5w (publish_structure g5w)) by apply om_publish.
  destruct M5 as (H5 & X5 & D5 & W5 & S5 & N5 & Pb5).
  rewrite H5 in H. change (g_heap g5w) with hp in H. rewrite Eh in H. injection H as <- <-.
  assert (Pn : present g n) by (unfold present; rewrite Eo; discriminate).
  assert (Nodes4 : g_nodes g4 = nset n (g_next g) (nset n (g_next g) (g_nodes g))) by (unfold g4; cbn; rewrite D2; reflexivity).
  set (g6 := set_heap (publish_structure g5w) h').
  assert (Nodes6 : g_nodes g6 = g_nodes g4) by (unfold g6; cbn; rewrite D5; reflexivity).
  assert (Ord6 : order g6 = order g).
  { unfold order. rewrite Nodes6, Nodes4, !nset_keys. unfold nhas at 1. rewrite nget_nset, Nat.eqb_refl. unfold nhas. rewrite Eo. reflexivity. }
  destruct (renamed_HW gs n oo c h' g6 Ws Eos Rn) as (W6 & C6 & K6 & P6).
  { intros m Hm. destruct (sync_view g) as (SK & _). unfold gs. rewrite SK. auto. }
  { reflexivity. }
  { unfold g6. cbn. rewrite X5. exact X2. }
  { intros i. rewrite Nodes6, Nodes4, !nget_nset. destruct (Nat.eqb i n); reflexivity. }
  { rewrite Ord6. apply W. }
  assert (OM : only_mirror g6 (publish_structure (sync_children g6))) by (eapply om_trans; [apply om_sync|apply om_publish]).
  split; [eapply om_HW; [exact OM|exact W6]|]. left. split; auto. exists n, c. split; auto. split; auto. split; auto.
  destruct (om_same _ _ OM) as (O7 & K7 & P7 & C7 & Wi7 & N7 & S7).
  destruct (sync_view g) as (SK & SP & SC & _). fold gs in SK, SP, SC.
  split; [|rewrite O7; exact Ord6].
  apply (reconfigured_intro g _ n c (wires_of g1 n)); auto.
  + intros j. rewrite C7, C6, SC. reflexivity.
  + intros j. rewrite K7, K6. apply SK.
  + intros j. rewrite P7, P6. apply SP.
  + rewrite N7. unfold g6. cbn [g_name set_heap]. rewrite N5. unfold g5w, g4. cbn. exact N2.
  + rewrite S7. unfold g6. cbn [g_state set_heap]. rewrite S5. change (g_state g5w) with (g_state g4). rewrite S4. symmetry. exact Hs.
  + assert (Wf : g_wires g6 = (filter (fun w => negb (wiring_has_id w n)) (g_wires g) ++ filter (validate_wiring g4) (wires_of g1 n))%list).
    { unfold g6. cbn [g_wires set_heap]. rewrite W5. unfold g5w. cbn [g_wires set_wires]. f_equal. exact W2. }
    rewrite Wi7, Wf. f_equal.
    apply filter_ext. intros w. symmetry. apply validate_ext. intros i. rewrite C7, C6.
    unfold cfg at 2, obj. rewrite Nodes4, !nget_nset. change (g_heap g4) with hp.
    destruct (Nat.eqb_spec i n) as [->|Hi].
    * cbn. f_equal. symmetry. destruct (put_in_place_ids _ _ _ _ _ Ep (g_next g)) as [_ ->]. unfold g1, register. cbn. unfold upd. rewrite Nat.eqb_refl. reflexivity.
    * unfold cfg, obj. change (g_nodes gs) with (g_nodes g). change (g_heap gs) with (g_heap g). destruct (nget i (g_nodes g)) as [o|] eqn:E; [|reflexivity]. cbn. f_equal.
      destruct (put_in_place_ids _ _ _ _ _ Ep o) as [_ ->]. unfold g1, register. cbn. unfold upd. destruct (hw_id _ _ _ W _ _ E) as [_ L].
      destruct (Nat.eqb_spec o (g_next g)); [lia|reflexivity].
Qed.
