(** Proofs about generate_subtree. *)
From Coq Require Import String ZArith Bool Arith Lia Relations Permutation List.
From Verif Require Import Base ModelData ModelEdit ModelMsg ModelGenerate SpecEdit SpecMsg SpecGenerate ProofsEdit ProofsEditOps ProofsEditMove ProofsEditCycle ProofsEditWire ProofsEditHist ProofsEditLast ProofsMsg ProofsLoad ProofsReload.
Import ListNotations.

Lemma filter_true : forall {A} (l : list A), filter (fun _ => true) l = l.
Proof. intros A l. induction l as [|x l IH]; cbn; congruence. Qed.
Lemma filter_two : forall {A} (p q : A -> bool) l, filter q (filter p l) = filter (fun x => p x && q x) l.
Proof. intros A p q l. induction l as [|x l IH]; cbn; [reflexivity|]. destruct (p x); cbn; [destruct (q x); cbn; congruence|exact IH]. Qed.

Lemma dropped_none : forall g, dropped g g (fun _ => False).
Proof.
  intros g. exists (fun _ => true). split; [intros j; split; [discriminate|intros []]|]. split; [now rewrite filter_true|]. split; [reflexivity|].
  split; [intros j; now rewrite filter_true|]. split; [intros j; destruct (par g j); reflexivity|]. split; [|auto].
  exists (fun _ => true). split; [|now rewrite filter_true]. intros w _. split; [discriminate|intros (j & _ & [])].
Qed.
Lemma dropped_trans : forall a b c A B, dropped a b A -> dropped b c B -> dropped a c (fun x => A x \/ B x).
Proof.
  intros a b c A B (k1 & K1 & O1 & C1 & D1 & P1 & (s1 & S1 & W1) & N1 & T1) (k2 & K2 & O2 & C2 & D2 & P2 & (s2 & S2 & W2) & N2 & T2).
  exists (fun x => k1 x && k2 x). split; [intros j; rewrite andb_false_iff, K1, K2; reflexivity|].
  split; [rewrite O2, O1; apply filter_two|].
  split; [intros j; rewrite C2, C1; destruct (k1 j), (k2 j); reflexivity|].
  split; [intros j; rewrite D2, D1; destruct (k1 j), (k2 j); cbn; auto using filter_two|].
  split; [intros j; rewrite P2, P1; destruct (k1 j), (k2 j); cbn; auto; destruct (par a j) as [p|]; auto; destruct (k1 p), (k2 p); reflexivity|].
  split; [|split; congruence].
  exists (fun w => s1 w && s2 w). split; [|rewrite W2, W1; apply filter_two].
  intros w Iw. rewrite andb_false_iff. split.
  - intros H. destruct (s1 w) eqn:E1.
    + destruct H as [H|H]; [discriminate|]. assert (Ib : In w (g_wires b)) by (rewrite W1; apply filter_In; auto).
      apply (S2 w Ib) in H. destruct H as (j & M & G). eauto.
    + apply (S1 w Iw) in E1. destruct E1 as (j & M & G). eauto.
  - intros (j & M & [G|G]); [left; apply (S1 w Iw); eauto|]. destruct (s1 w) eqn:E1; [|auto]. right.
    assert (Ib : In w (g_wires b)) by (rewrite W1; apply filter_In; auto). apply (S2 w Ib). eauto.
Qed.
Lemma dropped_ext : forall a b A B, (forall x, A x <-> B x) -> dropped a b A -> dropped a b B.
Proof.
  intros a b A B E (k & K & O & C & D & P & (s & S & W) & N). exists k. split; [intros j; rewrite K; apply E|]. split; [exact O|]. split; [exact C|].
  split; [exact D|]. split; [exact P|]. split; [|exact N]. exists s. split; [|exact W]. intros w Iw. rewrite (S w Iw).
  split; intros (j & M & G); exists j; split; auto; apply E; exact G.
Qed.
Lemma dropped_present : forall a b A, dropped a b A -> forall i, present b i <-> present a i /\ ~ A i.
Proof.
  intros a b A (k & K & O & _) i. unfold present. rewrite !nget_present. change (map fst (g_nodes b)) with (order b).
  change (map fst (g_nodes a)) with (order a). rewrite O, filter_In. rewrite <- K. destruct (k i); intuition congruence.
Qed.

Lemma remove_all_spec : forall l g, HWg g -> RG g -> g_state g = EDITABLE -> NoDup l -> (forall i, In i l -> present g i) ->
  let g' := remove_all (map uuid_to_ros l) g in HWg g' /\ RG g' /\ g_state g' = EDITABLE /\ dropped g g' (fun i => In i l).
Proof.
  induction l as [|i l IH]; intros g W R Ed N Pr; cbn [map remove_all fold_left].
  - split; [exact W|]. split; [exact R|]. split; [exact Ed|]. eapply dropped_ext; [|apply dropped_none]. intros x. cbn. tauto.
  - destruct (remove_node (uuid_to_ros i) false g) as [g1 r] eqn:E. cbn [fst]. inversion N as [|? ? Ni Nl]; subst.
    pose proof (remove_node_HW _ _ _ _ _ W E) as W1. destruct (remove_keeps _ _ _ _ _ E) as [R1 [S1 _]]. specialize (R1 R).
    destruct (remove_spec _ _ _ _ _ W R Ed E) as [(_ & j & Ej & Pj & D)|(_ & _ & X)].
    + injection Ej as <-. assert (D' : dropped g g1 (fun x => x = i)) by (eapply dropped_ext; [|exact D]; intros x; split; [intros [X|[X _]]; [exact X|discriminate]|auto]).
      destruct (IH g1 W1 R1) as (A1 & A2 & A3 & A4); [congruence|exact Nl| |].
      { intros j Hj. apply (dropped_present _ _ _ D'). split; [apply Pr; right; exact Hj|]. intros ->. contradiction. }
      split; [exact A1|]. split; [exact A2|]. split; [exact A3|]. eapply dropped_ext; [|eapply dropped_trans; [exact D'|exact A4]].
      intros x. cbn. intuition.
    + elim (X i eq_refl). apply Pr. left. reflexivity.
Qed.

(** ** The nodes that are removed *)

Definition askedb (g : mgr) (req : list idtext) (n : nid) : bool :=
  existsb (fun q => idtext_eqb (uuid_to_ros n) q || existsb (idtext_eqb q) (map uuid_to_ros (kids g n))) req.
Lemma askedb_iff : forall g req n, askedb g req n = true <-> asked g req n.
Proof.
  intros g req n. unfold askedb, asked. rewrite existsb_exists. split.
  - intros (q & Iq & H). apply orb_true_iff in H. exists q. split; [exact Iq|]. destruct H as [H|H]; [left; symmetry; apply idtext_eqb_eq; exact H|right].
    apply existsb_exists in H. destruct H as (t & It & H). apply in_map_iff in It. destruct It as (c & <- & Ic). apply idtext_eqb_eq in H. eauto.
  - intros (q & Iq & H). exists q. split; [exact Iq|]. apply orb_true_iff. destruct H as [->|(c & Ic & ->)]; [left; now apply idtext_eqb_eq|right].
    apply existsb_exists. exists (uuid_to_ros c). split; [now apply in_map|now apply idtext_eqb_eq].
Qed.

Lemma to_drop_eq : forall describe g req l nodes, Forall2 (about describe g) l nodes ->
  to_drop req nodes = map uuid_to_ros (filter (fun i => negb (askedb g req i)) l).
Proof.
  intros describe g req l nodes F. unfold to_drop.
  assert (E1 : map ms_id nodes = map uuid_to_ros l) by (clear req; induction F as [|n m l nodes (A & _) F IH]; cbn; congruence).
  assert (E2 : map ms_id (filter (wanted req) nodes) = map uuid_to_ros (filter (askedb g req) l)).
  { clear E1. induction F as [|n m l nodes (A & B & _) F IH]; [reflexivity|]. cbn [filter].
    assert (X : wanted req m = askedb g req n) by (unfold wanted, askedb; now rewrite A, B). rewrite X. destruct (askedb g req n); cbn [map]; congruence. }
  rewrite E1, E2. clear F E1 E2 nodes.
  assert (H : forall k, incl k l -> filter (fun i => negb (existsb (idtext_eqb i) (map uuid_to_ros (filter (askedb g req) l)))) (map uuid_to_ros k) =
                map uuid_to_ros (filter (fun i => negb (askedb g req i)) k)).
  { induction k as [|x k IH]; intros I; [reflexivity|]. cbn [map filter].
    assert (X : existsb (idtext_eqb (uuid_to_ros x)) (map uuid_to_ros (filter (askedb g req) l)) = askedb g req x).
    { apply eq_iff_eq_true. rewrite existsb_exists. split.
      - intros (t & It & H). apply in_map_iff in It. destruct It as (c & <- & Ic). apply idtext_eqb_eq in H. injection H as ->.
        apply filter_In in Ic. apply Ic.
      - intros H. exists (uuid_to_ros x). split; [|now apply idtext_eqb_eq]. apply in_map, filter_In. split; [apply I; left; reflexivity|exact H]. }
    rewrite X. destruct (askedb g req x); cbn [negb map]; rewrite IH; auto; intros y Hy; apply I; right; exact Hy. }
  apply H. apply incl_refl.
Qed.

Lemma par_present : forall g i p, par g i = Some p -> present g i.
Proof. intros g i p H. destruct (present_dec g i) as [Y|Y]; [exact Y|]. rewrite par_none in H by exact Y. discriminate. Qed.

(** ** The answer *)

Lemma dropped_om : forall a b c A, dropped a b A -> only_mirror b c -> dropped a c A.
Proof.
  intros a b c A (k & K & O & C & D & P & S & N & T) M. destruct (om_same _ _ M) as (O' & K' & P' & C' & W' & N' & S').
  exists k. split; [exact K|]. split; [congruence|]. split; [intros j; rewrite C'; apply C|]. split; [intros j; rewrite K'; apply D|].
  split; [intros j; rewrite P'; apply P|]. split; [|split; congruence]. destruct S as (s & S & W). exists s. split; [exact S|congruence].
Qed.

Lemma mentions_present : forall g w j, good_wiring g w -> mentions w j -> present g j.
Proof. intros g w j G M. eapply good_present; eauto. Qed.

Lemma copied_part : forall g gl g' req l, linked g -> (forall w, In w (g_wires g) -> good_wiring g w) -> copied g gl ->
  (forall n, present g n <-> In n l) -> dropped gl g' (fun i => In i (filter (fun i => negb (askedb g req i)) l)) ->
  part g g' (asked g req).
Proof.
  intros g gl g' req l L Gw (C1 & C2 & C3 & C4 & C5 & C6) Pl D.
  assert (In_f : forall i, In i (filter (fun i => negb (askedb g req i)) l) <-> present g i /\ ~ asked g req i).
  { intros i. rewrite filter_In, <- Pl, <- askedb_iff. destruct (askedb g req i); cbn [negb]; split; intros [X Y]; split; auto; try discriminate; elim Y; reflexivity. }
  assert (Pr : forall i, present g' i <-> present g i /\ asked g req i).
  { intros i. rewrite (dropped_present _ _ _ D), C1, In_f. rewrite <- askedb_iff. split; intros [X Y].
    - split; [exact X|]. destruct (askedb g req i); [reflexivity|]. exfalso. apply Y. split; [exact X|discriminate].
    - split; [exact X|]. intros [_ Z]. exact (Z Y). }
  destruct D as (k & K & O & C & Kd & P & (s & S & W) & N & T).
  assert (Kk : forall i, present g i -> (k i = true <-> asked g req i)).
  { intros i Hi. pose proof (K i) as Ki. rewrite In_f in Ki. split.
    - intros E. apply askedb_iff. destruct (askedb g req i) eqn:Ea; [reflexivity|]. assert (k i = false); [|congruence]. apply Ki. split; [exact Hi|]. rewrite <- askedb_iff. congruence.
    - intros Ha. destruct (k i) eqn:E; [reflexivity|]. elim (proj2 (proj1 Ki eq_refl) Ha). }
  split; [exact Pr|]. split; [|split; [|split; [|split]]].
  - exists k. split; [exact Kk|]. intros i Hi. apply Pr in Hi. rewrite Kd, C2. destruct (k i) eqn:E; [reflexivity|].
    destruct Hi as [Hi Ha]. apply (Kk i Hi) in Ha. congruence.
  - intros i p. rewrite P, C3. destruct (par g i) as [q|] eqn:Eq.
    + assert (Pi : present g i) by (destruct (present_dec g i) as [Y|Y]; [exact Y|rewrite par_none in Eq by exact Y; discriminate]).
      assert (Pq : present g q) by (apply (li_parent _ L i q Eq)).
      pose proof (Kk i Pi) as Ki. pose proof (Kk q Pq) as Kq.
      split.
      * intros X. destruct (k i); [|discriminate]. destruct (k q); [|discriminate]. injection X as <-. split; [reflexivity|]. split; [apply Ki|apply Kq]; reflexivity.
      * intros (X & Hi & Hq). injection X as ->. rewrite (proj2 Ki Hi), (proj2 Kq Hq). reflexivity.
    + destruct (k i); split; try discriminate; intros (X & _); discriminate.
  - intros i c Hi Hc. destruct (C4 i c Hc) as (c' & E & Sh). exists c'. split; [|exact Sh]. rewrite C.
    apply Pr in Hi. destruct Hi as [Hi Ha]. apply (Kk i Hi) in Ha. rewrite Ha. exact E.
  - exists s. split; [|rewrite W, C5; reflexivity]. intros w Iw. rewrite C5 in S. pose proof (S w Iw) as X. split.
    + intros E j M. pose proof (mentions_present _ _ _ (Gw w Iw) M) as Pj. apply (Kk j Pj). destruct (k j) eqn:Kj; [reflexivity|].
      assert (s w = false); [|congruence]. apply X. exists j. split; [exact M|]. apply K. exact Kj.
    + intros H. destruct (s w) eqn:E; [reflexivity|]. destruct (proj1 X eq_refl) as (j & M & Ij). apply In_f in Ij. elim (proj2 Ij). apply H. exact M.
  - congruence.
Qed.

Section WithMessages.
Variable describe : nobj -> instance.
Variable depth : nat.

Lemma temporary_RG : RG (s_g temporary).
Proof. split; cbn; [constructor|intros i o X; discriminate|intros w []]. Qed.

Lemma generate_spec : forall shuffle n w req s0 s r, HWg (s_g s0) -> RG (s_g s0) -> g_pub (s_g s0) = true -> acyclic (s_g s0) -> only_root (s_g s0) r ->
  faithful describe -> length (order (s_g s0)) <= depth -> (forall l, Permutation (shuffle l) l) -> publish_msg describe depth s0 = (s, Ok tt) ->
  exists s' x g', generate_subtree describe depth shuffle n w req s = (s', Some x) /\ same_tree (s_g s0) (s_g s') /\
  part (s_g s0) g' (asked (s_g s0) req) /\ linked g' /\
  (forall r', only_root g' r' -> exists t l, x = Ok t /\ preorder g' r' l /\ NoDup l /\ (forall i, present g' i <-> In i l) /\
     Forall2 (about describe g') l (t_nodes t) /\ t_wires t = g_wires g' /\ t_name t = g_name g') /\
  ((forall i, ~ present g' i) -> exists t, x = Ok t /\ t_nodes t = [] /\ t_wires t = []) /\
  ((exists i, present g' i) -> (~ exists r', only_root g' r') -> exists e, x = Err e).
Proof.
  intros shuffle n w req s0 s r W R Pub A Rt Fd D Sh Pb.
  destruct (tree_message describe depth s0 W D A r Rt) as (s1 & t & l & E & Et & M1 & P & N & F & Pl & Tw & Tn & Tp & Tl).
  assert (Gw : forall w, In w (g_wires (s_g s0)) -> good_wiring (s_g s0) w) by (apply rg_wires; exact R).
  destruct (tree_message_loadable describe _ _ _ W Gw Fd N F Pl) as [Ld _]. rewrite <- Tw in Ld.
  assert (Nn : t_nodes t <> []).
  { intros X. rewrite X in F. inversion F. subst l. inversion P. }
  assert (Own : own_msg s = t /\ s_g s = s_g s1).
  { unfold publish_msg in Pb. rewrite Pub, E in Pb. injection Pb as <-. rewrite Et. auto. }
  destruct Own as [Own Es]. rewrite <- Es in M1. clear Es.
  assert (Ws : HWg (s_g s)) by (eapply om_HW; eauto).
  destruct (om_same _ _ M1) as (O1 & K1 & P1 & C1 & _).
  assert (Pr1 : forall i, present (s_g s) i <-> present (s_g s0) i).
  { intros i. unfold present. rewrite !nget_present. fold (order (s_g s)). fold (order (s_g s0)). rewrite O1. reflexivity. }
  unfold generate_subtree. rewrite Own. pose proof (om_find_root (s_g s)) as M2.
  destruct (find_root_spec (s_g s) Ws) as (_ & Z2 & _).
  destruct Rt as (R1 & R2 & R3).
  destruct (Z2 r) as (o & Eo & _); [apply Pr1; exact R1|rewrite P1; exact R2|intros j Hj; rewrite P1; intros Hp; apply R3; [apply Pr1; exact Hj|exact Hp]|].
  destruct (find_root (s_g s)) as [g2 r2]. cbn [fst snd] in *. subst r2.
  destruct (load_msg_total describe depth n w t temporary eq_refl Nn Ld) as (m & Em & Wm & Lm & _); [rewrite Tl; exact D|]. rewrite Em.
  destruct (load_msg_inv describe depth n w t temporary m eq_refl Em) as (t' & El & _).
  destruct (load_keeps _ _ _ _ _ _ El) as [Rm [Sm _]]. specialize (Rm temporary_RG). cbn [temporary s_g g_state] in Sm.
  rewrite (to_drop_eq describe (s_g s0) req l (t_nodes t) F).
  set (bad := filter (fun i => negb (askedb (s_g s0) req i)) l) in *.
  assert (Cp : copied (s_g s0) (s_g m)).
  { destruct (loaded_copied describe _ _ _ _ _ _ (HW_linked _ W) (HW_linked _ Wm) Fd F Pl Lm) as (X1 & X2 & X3 & X4 & _).
    destruct Lm as (_ & _ & X5 & X6). unfold copied. rewrite X5, X6. auto 8. }
  destruct (Permutation_map_inv uuid_to_ros bad (Sh (map uuid_to_ros bad))) as (bad' & Eb & Pb').
  rewrite Eb.
  assert (In_b : forall i, In i bad' <-> In i bad) by (intros i; split; apply Permutation_in; [apply Permutation_sym|]; exact Pb').
  destruct (remove_all_spec bad' (s_g m) Wm Rm Sm) as (Wd & Rd & Sd & Dd).
  { eapply Permutation_NoDup; [exact Pb'|]. apply NoDup_filter. exact N. }
  { intros i Hi. apply In_b in Hi. apply (proj1 Cp). apply Pl. unfold bad in Hi. apply filter_In in Hi. apply Hi. }
  set (gd := remove_all (map uuid_to_ros bad') (s_g m)) in *.
  assert (Dd' : dropped (s_g m) gd (fun i => In i bad)) by (eapply dropped_ext; [exact In_b|exact Dd]).
  pose proof (om_find_root gd) as M3. destruct (find_root_spec gd Wd) as (F1 & F2 & F3 & F4).
  destruct (find_root gd) as [g' r1] eqn:Ef. cbn [fst snd] in *.
  assert (Wg : HWg g') by (eapply om_HW; eauto).
  pose proof (dropped_om _ _ _ _ Dd' M3) as Dg.
  pose proof (copied_part (s_g s0) (s_g m) g' req l (HW_linked _ W) Gw Cp Pl Dg) as Pt.
  destruct (om_same _ _ M3) as (O3 & K3 & P3 & C3 & W3 & N3 & S3).
  assert (Pr3 : forall i, present gd i <-> present g' i).
  { intros i. unfold present. rewrite !nget_present. fold (order gd). fold (order g'). rewrite O3. reflexivity. }
  assert (Am : acyclic (s_g m)).
  { assert (Kk : forall a b, below (s_g m) a b -> below (s_g s0) a b).
    { intros a b H. induction H as [a b H|a b c _ IH1 _ IH2]; [apply t_step|apply (t_trans _ _ _ _ _ IH1 IH2)].
      unfold child_of in *. destruct Cp as (_ & <- & _). exact H. }
    intros i B. apply (A i). apply Kk. exact B. }
  pose proof (dropped_acyclic _ _ _ Dg Am) as Ag.
  assert (Lg : length (order g') <= depth).
  { destruct Dg as (k & _ & Og & _). rewrite Og. eapply Nat.le_trans; [|exact D].
    destruct (loaded_copied describe _ _ _ _ _ _ (HW_linked _ W) (HW_linked _ Wm) Fd F Pl Lm) as (_ & _ & _ & _ & ->).
    apply NoDup_incl_length; [apply NoDup_filter; exact N|]. intros x Hx. apply filter_In in Hx. apply nget_present. apply Pl. apply Hx. }
  exists (set_g s g2), (match r1 with Ok _ => snd (structure_to_msg describe depth (set_g m g')) | Err e => Err e | Raise => Raise end), g'.
  split; [destruct r1; reflexivity|].
  split; [exact (om_same _ _ (om_trans _ _ _ M1 M2))|]. split; [exact Pt|]. split; [apply HW_linked; exact Wg|].
  split; [|split].
  - intros r' Rr'. pose proof Rr' as (Q1 & Q2 & Q3).
    destruct (F2 r') as (o' & Eo' & _); [apply Pr3; exact Q1|rewrite <- P3; exact Q2|intros j Hj Hp; apply Q3; [apply Pr3; exact Hj|rewrite P3; exact Hp]|]. subst r1.
    destruct (tree_message describe depth (set_g m g') Wg Lg Ag r' Rr') as (s2 & t2 & l2 & E2 & _ & _ & P2 & N2 & Fo & Pl2 & Tw2 & Tn2 & _).
    exists t2, l2. rewrite E2. cbn [snd]. auto 8.
  - intros Em0. assert (Z : g_nodes gd = []).
    { assert (X : order gd = []) by (destruct (order gd) as [|x rest] eqn:Eor; [reflexivity|]; elim (Em0 x); apply Pr3; apply nget_present; fold (order gd); rewrite Eor; left; reflexivity).
      unfold order in X. apply map_eq_nil in X. exact X. }
    rewrite (F1 Z). destruct (structure_empty describe depth (set_g m g')) as (s2 & E2 & N2 & M4 & _); [exact Wg| |].
    { change (order g' = []). rewrite O3. unfold order. rewrite Z. reflexivity. }
    rewrite E2. cbn [snd]. exists (own_msg s2). split; [reflexivity|]. split; [exact N2|]. cbn.
    destruct (om_same _ _ M4) as (_ & _ & _ & _ & Wi4 & _). rewrite Wi4. cbn. rewrite W3.
    destruct (g_wires gd) as [|wi rest] eqn:Ew; [reflexivity|]. assert (G : good_wiring gd wi) by (apply (rg_wires _ Rd); rewrite Ew; left; reflexivity).
    destruct G as (a & b & sc & tc & so & ti & _ & _ & G & _). exfalso. apply (Em0 a). apply Pr3. unfold cfg, obj in G. unfold present.
    destruct (nget a (g_nodes gd)); discriminate.
  - intros (i & Hi) No. assert (X : exists e, r1 = Err e).
    { destruct (present_dec gd i) as [Yi|Yi]; [|elim Yi; apply Pr3; exact Hi].
      assert (Ex : exists y, present gd y /\ par gd y = None).
      { destruct (proj1 (grounded_root_iff g' i (HW_linked _ Wg)) (acyclic_grounded g' (HW_linked _ Wg) Ag i)) as (y & B & Py).
        exists y. rewrite <- P3. split; [|exact Py]. apply Pr3. destruct B as [->|B]; [exact Hi|]. destruct (below_inv _ _ _ B) as (c & Ic & _).
        destruct (present_dec g' y) as [Y|Y]; [exact Y|]. rewrite kids_nil in Ic by exact Y. contradiction. }
      destruct Ex as (y & Py & Ny).
      destruct r1 as [[o'|]|e|].
      - exfalso. apply No. exists y. split; [apply Pr3; exact Py|]. split; [rewrite P3; exact Ny|]. intros j Hj Hp. apply Pr3 in Hj. rewrite P3 in Hp.
        destruct (Nat.eq_dec j y) as [->|Dj]; [reflexivity|]. specialize (F3 j y Hj Hp Py Ny Dj). discriminate.
      - exfalso. apply No. exists y. split; [apply Pr3; exact Py|]. split; [rewrite P3; exact Ny|]. intros j Hj Hp. apply Pr3 in Hj. rewrite P3 in Hp.
        destruct (Nat.eq_dec j y) as [->|Dj]; [reflexivity|]. specialize (F3 j y Hj Hp Py Ny Dj). discriminate.
      - eauto.
      - assert (U : forall j, present gd j -> par gd j = None -> j = y).
        { intros j Hj Hp. destruct (Nat.eq_dec j y) as [->|Dj]; [reflexivity|]. specialize (F3 j y Hj Hp Py Ny Dj). discriminate. }
        destruct (F2 y Py Ny U) as (o' & Eo' & _). discriminate. }
    destruct X as [e ->]. eauto.
Qed.
End WithMessages.
