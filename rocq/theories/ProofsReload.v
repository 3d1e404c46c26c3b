(** Proofs about loading a tree from its own message, and about reloading. *)
From Coq Require Import String ZArith Bool Arith Lia Relations List.
From Verif Require Import Base ModelData ModelEdit ModelMsg SpecEdit SpecMsg ProofsEdit ProofsEditOps ProofsEditMove ProofsEditCycle ProofsEditWire ProofsEditHist ProofsEditLast ProofsMsg ProofsLoad.
Import ListNotations.

(** ** The message of a tree can be loaded *)

Lemma about_ids : forall describe g l nodes, Forall2 (about describe g) l nodes ->
  map (fun m => ros_to_uuid (ms_id m)) nodes = map Some l /\ map ros_to_uuid (flat_map ms_children nodes) = map Some (flat_map (kids g) l).
Proof.
  intros describe g l nodes F. induction F as [|n m l nodes (A & B & _) F [IH1 IH2]]; [auto|]. cbn. rewrite A, B, IH1. split; [reflexivity|].
  rewrite !map_app, IH2. f_equal. rewrite map_map. reflexivity.
Qed.
Lemma NoDup_map_Some : forall {A} (l : list A), NoDup l -> NoDup (map Some l).
Proof.
  intros A l H. induction H as [|x l N H IH]; cbn; constructor; auto. intros X. apply in_map_iff in X. destruct X as (y & E & I). injection E as ->. contradiction.
Qed.
Lemma kids_NoDup : forall g l, linked g -> NoDup l -> NoDup (flat_map (kids g) l).
Proof.
  intros g l L H. induction H as [|x l N H IH]; cbn; [constructor|]. apply NoDup_app_intro; auto; [apply (li_nodup g L)|].
  intros c Hc X. apply in_flat_map in X. destruct X as (y & Iy & Ic). apply N. replace x with y; [exact Iy|].
  destruct (li_child _ L _ _ Hc) as [_ P1]. destruct (li_child _ L _ _ Ic) as [_ P2]. congruence.
Qed.
Lemma same_ports_get : forall a b k c, same_ports a b -> dget k b = Some c -> exists c', dget k a = Some c' /\ runtime_type c' = runtime_type c.
Proof. intros a b k c S E. specialize (S k). rewrite E in S. destruct (dget k a) as [c'|]; [|discriminate]. injection S as S. eauto. Qed.

Lemma about_cfg : forall describe g n m, faithful describe -> about describe g n m ->
  exists c c', cfg g n = Some c /\ ms_inst m = Ok c' /\ same_shape c' c.
Proof.
  intros describe g n m Fd (_ & _ & x & Ex & Em). destruct (Fd x) as (c' & Ec & S). exists (n_cfg x), c'. unfold cfg. rewrite Ex, Em. auto.
Qed.

Lemma tree_loadable : forall describe g l nodes ws, linked g -> faithful describe -> NoDup l -> Forall2 (about describe g) l nodes ->
  (forall n c, In n l -> In c (kids g n) -> In c l) -> (forall w, In w ws -> good_wiring g w /\ within l w) -> loadable nodes ws.
Proof.
  intros describe g l nodes ws L Fd Nl F Cl Hw. destruct (about_ids _ _ _ _ F) as [I1 I2].
  assert (Nd : forall n, In n l -> exists m c c', In m nodes /\ about describe g n m /\ cfg g n = Some c /\ ms_inst m = Ok c' /\ same_shape c' c).
  { intros n Hn. destruct (Forall2_In_l _ _ _ F _ Hn) as (m & Im & A). destruct (about_cfg _ _ _ _ Fd A) as (c & c' & X). exists m, c, c'. auto. }
  assert (No : forall n c, In n l -> cfg g n = Some c -> exists c', node_of nodes n c' /\ same_shape c' c).
  { intros n c Hn Hc. destruct (Nd n Hn) as (m & c0 & c' & Im & (A & _) & Ec & Ei & S). assert (c0 = c) by congruence. subst. exists c'. split; [|exact S].
    exists m. rewrite A. auto. }
  split; [|split; [|split]].
  - split; [rewrite I1; apply NoDup_map_Some; exact Nl|]. rewrite I2. apply NoDup_map_Some, kids_NoDup; auto.
  - intros m Hm. destruct (Forall2_In_r _ _ _ F _ Hm) as (n & Hn & A). destruct (about_cfg _ _ _ _ Fd A) as (c & c' & Ec & Ei & S).
    destruct A as (A1 & A2 & _). exists n, c'. rewrite A1. split; [reflexivity|]. split; [exact Ei|]. destruct S as [S _]. rewrite S, A2, map_length.
    destruct (f_max c) as [k|] eqn:Ek; [|exact I]. exact (li_max _ L n c k Ec Ek).
  - intros m t Hm Ht. destruct (Forall2_In_r _ _ _ F _ Hm) as (n & Hn & (A1 & A2 & _)). rewrite A2 in Ht. apply in_map_iff in Ht. destruct Ht as (c & <- & Hc).
    assert (Il : In c l) by (eapply Cl; eauto). destruct (Nd c Il) as (m' & cc & cc' & Im' & (B1 & _) & _ & Ei & _).
    exists c, cc'. split; [reflexivity|]. exists m'. rewrite B1. auto.
  - intros w Iw. destruct (Hw w Iw) as [(s & t & sc & tc & so & ti & A1 & A2 & A3 & A4 & A5 & A6 & A7) (s' & t' & B1 & B2 & Is & It)].
    assert (s' = s) by congruence. assert (t' = t) by congruence. subst s' t'.
    destruct (No s sc Is A3) as (sc' & Ns & (_ & _ & So)). destruct (No t tc It A4) as (tc' & Nt & (_ & Si & _)).
    destruct (same_ports_get _ _ _ _ So A5) as (so' & Eso & Rso). destruct (same_ports_get _ _ _ _ Si A6) as (ti' & Eti & Rti).
    exists s, t, sc', tc', so', ti'. rewrite Rso, Rti. repeat (split; auto).
Qed.

Lemma loaded_copied : forall describe g g' l nodes ws name, linked g -> linked g' -> faithful describe -> Forall2 (about describe g) l nodes ->
  (forall n, present g n <-> In n l) -> loaded g' nodes ws name ->
  (forall i, present g' i <-> present g i) /\ (forall i, kids g' i = kids g i) /\ (forall i, par g' i = par g i) /\
  (forall i c, cfg g i = Some c -> exists c', cfg g' i = Some c' /\ same_shape c' c) /\ order g' = l.
Proof.
  intros describe g g' l nodes ws name L L' Fd F Pl (O & D & _ & _). destruct (about_ids _ _ _ _ F) as [I1 _]. rewrite I1 in O.
  assert (Or : order g' = l).
  { clear -O. revert l O. induction (order g') as [|x r IH]; intros [|y l] E; try discriminate; [reflexivity|]. cbn in E. injection E as -> E. f_equal. auto. }
  assert (Pr : forall i, present g' i <-> present g i).
  { intros i. rewrite Pl, <- Or. unfold present, order. apply nget_present. }
  assert (Kd : forall i, kids g' i = kids g i).
  { intros i. destruct (present_dec g i) as [P|P].
    - apply Pl in P. destruct (Forall2_In_l _ _ _ F _ P) as (m & Im & (A1 & A2 & _)). destruct (D m i Im) as [_ K]; [rewrite A1; reflexivity|].
      rewrite A2, map_map in K. cbn in K. clear -K. revert K. generalize (kids g i). induction (kids g' i) as [|x r IH]; intros [|y k] E; try discriminate; [reflexivity|].
      cbn in E. injection E as -> E. f_equal. auto.
    - rewrite !kids_nil; auto. rewrite Pr. exact P. }
  split; [exact Pr|]. split; [exact Kd|]. split.
  - intros i. destruct (par g i) as [p|] eqn:E.
    + apply child_par; auto. unfold child_of. rewrite Kd. apply child_par; auto.
    + destruct (par g' i) as [p|] eqn:E'; [|reflexivity]. apply child_par in E'; auto. unfold child_of in E'. rewrite Kd in E'. apply child_par in E'; auto. congruence.
  - split; [|exact Or]. intros i c Hc. assert (P : present g i) by (unfold present; unfold cfg, obj in Hc; destruct (nget i (g_nodes g)); discriminate).
    apply Pl in P. destruct (Forall2_In_l _ _ _ F _ P) as (m & Im & A). destruct (about_cfg _ _ _ _ Fd A) as (c0 & c' & Ec & Ei & S).
    assert (c0 = c) by congruence. subst. destruct (D m i Im) as [(c1 & E1 & X) _]; [rewrite (proj1 A); reflexivity|]. exists c'. split; [congruence|exact S].
Qed.

(** Every node is the root or below it. *)
Lemma all_under_root : forall g r, linked g -> acyclic g -> only_root g r -> forall n, present g n <-> (n = r \/ below g r n).
Proof.
  intros g r L A (P & Q & U) n. split.
  - intros Hn. destruct (proj1 (grounded_root_iff g n L) (acyclic_grounded g L A n)) as (y & [->|B] & Py).
    + left. apply U; auto.
    + right. replace r with y; [exact B|]. apply U; [|exact Py]. destruct (below_inv _ _ _ B) as (c & Ic & _).
      destruct (present_dec g y) as [Y|Y]; [exact Y|]. rewrite kids_nil in Ic by exact Y. contradiction.
  - intros [->|B]; [exact P|]. destruct (below_up g L _ _ B) as [k U']. cbn [up] in U'. destruct (par g n) eqn:E; [|discriminate].
    destruct (present_dec g n) as [Y|Y]; [exact Y|]. rewrite par_none in E by exact Y. discriminate.
Qed.

Lemma Forall2_len : forall {A B} (R : A -> B -> Prop) l m, Forall2 R l m -> length l = length m.
Proof. intros A B R l m F. induction F; cbn; congruence. Qed.

Section WithMessages.
Variable describe : nobj -> instance.
Variable depth : nat.

(** The message that structure_to_msg returns for a tree. *)
Lemma tree_message : forall s, HWg (s_g s) -> length (order (s_g s)) <= depth -> acyclic (s_g s) -> forall r, only_root (s_g s) r ->
  exists s1 t l, structure_to_msg describe depth s = (s1, Ok t) /\ t = own_msg s1 /\ only_mirror (s_g s) (s_g s1) /\
    preorder (s_g s) r l /\ NoDup l /\ Forall2 (about describe (s_g s)) l (t_nodes t) /\ (forall n, present (s_g s) n <-> In n l) /\
    t_wires t = g_wires (s_g s) /\ t_name t = g_name (s_g s) /\ t_path t = s_path s /\ length (t_nodes t) = length (order (s_g s)).
Proof.
  intros s W D A r R. destruct (structure_spec describe depth s W) as (s1 & t & E & Et & Eg & Ep & _ & _ & C).
  { intros _ _. unfold order in D. rewrite map_length in D. exact D. }
  assert (M : only_mirror (s_g s) (s_g s1)) by (rewrite Eg; apply om_find_root).
  destruct C as [(r' & l & R' & P & N & F & _)|(X & _)]; [|elim X; exists r; exact R].
  assert (r' = r) by (destruct R as (R1 & R2 & R3), R' as (R1' & R2' & _); apply R3; auto). subst r'.
  exists s1, t, l. split; [exact E|]. split; [exact Et|]. split; [exact M|]. split; [exact P|]. split; [exact N|].
  assert (Pl : forall n, present (s_g s) n <-> In n l).
  { intros n. rewrite (all_under_root _ r (HW_linked _ W) A R). symmetry. apply preorder_In. exact P. }
  subst t. split; [exact F|]. split; [exact Pl|]. cbn. destruct (om_same _ _ M) as (_ & _ & _ & _ & Wi & Nm & _). split; [exact Wi|]. split; [exact Nm|]. split; [exact Ep|].
  rewrite <- (Forall2_len _ _ _ F). apply Nat.le_antisymm; (apply NoDup_incl_length; [|intros x Hx]).
  - exact N.
  - apply nget_present. apply Pl. exact Hx.
  - apply (li_once _ (HW_linked _ W)).
  - apply Pl. unfold present. apply nget_present. exact Hx.
Qed.

Lemma tree_message_loadable : forall g l nodes, HWg g -> (forall w, In w (g_wires g) -> good_wiring g w) -> faithful describe -> NoDup l ->
  Forall2 (about describe g) l nodes -> (forall n, present g n <-> In n l) -> loadable nodes (g_wires g) /\ loadable nodes [].
Proof.
  intros g l nodes W Hw Fd N F Pl. pose proof (HW_linked _ W) as L.
  assert (Cl : forall n c, In n l -> In c (kids g n) -> In c l) by (intros n c _ Hc; apply Pl; apply (li_child _ L _ _ Hc)).
  split; apply (tree_loadable describe g l); auto; [|intros w []].
  intros w Iw. pose proof (Hw w Iw) as G. split; [exact G|]. destruct G as (s & t & sc & tc & so & ti & A1 & A2 & A3 & A4 & _).
  exists s, t. split; [exact A1|]. split; [exact A2|]. split; apply Pl; unfold present.
  - unfold cfg, obj in A3. destruct (nget s (g_nodes g)); discriminate.
  - unfold cfg, obj in A4. destruct (nget t (g_nodes g)); discriminate.
Qed.

Lemma roundtrip : forall s s2, HWg (s_g s) -> (forall w, In w (g_wires (s_g s)) -> good_wiring (s_g s) w) ->
  length (order (s_g s)) <= depth -> acyclic (s_g s) -> forall r, only_root (s_g s) r -> faithful describe -> g_state (s_g s2) = EDITABLE ->
  exists s1 t, structure_to_msg describe depth s = (s1, Ok t) /\
  (forall n w, exists s', load_tree_msg describe depth n w (Given t) s2 = Some (s', Ok tt) /\ copied (s_g s) (s_g s') /\
     preorder (s_g s) r (order (s_g s')) /\ s_path s' = s_path s) /\
  (forall n w p f v, names_file w p f -> w_file w 0 f = FText [DTree v (Some t)] YEnd -> supported (w_version w) v ->
     exists s', load_tree_from_path describe depth (S n) w p s2 = Some (s', Ok tt) /\ copied (s_g s) (s_g s') /\
       preorder (s_g s) r (order (s_g s')) /\ s_path s' = p).
Proof.
  intros s s2 W Hw D A r R Fd H2. destruct (tree_message s W D A r R) as (s1 & t & l & E & _ & M & P & N & F & Pl & Tw & Tn & Tp & Tl).
  exists s1, t. split; [exact E|]. destruct (tree_message_loadable _ _ _ W Hw Fd N F Pl) as [Ld _]. rewrite <- Tw in Ld.
  assert (Nn : t_nodes t <> []).
  { intros X. rewrite X in F. inversion F. subst l. inversion P. }
  assert (Fin : forall g', HWg g' -> loaded g' (t_nodes t) (t_wires t) (t_name t) -> copied (s_g s) g' /\ preorder (s_g s) r (order g')).
  { intros g' W' Lo. pose proof Lo as (_ & _ & Ew & En). 
    destruct (loaded_copied describe _ _ _ _ _ _ (HW_linked _ W) (HW_linked _ W') Fd F Pl Lo) as (C1 & C2 & C3 & C4 & C5).
    rewrite C5. split; [|exact P]. unfold copied. rewrite Ew, En. auto 8. }
  split.
  - intros n w. destruct (load_msg_total describe depth n w t s2 H2 Nn Ld) as (s' & E' & W' & Lo & Ps); [rewrite Tl; exact D|].
    exists s'. split; [exact E'|]. destruct (Fin _ W' Lo) as [X Y]. split; [exact X|]. split; [exact Y|congruence].
  - intros n w p f v Nf Ef Su. destruct (from_path_total describe depth n w p f t s2 H2 Nf) as (s' & E' & W' & Lo & Ps); auto; [|rewrite Tl; exact D|].
    + exists v, YEnd, []. split; [exact Ef|]. split; [exact Su|]. auto.
    + exists s'. split; [exact E'|]. destruct (Fin _ W' Lo) as [X Y]. auto.
Qed.

(** ** reload_tree *)

Lemma load_own : forall s s0, g_state (s_g s) = EDITABLE -> clear_msg describe depth s = (s0, Ok tt) -> loadable (s_nodes s0) (g_wires (s_g s0)) ->
  exists s1, load_body describe depth own_msg s = (s1, Ok tt) /\ HWg (s_g s1) /\
    loaded (s_g s1) (s_nodes s0) (g_wires (s_g s0)) (g_name (s_g s0)) /\ s_path s1 = s_path s0.
Proof.
  intros s s0 Hs E0 L. destruct (load_body describe depth own_msg s) as [s1 r] eqn:E.
  destruct (load_body_given describe depth _ s s1 r Hs E) as (s0' & E0' & A & B). assert (s0' = s0) by congruence. subst s0'.
  cbn [own_msg t_nodes t_wires t_name t_path] in A, B.
  destruct (load_complete _ _ (g_name (s_g s0)) _ Hs L) as [g' C].
  rewrite C in A. injection A as Eg <-. exists s1. split; [reflexivity|].
  destruct (load_spec _ _ _ _ _ _ Hs (proj1 L) C) as (W & Ld). specialize (Ld eq_refl). destruct (B eq_refl) as (P & _).
  assert (M : only_mirror (publish_structure (s_g s1)) (s_g s1)).
  { pose proof (om_publish (s_g s1)) as M. unfold only_mirror in *. intuition congruence. }
  rewrite Eg in W, Ld. split; [eapply om_HW; [exact M|exact W]|]. split; [eapply loaded_om; [exact M|exact Ld]|exact P].
Qed.

Lemma loadable_nil : loadable [] [].
Proof. split; [split; constructor|]. split; [intros m []|]. split; [intros m t []|intros w []]. Qed.

Lemma reload_spec : forall n w s, HWg (s_g s) -> g_state (s_g s) = EDITABLE -> length (order (s_g s)) <= depth -> order (s_g s) <> [] ->
  exists s1, structure_to_msg describe depth s = (s1, Ok (own_msg s1)) /\ s_nodes s1 <> [] /\
  (loadable (if g_pub (s_g s) then [] else s_nodes s1) [] ->
   exists s', reload_tree describe depth n w s = Some (s', Ok tt) /\ HWg (s_g s') /\
     loaded (s_g s') (if g_pub (s_g s) then [] else s_nodes s1) [] "UNKNOWN TREE" /\ s_path s' = ""%string) /\
  ((exists r l, only_root (s_g s) r /\ preorder (s_g s) r l /\ NoDup l /\ Forall2 (about describe (s_g s)) l (s_nodes s1)) \/
   ((~ exists r, only_root (s_g s) r) /\ Forall2 (about describe (s_g s)) (order (s_g s)) (s_nodes s1))) /\
  length (s_nodes s1) <= length (order (s_g s)).
Proof.
  intros n w s W Hs D Ne. destruct (structure_spec describe depth s W) as (s1 & t & E & -> & Eg & _ & _ & _ & C).
  { intros _ _. unfold order in D. rewrite map_length in D. exact D. }
  assert (M : only_mirror (s_g s) (s_g s1)) by (rewrite Eg; apply om_find_root).
  pose proof (HW_linked _ W) as L.
  assert (C' : (exists r l, only_root (s_g s) r /\ preorder (s_g s) r l /\ NoDup l /\ Forall2 (about describe (s_g s)) l (s_nodes s1)) \/
   ((~ exists r, only_root (s_g s) r) /\ Forall2 (about describe (s_g s)) (order (s_g s)) (s_nodes s1))).
  { destruct C as [(r & l & C1 & C2 & C3 & C4 & _)|(C1 & C2 & _)]; [left; eauto 8|right; auto]. }
  assert (Nn : s_nodes s1 <> []).
  { intros X. rewrite X in C'. destruct C' as [(r & l & _ & P & _ & F)|(_ & F)]; inversion F; subst; [inversion P|congruence]. }
  assert (Len : length (s_nodes s1) <= length (order (s_g s))).
  { destruct C' as [(r & l & (R1 & _) & P & N & F)|(_ & F)]; rewrite <- (Forall2_len _ _ _ F); [|auto].
    apply NoDup_incl_length; [exact N|]. intros x Hx. apply (preorder_In _ _ _ P) in Hx. apply nget_present. destruct Hx as [->|B]; [exact R1|].
    destruct (below_up _ L _ _ B) as [k U']. cbn [up] in U'. destruct (par (s_g s) x) eqn:Ex; [|discriminate].
    destruct (present_dec (s_g s) x) as [Y|Y]; [exact Y|]. rewrite par_none in Ex by exact Y. discriminate. }
  exists s1. split; [exact E|]. split; [exact Nn|]. split; [|auto].
  intros Lo. assert (Hs1 : g_state (s_g s1) = EDITABLE) by (destruct (om_same _ _ M) as (_ & _ & _ & _ & _ & _ & ->); exact Hs).
  assert (Hp1 : g_pub (s_g s1) = g_pub (s_g s)) by (unfold only_mirror in M; tauto).
  destruct (clear_msg_eq describe depth s1 Hs1) as (s0 & E0 & Eg0 & Ep0 & _ & _ & _ & En0).
  rewrite Hp1 in En0, Eg0.
  assert (Mo : only_mirror (mkG (g_heap (s_g s1)) (g_next (s_g s1)) [] [] [] EDITABLE (Some 0) "UNKNOWN TREE" (g_pub (s_g s))) (s_g s0)) by (rewrite Eg0; apply om_publish).
  destruct (om_same _ _ Mo) as (_ & _ & _ & _ & Wi0 & Nm0 & _). cbn in Wi0, Nm0.
  destruct (load_own s1 s0 Hs1 E0) as (s2 & E2 & W2 & Ld2 & Ep2); [rewrite En0, Wi0; exact Lo|].
  rewrite En0, Wi0, Nm0 in Ld2.
  unfold reload_tree, load_tree_msg, edit_service_msg. rewrite Hs. cbn [tstate_eqb negb]. rewrite E, Hs1. cbn [tstate_eqb negb].
  assert (El : load_tree_from_file n w (own_msg s1) = Some (LOk (own_msg s1) true)).
  { unfold load_tree_from_file. assert (X : t_nodes (own_msg s1) <> []) by exact Nn.
    destruct n; cbn [load_loop]; destruct (t_nodes (own_msg s1)); reflexivity || (elim X; reflexivity). }
  rewrite El, E2. cbn [option_map].
  assert (Dn : forall g, loaded g (if g_pub (s_g s) then [] else s_nodes s1) [] "UNKNOWN TREE" -> length (order g) <= depth).
  { intros g X. rewrite (loaded_length _ _ _ _ X). destruct (g_pub (s_g s)); cbn; lia. }
  destruct (finally_ok describe depth s2 (Ok tt) W2) as (s3 & E3 & M3 & P3); [apply Dn; exact Ld2|]. rewrite E3. cbn [option_map].
  assert (W3 : HWg (s_g s3)) by (eapply om_HW; eauto).
  assert (Ld3 : loaded (s_g s3) (if g_pub (s_g s) then [] else s_nodes s1) [] "UNKNOWN TREE") by (eapply loaded_om; eauto).
  destruct (finally_ok describe depth s3 (Ok tt) W3) as (s' & E' & M' & P'); [apply Dn; exact Ld3|]. rewrite E'.
  exists s'. split; [reflexivity|]. split; [eapply om_HW; eauto|]. split; [eapply loaded_om; eauto|]. congruence.
Qed.

(** Reloading a tree without nodes. *)
Lemma load_om : forall nodes ws name g g', g_state g = EDITABLE -> only_mirror g g' -> load_tree nodes ws name g' = load_tree nodes ws name g.
Proof.
  intros nodes ws name g g' Hs M. unfold only_mirror in M. destruct M as (A1 & A2 & A3 & A4 & A5 & A6 & A7).
  unfold load_tree, edit_service. rewrite A5, Hs. cbn [tstate_eqb negb]. rewrite !clear_eq by congruence. rewrite A1, A2, A7. reflexivity.
Qed.
Lemma structure_empty : forall s, HWg (s_g s) -> order (s_g s) = [] ->
  exists s1, structure_to_msg describe depth s = (s1, Ok (own_msg s1)) /\ s_nodes s1 = [] /\ only_mirror (s_g s) (s_g s1) /\
    s_path s1 = s_path s /\ s_freq s1 = s_freq s.
Proof.
  intros s W Ne. destruct (structure_spec describe depth s W) as (s1 & t & E & -> & Eg & Ep & Ef & _ & C).
  { intros r _. unfold order in Ne. apply map_eq_nil in Ne. rewrite Ne. cbn. lia. }
  exists s1. split; [exact E|]. split.
  - destruct C as [(r & _ & (R & _) & _)|(_ & F & _)]; [apply nget_present in R; unfold order in Ne; rewrite Ne in R; contradiction|].
    unfold list_all in F. rewrite Ne in F. inversion F. reflexivity.
  - rewrite Eg. split; [apply om_find_root|auto].
Qed.

Lemma reload_empty : forall n w s s' r, HWg (s_g s) -> g_state (s_g s) = EDITABLE -> order (s_g s) = [] ->
  reload_tree describe depth n w s = Some (s', r) ->
  (r = Ok tt -> exists k t g1, yields w k (s_path s) t /\ load_tree (t_nodes t) (t_wires t) (t_name t) (s_g s) = (g1, Ok tt) /\ only_mirror g1 (s_g s') /\
     s_path s' = s_path s) /\
  ((forall k t, ~ yields w k (s_path s) t) -> is_ok r = false /\ untouched s s').
Proof.
  intros n w s s' r W Hs Ne H. unfold reload_tree in H. destruct (edit_inv _ _ _ _ _ _ H Hs) as (s2 & r2 & E & F).
  destruct (structure_empty s W Ne) as (s1 & E1 & N1 & M1 & P1 & F1). rewrite E1 in E.
  assert (Hs1 : g_state (s_g s1) = EDITABLE) by (destruct (om_same _ _ M1) as (_ & _ & _ & _ & _ & _ & ->); exact Hs).
  unfold load_tree_msg in E. destruct (edit_inv _ _ _ _ _ _ E Hs1) as (s3 & r3 & E3 & F3). clear E.
  destruct (finally_g _ _ _ _ _ _ F) as (Fg & Fp & Ff & Fr). destruct (finally_g _ _ _ _ _ _ F3) as (Gg & Gp & Gf & Gr).
  assert (M2 : only_mirror (s_g s3) (s_g s')) by (rewrite Fg, Gg; eapply om_trans; apply om_publish).
  destruct (load_tree_from_file n w (own_msg s1)) as [x|] eqn:El; [|discriminate].
  assert (Bad : r3 = Raise \/ (exists e, r3 = Err e) -> is_ok r = false).
  { intros X. destruct Fr as [-> | ->]; [|reflexivity]. destruct Gr as [-> | ->]; [|reflexivity]. destruct X as [-> | [e ->]]; reflexivity. }
  assert (Kept : s3 = s1 -> untouched s s').
  { intros ->. apply om_untouched; [eapply om_trans; [exact M1|exact M2]|congruence|congruence]. }
  destruct x as [t own| |].
  - unfold load_tree_from_file in El. cbn [own_msg t_path] in El. pose proof El as El'. apply loop_ok in El; [|reflexivity].
    destruct El as [(_ & _ & X)|(-> & _ & k & t0 & Y & ->)]; [elim X; exact N1|]. rewrite P1 in Y.
    split; [|intros X; elim (X _ _ Y)]. intros ->. destruct Fr as [<-|X]; [|discriminate]. destruct Gr as [<-|X]; [|discriminate].
    injection E3 as E3. destruct (load_given_ok describe depth _ _ _ Hs1 E3) as (A & B & _). cbn [with_path t_nodes t_wires t_name t_path] in A, B.
    exists k, t0, (publish_structure (s_g s3)). split; [exact Y|]. split; [|split].
    + rewrite <- A. symmetry. apply load_om; [exact Hs|exact M1].
    + eapply om_trans; [|exact M2]. pose proof (om_publish (s_g s3)) as X. unfold only_mirror in *. intuition congruence.
    + congruence.
  - injection E3 as <- <-. split; [|intros _; split; [apply Bad; eauto|apply Kept; reflexivity]].
    intros ->. destruct Fr as [<-|X]; [|discriminate]. destruct Gr; discriminate.
  - injection E3 as <- <-. split; [|intros _; split; [apply Bad; eauto|apply Kept; reflexivity]].
    intros ->. destruct Fr as [<-|X]; [|discriminate]. destruct Gr; discriminate.
Qed.
End WithMessages.
