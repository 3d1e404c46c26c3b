(** Proofs about editing, part 7: replace_node. *)
From Coq Require Import String ZArith Bool Arith Lia Relations List.
From Verif Require Import Base ModelData ModelEdit SpecEdit ProofsEdit ProofsEditOps ProofsEditMove ProofsEditCycle ProofsEditWire ProofsEditAdd.
Import ListNotations.

(** ** Links agree whatever happens *)

Lemma transfer_HW : forall nodes next old new cs h h' r, HW nodes next h -> reg nodes h old -> reg nodes h new ->
  transfer h old new cs = (h', r) -> HW nodes next h'.
Proof.
  intros nodes next old new. induction cs as [|c cs IH]; intros h h' r W Ro Rn H; cbn [transfer] in H.
  - injection H as <- <-. exact W.
  - destruct (remove_child h old c) as [[h1 co]|e|] eqn:E1; [|injection H as <- <-; exact W|injection H as <- <-; exact W].
    destruct (remove_child_HW _ _ _ _ _ _ _ W Ro E1) as (W1 & Rc & _ & P1).
    pose proof (remove_child_ids _ _ _ _ _ E1) as S1.
    assert (R1 : forall x, reg nodes h x -> reg nodes h1 x) by (intros x; apply (same_ids_reg _ _ _ x S1)).
    destruct (Nat.eqb c (n_id (h1 new))); [eapply IH; eauto|].
    destruct (add_child h1 new co None) as [h2|e|] eqn:E2; [|injection H as <- <-; exact W1|injection H as <- <-; exact W1].
    pose proof (add_child_ids _ _ _ _ _ E2) as S2.
    assert (W2 : HW nodes next h2) by (eapply add_child_HW; [exact W1| | |exact P1|exact E2]; auto).
    eapply IH; [exact W2| | |exact H]; apply (same_ids_reg _ _ _ _ S2); auto.
Qed.

Lemma replace_HW : forall a b g g' r, HWg g -> replace_node a b g = (g', r) -> HWg g'.
Proof.
  intros a b g g' r W H. apply edit_service_cases in H. destruct H as [(_ & -> & _)|(Hs & g1 & H & ->)]; [exact W|].
  eapply om_HW; [apply om_publish|]. cbv zeta in H.
  destruct (ros_to_uuid a) as [i|]; [|injection H as <- <-; exact W].
  destruct (ros_to_uuid b) as [j|]; [|injection H as <- <-; exact W].
  destruct (nget i (g_nodes g)) as [oo|] eqn:Eo; [|injection H as <- <-; exact W].
  destruct (nget j (g_nodes g)) as [no|] eqn:En; [|injection H as <- <-; exact W].
  destruct (match f_max _ with Some m => _ | None => _ end); [injection H as <- <-; exact W|].
  destruct (transfer (g_heap g) oo no (ids_of (g_heap g) (n_children (g_heap g oo)))) as [h1 r1] eqn:Et.
  destruct (HWg_ids _ _ _ W Eo) as (Ro & _). destruct (HWg_ids _ _ _ W En) as (Rn & _).
  assert (W1 : HWg (set_heap g h1)) by (eapply transfer_HW; [exact W|exact Ro|exact Rn|exact Et]).
  destruct r1 as [[]|e|]; [|injection H as <- <-; exact W1|injection H as <- <-; exact W1].
  destruct (remove_node _ _ _) as [g2 r2] eqn:Er. pose proof (remove_node_HW _ _ _ _ _ W1 Er) as W2.
  destruct r2 as [[]|e|]; [|injection H as <- <-; exact W2|injection H as <- <-; exact W2].
  destruct (n_parent (g_heap g oo)) as [po|]; [|injection H as <- <-; exact W2].
  apply (move_node_spec _ _ _ _ _ _ W2 H).
Qed.

(** ** What a successful replacement does *)

Lemma In_ids : forall nodes h c l, reg nodes h c -> (forall d, In d l -> reg nodes h d) -> In (n_id (h c)) (ids_of h l) -> In c l.
Proof.
  intros nodes h c l Rc Rl H. unfold ids_of in H. apply in_map_iff in H. destruct H as (d & E & Hd).
  assert (d = c) by (eapply reg_eq; [apply Rl; exact Hd|exact Rc|exact E]). subst. exact Hd.
Qed.

Lemma transfer_spec : forall nodes next old new l h, HW nodes next h -> reg nodes h old -> reg nodes h new -> old <> new ->
  n_children (h old) = l -> ~ In new l ->
  (forall m, f_max (n_cfg (h new)) = Some m -> length (n_children (h new)) + length l <= m) ->
  exists h', transfer h old new (ids_of h l) = (h', Ok tt) /\ HW nodes next h' /\ same_ids h h' /\
    (forall x, n_children (h' x) = if Nat.eqb x old then [] else if Nat.eqb x new then (n_children (h new) ++ l)%list else n_children (h x)) /\
    (forall x, n_parent (h' x) = if mem x l then Some new else n_parent (h x)).
Proof.
  intros nodes next old new. induction l as [|c l IH]; intros h W Ro Rn Hne El Hnl Hm.
  - exists h. cbn [ids_of map transfer]. split; [reflexivity|]. split; [exact W|]. split; [apply same_ids_refl|]. split.
    + intros x. destruct (Nat.eqb_spec x old) as [->|]; auto. destruct (Nat.eqb_spec x new) as [->|]; auto. rewrite app_nil_r. reflexivity.
    + intros x. reflexivity.
  - assert (Ic : In c (n_children (h old))) by (rewrite El; left; auto).
    destruct (hw_child _ _ _ W _ _ Ro Ic) as [Rc Pc].
    destruct (HW_remove_total _ _ _ _ _ W Rc Pc) as [h1 E1].
    destruct (remove_child_HW _ _ _ _ _ _ _ W Ro E1) as (W1 & _ & _ & P1).
    pose proof (hw_nodup _ _ _ W _ Ro) as Nd.
    destruct (remove_child_spec _ _ _ _ _ Nd E1) as (_ & _ & S1 & C1 & Pa1).
    assert (Ncl : ~ In c l) by (rewrite El in Nd; apply NoDup_cons_iff in Nd; tauto).
    assert (Cold : n_children (h1 old) = l).
    { rewrite C1, Nat.eqb_refl, El. cbn [without filter]. rewrite Nat.eqb_refl. cbn [negb]. apply without_id. exact Ncl. }
    assert (Cnew : n_children (h1 new) = n_children (h new)).
    { rewrite C1. destruct (Nat.eqb_spec new old); [congruence|reflexivity]. }
    assert (R1 : forall x, reg nodes h x -> reg nodes h1 x) by (intros x; apply (same_ids_reg _ _ _ x S1)).
    assert (Hcn : c <> new) by (intros ->; apply Hnl; left; auto).
    destruct (add_child_total h1 new c None) as [h2 E2].
    { intros m Hmm. destruct (S1 new) as [_ Ecfg]. rewrite Ecfg in Hmm. specialize (Hm m Hmm). rewrite Cnew. cbn [length] in Hm. lia. }
    { eapply HW_notin_ids; [exact W1|auto|auto|]. rewrite P1. discriminate. }
    destruct (add_child_spec _ _ _ _ _ E2) as (_ & _ & S2 & C2 & Pa2).
    assert (W2 : HW nodes next h2) by (eapply add_child_HW; [exact W1| | |exact P1|exact E2]; auto).
    assert (R2 : forall x, reg nodes h x -> reg nodes h2 x) by (intros x Hx; apply (same_ids_reg _ _ _ x S2); auto).
    assert (S12 : same_ids h h2) by (eapply same_ids_trans; eauto).
    destruct (IH h2) as (h' & E' & W' & S' & C' & P'); auto.
    { rewrite C2. destruct (Nat.eqb_spec old new); [congruence|exact Cold]. }
    { intros X. apply Hnl. right. exact X. }
    { intros m Hmm. destruct (S12 new) as [_ Ecfg]. rewrite Ecfg in Hmm. specialize (Hm m Hmm). rewrite C2, Nat.eqb_refl, insert_length, Cnew. cbn [length] in Hm. lia. }
    exists h'. split.
    + cbn [ids_of map transfer]. rewrite E1. destruct (S1 new) as [Eid _]. rewrite Eid.
      destruct (Nat.eqb_spec (n_id (h c)) (n_id (h new))) as [E|_]; [elim Hcn; eapply reg_eq; [exact Rc|exact Rn|exact E]|].
      rewrite E2. change (map (fun o => n_id (h o)) l) with (ids_of h l). rewrite <- (same_ids_of h h2 l S12). exact E'.
    + split; [exact W'|]. split; [eapply same_ids_trans; eauto|]. split.
      * intros x. rewrite C'. destruct (Nat.eqb_spec x old); auto. destruct (Nat.eqb_spec x new) as [->|Hx].
        -- rewrite C2, Nat.eqb_refl, insert_last, Cnew, <- app_assoc. reflexivity.
        -- rewrite C2. destruct (Nat.eqb_spec x new); [congruence|]. rewrite C1. destruct (Nat.eqb_spec x old); [congruence|reflexivity].
      * intros x. rewrite P'. unfold mem. cbn [existsb]. fold (mem x l). destruct (mem x l) eqn:Em; [rewrite orb_true_r; reflexivity|].
        rewrite orb_false_r, Pa2, Pa1. destruct (Nat.eqb x c); reflexivity.
Qed.

Lemma drop_mirrored : forall g rm, HWg g -> mirrored g -> mirrored (drop_nodes g rm).
Proof.
  intros g rm W M i. destruct (drop_view g rm W) as (_ & -> & _). unfold drop_nodes. cbn [g_kids]. unfold kids_of.
  change (fun ic : nid * list nid => negb (mem (fst ic) rm)) with (fun ic : nid * list nid => outside rm (fst ic)).
  rewrite (nget_filter (outside rm)). destruct (outside rm i) eqn:Eo; [|reflexivity].
  rewrite <- M. unfold kids_of. clear M W. induction (g_kids g) as [|[k l] K IH]; [reflexivity|].
  cbn [map nget fst snd]. destruct (Nat.eqb_spec i k) as [->|]; [|exact IH].
  unfold outside in Eo. apply negb_true_iff in Eo. rewrite Eo. reflexivity.
Qed.

(** Positions in lists of children. *)
Definition swap (a b x : nid) : nid := if Nat.eqb x a then b else x.

Lemma swap_id : forall a b l, ~ In a l -> map (swap a b) l = l.
Proof.
  intros a b l H. rewrite <- (map_id l) at 2. apply map_ext_in. intros x Hx. unfold swap. destruct (Nat.eqb_spec x a); [congruence|reflexivity].
Qed.
Lemma index_app : forall a l1 l2, ~ In a l1 -> index_of a (l1 ++ a :: l2) = Some (length l1).
Proof.
  intros a. induction l1 as [|x l1 IH]; intros l2 H; cbn [app index_of length].
  - rewrite Nat.eqb_refl. reflexivity.
  - destruct (Nat.eqb_spec a x) as [->|]; [elim H; left; auto|]. rewrite IH; [reflexivity|]. intros X. apply H. right. auto.
Qed.
Lemma without_app : forall a l1 l2, without a (l1 ++ l2) = (without a l1 ++ without a l2)%list.
Proof. intros. apply filter_app. Qed.
Lemma without_self : forall a l, without a (a :: l) = without a l.
Proof. intros. cbn [without filter]. rewrite Nat.eqb_refl. reflexivity. Qed.
Lemma without_other : forall a x l, a <> x -> without a (x :: l) = x :: without a l.
Proof. intros. cbn [without filter]. apply Nat.eqb_neq in H. rewrite H. reflexivity. Qed.
Lemma placed_det : forall (x : nid) l1 l2 l', placed (Z.of_nat (length l1)) x (l1 ++ l2) l' -> l' = (l1 ++ x :: l2)%list.
Proof.
  intros x l1 l2 l' (a & b & E1 & -> & Hl & _). rewrite Nat2Z.id, app_length in Hl. specialize (Hl ltac:(lia)).
  assert (La : length a = length l1) by lia. clear Hl.
  revert a La E1. induction l1 as [|y l1 IH]; intros [|z a] La E1; try discriminate; cbn [app] in *.
  - subst. reflexivity.
  - injection E1 as <- E1. injection La as La. f_equal. apply IH; auto.
Qed.

(** Where [b] ends up when [a] is taken out of the list and [b] is put where [a] was. *)
Lemma swap_place : forall a b (l l' : list nid) i0, NoDup l -> a <> b -> index_of a l = Some i0 ->
  let i1 := match index_of b l with Some k => if Nat.ltb 0 i0 then (if Nat.ltb k i0 then i0 - 1 else i0) else i0 | None => i0 end in
  placed (Z.of_nat i1) b (without b (without a l)) l' -> l' = map (swap a b) (without b l).
Proof.
  intros a b l l' i0 Nd Hab Ei i1 Hp.
  assert (Ia : In a l) by (destruct (in_dec Nat.eq_dec a l); auto; apply index_of_None in n; congruence).
  destruct (@in_split nid a l Ia) as (l1 & l2 & ->). apply NoDup_remove in Nd. destruct Nd as [Nd Na].
  assert (N1 : ~ In a l1 /\ ~ In a l2) by (split; intros X; apply Na; apply in_or_app; auto). destruct N1 as [N1 N2].
  rewrite index_app in Ei by auto. injection Ei as <-.
  rewrite without_app, without_self, (without_id a l1), (without_id a l2) in Hp by auto. rewrite without_app in Hp.
  assert (Goal0 : map (swap a b) (without b (l1 ++ a :: l2)) = (without b l1 ++ b :: without b l2)%list).
  { rewrite without_app, without_other by auto. rewrite map_app. cbn [map]. unfold swap at 2. rewrite Nat.eqb_refl.
    rewrite !swap_id by (intros X; apply In_without in X; tauto). reflexivity. }
  rewrite Goal0. apply placed_det.
  replace (length (without b l1)) with i1; [exact Hp|]. unfold i1. clear Hp.
  destruct (in_dec Nat.eq_dec b l1) as [B1|B1].
  - destruct (@in_split nid b l1 B1) as (m1 & m2 & ->).
    assert (Nb : ~ In b m1 /\ ~ In b m2).
    { rewrite <- app_assoc in Nd. cbn [app] in Nd. apply NoDup_remove_2 in Nd. split; intros X; apply Nd; apply in_or_app; auto. right. apply in_or_app. auto. }
    rewrite <- app_assoc. cbn [app]. rewrite index_app by tauto. rewrite without_app, without_self, !without_id by tauto.
    rewrite !app_length. cbn [length].
    replace (Nat.ltb 0 (length m1 + S (length m2))) with true by (symmetry; apply Nat.ltb_lt; lia).
    replace (Nat.ltb (length m1) (length m1 + S (length m2))) with true by (symmetry; apply Nat.ltb_lt; lia).
    lia.
  - rewrite (without_id b l1) by auto. destruct (index_of b (l1 ++ a :: l2)) as [k|] eqn:Ek; [|reflexivity].
    destruct (Nat.ltb 0 (length l1)); [|reflexivity]. destruct (Nat.ltb_spec k (length l1)) as [Hk|]; [|reflexivity].
    apply index_of_Some in Ek. rewrite nth_error_app1 in Ek by auto. apply nth_error_In in Ek. contradiction.
Qed.


Lemma ids_mem : forall nodes next h c o, HW nodes next h -> reg nodes h o -> reg nodes h c ->
  mem c (n_children (h o)) = mem (n_id (h c)) (ids_of h (n_children (h o))).
Proof.
  intros nodes next h c o W Ro Rc. destruct (mem c _) eqn:E.
  - symmetry. apply mem_In in E. apply mem_In. unfold ids_of. apply (in_map (fun o => n_id (h o))). exact E.
  - symmetry. apply mem_nIn in E. apply mem_nIn. intros X. apply E. eapply In_ids; [exact Rc| |exact X]. intros d Hd. destruct (hw_child _ _ _ W _ _ Ro Hd). assumption.
Qed.

Lemma replace_spec : forall a b old new g, HWg g -> g_state g = EDITABLE -> acyclic g ->
  ros_to_uuid a = Some old -> ros_to_uuid b = Some new -> replaceable g old new -> par g old <> Some 0 ->
  exists g', replace_node a b g = (g', Ok tt) /\ replaced g g' old new.
Proof.
  intros a b old new g W Hs Ac Ea Eb (Po & Pn & Hne & B1 & B2 & Room) Hp0.
  pose proof (HW_linked _ W) as L.
  destruct (HW_present _ _ W Po) as (oo & Eoo & Roo & Ioo). destruct (HW_present _ _ W Pn) as (no & Eno & Rno & Ino).
  assert (Hon : oo <> no) by congruence.
  assert (Kold : kids g old = ids_of (g_heap g) (n_children (g_heap g oo))) by (rewrite <- Ioo; apply kids_reg; auto).
  assert (Knew : kids g new = ids_of (g_heap g) (n_children (g_heap g no))) by (rewrite <- Ino; apply kids_reg; auto).
  assert (Lold : length (kids g old) = length (n_children (g_heap g oo))) by (rewrite Kold; apply map_length).
  assert (Lnew : length (kids g new) = length (n_children (g_heap g no))) by (rewrite Knew; apply map_length).
  assert (Cnew : cfg g new = Some (n_cfg (g_heap g no))) by (rewrite <- Ino; apply cfg_reg; auto).
  destruct (transfer_spec _ _ oo no (n_children (g_heap g oo)) (g_heap g) W Roo Rno Hon eq_refl) as (h1 & Et & W1 & S1 & C1 & P1).
  { intros X. apply B1. apply t_step. unfold child_of. rewrite Kold, <- Ino. apply (in_map (fun o => n_id (g_heap g o))). exact X. }
  { intros m Hm. rewrite <- Lold, <- Lnew. eapply Room; eauto. }
  set (g1 := set_heap g h1) in *.
  assert (Wg1 : HWg g1) by exact W1.
  (* the tree after the children were handed over *)
  destruct (view_all g h1 W S1
     (fun j => if Nat.eqb j old then [] else if Nat.eqb j new then (kids g new ++ kids g old)%list else kids g j)
     (fun j => if mem j (kids g old) then Some new else par g j)) as [VK VP].
  { intros x Rx. rewrite C1. destruct (Nat.eqb_spec x oo) as [->|Hx].
    - rewrite Ioo, Nat.eqb_refl. reflexivity.
    - destruct (Nat.eqb_spec (n_id (g_heap g x)) old) as [E|_]; [elim Hx; eapply reg_eq; [exact Rx|exact Roo|congruence]|].
      destruct (Nat.eqb_spec x no) as [->|Hx2].
      + rewrite Ino, Nat.eqb_refl, Kold, Knew. apply map_app.
      + destruct (Nat.eqb_spec (n_id (g_heap g x)) new) as [E|_]; [elim Hx2; eapply reg_eq; [exact Rx|exact Rno|congruence]|].
        symmetry. apply kids_reg. exact Rx. }
  { intros j Hj. destruct (Nat.eqb_spec j old) as [->|]; auto. destruct (Nat.eqb_spec j new) as [->|]; [contradiction|]. apply kids_nil. exact Hj. }
  { intros x Rx. rewrite P1. rewrite (ids_mem _ _ _ _ _ W Roo Rx), <- Kold. destruct (mem (n_id (g_heap g x)) (kids g old)); [cbn; rewrite Ino; reflexivity|].
    symmetry. apply par_reg. exact Rx. }
  { intros j Hj. rewrite par_none by auto. destruct (mem j (kids g old)) eqn:Em; auto. apply mem_In in Em. elim Hj. apply (li_child _ L _ _ Em). }
  fold g1 in VK, VP.
  assert (VC : forall j, cfg g1 j = cfg g j) by (apply cfg_set_heap; exact S1).
  (* removing old *)
  set (g1s := sync_children g1).
  assert (Wg1s : HWg g1s) by (eapply om_HW; [apply om_sync|exact Wg1]).
  destruct (sync_view g1) as (SK & SP & SC & SO & SPr). fold g1s in SK, SP, SC, SO, SPr.
  assert (Pold1 : present g1s old) by (apply SPr; exact Po).
  assert (Rm : forall x, In x (to_remove g1s old true) <-> x = old).
  { intros x. rewrite (to_remove_all g1s old Wg1s (mirrored_sync g1) Pold1 x). split; [|auto]. intros [X|X]; auto. exfalso.
    apply clos_trans_t1n in X. assert (exists y, child_of g1s old y) as (y & Hy) by (inversion X; eauto).
    unfold child_of in Hy. rewrite SK, VK, Nat.eqb_refl in Hy. destruct Hy. }
  set (rm := to_remove g1s old true) in *.
  assert (Out : forall j, outside rm j = negb (Nat.eqb j old)).
  { intros j. unfold outside. f_equal. destruct (mem j rm) eqn:Em.
    - apply mem_In, Rm in Em. subst. rewrite Nat.eqb_refl. reflexivity.
    - apply mem_nIn in Em. symmetry. apply Nat.eqb_neq. intros E. apply Em, Rm. exact E. }
  assert (FO : forall l, filter (outside rm) l = without old l).
  { intros l. unfold without. apply filter_ext. intros x. rewrite Out, Nat.eqb_sym. reflexivity. }
  assert (Er : remove_node (uuid_to_ros (n_id (h1 oo))) true g1 = (publish_structure (drop_nodes g1s rm), Ok tt)).
  { destruct (S1 oo) as [-> _]. rewrite Ioo. unfold remove_node, edit_service. change (g_state g1) with (g_state g). rewrite Hs.
    cbn [tstate_eqb negb uuid_to_ros ros_to_uuid]. unfold nhas. change (g_nodes g1) with (g_nodes g). rewrite Eoo. reflexivity. }
  set (g2 := publish_structure (drop_nodes g1s rm)) in *.
  assert (M2 : only_mirror (drop_nodes g1s rm) g2) by apply om_publish.
  assert (W2 : HWg g2) by (eapply om_HW; [exact M2|apply drop_HW; exact Wg1s]).
  assert (Mir2 : mirrored g2).
  { unfold g2, publish_structure. destruct (g_pub _); [apply mirrored_find_root|]. apply drop_mirrored; [exact Wg1s|apply mirrored_sync]. }
  destruct (drop_view g1s rm Wg1s) as (DO & DK & DP & DC). pose proof (om_same _ _ M2) as (O2 & K2 & P2 & C2 & Wi2 & N2 & St2).
  assert (OO : order g2 = without old (order g)) by (rewrite O2, DO, FO, SO; reflexivity).
  assert (KK : forall j, kids g2 j = if Nat.eqb j old then [] else if Nat.eqb j new then (kids g new ++ kids g old)%list else without old (kids g j)).
  { intros j. rewrite K2, DK, Out, FO, SK, VK. destruct (Nat.eqb_spec j old); cbn [negb]; auto. destruct (Nat.eqb_spec j new) as [->|]; auto.
    apply without_id. intros X. apply in_app_or in X. destruct X as [X|X]; [apply B2|apply (Ac old)]; apply t_step; exact X. }
  assert (PP : forall j, par g2 j = if Nat.eqb j old then None else match par g j with Some q => Some (swap old new q) | None => None end).
  { intros j. rewrite P2, DP, Out, SP, VP. destruct (Nat.eqb_spec j old) as [->|Hj]; cbn [negb]; auto.
    destruct (mem j (kids g old)) eqn:Em.
    - apply mem_In in Em. destruct (li_child _ L _ _ Em) as [_ ->]. unfold swap. rewrite Nat.eqb_refl, Out.
      destruct (Nat.eqb_spec new old); [congruence|reflexivity].
    - destruct (par g j) as [q|] eqn:Eq; auto. rewrite Out. unfold swap. destruct (Nat.eqb_spec q old) as [->|]; auto.
      apply mem_nIn in Em. elim Em. apply (li_parent _ L _ _ Eq). }
  assert (CC : forall j, cfg g2 j = if Nat.eqb j old then None else cfg g j).
  { intros j. rewrite C2, DC, Out, SC, VC. destruct (Nat.eqb j old); reflexivity. }
  assert (WW : g_wires g2 = filter (fun w => negb (wiring_has_id w old)) (g_wires g)).
  { rewrite Wi2, drop_wires. apply filter_ext. intros w. f_equal. unfold touches. destruct (wiring_has_id w old) eqn:Ew.
    - apply existsb_exists. exists old. split; auto. apply Rm. reflexivity.
    - destruct (existsb (wiring_has_id w) rm) eqn:X; auto. apply existsb_exists in X. destruct X as (x & Hx & E). apply Rm in Hx. congruence. }
  assert (NN : g_name g2 = g_name g) by (rewrite N2; reflexivity).
  assert (SS : g_state g2 = g_state g) by (rewrite St2; reflexivity).
  assert (Start : replace_node a b g = (publish_structure (fst (match n_parent (g_heap g oo) with
       | None => (g2, Ok tt)
       | Some po => move_node (uuid_to_ros (n_id (h1 no))) (uuid_to_ros (n_id (h1 po)))
           (Z.of_nat (let i0 := match child_index (g_heap g) po (n_id (g_heap g oo)) with Some k => k | None => 0 end in
                      match n_parent (g_heap g no) with
                      | Some np => if Nat.eqb (n_id (g_heap g np)) (n_id (g_heap g po)) && Nat.ltb 0 i0
                            then match child_index (g_heap g) np (n_id (g_heap g no)) with
                                 | Some k => if Nat.ltb k i0 then i0 - 1 else i0
                                 | None => i0 end
                            else i0
                      | None => i0 end)) g2 end)),
       snd (match n_parent (g_heap g oo) with
       | None => (g2, Ok tt)
       | Some po => move_node (uuid_to_ros (n_id (h1 no))) (uuid_to_ros (n_id (h1 po)))
           (Z.of_nat (let i0 := match child_index (g_heap g) po (n_id (g_heap g oo)) with Some k => k | None => 0 end in
                      match n_parent (g_heap g no) with
                      | Some np => if Nat.eqb (n_id (g_heap g np)) (n_id (g_heap g po)) && Nat.ltb 0 i0
                            then match child_index (g_heap g) np (n_id (g_heap g no)) with
                                 | Some k => if Nat.ltb k i0 then i0 - 1 else i0
                                 | None => i0 end
                            else i0
                      | None => i0 end)) g2 end))).
  { unfold replace_node, edit_service. rewrite Hs. cbn [tstate_eqb negb]. rewrite Ea, Eb, Eoo, Eno. cbv zeta.
    replace (match f_max (n_cfg (g_heap g no)) with Some m => Nat.ltb m (length (n_children (g_heap g oo))) | None => false end) with false.
    2:{ destruct (f_max (n_cfg (g_heap g no))) as [m|] eqn:Em; auto. symmetry. apply Nat.ltb_ge. specialize (Room _ _ Cnew Em). lia. }
    rewrite Et. fold g1. rewrite Er. fold g2. destruct (n_parent (g_heap g oo)) as [po|]; [|reflexivity].
    destruct (n_parent (g_heap g no)) as [np|]; (destruct (move_node _ _ _ g2); reflexivity). }
  rewrite Start. clear Start. set (rest := match n_parent (g_heap g oo) with Some _ => _ | None => _ end).
  assert (Final : exists g3, rest = (g3, Ok tt) /\ replaced g g3 old new).
  { assert (Epo : par g old = option_map (fun p => n_id (g_heap g p)) (n_parent (g_heap g oo))) by (rewrite <- Ioo at 1; apply par_reg; auto).
    unfold rest. destruct (n_parent (g_heap g oo)) as [po|] eqn:Eop; cbn [option_map] in Epo.
    2:{ exists g2. split; auto. unfold replaced. rewrite Epo. split; [exact OO|]. split; [exact CC|]. split.
        { rewrite KK. destruct (Nat.eqb_spec new old); [congruence|]. rewrite Nat.eqb_refl. reflexivity. }
        split.
        { intros j H1 H2. rewrite KK. apply Nat.eqb_neq in H1, H2. rewrite H1, H2. apply without_id. intros X.
          destruct (li_child _ L _ _ X) as [_ Y]. congruence. }
        split.
        { intros j. rewrite PP. destruct (Nat.eqb_spec j old); auto. destruct (Nat.eqb_spec j new) as [->|]; auto.
          destruct (par g new) as [q|] eqn:Eq; auto. unfold swap. destruct (Nat.eqb_spec q old) as [->|]; auto.
          elim B1. apply t_step. apply (li_parent _ L _ _ Eq). }
        auto. }
    set (p := n_id (g_heap g po)) in *.
    assert (Rpo : reg (g_nodes g) (g_heap g) po /\ In oo (n_children (g_heap g po))) by (eapply hw_par; eauto). destruct Rpo as [Rpo Ipo].
    assert (Hop : child_of g p old) by (unfold child_of; apply (li_parent _ L _ _ Epo)).
    assert (Hpo : p <> old) by (intros E; apply (Ac old); apply t_step; rewrite <- E at 1; exact Hop).
    assert (Hpn : p <> new) by (intros E; apply B2; apply t_step; rewrite <- E; exact Hop).
    assert (Kp : kids g p = ids_of (g_heap g) (n_children (g_heap g po))) by (apply kids_reg; auto).
    destruct (move_node (uuid_to_ros (n_id (h1 no))) (uuid_to_ros (n_id (h1 po))) _ g2) as [g3 r3] eqn:Em.
    assert (E1 : n_id (h1 no) = new) by (destruct (S1 no) as [-> _]; exact Ino).
    assert (E2 : n_id (h1 po) = p) by (destruct (S1 po) as [-> _]; reflexivity). rewrite E1, E2 in Em.
    assert (Pres2 : forall j, j <> old -> present g j -> present g2 j).
    { intros j Hj Pj. apply nget_present. change (In j (order g2)). rewrite OO. apply In_without. split; auto. apply nget_present. exact Pj. }
    assert (Pp : present g p) by (apply reg_present; auto).
    assert (Mov : movable g2 new p).
    { split; [apply Pres2; auto|]. right. split; [apply Pres2; auto|]. split.
      - intros (c & m & F1 & F2 & F3). rewrite CC in F1. rewrite KK in F3. apply Nat.eqb_neq in Hpo, Hpn. rewrite Hpo in F1. rewrite Hpo, Hpn in F3.
        pose proof (li_max _ L _ _ _ F1 F2) as F4. pose proof (length_without old (kids g p) (li_nodup _ L p) Hop). lia.
      - rewrite (descendants_spec g2 new Mir2). intros X.
        assert (Sub : forall x y, below g2 x y -> below g x y \/ ((x = new \/ below g x new) /\ below g old y)).
        { intros x y Hxy. induction Hxy as [x y Hxy|x m y _ I1 _ I2].
          - unfold child_of in Hxy. rewrite KK in Hxy. destruct (Nat.eqb_spec x old); [destruct Hxy|].
            destruct (Nat.eqb_spec x new) as [->|].
            + apply in_app_or in Hxy. destruct Hxy as [Hxy|Hxy]; [left|right; split; auto]; apply t_step; exact Hxy.
            + left. apply t_step. apply In_without in Hxy. apply Hxy.
          - destruct I1 as [I1|[I1 I1']], I2 as [I2|[I2 I2']].
            + left. eapply t_trans; eauto.
            + right. split; auto. right. destruct I2 as [->|I2]; auto. eapply t_trans; eauto.
            + right. split; auto. eapply t_trans; eauto.
            + right. split; auto. }
        destruct (Sub _ _ X) as [Y|[_ Y]].
        + apply B2. eapply below_step; [exact Y|exact Hop].
        + apply (Ac old). eapply below_step; [exact Y|exact Hop]. }
    destruct (move_node_spec _ _ _ _ _ _ W2 Em) as (_ & [(-> & _ & i & q & Ei & Eq & _ & Res)|(_ & _ & Bad)]).
    2:{ elim Bad. split; [congruence|]. exists new, p. auto. }
    cbn in Ei, Eq. injection Ei as <-. injection Eq as <-.
    destruct Res as [[E0 _]|[_ ((MO & MC & MW & MN & MS) & MK & MPl & MP)]]; [elim Hp0; rewrite Epo, E0; reflexivity|].
    exists g3. split; [reflexivity|]. unfold replaced. rewrite Epo.
    split; [congruence|]. split; [intros; rewrite MC; auto|]. split.
    { rewrite MK by auto. rewrite KK. destruct (Nat.eqb_spec new old); [congruence|]. rewrite Nat.eqb_refl. apply without_id.
      intros X. apply in_app_or in X. destruct X as [X|X]; [apply (Ac new)|apply B1]; apply t_step; exact X. }
    split.
    { intros j H1 H2. destruct (Nat.eq_dec j p) as [->|Hjp].
      - assert (Kp2 : kids g2 p = without old (kids g p)).
        { rewrite KK. apply Nat.eqb_neq in H1, H2. rewrite H1, H2. reflexivity. }
        rewrite Kp2 in MPl.
        set (l := kids g p) in *.
        assert (Io : exists i0, index_of old l = Some i0).
        { destruct (index_of old l) eqn:X; eauto. apply index_of_None in X. contradiction. }
        destruct Io as [i0 Hi0].
        apply (swap_place old new l _ i0 (li_nodup _ L p) Hne Hi0). cbv zeta.
        replace (match index_of new l with Some k => if Nat.ltb 0 i0 then (if Nat.ltb k i0 then i0 - 1 else i0) else i0 | None => i0 end)
          with (let i0 := match child_index (g_heap g) po (n_id (g_heap g oo)) with Some k => k | None => 0 end in
                      match n_parent (g_heap g no) with
                      | Some np => if Nat.eqb (n_id (g_heap g np)) (n_id (g_heap g po)) && Nat.ltb 0 i0
                            then match child_index (g_heap g) np (n_id (g_heap g no)) with
                                 | Some k => if Nat.ltb k i0 then i0 - 1 else i0
                                 | None => i0 end
                            else i0
                      | None => i0 end); [exact MPl|].
        assert (CI : forall x, child_index (g_heap g) po x = index_of x l).
        { intros x. unfold child_index, l. unfold p at 1. rewrite kids_reg by auto. reflexivity. }
        cbv zeta. rewrite Ioo, Ino, CI, Hi0.
        destruct (n_parent (g_heap g no)) as [np|] eqn:Enp.
        + destruct (hw_par _ _ _ W _ _ Rno Enp) as [Rnp Inp].
          destruct (Nat.eqb_spec (n_id (g_heap g np)) (n_id (g_heap g po))) as [E|E]; cbn [andb].
          * assert (np = po) by (eapply reg_eq; [exact Rnp|exact Rpo|exact E]). subst np. rewrite CI. 
            destruct (index_of new l), (Nat.ltb 0 i0); reflexivity.
          * destruct (index_of new l) as [k|] eqn:Ek; [|reflexivity]. exfalso.
            assert (X : In new l) by (apply index_of_Some in Ek; eapply nth_error_In; exact Ek).
            destruct (li_child _ L _ _ X) as [_ Y]. rewrite <- Ino in Y. rewrite par_reg, Enp in Y by auto. cbn in Y. injection Y as Y. fold p in E. contradiction.
        + destruct (index_of new l) as [k|] eqn:Ek; [|reflexivity]. exfalso.
          assert (X : In new l) by (apply index_of_Some in Ek; eapply nth_error_In; exact Ek).
          destruct (li_child _ L _ _ X) as [_ Y]. rewrite <- Ino in Y. rewrite par_reg, Enp in Y by auto. discriminate.
      - rewrite MK by auto. rewrite KK. apply Nat.eqb_neq in H1, H2. rewrite H1, H2.
        assert (Nold : ~ In old (kids g j)) by (intros X; destruct (li_child _ L _ _ X) as [_ Y]; rewrite Epo in Y; congruence).
        rewrite (without_id old) by auto. symmetry. apply swap_id. intros X. apply In_without in X. tauto. }
    split.
    { intros j. rewrite MP, PP. destruct (Nat.eqb_spec j old) as [->|]; [|reflexivity]. destruct (Nat.eqb_spec old new); [congruence|reflexivity]. }
    split; [congruence|]. split; congruence. }
  destruct Final as (g3 & -> & (F1 & F2 & F3 & F4 & F5 & F6 & F7 & F8)). cbn [fst snd]. exists (publish_structure g3). split; [reflexivity|].
  pose proof (om_same _ _ (om_publish g3)) as (Q1 & Q2 & Q3 & Q4 & Q5 & Q6 & Q7).
  unfold replaced. split; [congruence|]. split; [intros; rewrite Q4; auto|]. split; [rewrite Q2; auto|].
  split; [intros; rewrite Q2; auto|]. split; [intros; rewrite Q3; auto|]. repeat split; congruence.
Qed.

(** A replacement makes no cycle. *)
Lemma replaced_acyclic : forall g g' old new, linked g -> linked g' -> replaceable g old new -> acyclic g -> replaced g g' old new -> acyclic g'.
Proof.
  intros g g' old new L L' (_ & _ & Hne & B1 & B2 & _) Ac (_ & _ & Kn & _ & P & _).
  (* every edge comes from an edge of the old tree in which old and new are merged *)
  assert (Edge : forall x y, child_of g' x y ->
     child_of g x y \/ (x = new /\ child_of g old y) \/ (y = new /\ child_of g x old)).
  { intros x y H. apply child_par in H; auto. rewrite P in H. destruct (Nat.eqb_spec y old); [discriminate|].
    destruct (Nat.eqb_spec y new) as [E|Hy]; [rewrite E in *|].
    - destruct (par g old) as [q|] eqn:Eq; [injection H as H; subst q; right; right; split; auto|left]; apply child_par; auto.
    - destruct (par g y) as [q|] eqn:Eq; [|discriminate]. injection H as H. destruct (Nat.eqb_spec q old) as [->|].
      + subst x. right. left. split; auto. apply child_par; auto.
      + subst q. left. apply child_par; auto. }
  (* paths: either old ones, or through new *)
  assert (Path : forall x y, below g' x y ->
     below g x y \/
     ((x = new \/ below g x new \/ below g x old) /\ (y = new \/ below g new y \/ below g old y) /\
      ~ (x = new /\ y = new) /\ (x = new -> y <> new))).
  2:{ intros z Hz. destruct (Path z z Hz) as [X|(X & Y & N & _)]; [exact (Ac z X)|].
      destruct X as [->|X]; [tauto|]. destruct Y as [->|Y]; [destruct X as [X|X]; [exact (Ac new X)|auto]|].
      destruct X as [X|X], Y as [Y|Y].
      - exact (Ac z (t_trans _ _ _ _ _ X Y)).
      - apply B1. eapply t_trans; eauto.
      - apply B2. eapply t_trans; eauto.
      - exact (Ac z (t_trans _ _ _ _ _ X Y)). }
  intros x y H. induction H as [x y H|x m y _ I1 _ I2].
  - destruct (Edge x y H) as [X|[[-> X]|[-> X]]]; [left; apply t_step; auto| |].
    + right. split; auto. split; [right; right; apply t_step; auto|].
      assert (y <> new) by (intros ->; apply B1, t_step; auto). tauto.
    + right. split; [right; right; apply t_step; auto|]. split; auto.
      assert (x <> new) by (intros ->; apply B2, t_step; auto). tauto.
  - destruct I1 as [I1|(X1 & Y1 & N1 & D1)], I2 as [I2|(X2 & Y2 & N2 & D2)].
    + left. eapply t_trans; eauto.
    + assert (X : below g x new \/ below g x old).
      { destruct X2 as [->|[X2|X2]]; auto; [left|right]; eapply t_trans; eauto. }
      right. split; auto. split; auto.
      assert (x <> new) by (intros ->; destruct X as [X|X]; [exact (Ac new X)|auto]). tauto.
    + assert (Y : below g new y \/ below g old y).
      { destruct Y1 as [->|[Y1|Y1]]; auto; [left|right]; eapply t_trans; eauto. }
      right. split; auto. split; auto.
      assert (y <> new) by (intros ->; destruct Y as [Y|Y]; [exact (Ac new Y)|auto]). tauto.
    + (* both go through new: the middle point is new itself *)
      assert (C : forall a b, (a = new \/ below g a new \/ below g a old) -> (b = new \/ below g new b \/ below g old b) -> a = b -> a = new).
      { intros z z' A B E. subst z'. destruct A as [->|A]; auto. destruct B as [->|B]; auto. exfalso.
        destruct A as [A|A], B as [B|B].
        - exact (Ac z (t_trans _ _ _ _ _ A B)).
        - apply B1. eapply t_trans; eauto.
        - apply B2. eapply t_trans; eauto.
        - exact (Ac z (t_trans _ _ _ _ _ A B)). }
      pose proof (C m m X2 Y1 eq_refl) as ->. 
      assert (x <> new) by (intros E; exact (D1 E eq_refl)).
      right. split; [exact X1|]. split; [exact Y2|]. tauto.
Qed.
