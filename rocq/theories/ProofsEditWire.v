(** Proofs about editing, part 5: wirings, through every call. *)
From Coq Require Import String ZArith Bool Arith Lia Relations List Permutation.
From Verif Require Import Base ModelData ModelEdit SpecEdit ProofsEdit ProofsEditOps.
Import ListNotations.

Lemma validate_good : forall g w, validate_wiring g w = true <-> good_wiring g w.
Proof.
  intros g w. unfold validate_wiring, good_wiring, cfg, obj.
  destruct (ros_to_uuid (wi_src w)) as [s|]; [|split; [discriminate|intros (? & ? & ? & ? & ? & ? & X & _); discriminate]].
  destruct (ros_to_uuid (wi_tgt w)) as [t|]; [|split; [discriminate|intros (? & ? & ? & ? & ? & ? & _ & X & _); discriminate]].
  split.
  - destruct (nget s (g_nodes g)) as [so|] eqn:Es; [|discriminate]. destruct (nget t (g_nodes g)) as [t_o|] eqn:Et; [|discriminate].
    destruct (dget (wi_skey w) _) as [sc|] eqn:Esc; [|discriminate]. destruct (dget (wi_tkey w) _) as [tc|] eqn:Etc; [|discriminate].
    intros H. exists s, t, (n_cfg (g_heap g so)), (n_cfg (g_heap g t_o)), sc, tc. rewrite Es, Et. cbn. auto 10.
  - intros (s' & t' & sc & tc & so & ti & E1 & E2 & C1 & C2 & D1 & D2 & H). injection E1 as <-. injection E2 as <-.
    destruct (nget s (g_nodes g)) as [oo|]; [|discriminate]. destruct (nget t (g_nodes g)) as [t_o|]; [|discriminate].
    cbn in C1, C2. injection C1 as <-. injection C2 as <-. rewrite D1, D2. exact H.
Qed.

Lemma good_ext : forall g g' w, (forall i, mentions w i -> cfg g' i = cfg g i) -> good_wiring g w -> good_wiring g' w.
Proof.
  intros g g' w H (s & t & sc & tc & so & ti & E1 & E2 & C1 & C2 & R). exists s, t, sc, tc, so, ti.
  rewrite (H s), (H t) by (unfold mentions; auto). auto 10.
Qed.
Lemma good_parsed : forall g w, good_wiring g w -> exists s t, ros_to_uuid (wi_src w) = Some s /\ ros_to_uuid (wi_tgt w) = Some t /\ present g s /\ present g t.
Proof.
  intros g w (s & t & sc & tc & so & ti & E1 & E2 & C1 & C2 & R). exists s, t. split; auto. split; auto.
  unfold cfg, obj, present in *. destruct (nget s (g_nodes g)), (nget t (g_nodes g)); try discriminate. split; discriminate.
Qed.
Lemma good_has_id : forall g w i, good_wiring g w -> (wiring_has_id w i = true <-> mentions w i).
Proof.
  intros g w i H. destruct (good_parsed _ _ H) as (s & t & E1 & E2 & _). unfold wiring_has_id, mentions. rewrite E1, E2.
  rewrite orb_true_iff, !Nat.eqb_eq. split; intros [X|X]; [left|right|left|right]; congruence.
Qed.
Lemma good_present : forall g w i, good_wiring g w -> mentions w i -> present g i.
Proof.
  intros g w i H M. destruct (good_parsed _ _ H) as (s & t & E1 & E2 & P1 & P2). unfold mentions in M. rewrite E1, E2 in M.
  destruct M as [M|M]; injection M as <-; auto.
Qed.

(** The weak invariant: it survives every call, even those that tear links apart. *)
Record RG (g : mgr) : Prop := {
  rg_keys : NoDup (map fst (g_nodes g));
  rg_id : forall i o, nget i (g_nodes g) = Some o -> n_id (g_heap g o) = i /\ o < g_next g;
  rg_wires : forall w, In w (g_wires g) -> good_wiring g w }.

(** What no call changes. *)
Definition steady (g g' : mgr) : Prop := g_state g' = g_state g /\ g_pub g' = g_pub g.
Lemma steady_refl : forall g, steady g g.
Proof. split; reflexivity. Qed.
Lemma steady_trans : forall a b c, steady a b -> steady b c -> steady a c.
Proof. unfold steady. intuition congruence. Qed.
Lemma steady_om : forall a b, only_mirror a b -> steady a b.
Proof. unfold only_mirror, steady. tauto. Qed.

Definition keeps (g g' : mgr) : Prop := (RG g -> RG g') /\ steady g g'.
Lemma keeps_refl : forall g, keeps g g.
Proof. split; auto. apply steady_refl. Qed.
Lemma keeps_trans : forall a b c, keeps a b -> keeps b c -> keeps a c.
Proof. intros a b c [A A'] [B B']. split; auto. eapply steady_trans; eauto. Qed.
Lemma cfg_om : forall g g' i, only_mirror g g' -> cfg g' i = cfg g i.
Proof. intros g g' i H. apply (om_same _ _ H). Qed.
Lemma keeps_om : forall g g', only_mirror g g' -> keeps g g'.
Proof.
  intros g g' H. split; [|apply steady_om; auto]. intros [K I Wi]. pose proof H as (Eh & En & Ed & Ew & _). split.
  - rewrite Ed. exact K.
  - rewrite Ed, Eh, En. exact I.
  - rewrite Ew. intros w Hw. eapply good_ext; [|apply Wi; exact Hw]. intros. apply cfg_om. exact H.
Qed.
Lemma cfg_set_heap : forall g h', same_ids (g_heap g) h' -> forall i, cfg (set_heap g h') i = cfg g i.
Proof. intros g h' S i. unfold cfg, obj. cbn. destruct (nget i (g_nodes g)); [|reflexivity]. cbn. f_equal. apply S. Qed.
Lemma keeps_heap : forall g h', same_ids (g_heap g) h' -> keeps g (set_heap g h').
Proof.
  intros g h' S. split; [|split; reflexivity]. intros [K I Wi]. split; cbn.
  - exact K.
  - intros i o H. destruct (S o) as [-> _]. auto.
  - intros w Hw. eapply good_ext; [|apply Wi; exact Hw]. intros. apply cfg_set_heap; auto.
Qed.

(** Updates of the heap never change identifiers. *)
Lemma upd_children_ids : forall h p l, same_ids h (upd h p (set_children (h p) l)).
Proof. intros h p l o. unfold upd. eqs; subst; auto. Qed.
Lemma upd_parent_ids : forall h c q, same_ids h (upd h c (set_parent (h c) q)).
Proof. intros h p l o. unfold upd. eqs; subst; auto. Qed.
Lemma add_child_ids : forall h p c i h', add_child h p c i = Ok h' -> same_ids h h'.
Proof.
  intros h p c i h' H. apply add_child_spec in H. tauto.
Qed.
Lemma remove_child_ids : forall h p i h' c, remove_child h p i = Ok (h', c) -> same_ids h h'.
Proof.
  intros h p i h' c H. unfold remove_child in H. destruct (child_index h p i); [|discriminate].
  destruct (nth_error _ _) as [c'|]; [|discriminate]. injection H as <- <-.
  eapply same_ids_trans; [apply upd_children_ids|apply upd_parent_ids].
Qed.
Lemma transfer_ids : forall old new cs h h' r, transfer h old new cs = (h', r) -> same_ids h h'.
Proof.
  induction cs as [|c cs IH]; intros h h' r H; cbn [transfer] in H; [injection H as <- <-; apply same_ids_refl|].
  destruct (remove_child h old c) as [[h1 co]|e|] eqn:E; [|injection H as <- <-; apply same_ids_refl|injection H as <- <-; apply same_ids_refl].
  pose proof (remove_child_ids _ _ _ _ _ E) as S1. destruct (Nat.eqb c (n_id (h1 new))); [eapply same_ids_trans; eauto|].
  destruct (add_child h1 new co None) as [h2|e|] eqn:E2; [|injection H as <- <-; auto|injection H as <- <-; auto].
  pose proof (add_child_ids _ _ _ _ _ E2). eapply same_ids_trans; [|eapply IH; eauto]. eapply same_ids_trans; eauto.
Qed.
Lemma hand_over_ids : forall old new cs h h' r, hand_over h old new cs = (h', r) -> same_ids h h'.
Proof.
  induction cs as [|c cs IH]; intros h h' r H; cbn [hand_over] in H; [injection H as <- <-; apply same_ids_refl|].
  destruct (remove_child h old c) as [[h1 co]|e|] eqn:E; [|injection H as <- <-; apply same_ids_refl|injection H as <- <-; apply same_ids_refl].
  pose proof (remove_child_ids _ _ _ _ _ E) as S1.
  destruct (add_child h1 new co None) as [h2|e|] eqn:E2; [|injection H as <- <-; auto|injection H as <- <-; auto].
  pose proof (add_child_ids _ _ _ _ _ E2). eapply same_ids_trans; [|eapply IH; eauto]. eapply same_ids_trans; eauto.
Qed.
Lemma put_in_place_ids : forall h old new h' r, put_in_place h old new = (h', r) -> same_ids h h'.
Proof.
  intros h old new h' r H. unfold put_in_place in H.
  destruct (n_parent (h old)) as [p|]; [|injection H as <- <-; apply same_ids_refl].
  destruct (child_index h p (n_id (h old))) as [k|]; [|injection H as <- <-; apply same_ids_refl].
  destruct (remove_child h p (n_id (h old))) as [[h1 c]|e|] eqn:E; [|injection H as <- <-; apply same_ids_refl|injection H as <- <-; apply same_ids_refl].
  pose proof (remove_child_ids _ _ _ _ _ E) as S1.
  destruct (add_child h1 p new _) as [h2|e|] eqn:E2; [|injection H as <- <-|injection H as <- <-; auto].
  - pose proof (add_child_ids _ _ _ _ _ E2). injection H as <- <-. eapply same_ids_trans; eauto.
  - destruct (add_child h1 p old _) as [h2|e'|] eqn:E3; auto. pose proof (add_child_ids _ _ _ _ _ E3). eapply same_ids_trans; eauto.
Qed.

(** ** Services *)

Lemma keeps_service : forall {A} (f : mgr -> mgr * res A) g g' r,
  (forall g1 r1, g_state g = EDITABLE -> f g = (g1, r1) -> keeps g g1) -> edit_service f g = (g', r) -> keeps g g'.
Proof.
  intros A f g g' r H E. apply edit_service_cases in E. destruct E as [(_ & -> & _)|(Hs & g1 & E & ->)]; [apply keeps_refl|].
  eapply keeps_trans; [eapply H; eauto|]. apply keeps_om, om_publish.
Qed.

Lemma check_wirings_good : forall g ig l s, check_wirings g ig l = Some s -> forall w, In w s -> good_wiring g w /\ In w l.
Proof.
  induction l as [|x l IH]; intros s H w Hw; cbn [check_wirings] in H; [injection H as <-; destruct Hw|].
  destruct (validate_wiring g x) eqn:E.
  - destruct (check_wirings g ig l) as [s'|]; [|discriminate]. cbn in H. injection H as <-. destruct Hw as [<-|Hw].
    + split; [apply validate_good; auto|left; auto].
    + destruct (IH _ eq_refl w Hw). split; auto. right. auto.
  - destruct ig; [|discriminate]. destruct (IH _ H w Hw). split; auto. right. auto.
Qed.
Lemma keeps_wires : forall g l, (RG g -> forall w, In w l -> good_wiring g w) -> keeps g (set_wires g l).
Proof.
  intros g l H. split; [|split; reflexivity]. intros R. pose proof R as [K I Wi]. split; auto.
  cbn. intros w Hw. eapply good_ext; [|apply H; eauto]. reflexivity.
Qed.
Lemma wire_keeps : forall l ig g g' r, wire_data l ig g = (g', r) -> keeps g g'.
Proof.
  intros l ig g g' r H. eapply keeps_service; [|exact H]. intros g1 r1 _ E. cbv beta in E.
  destruct (check_wirings g ig l) as [s|] eqn:Ec; injection E as <- <-; [|apply keeps_refl].
  apply keeps_wires. intros R w Hw. apply in_app_or in Hw. destruct Hw as [Hw|Hw]; [apply (rg_wires _ R); auto|].
  eapply check_wirings_good; eauto.
Qed.
Lemma wremove_In : forall w l l' x, wremove w l = Some l' -> In x l' -> In x l.
Proof.
  induction l as [|y l IH]; intros l' x H Hx; cbn [wremove] in H; [discriminate|].
  destruct (wiring_eqb y w); [injection H as <-; right; auto|].
  destruct (wremove w l) as [l1|]; [|discriminate]. cbn in H. injection H as <-. destruct Hx as [<-|Hx]; [left; auto|right; eauto].
Qed.
Lemma wremove_all_keeps : forall l g g' r, wremove_all l g = (g', r) -> keeps g g'.
Proof.
  induction l as [|w l IH]; intros g g' r H; cbn [wremove_all] in H; [injection H as <- <-; apply keeps_refl|].
  destruct (wremove w (g_wires g)) as [l'|] eqn:E; [|injection H as <- <-; apply keeps_refl].
  eapply keeps_trans; [|eapply IH; eauto]. apply keeps_wires. intros R x Hx. apply (rg_wires _ R). eapply wremove_In; eauto.
Qed.
Lemma unwire_keeps : forall l ig g g' r, unwire_data l ig g = (g', r) -> keeps g g'.
Proof.
  intros l ig g g' r H. eapply keeps_service; [|exact H]. intros g1 r1 _ E. cbv beta in E.
  destruct (check_unwirings g ig l) as [s|]; [eapply wremove_all_keeps; eauto|injection E as <- <-; apply keeps_refl].
Qed.

Lemma drop_keeps : forall g rm, keeps g (drop_nodes g rm).
Proof.
  intros g rm. split; [|split; reflexivity]. intros [K I Wi]. split.
  - rewrite drop_nodes_eq. apply NoDup_nfilter, K.
  - intros i o. rewrite drop_nodes_eq, nget_filter. destruct (outside rm i); [|discriminate]. intros H.
    destruct (drop_ids g rm o) as [-> _]. apply I. exact H.
  - rewrite drop_wires. intros w Hw. apply filter_In in Hw. destruct Hw as [Hw Ht]. apply negb_true_iff in Ht.
    specialize (Wi w Hw). eapply good_ext; [|exact Wi]. intros i Hi.
    assert (Ho : outside rm i = true).
    { unfold outside. apply negb_true_iff, mem_nIn. intros Hr. apply (good_has_id g w i Wi) in Hi.
      unfold touches in Ht. assert (X : existsb (wiring_has_id w) rm = true) by (apply existsb_exists; eauto). congruence. }
    unfold cfg, obj. rewrite drop_nodes_eq, nget_filter, Ho. destruct (nget i (g_nodes g)) as [o|]; [|reflexivity].
    cbn. f_equal. apply drop_ids.
Qed.
Lemma remove_keeps : forall t ch g g' r, remove_node t ch g = (g', r) -> keeps g g'.
Proof.
  intros t ch g g' r H. apply remove_node_cases in H. destruct H as [(_ & _ & i & _ & _ & ->)|(M & _)]; [|apply keeps_om; auto].
  eapply keeps_trans; [apply keeps_om, om_sync|]. eapply keeps_trans; [apply drop_keeps|]. apply keeps_om, om_publish.
Qed.

Lemma register_fst : forall g n c, register g n c = (fst (register g n c), g_next g).
Proof. reflexivity. Qed.
Lemma register_cfg : forall g n c i, RG g -> cfg (fst (register g n c)) i = if Nat.eqb i n then Some c else cfg g i.
Proof.
  intros g n c i R. unfold cfg, obj, register. cbn [fst g_nodes g_heap]. rewrite nget_nset. destruct (Nat.eqb i n).
  - cbn. unfold upd. rewrite Nat.eqb_refl. reflexivity.
  - destruct (nget i (g_nodes g)) as [o|] eqn:E; [|reflexivity]. cbn. unfold upd. destruct (rg_id _ R _ _ E). eqs; [lia|reflexivity].
Qed.
Lemma register_RG : forall g n c, RG g -> (forall w, In w (g_wires g) -> ~ mentions w n) -> RG (fst (register g n c)).
Proof.
  intros g n c R H. split.
  - apply NoDup_nset, R.
  - intros i o. cbn. rewrite nget_nset. destruct (Nat.eqb_spec i n) as [->|Hne].
    + intros E. injection E as <-. unfold upd. rewrite Nat.eqb_refl. cbn. lia.
    + intros E. destruct (rg_id _ R _ _ E). unfold upd. eqs; [lia|]. split; auto.
  - intros w Hw. eapply good_ext; [|apply (rg_wires _ R w Hw)]. intros i Hi. rewrite register_cfg by auto.
    destruct (Nat.eqb_spec i n) as [->|]; auto. elim (H w Hw Hi).
Qed.
Lemma register_fresh_RG : forall g n c, RG g -> ~ present g n -> RG (fst (register g n c)).
Proof.
  intros g n c R P. apply register_RG; auto. intros w Hw Hm. apply P. eapply good_present; eauto. apply (rg_wires _ R); auto.
Qed.

Lemma instantiate_cases : forall g t x g1 r, instantiate g t x = (g1, r) ->
  (g1 = g /\ ((exists e, r = Err e) \/ r = Raise) /\ (forall c n, x = Ok c -> ros_to_uuid t = Some n -> False)) \/
  (exists c n, x = Ok c /\ ros_to_uuid t = Some n /\ r = Ok (g_next g) /\ g1 = fst (register g n c)).
Proof.
  intros g t x g1 r H. unfold instantiate in H. destruct x as [c|e|].
  - destruct (ros_to_uuid t) as [n|] eqn:E; [right|left].
    + rewrite register_fst in H. injection H as <- <-. exists c, n. auto.
    + injection H as <- <-. split; auto. split; [left; eauto|]. intros; congruence.
  - injection H as <- <-. left. split; auto. split; [left; eauto|]. intros; congruence.
  - injection H as <- <-. left. split; auto. split; [right; auto|]. intros; congruence.
Qed.

(** ** Unwiring everything of a node, as morph_node and set_options do *)

Lemma wremove_first : forall w pre suf, ~ In w pre -> wremove w (pre ++ w :: suf) = Some (pre ++ suf)%list.
Proof.
  induction pre as [|x pre IH]; intros suf H; cbn [app wremove].
  - assert (X : wiring_eqb w w = true) by (apply wiring_eqb_eq; auto). rewrite X. reflexivity.
  - destruct (wiring_eqb x w) eqn:E; [apply wiring_eqb_eq in E; subst; elim H; left; auto|].
    rewrite IH; [reflexivity|]. intros X. apply H. right. auto.
Qed.
Lemma set_wires_set : forall g a b, set_wires (set_wires g a) b = set_wires g b.
Proof. reflexivity. Qed.
Lemma wremove_all_filter : forall (p : wiring -> bool) suf pre g, (forall x, In x pre -> p x = false) -> g_wires g = (pre ++ suf)%list ->
  wremove_all (filter p suf) g = (set_wires g (pre ++ filter (fun x => negb (p x)) suf)%list, Ok tt).
Proof.
  induction suf as [|x suf IH]; intros pre g Hp E; cbn [filter wremove_all].
  - rewrite app_nil_r in *. rewrite <- E. destruct g; reflexivity.
  - destruct (p x) eqn:Ex; cbn [negb filter wremove_all].
    + rewrite E. rewrite wremove_first by (intros X; rewrite (Hp _ X) in Ex; discriminate).
      rewrite (IH pre (set_wires g (pre ++ suf))); auto.
    + rewrite (IH (pre ++ [x])%list g).
      * rewrite <- app_assoc. reflexivity.
      * intros y Hy. apply in_app_or in Hy. destruct Hy as [Hy|[<-|[]]]; auto.
      * rewrite <- app_assoc. exact E.
Qed.
Lemma check_unwirings_all : forall g ig l, incl l (g_wires g) -> check_unwirings g ig l = Some l.
Proof.
  induction l as [|w l IH]; intros H; cbn [check_unwirings]; [reflexivity|].
  assert (X : wmem w (g_wires g) = true) by (apply wmem_In, H; left; auto). rewrite X, IH; [reflexivity|].
  intros y Hy. apply H. right. auto.
Qed.
Lemma unwire_own : forall g n, g_state g = EDITABLE ->
  unwire_data (wires_of g n) false g =
    (publish_structure (set_wires g (filter (fun w => negb (wiring_has_id w n)) (g_wires g))), Ok tt).
Proof.
  intros g n Hs. unfold unwire_data, edit_service. rewrite Hs. cbn [tstate_eqb negb].
  rewrite check_unwirings_all by (intros w Hw; apply filter_In in Hw; tauto).
  unfold wires_of. rewrite (wremove_all_filter _ (g_wires g) [] g); [reflexivity|intros x []|reflexivity].
Qed.

(** Replacing the object registered for [n] and dropping its wirings. *)
Lemma reregister_keeps : forall g n c, let g1 := fst (register g n c) in
  keeps g (publish_structure (set_wires g1 (filter (fun w => negb (wiring_has_id w n)) (g_wires g1)))).
Proof.
  intros g n c g1. eapply keeps_trans; [|apply keeps_om, om_publish]. split; [|split; reflexivity]. intros R.
  set (g0 := set_wires g (filter (fun w => negb (wiring_has_id w n)) (g_wires g))).
  assert (R0 : RG g0).
  { apply (keeps_wires g (filter (fun w => negb (wiring_has_id w n)) (g_wires g))); auto.
    intros _ w Hw. apply (rg_wires _ R). apply filter_In in Hw. tauto. }
  change (RG (fst (register g0 n c))). apply register_RG; auto.
  intros w Hw. cbn in Hw. apply filter_In in Hw. destruct Hw as [Hw Hn]. apply negb_true_iff in Hn. intros Hm.
  apply (good_has_id g w n (rg_wires _ R w Hw)) in Hm. congruence.
Qed.

Lemma only_EDIT : forall g g', keeps g g' -> g_state g = EDITABLE -> g_state g' = EDITABLE.
Proof. intros g g' [_ [H _]] E. congruence. Qed.

(** Re-registering a node that is registered already only changes the order. *)
Lemma renode_keeps : forall g n no, nget n (g_nodes g) = Some no ->
  keeps g (set_nodes g (nset n no (ndel n (g_nodes g)))) /\ keeps g (set_nodes g (nset n no (g_nodes g))).
Proof.
  intros g n no E.
  assert (G1 : forall i, nget i (nset n no (ndel n (g_nodes g))) = nget i (g_nodes g)).
  { intros i. rewrite nget_nset. destruct (Nat.eqb_spec i n) as [->|Hne]; [auto|].
    unfold ndel. rewrite (nget_filter (fun k => negb (Nat.eqb n k))). destruct (Nat.eqb_spec n i); [congruence|reflexivity]. }
  assert (G2 : forall i, nget i (nset n no (g_nodes g)) = nget i (g_nodes g)).
  { intros i. rewrite nget_nset. destruct (Nat.eqb_spec i n) as [->|Hne]; auto. }
  split; (split; [|split; reflexivity]); intros [K I Wi]; (split; cbn).
  - apply NoDup_nset. apply NoDup_nfilter. exact K.
  - intros i o. rewrite G1. auto.
  - intros w Hw. eapply good_ext; [|apply Wi; exact Hw]. intros i _. unfold cfg, obj. cbn. rewrite G1. reflexivity.
  - apply NoDup_nset. exact K.
  - intros i o. rewrite G2. auto.
  - intros w Hw. eapply good_ext; [|apply Wi; exact Hw]. intros i _. unfold cfg, obj. cbn. rewrite G2. reflexivity.
Qed.
Lemma keeps_kids : forall g l, keeps g (set_kids g l).
Proof. intros. apply keeps_om. unfold only_mirror. cbn. auto 10. Qed.

Lemma publish_nodes : forall g, g_nodes (publish_structure g) = g_nodes g.
Proof. intros g. destruct (om_publish g) as (_ & _ & E & _). exact E. Qed.
Lemma register_nget : forall g n c, nget n (g_nodes (fst (register g n c))) = Some (g_next g).
Proof. intros. cbn. rewrite nget_nset, Nat.eqb_refl. reflexivity. Qed.
Lemma register_old : forall g n c o, RG g -> nget n (g_nodes g) = Some o -> n_id (g_heap (fst (register g n c)) o) = n.
Proof. intros g n c o R E. cbn. unfold upd. destruct (rg_id _ R _ _ E). eqs; [lia|auto]. Qed.

(** [keeps] under the assumption that the invariant holds at the start. *)
Lemma keeps_if : forall g g', (RG g -> keeps g g') -> steady g g' -> keeps g g'.
Proof. intros g g' H S. split; [|exact S]. intros R. apply (H R). exact R. Qed.

Lemma morph_keeps : forall t x g g' r, RG g -> morph_node t x g = (g', r) -> keeps g g'.
Proof.
  intros t x g g' r R H. eapply keeps_service; [|exact H]. clear g' r H. intros g' r Hs H. cbv beta in H.
  destruct (ros_to_uuid t) as [n|]; [|injection H as <- <-; apply keeps_refl].
  destruct (nget n (g_nodes g)) as [oo|] eqn:Eo; [|injection H as <- <-; apply keeps_refl].
  destruct (instantiate g (uuid_to_ros n) x) as [g1 r1] eqn:Ei.
  destruct (instantiate_cases _ _ _ _ _ Ei) as [(-> & [[e ->] | ->] & _)|(c & n' & -> & En & -> & ->)];
    [injection H as <- <-; apply keeps_refl|injection H as <- <-; apply keeps_refl|].
  cbn in En. injection En as <-. cbv zeta in H. rewrite (register_old g n c oo R Eo) in H.
  rewrite (unwire_own (fst (register g n c)) n Hs) in H.
  pose proof (reregister_keeps g n c) as K. cbv zeta in K.
  set (g2 := publish_structure _) in *. set (ws := wires_of _ _) in *.
  assert (E2 : g_nodes g2 = g_nodes (fst (register g n c))) by (unfold g2; rewrite publish_nodes; reflexivity).
  eapply keeps_trans; [exact K|].
  destruct (put_in_place (g_heap g2) oo (g_next g)) as [h r2] eqn:Ep.
  pose proof (put_in_place_ids _ _ _ _ _ Ep) as S.
  destruct r2 as [u|e|].
  - destruct (hand_over h oo (g_next g) (ids_of h (n_children (h oo)))) as [h' r3] eqn:Eh.
    pose proof (hand_over_ids _ _ _ _ _ _ Eh) as S'. assert (SS : same_ids (g_heap g2) h') by (eapply same_ids_trans; eauto).
    destruct r3 as [u'|e'|]; [|injection H as <- <-; apply keeps_heap; auto|injection H as <- <-; apply keeps_heap; auto].
    eapply keeps_trans; [apply keeps_heap; exact SS|].
    assert (E3 : nget n (g_nodes (set_heap g2 h')) = Some (g_next g)) by (cbn [g_nodes set_heap]; rewrite E2; apply register_nget).
    eapply keeps_trans; [exact (proj1 (renode_keeps (set_heap g2 h') n (g_next g) E3))|].
    eapply keeps_trans; [apply keeps_kids|]. eapply wire_keeps. exact H.
  - destruct e; try (injection H as <- <-; apply keeps_heap; exact S);
    (destruct (wire_data ws true (set_heap g2 h)) as [gw rw] eqn:Ew; cbn [fst] in H; injection H as <- <-;
     eapply keeps_trans; [apply keeps_heap; exact S|]; eapply wire_keeps; exact Ew).
  - injection H as <- <-. apply keeps_heap. exact S.
Qed.

Lemma options_keeps : forall t x g g' r, RG g -> set_options t x g = (g', r) -> keeps g g'.
Proof.
  intros t x g g' r R H. eapply keeps_service; [|exact H]. clear g' r H. intros g' r Hs H. cbv beta in H.
  destruct (ros_to_uuid t) as [n|]; [|injection H as <- <-; apply keeps_refl].
  destruct (nget n (g_nodes g)) as [oo|] eqn:Eo; [|injection H as <- <-; apply keeps_refl].
  destruct (instantiate (sync_children g) (uuid_to_ros n) x) as [g1 r1] eqn:Ei.
  eapply keeps_trans; [apply keeps_om, om_sync|].
  assert (Rs : RG (sync_children g)) by (apply (keeps_om _ _ (om_sync g)); auto).
  change (g_state (sync_children g) = EDITABLE) in Hs. change (nget n (g_nodes (sync_children g)) = Some oo) in Eo.
  remember (sync_children g) as gs eqn:Egs. clear g R Egs. rename gs into g. rename Rs into R.
  destruct (instantiate_cases _ _ _ _ _ Ei) as [(-> & [[e ->] | ->] & _)|(c & n' & -> & En & -> & ->)];
    [injection H as <- <-; apply keeps_refl|injection H as <- <-; apply keeps_refl|].
  cbn in En. injection En as <-. cbv zeta in H.
  rewrite (unwire_own (fst (register g n c)) n Hs) in H.
  pose proof (reregister_keeps g n c) as K. cbv zeta in K.
  set (g2 := publish_structure _) in *. set (ws := wires_of _ _) in *.
  assert (E2 : g_nodes g2 = g_nodes (fst (register g n c))) by (unfold g2; rewrite publish_nodes; reflexivity).
  eapply keeps_trans; [exact K|].
  destruct (put_in_place (g_heap g2) oo (g_next g)) as [h r2] eqn:Ep.
  pose proof (put_in_place_ids _ _ _ _ _ Ep) as S.
  destruct r2 as [u|e|].
  - set (g4 := set_kids _ _) in H. destruct (wire_data ws true g4) as [g5 r5] eqn:Ew. cbn [fst] in H.
    assert (K5 : keeps g2 g5).
    { eapply keeps_trans; [apply keeps_heap; exact S|].
      assert (E3 : nget n (g_nodes (set_heap g2 h)) = Some (g_next g)) by (cbn [g_nodes set_heap]; rewrite E2; apply register_nget).
      eapply keeps_trans; [exact (proj2 (renode_keeps (set_heap g2 h) n (g_next g) E3))|].
      eapply keeps_trans; [apply keeps_kids|]. eapply wire_keeps. exact Ew. }
    eapply keeps_trans; [exact K5|].
    destruct (hand_over (g_heap g5) oo (g_next g) _) as [h' r3] eqn:Eh.
    pose proof (hand_over_ids _ _ _ _ _ _ Eh) as S'.
    destruct r3 as [u'|e'|]; injection H as <- <-; try (apply keeps_heap; exact S').
    eapply keeps_trans; [apply keeps_heap; exact S'|apply keeps_om, om_sync].
  - destruct e; try (injection H as <- <-; apply keeps_heap; exact S);
    (destruct (wire_data ws true (set_heap g2 h)) as [gw rw] eqn:Ew; cbn [fst] in H; injection H as <- <-;
     eapply keeps_trans; [apply keeps_heap; exact S|]; eapply wire_keeps; exact Ew).
  - injection H as <- <-. apply keeps_heap. exact S.
Qed.

Lemma move_keeps : forall t p k g g' r, move_node t p k g = (g', r) -> keeps g g'.
Proof.
  intros t pt k g g' r H. eapply keeps_service; [|exact H]. clear g' r H. intros g' r _ H. cbv beta in H.
  destruct (ros_to_uuid t) as [i|]; [|injection H as <- <-; apply keeps_refl].
  destruct (ros_to_uuid pt) as [p|]; [|injection H as <- <-; apply keeps_refl].
  destruct (nget i (g_nodes g)) as [o|]; [|injection H as <- <-; apply keeps_refl].
  destruct (Nat.eqb p 0).
  - destruct (n_parent (g_heap g o)) as [po|]; [|injection H as <- <-; apply keeps_om, om_sync].
    destruct (remove_child (g_heap g) po i) as [[h c]|e|] eqn:E; injection H as <- <-; try apply keeps_refl.
    eapply keeps_trans; [apply keeps_heap; eapply remove_child_ids; exact E|apply keeps_om, om_sync].
  - destruct (nget p (g_nodes g)) as [np|]; [|injection H as <- <-; apply keeps_refl].
    destruct (match f_max _ with Some m => _ | None => _ end); [injection H as <- <-; apply keeps_refl|].
    destruct (mem _ _); [injection H as <- <-; apply keeps_refl|].
    assert (X : forall h, same_ids (g_heap g) h ->
      match add_child h np o (Some k) with
      | Ok h' => (sync_children (set_heap g h'), Ok tt)
      | Err e => (set_heap g h, Err e)
      | Raise => (set_heap g h, Raise)
      end = (g', r) -> keeps g g').
    { intros h S E. destruct (add_child h np o (Some k)) as [h'|e|] eqn:Ea; injection E as <- <-; try (apply keeps_heap; exact S).
      eapply keeps_trans; [apply keeps_heap; eapply same_ids_trans; [exact S|eapply add_child_ids; exact Ea]|apply keeps_om, om_sync]. }
    destruct (n_parent (g_heap g o)) as [po|].
    + destruct (remove_child (g_heap g) po _) as [[h c]|e|] eqn:E; [|injection H as <- <-; apply keeps_refl|injection H as <- <-; apply keeps_refl].
      apply (X h); auto. eapply remove_child_ids; exact E.
    + apply (X (g_heap g)); auto. apply same_ids_refl.
Qed.

Lemma replace_keeps : forall a b g g' r, replace_node a b g = (g', r) -> keeps g g'.
Proof.
  intros a b g g' r H. eapply keeps_service; [|exact H]. clear g' r H. intros g' r _ H. cbv beta zeta in H.
  destruct (ros_to_uuid a) as [i|]; [|injection H as <- <-; apply keeps_refl].
  destruct (ros_to_uuid b) as [j|]; [|injection H as <- <-; apply keeps_refl].
  destruct (nget i (g_nodes g)) as [oo|]; [|injection H as <- <-; apply keeps_refl].
  destruct (nget j (g_nodes g)) as [no|]; [|injection H as <- <-; apply keeps_refl].
  destruct (match f_max _ with Some m => _ | None => _ end); [injection H as <- <-; apply keeps_refl|].
  set (k := Z.of_nat _) in H. clearbody k.
  destruct (transfer (g_heap g) oo no _) as [h1 r1] eqn:Et. pose proof (transfer_ids _ _ _ _ _ _ Et) as S.
  destruct r1 as [u|e|]; [|injection H as <- <-; apply keeps_heap; exact S|injection H as <- <-; apply keeps_heap; exact S].
  eapply keeps_trans; [apply keeps_heap; exact S|].
  destruct (remove_node _ true (set_heap g h1)) as [g2 r2] eqn:Er. pose proof (remove_keeps _ _ _ _ _ Er) as K2.
  eapply keeps_trans; [exact K2|].
  destruct r2 as [u2|e|]; [|injection H as <- <-; apply keeps_refl|injection H as <- <-; apply keeps_refl].
  destruct (n_parent (g_heap g oo)) as [po|]; [|injection H as <- <-; apply keeps_refl].
  eapply move_keeps; exact H.
Qed.

Lemma add_at_keeps : forall fuel u p x k z g g' r, RG g -> ~ present g u ->
  add_node_at_index fuel u p x k z g = Some (g', r) -> keeps g g'.
Proof.
  intros fuel u pt x k z g g' r R P H. unfold add_node_at_index in H.
  destruct (negb (tstate_eqb (g_state g) EDITABLE)); [injection H as <- <-; apply keeps_refl|]. cbv zeta in H.
  destruct (instantiate g (uuid_to_ros u) x) as [g1 r1] eqn:Ei.
  assert (Pub : forall a (r0 r' : res nid), keeps g a -> Some (publish_structure a, r0) = Some (g', r') -> keeps g g').
  { intros a r0 r' K E. injection E as <- <-. eapply keeps_trans; [exact K|apply keeps_om, om_publish]. }
  destruct (instantiate_cases _ _ _ _ _ Ei) as [(-> & [[e ->] | ->] & _)|(c & n' & -> & En & -> & ->)];
    [eapply Pub; [|exact H]; apply keeps_refl|eapply Pub; [|exact H]; apply keeps_refl|].
  cbn in En. injection En as <-. cbv zeta in H.
  assert (K1 : keeps g (fst (register g u c))) by (split; [intros _; apply register_fresh_RG; auto|split; reflexivity]).
  set (g1 := fst (register g u c)) in *.
  assert (Rm : forall a, keeps g a -> keeps g (fst (remove_node (uuid_to_ros u) false a))).
  { intros a K. eapply keeps_trans; [exact K|]. eapply remove_keeps. apply surjective_pairing. }
  destruct (ros_to_uuid pt) as [p|]; [|eapply Pub; [|exact H]; exact K1].
  destruct (negb (Nat.eqb p 0) && negb (nhas p (g_nodes g1))); [eapply Pub; [|exact H]; apply Rm; exact K1|].
  destruct (if Nat.eqb p 0 then Ok (g_heap g1) else _) as [h|e|] eqn:Ea; [|eapply Pub; [|exact H]; exact K1|eapply Pub; [|exact H]; exact K1].
  assert (S : same_ids (g_heap g1) h).
  { destruct (Nat.eqb p 0); [injection Ea as <-; apply same_ids_refl|]. destruct (nget p (g_nodes g1)); [|discriminate].
    eapply add_child_ids; exact Ea. }
  assert (K2 : keeps g (set_heap g1 h)) by (eapply keeps_trans; [exact K1|apply keeps_heap; exact S]).
  set (g3 := if negb match k with [] => true | _ => false end then _ else _) in H.
  assert (K3 : keeps g g3) by (unfold g3; destruct k; cbn [negb]; auto).
  clearbody g3. destruct (find_nodes_in_cycles fuel g3) as [[|y l]|]; [| |discriminate].
  - eapply Pub; [|exact H]. eapply keeps_trans; [exact K3|apply keeps_kids].
  - eapply Pub; [|exact H]. apply Rm. eapply keeps_trans; [exact K3|]. apply keeps_heap.
    generalize (n_children (g_heap g3 (g_next g))). intros l0. set (h0 := g_heap g3) at 1 3.
    assert (X : forall l0 hh, same_ids h0 hh -> same_ids h0 (fold_left (fun h c => match remove_child h (g_next g) (n_id (g_heap g3 c)) with
                                                    | Ok (h', _) => h' | _ => h end) l0 hh)).
    { induction l1 as [|y0 l1 IH]; intros hh Sh; cbn [fold_left]; auto. apply IH.
      destruct (remove_child hh (g_next g) (n_id (g_heap g3 y0))) as [[h' c']|e|] eqn:E; auto.
      eapply same_ids_trans; [exact Sh|eapply remove_child_ids; exact E]. }
    apply X. apply same_ids_refl.
Qed.
Lemma add_keeps : forall fuel u p x k g g' r, RG g -> ~ present g u ->
  add_node fuel u p x k g = Some (g', r) -> keeps g g'.
Proof.
  intros fuel u pt x k g g' r R P H. unfold add_node in H.
  destruct (negb (tstate_eqb (g_state g) EDITABLE)); [injection H as <- <-; apply keeps_refl|].
  destruct (add_node_at_index fuel u pt x k (-1) g) as [[g1 r1]|] eqn:E; [|discriminate]. injection H as <- <-.
  eapply keeps_trans; [eapply add_at_keeps; eauto|apply keeps_om, om_publish].
Qed.

(** ** Loading *)

Lemma load_nodes_keeps : forall l g g' r, g_wires g = [] -> load_nodes l g = (g', r) -> keeps g g' /\ g_wires g' = [].
Proof.
  induction l as [|m l IH]; intros g g' r Hw H; cbn [load_nodes] in H; [injection H as <- <-; split; [apply keeps_refl|auto]|].
  destruct (instantiate g (ms_id m) (ms_inst m)) as [g1 r1] eqn:E.
  destruct (instantiate_cases _ _ _ _ _ E) as [(-> & [[e ->] | ->] & _)|(c & n & Ex & En & -> & ->)];
    [injection H as <- <-; split; [apply keeps_refl|auto]|injection H as <- <-; split; [apply keeps_refl|auto]|].
  destruct (IH (fst (register g n c)) _ _ Hw H) as [K Hw']. split; auto. eapply keeps_trans; [|exact K].
  split; [|split; reflexivity]. intros R. apply register_RG; auto. rewrite Hw. intros w [].
Qed.
Lemma load_children_keeps : forall o l g g' r, load_children o l g = (g', r) -> keeps g g' /\ g_wires g' = g_wires g.
Proof.
  induction l as [|t l IH]; intros g g' r H; cbn [load_children] in H; [injection H as <- <-; split; [apply keeps_refl|auto]|].
  destruct (ros_to_uuid t) as [c|]; [|injection H as <- <-; split; [apply keeps_refl|auto]].
  destruct (nget c (g_nodes g)) as [co|]; [|injection H as <- <-; split; [apply keeps_refl|auto]].
  destruct (add_child (g_heap g) o co None) as [h|e|] eqn:E; [|injection H as <- <-; split; [apply keeps_refl|auto]|injection H as <- <-; split; [apply keeps_refl|auto]].
  destruct (IH _ _ _ H) as [K Hw]. split; [|exact Hw]. eapply keeps_trans; [apply keeps_heap; eapply add_child_ids; exact E|exact K].
Qed.
Lemma load_links_keeps : forall l g g' r, load_links l g = (g', r) -> keeps g g' /\ g_wires g' = g_wires g.
Proof.
  induction l as [|m l IH]; intros g g' r H; cbn [load_links] in H; [injection H as <- <-; split; [apply keeps_refl|auto]|].
  destruct (ros_to_uuid (ms_id m)) as [n|]; [|injection H as <- <-; split; [apply keeps_refl|auto]].
  destruct (nget n (g_nodes g)) as [o|]; [|injection H as <- <-; split; [apply keeps_refl|auto]].
  destruct (load_children o (ms_children m) g) as [g1 r1] eqn:E. destruct (load_children_keeps _ _ _ _ _ E) as [K Hw].
  destruct r1; [|injection H as <- <-; auto|injection H as <- <-; auto].
  destruct (IH _ _ _ H) as [K' Hw']. split; [eapply keeps_trans; eauto|congruence].
Qed.
Lemma clear_eq : forall g, g_state g = EDITABLE -> clear g =
  (publish_structure (mkG (g_heap g) (g_next g) [] [] [] EDITABLE (Some 0) "UNKNOWN TREE" (g_pub g)), Ok tt).
Proof. intros g H. unfold clear, edit_service. rewrite H. reflexivity. Qed.
Lemma cleared_keeps : forall g, g_state g = EDITABLE ->
  keeps g (mkG (g_heap g) (g_next g) [] [] [] EDITABLE (Some 0) "UNKNOWN TREE" (g_pub g)).
Proof.
  intros g H. split; [|split; auto]. intros _. split; cbn; [constructor|discriminate|intros w []].
Qed.
Lemma clear_keeps : forall g g' r, clear g = (g', r) -> keeps g g'.
Proof.
  intros g g' r H. eapply keeps_service; [|exact H]. intros g1 r1 Hs E. injection E as <- <-. apply cleared_keeps. exact Hs.
Qed.
Lemma keeps_name : forall g s, keeps g (set_name g s).
Proof. intros g s. split; [|split; reflexivity]. intros [K I Wi]. split; auto. Qed.
Lemma load_keeps : forall n w s g g' r, load_tree n w s g = (g', r) -> keeps g g'.
Proof.
  intros n w s g g' r H. eapply keeps_service; [|exact H]. clear g' r H. intros g' r Hs H. cbv beta in H.
  rewrite clear_eq in H by auto.
  set (g0 := publish_structure _) in H.
  assert (K0 : keeps g g0) by (eapply keeps_trans; [apply cleared_keeps; exact Hs|apply keeps_om, om_publish]).
  assert (W0 : g_wires g0 = []) by (unfold g0; destruct (om_publish (mkG (g_heap g) (g_next g) [] [] [] EDITABLE (Some 0) "UNKNOWN TREE" (g_pub g))) as (_ & _ & _ & -> & _); reflexivity).
  clearbody g0. eapply keeps_trans; [exact K0|].
  destruct (load_nodes n g0) as [g1 r1] eqn:E1. destruct (load_nodes_keeps _ _ _ _ W0 E1) as [K1 W1].
  eapply keeps_trans; [exact K1|]. destruct r1; [|injection H as <- <-; apply keeps_refl|injection H as <- <-; apply keeps_refl].
  destruct (load_links n g1) as [g2 r2] eqn:E2. destruct (load_links_keeps _ _ _ _ E2) as [K2 W2].
  eapply keeps_trans; [exact K2|]. destruct r2; [|injection H as <- <-; apply keeps_refl|injection H as <- <-; apply keeps_refl].
  eapply keeps_trans; [apply keeps_om, om_sync|].
  cbv zeta in H. destruct (check_wirings (sync_children g2) false w) as [ws|] eqn:Ec; injection H as <- <-; [|apply keeps_refl].
  eapply keeps_trans; [|apply keeps_om, om_find_root]. eapply keeps_trans; [|apply keeps_name].
  apply keeps_wires. intros _ x Hx. eapply check_wirings_good; eauto.
Qed.

(** ** Every call, every history *)

Lemma serve_keeps : forall fuel e g g' r, RG g -> fresh g e -> serve fuel e g = Some (g', r) -> keeps g g'.
Proof.
  intros fuel e g g' r R F H. destruct e; cbn [serve] in H.
  - destruct (add_node_at_index _ _ _ _ _ _ _) as [[g1 r1]|] eqn:E; [|discriminate]. cbn in H. injection H as <- <-.
    eapply add_at_keeps; eauto. apply F.
  - destruct (add_node _ _ _ _ _ _) as [[g1 r1]|] eqn:E; [|discriminate]. cbn in H. injection H as <- <-.
    eapply add_keeps; eauto. apply F.
  - injection H as H. eapply remove_keeps; exact H.
  - injection H as H. eapply move_keeps; exact H.
  - injection H as H. eapply replace_keeps; exact H.
  - injection H as H. eapply morph_keeps; [exact R|exact H].
  - injection H as H. eapply options_keeps; [exact R|exact H].
  - injection H as H. eapply wire_keeps; exact H.
  - injection H as H. eapply unwire_keeps; exact H.
  - injection H as H. eapply keeps_service; [|exact H]. intros g1 r1 _ E. injection E as <- <-. apply keeps_name.
  - injection H as H. eapply clear_keeps; exact H.
  - injection H as H. eapply load_keeps; exact H.
Qed.

Theorem history_RG : forall P pub g, history P pub g -> RG g /\ g_state g = EDITABLE /\ g_pub g = pub.
Proof.
  intros P pub g H. induction H as [|fuel g e g' r _ (R & S & B) F E _].
  - split; [split; cbn; [constructor|discriminate|intros w []]|split; reflexivity].
  - destruct (serve_keeps _ _ _ _ _ R F E) as [K [S' B']]. split; auto. split; congruence.
Qed.

(** With a publisher the adjacency mirror is exact after every call. *)
Lemma serve_mirrored : forall fuel e g g' r, g_pub g = true -> g_state g = EDITABLE -> RG g -> fresh g e ->
  serve fuel e g = Some (g', r) -> exists g1, g' = publish_structure g1 /\ g_pub g1 = true.
Proof.
  intros fuel e g g' r B S R F H. destruct (serve_keeps _ _ _ _ _ R F H) as [_ [_ B']]. rewrite B in B'.
  assert (Svc : forall (f : mgr -> mgr * res unit), edit_service f g = (g', r) -> exists g1, g' = publish_structure g1 /\ g_pub g1 = true).
  { intros f E. apply edit_service_cases in E. destruct E as [(N & _)|(_ & g1 & _ & ->)]; [congruence|].
    exists g1. split; auto. destruct (om_publish g1) as (_ & _ & _ & _ & _ & _ & X). congruence. }
  assert (Pub : forall g1 g2 : mgr, g2 = g' -> publish_structure g1 = g2 -> exists g1, g' = publish_structure g1 /\ g_pub g1 = true).
  { intros g1 g2 <- <-. exists g1. split; auto. destruct (om_publish g1) as (_ & _ & _ & _ & _ & _ & X). congruence. }
  destruct e; cbn [serve] in H; try (injection H as H; eapply Svc; exact H).
  - destruct (add_node_at_index _ _ _ _ _ _ _) as [[ga ra]|] eqn:E; [|discriminate]. cbn in H. injection H as E' _. subst ga.
    unfold add_node_at_index in E. rewrite S in E. cbn [tstate_eqb negb] in E. cbv zeta in E.
    repeat match type of E with
    | Some _ = Some _ => injection E as E _; eapply Pub; [reflexivity|exact E]
    | None = Some _ => discriminate E
    | (let (_, _) := ?x in _) = _ => destruct x
    | match ?x with _ => _ end = _ => destruct x
    | (if ?x then _ else _) = _ => destruct x
    end.
  - destruct (add_node _ _ _ _ _ _) as [[ga ra]|] eqn:E; [|discriminate]. cbn in H. injection H as E' _. subst ga.
    unfold add_node in E. rewrite S in E. cbn [tstate_eqb negb] in E.
    destruct (add_node_at_index _ _ _ _ _ _ _) as [[ga ra2]|]; [|discriminate]. injection E as E _. eapply Pub; [reflexivity|exact E].
Qed.
Theorem history_mirrored : forall P g, history P true g -> mirrored g.
Proof.
  intros P g H. inversion H as [|fuel g0 e g' r H0 F E HP]; subst.
  - intros i. reflexivity.
  - destruct (history_RG _ _ _ H0) as (R & S & B).
    destruct (serve_mirrored _ _ _ _ _ B S R F E) as (g1 & -> & B1). apply mirrored_publish. exact B1.
Qed.
