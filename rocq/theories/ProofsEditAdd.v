(** Proofs about editing, part 6: adding nodes. *)
From Coq Require Import String ZArith Bool Arith Lia Relations List.
From Verif Require Import Base ModelData ModelEdit SpecEdit ProofsEdit ProofsEditOps ProofsEditMove ProofsEditCycle ProofsEditWire.
Import ListNotations.

Lemma added_om : forall a b c u k p i, added a b u k p i -> only_mirror b c -> added a c u k p i.
Proof.
  intros a b c u k p i (A & B & C & D & E & F & G & H) M. pose proof (om_same _ _ M) as (O & K & P & Cf & W & N & S).
  unfold added. split; [congruence|]. split; [intros; rewrite Cf; auto|]. split; [intros; rewrite P; auto|].
  split; [intros; rewrite K; auto|]. split; [intros q Hq; rewrite K; auto|]. repeat split; congruence.
Qed.

Lemma register_added : forall g u c i, HWg g -> ~ present g u -> added g (fst (register g u c)) u c None i.
Proof.
  intros g u c i W P. destruct (register_view g u c W P) as (A & B & C & D). unfold added. split; [exact A|].
  split; [exact D|]. split.
  - intros j. rewrite C. destruct (Nat.eqb_spec j u) as [->|]; auto. apply par_none. exact P.
  - split; auto. split; [discriminate|]. auto.
Qed.

(** Attaching a node that was just registered. *)
Lemma attach_added : forall g u c po h i, HWg g -> ~ present g u -> n_id (g_heap g po) <> u -> reg (g_nodes g) (g_heap g) po ->
  let g1 := fst (register g u c) in
  add_child (g_heap g1) po (g_next g) (Some i) = Ok h ->
  HWg (set_heap g1 h) /\ added g (set_heap g1 h) u c (Some (n_id (g_heap g po))) i /\ n_children (h (g_next g)) = [].
Proof.
  intros g u c po h i W P Hne Rp g1 H. pose proof (register_HW g u c W P) as W1. fold g1 in W1.
  pose proof (register_view g u c W P) as (A & B & C & D). fold g1 in A, B, C, D.
  set (o := g_next g) in *.
  assert (Hpo : po <> o) by (intros ->; pose proof (hw_id _ _ _ W _ _ Rp) as [_ X]; unfold o in X; lia).
  assert (Epo : g_heap g1 po = g_heap g po) by (unfold g1, register; cbn; unfold upd; fold o; eqs; congruence).
  assert (Eo : g_heap g1 o = mkN u c None []) by (unfold g1, register; cbn; unfold upd; fold o; rewrite Nat.eqb_refl; reflexivity).
  assert (Rp1 : reg (g_nodes g1) (g_heap g1) po).
  { unfold reg. rewrite Epo. unfold g1, register. cbn. rewrite nget_nset. apply Nat.eqb_neq in Hne. rewrite Hne. exact Rp. }
  assert (Ro1 : reg (g_nodes g1) (g_heap g1) o).
  { unfold reg. rewrite Eo. unfold g1, register. cbn. rewrite nget_nset, Nat.eqb_refl. reflexivity. }
  assert (W2 : HWg (set_heap g1 h)) by (eapply (add_child_HW _ _ _ _ _ _ _ W1 Rp1 Ro1); eauto; rewrite Eo; reflexivity).
  split; [exact W2|].
  destruct (add_child_spec _ _ _ _ _ H) as (_ & _ & S & Ch & Pa).
  split; [|rewrite Ch; fold o; apply Nat.eqb_neq in Hpo; rewrite Nat.eqb_sym, Hpo, Eo; reflexivity].
  set (p := n_id (g_heap g po)) in *.
  destruct (view_all g1 h W1 S (fun j => if Nat.eqb j p then insert (Some i) u (kids g1 j) else kids g1 j)
     (fun j => if Nat.eqb j u then Some p else par g1 j)) as [VK VP].
  - intros x Rx. rewrite Ch. destruct (Nat.eqb_spec x po) as [->|Hx].
    + rewrite Epo. fold p. rewrite Nat.eqb_refl. unfold ids_of at 1. rewrite insert_map. rewrite Eo. cbn [n_id].
      f_equal. unfold p. rewrite <- Epo. symmetry. apply kids_reg. exact Rp1.
    + destruct (Nat.eqb_spec (n_id (g_heap g1 x)) p) as [E|E]; [elim Hx; eapply reg_eq; eauto; rewrite E, Epo; reflexivity|].
      symmetry. apply kids_reg. exact Rx.
  - intros j Hj. rewrite kids_nil by auto. destruct (Nat.eqb_spec j p) as [->|]; auto.
    elim Hj. unfold p. rewrite <- Epo. apply reg_present. exact Rp1.
  - intros x Rx. rewrite Pa. destruct (Nat.eqb_spec x o) as [->|Hx].
    + rewrite Eo. cbn [n_id option_map]. rewrite Nat.eqb_refl, Epo. reflexivity.
    + destruct (Nat.eqb_spec (n_id (g_heap g1 x)) u) as [E|E]; [elim Hx; eapply reg_eq; eauto; rewrite E, Eo; reflexivity|].
      symmetry. apply par_reg. exact Rx.
  - intros j Hj. rewrite par_none by auto. destruct (Nat.eqb_spec j u) as [->|]; auto.
    elim Hj. apply (reg_present g1) in Ro1. rewrite Eo in Ro1. exact Ro1.
  - destruct (set_heap_links g1 h W1 S) as (L1 & L2 & L3 & L4 & L5).
    unfold added. split; [congruence|]. split; [intros; rewrite L2; auto|]. split.
    + intros j. rewrite VP. destruct (Nat.eqb j u); auto.
    + split.
      * intros j Hj. rewrite VK. destruct (Nat.eqb_spec j p) as [->|]; [congruence|]. apply B.
      * split; [|auto]. intros q E. injection E as <-. rewrite VK, Nat.eqb_refl, B. apply insert_placed.
Qed.

(** Removing the node again restores the tree. *)
Lemma filter_outside_id : forall u (l : list nid), ~ In u l -> filter (outside [u]) l = l.
Proof.
  intros u l H. rewrite <- (without_id u l) at 2 by auto. unfold without. apply filter_ext. intros a. unfold outside, mem.
  cbn. rewrite orb_false_r, Nat.eqb_sym. reflexivity.
Qed.
Lemma outside_single : forall u j, outside [u] j = negb (Nat.eqb j u).
Proof. intros. unfold outside, mem. cbn. rewrite orb_false_r. reflexivity. Qed.

Lemma undo_added : forall g g2 u c p i, HWg g -> RG g -> ~ present g u -> HWg g2 -> added g g2 u c p i ->
  same_tree g (drop_nodes (sync_children g2) [u]) /\ HWg (drop_nodes (sync_children g2) [u]) /\
  ~ present (drop_nodes (sync_children g2) [u]) u.
Proof.
  intros g g2 u c p i W R P W2 (A & B & C & D & E & F & G & H).
  pose proof (HW_linked _ W) as L.
  assert (W2' : HWg (sync_children g2)) by (eapply om_HW; [apply om_sync|exact W2]).
  destruct (drop_view (sync_children g2) [u] W2') as (VO & VK & VP & VC).
  destruct (sync_view g2) as (SK & SP & SC & SO & _).
  assert (Nu : forall j, ~ In u (kids g j)) by (intros j Hj; apply P; apply (li_child _ L j u Hj)).
  split; [|split].
  - unfold same_tree. split.
    { rewrite VO, SO, A. rewrite filter_app. rewrite filter_outside_id by (intros Hu; apply P; apply nget_present; exact Hu).
      cbn. rewrite outside_single, Nat.eqb_refl. cbn. apply app_nil_r. }
    split.
    { intros j. rewrite VK, outside_single, SK. destruct (Nat.eqb_spec j u) as [->|Hj]; cbn [negb]; [rewrite kids_nil; auto|].
      destruct p as [q|]; [destruct (Nat.eq_dec j q) as [->|Hq]|].
      - destruct (E q eq_refl) as (a & b & E1 & E2 & _). rewrite E2. rewrite filter_app. cbn [filter].
        rewrite outside_single, Nat.eqb_refl. cbn [negb]. rewrite <- filter_app, <- E1. apply filter_outside_id. auto.
      - rewrite D by congruence. apply filter_outside_id. auto.
      - rewrite D by congruence. apply filter_outside_id. auto. }
    split.
    { intros j. rewrite VP, outside_single, SP, C. destruct (Nat.eqb_spec j u) as [->|Hj]; cbn [negb]; [rewrite par_none; auto|].
      destruct (par g j) as [q|] eqn:Eq; auto. rewrite outside_single. destruct (Nat.eqb_spec q u) as [->|]; auto.
      elim P. apply (li_parent _ L j u Eq). }
    split.
    { intros j. rewrite VC, outside_single, SC, B. destruct (Nat.eqb_spec j u) as [->|]; cbn [negb]; auto.
      unfold cfg, obj. unfold present in P. destruct (nget u (g_nodes g)); [elim P; discriminate|reflexivity]. }
    split; [|split; [exact G|exact H]].
    rewrite drop_wires. cbn [g_wires sync_children set_kids]. rewrite F.
    assert (X : forall l, (forall w, In w l -> touches [u] w = false) -> filter (fun w => negb (touches [u] w)) l = l).
    { induction l as [|w l IH]; intros Hl; cbn [filter]; [reflexivity|]. rewrite (Hl w) by (left; auto). cbn [negb]. f_equal. apply IH. intros; apply Hl; right; auto. }
    apply X. intros w Hw. unfold touches. cbn. rewrite orb_false_r. destruct (wiring_has_id w u) eqn:Ew; auto.
    elim P. apply (good_has_id g) in Ew; [|apply (rg_wires _ R); auto]. eapply good_present; eauto. apply (rg_wires _ R); auto.
  - apply drop_HW. exact W2'.
  - unfold present. rewrite drop_nodes_eq, nget_filter, outside_single, Nat.eqb_refl. cbn. auto.
Qed.

(** Afterwards the removed object has no children. *)
Lemma drop_children : forall g u o, nget u (g_nodes g) = Some o -> n_id (g_heap g o) = u ->
  n_children (g_heap (publish_structure (drop_nodes (sync_children g) [u])) o) = [].
Proof.
  intros g u o H E. destruct (om_publish (drop_nodes (sync_children g) [u])) as (-> & _).
  rewrite drop_heap by (unfold reg; cbn; rewrite E; exact H). cbn [g_heap sync_children set_kids]. rewrite E.
  unfold mem. cbn. rewrite Nat.eqb_refl. reflexivity.
Qed.

Lemma remove_fresh : forall g u o, g_state g = EDITABLE -> nget u (g_nodes g) = Some o ->
  remove_node (uuid_to_ros u) false g = (publish_structure (drop_nodes (sync_children g) [u]), Ok tt).
Proof.
  intros g u o Hs H. unfold remove_node, edit_service. rewrite Hs. cbn [tstate_eqb negb uuid_to_ros ros_to_uuid].
  unfold nhas. rewrite H. reflexivity.
Qed.
Lemma remove_absent : forall g u, ~ present g u -> only_mirror g (fst (remove_node (uuid_to_ros u) false g)).
Proof.
  intros g u P. destruct (remove_node (uuid_to_ros u) false g) as [g' r] eqn:E. apply remove_node_cases in E. cbn [fst].
  destruct E as [(_ & _ & i & Ei & Pi & _)|(M & _)]; auto. cbn in Ei. injection Ei as <-. elim (P Pi).
Qed.



Lemma add_at_spec : forall fuel u pt x k z g g' r, HWg g -> RG g -> g_state g = EDITABLE -> fresh_id g u pt ->
  add_node_at_index fuel u pt x k z g = Some (g', r) ->
  HWg g' /\
  ((r = Ok u /\ addable g pt x k /\ exists c, x = Ok c /\ added g g' u c (parent_of pt) z) \/
   (is_ok r = false /\ same_tree g g' /\ (acyclic g -> ~ addable g pt x k)) \/
   (is_ok r = false /\ leaves_orphan g pt /\ exists c, x = Ok c /\ added g g' u c None z)).
Proof.
  intros fuel u pt x k z g g' r W R Hs (Hu0 & Pu & Hpu) H. unfold add_node_at_index in H.
  rewrite Hs in H. cbn [tstate_eqb negb] in H. cbv zeta in H.
  assert (Same : same_tree g (publish_structure g) /\ HWg (publish_structure g)).
  { split; [apply om_same, om_publish|eapply om_HW; [apply om_publish|exact W]]. }
  destruct (instantiate g (uuid_to_ros u) x) as [g1 r1] eqn:Ei.
  destruct (instantiate_cases _ _ _ _ _ Ei) as [(-> & Hr1 & Hno)|(c & n' & -> & En & -> & ->)].
  { assert (X : Some (publish_structure g, r) = Some (g', r) /\ is_ok r = false).
    { destruct Hr1 as [[e ->]|Hr1]; [|rewrite Hr1 in H]; injection H as <- <-; auto. }
    destruct X as [E Er]. injection E as <-. split; [tauto|]. right. left. split; auto. split; [tauto|].
    intros _ ((c & ->) & _). eapply Hno; reflexivity. }
  cbn in En. injection En as <-. clear Ei.
  pose proof (register_HW g u c W Pu) as W1. pose proof (register_added g u c z W Pu) as A1.
  set (g1 := fst (register g u c)) in *.
  assert (Eu : nget u (g_nodes g1) = Some (g_next g)) by apply register_nget.
  assert (Hs1 : g_state g1 = EDITABLE) by exact Hs.
  assert (Pr : forall p, p <> u -> nget p (g_nodes g1) = nget p (g_nodes g)).
  { intros p Hp. unfold g1, register. cbn. rewrite nget_nset. apply Nat.eqb_neq in Hp. rewrite Hp. reflexivity. }
  destruct (ros_to_uuid pt) as [p|] eqn:Ep.
  2:{ injection H as <- <-. split; [eapply om_HW; [apply om_publish|exact W1]|]. right. right. split; auto. split; [left; exact Ep|].
      exists c. split; auto. eapply added_om; [exact A1|apply om_publish]. }
  assert (Hpu' : p <> u) by congruence. clear Hpu.
  destruct (negb (Nat.eqb p 0) && negb (nhas p (g_nodes g1))) eqn:Eabs.
  { apply andb_true_iff in Eabs. destruct Eabs as [E0 E1]. apply negb_true_iff in E0, E1. apply Nat.eqb_neq in E0.
    rewrite (remove_fresh _ _ _ Hs1 Eu) in H. cbn [fst] in H. injection H as <- <-.
    destruct (undo_added g g1 u c None z W R Pu W1 A1) as (S & HW' & _).
    split; [eapply om_HW; [apply om_publish|]; eapply om_HW; [apply om_publish|exact HW']|]. right. left. split; auto. split.
    - eapply same_trans; [exact S|]. eapply same_trans; apply om_same, om_publish.
    - intros _ (_ & _ & q & Eq & [->|[Pq _]]); [congruence|]. assert (q = p) by congruence. subst q.
      unfold present in Pq. rewrite <- (Pr p Hpu') in Pq. unfold nhas in E1. destruct (nget p (g_nodes g1)); [discriminate|auto]. }
  (* attaching *)
  assert (Att : (p = 0 /\ (if Nat.eqb p 0 then Ok (g_heap g1) else match nget p (g_nodes g1) with
                   | None => Raise | Some po => add_child (g_heap g1) po (g_next g) (Some z) end) = Ok (g_heap g1)) \/
                (p <> 0 /\ exists po, nget p (g_nodes g) = Some po /\
                 (if Nat.eqb p 0 then Ok (g_heap g1) else match nget p (g_nodes g1) with
                   | None => Raise | Some po => add_child (g_heap g1) po (g_next g) (Some z) end) = add_child (g_heap g1) po (g_next g) (Some z))).
  { destruct (Nat.eqb_spec p 0) as [->|Hp0]; [left; auto|right]. split; auto. cbn [negb andb] in Eabs. apply negb_false_iff in Eabs.
    unfold nhas in Eabs. rewrite (Pr p Hpu') in *. destruct (nget p (g_nodes g)) as [po|]; [|discriminate]. exists po. auto. }
  assert (Done : forall h, HWg (set_heap g1 h) -> added g (set_heap g1 h) u c (parent_of pt) z -> n_children (h (g_next g)) = [] ->
    (p = 0 \/ (present g p /\ ~ full g p)) ->
    (let g2 := set_heap g1 h in
     let g3 := if negb match k with [] => true | _ => false end then fst (remove_node (uuid_to_ros u) false g2) else g2 in
                match find_nodes_in_cycles fuel g3 with
                | None => None
                | Some (_ :: _) =>
                    Some (publish_structure (fst (remove_node (uuid_to_ros u) false (set_heap g3
                      (fold_left (fun h c => match remove_child h (g_next g) (n_id (g_heap g3 c)) with
                                                    | Ok (h', _) => h' | _ => h end)
                                        (n_children (g_heap g3 (g_next g))) (g_heap g3))))), Err ETopo)
                | Some [] =>
                    Some (publish_structure (set_kids g3
                       (if nhas u (if Nat.eqb p 0 then g_kids g3
                                 else nset p (match nget p (g_kids g3) with Some l => l ++ [u] | None => [u] end)%list
                                           (g_kids g3)) then (if Nat.eqb p 0 then g_kids g3
                                 else nset p (match nget p (g_kids g3) with Some l => l ++ [u] | None => [u] end)%list
                                           (g_kids g3)) else nset u [] (if Nat.eqb p 0 then g_kids g3
                                 else nset p (match nget p (g_kids g3) with Some l => l ++ [u] | None => [u] end)%list
                                           (g_kids g3)))), 
                     (if negb match k with [] => true | _ => false end then Err EKey else Ok u))
                end) = Some (g', r) ->
    HWg g' /\
  ((r = Ok u /\ addable g pt (Ok c) k /\ exists c', @Ok config c = Ok c' /\ added g g' u c' (parent_of pt) z) \/
   (is_ok r = false /\ same_tree g g' /\ (acyclic g -> ~ addable g pt (Ok c) k)) \/
   (is_ok r = false /\ leaves_orphan g pt /\ exists c', @Ok config c = Ok c' /\ added g g' u c' None z))).
  { clear H Att. intros h W2 A2 Ch Hp H. cbv zeta in H. set (g2 := set_heap g1 h) in *.
    assert (Eu2 : nget u (g_nodes g2) = Some (g_next g)) by exact Eu.
    assert (Hs2 : g_state g2 = EDITABLE) by exact Hs.
    destruct (undo_added g g2 u c _ z W R Pu W2 A2) as (S & HW' & Pn).
    assert (OMs : forall a, only_mirror a (set_heap a (g_heap a))) by (intros []; unfold only_mirror; cbn; auto 10).
    assert (OMk : forall a l, only_mirror a (set_kids a l)) by (intros []; unfold only_mirror; cbn; auto 10).
    assert (HWp : forall a b, only_mirror a b -> HWg a -> HWg (publish_structure b)).
    { intros a b M Wa. eapply om_HW; [apply om_publish|]. eapply om_HW; eauto. }
    assert (Sp : forall a b, only_mirror a b -> same_tree g a -> same_tree g (publish_structure b)).
    { intros a b M Sa. eapply same_trans; [exact Sa|]. eapply same_trans; apply om_same; [exact M|apply om_publish]. }
    destruct k as [|k0 k]; cbn [negb] in H.
    - destruct (find_nodes_in_cycles fuel g2) as [[|y l]|] eqn:Ef; [| |discriminate].
      + injection H as <- <-. split; [eapply HWp; [apply OMk|exact W2]|]. left. split; auto. split.
        { split; [eauto|]. split; auto. eauto. }
        exists c. split; auto. eapply added_om; [exact A2|]. eapply om_trans; [apply OMk|apply om_publish].
      + change (g_heap g2 (g_next g)) with (h (g_next g)) in H. rewrite Ch in H. cbn [fold_left] in H.
        rewrite (remove_fresh (set_heap g2 (g_heap g2)) u (g_next g) Hs2 Eu2) in H. cbn [fst] in H. injection H as <- <-.
        change (set_heap g2 (g_heap g2)) with g2.
        split; [eapply HWp; [apply om_publish|exact HW']|]. right. left. split; auto. split; [eapply Sp; [apply om_publish|exact S]|].
        intros Ac _. destruct (find_cycles_correct _ _ _ W2 Ef) as [Hc _].
        assert (X : below g2 y y) by (apply Hc; left; auto).
        destruct A2 as (_ & _ & _ & D2 & E2 & _).
        assert (Ku : kids g2 u = []).
        { destruct (HW_present g2 u W2) as (o & Eo & Ro & Eid); [unfold present; rewrite Eu2; discriminate|].
          rewrite <- Eid, kids_reg by auto. rewrite Eu2 in Eo. injection Eo as <-. change (g_heap g2 (g_next g)) with (h (g_next g)). rewrite Ch. reflexivity. }
        assert (Edge : forall a b, child_of g2 a b -> a <> u /\ (child_of g a b \/ b = u)).
        { intros a b Hab. unfold child_of in *. split; [intros ->; rewrite Ku in Hab; destruct Hab|].
          destruct (parent_of pt) as [q|]; [destruct (Nat.eq_dec a q) as [->|Hq]|].
          - destruct (E2 q eq_refl) as (l1 & l2 & F1 & F2 & _). rewrite F2 in Hab. rewrite F1. apply in_app_or in Hab.
            destruct Hab as [Hab|[->|Hab]]; auto; left; apply in_or_app; auto.
          - left. rewrite D2 in Hab by congruence. exact Hab.
          - left. rewrite D2 in Hab by congruence. exact Hab. }
        assert (Path : forall a b, below g2 a b -> a <> u /\ (below g a b \/ b = u)).
        { intros a b Hab. induction Hab as [a b Hab|a m b _ [N1 I1] _ [N2 I2]].
          - destruct (Edge a b Hab) as [? [?|?]]; split; auto. left. apply t_step. auto.
          - split; auto. destruct I2 as [I2|I2]; auto. destruct I1 as [I1|I1]; [|congruence]. left. eapply t_trans; eauto. }
        destruct (Path y y X) as [N [I|I]]; [exact (Ac y I)|auto].
    - rewrite (remove_fresh g2 u (g_next g) Hs2 Eu2) in H. cbn [fst] in H.
      assert (Pn3 : ~ present (publish_structure (drop_nodes (sync_children g2) [u])) u).
      { unfold present. rewrite publish_nodes. exact Pn. }
      assert (Ch3 : n_children (g_heap (publish_structure (drop_nodes (sync_children g2) [u])) (g_next g)) = []).
      { apply drop_children; auto. destruct (HWg_ids _ _ _ W2 Eu2) as (_ & X & _). exact X. }
      assert (S3 : same_tree g (publish_structure (drop_nodes (sync_children g2) [u]))) by (eapply same_trans; [exact S|apply om_same, om_publish]).
      assert (W3 : HWg (publish_structure (drop_nodes (sync_children g2) [u]))) by (eapply om_HW; [apply om_publish|exact HW']).
      set (g3 := publish_structure (drop_nodes (sync_children g2) [u])) in *. clearbody g3.
      assert (Refused : acyclic g -> ~ addable g pt (Ok c) (k0 :: k)) by (intros _ (_ & X & _); discriminate).
      destruct (find_nodes_in_cycles fuel g3) as [[|y l]|]; [| |discriminate].
      + injection H as <- <-. split; [eapply HWp; [apply OMk|exact W3]|]. right. left. split; auto. split; auto.
        eapply Sp; [apply OMk|exact S3].
      + rewrite Ch3 in H. cbn [fold_left] in H. injection H as <- <-.
        assert (M : only_mirror g3 (fst (remove_node (uuid_to_ros u) false (set_heap g3 (g_heap g3))))).
        { eapply om_trans; [apply OMs|apply remove_absent; exact Pn3]. }
        split; [eapply HWp; [exact M|exact W3]|]. right. left. split; auto. split; auto. eapply Sp; [exact M|exact S3]. }
  destruct Att as [[-> Ea]|(Hp0 & po & Epo & Ea)]; rewrite Ea in H.
  - apply (Done (g_heap g1)); auto.
    + unfold parent_of. rewrite Ep. change (set_heap g1 (g_heap g1)) with g1. exact A1.
    + unfold g1, register. cbn. unfold upd. rewrite Nat.eqb_refl. reflexivity.
  - destruct (HWg_ids _ _ _ W Epo) as (Rpo & Eid & _).
    assert (Pp : present g p) by (unfold present; rewrite Epo; discriminate).
    assert (Epar : parent_of pt = Some p) by (unfold parent_of; rewrite Ep; destruct p; [congruence|reflexivity]).
    assert (Epo1 : g_heap g1 po = g_heap g po).
    { unfold g1, register. cbn. unfold upd. destruct (hw_id _ _ _ W _ _ Epo) as [_ HH]. destruct (Nat.eqb_spec po (g_next g)); [lia|reflexivity]. }
    destruct (add_child (g_heap g1) po (g_next g) (Some z)) as [h|e|] eqn:Eadd.
    + destruct (attach_added g u c po h z W Pu) as (W2 & A2 & Ch); auto; [congruence|].
      apply (Done h); auto.
      * rewrite Epar, <- Eid. exact A2.
      * right. split; auto. rewrite <- Eid. rewrite full_reg by auto. intros (m & M1 & M2).
        destruct (add_child_spec _ _ _ _ _ Eadd) as (_ & Mx & _). rewrite Epo1 in Mx. exact (Mx m M1 M2).
    + injection H as <- <-. split; [eapply om_HW; [apply om_publish|exact W1]|]. right. right. split; auto. split.
      * right. exists p. split; auto. split; auto. split; auto. rewrite <- Eid. apply full_reg; auto.
        destruct (add_child_Err _ _ _ _ _ Eadd) as [X|X]; [rewrite Epo1 in X; exact X|]. exfalso.
        apply Pu. rewrite Epo1 in X. assert (E : n_id (g_heap g1 (g_next g)) = u) by (unfold g1, register; cbn; unfold upd; rewrite Nat.eqb_refl; reflexivity).
        rewrite E in X. unfold ids_of in X. apply in_map_iff in X. destruct X as (d & Ed & Hd).
        destruct (hw_child _ _ _ W _ _ Rpo Hd) as [Rd _]. 
        assert (E' : g_heap g1 d = g_heap g d).
        { unfold g1, register. cbn. unfold upd. destruct (hw_id _ _ _ W _ _ Rd) as [_ HH]. destruct (Nat.eqb_spec d (g_next g)); [lia|reflexivity]. }
        rewrite E' in Ed. rewrite <- Ed. apply reg_present. exact Rd.
      * exists c. split; auto. eapply added_om; [exact A1|apply om_publish].
    + exfalso. eapply add_child_noraise; exact Eadd.
Qed.

(** In an acyclic tree the call returns. *)
Lemma added_acyclic : forall g g2 u c p i, linked g -> linked g2 -> ~ present g u -> added g g2 u c p i -> p <> Some u -> acyclic g -> acyclic g2.
Proof.
  intros g g2 u c p i L L2 P (A & B & C & D & E & _) Hpu Ac.
  assert (Ku : kids g2 u = []) by (rewrite D by congruence; apply kids_nil; exact P).
  assert (Edge : forall a b, child_of g2 a b -> a <> u /\ (child_of g a b \/ b = u)).
  { intros a b Hab. split; [intros ->; unfold child_of in Hab; rewrite Ku in Hab; destruct Hab|].
    destruct (Nat.eq_dec b u) as [|Hb]; auto. left. apply child_par in Hab; auto. apply child_par; auto.
    rewrite C in Hab. apply Nat.eqb_neq in Hb. rewrite Hb in Hab. exact Hab. }
  assert (Path : forall a b, below g2 a b -> a <> u /\ (below g a b \/ b = u)).
  { intros a b Hab. induction Hab as [a b Hab|a m b _ [N1 I1] _ [N2 I2]].
    - destruct (Edge a b Hab) as [? [?|?]]; split; auto. left. apply t_step. auto.
    - split; auto. destruct I2 as [I2|I2]; auto. destruct I1 as [I1|I1]; [|congruence]. left. eapply t_trans; eauto. }
  intros y X. destruct (Path y y X) as [N [I|I]]; [exact (Ac y I)|auto].
Qed.
Lemma same_acyclic : forall g g', same_tree g g' -> acyclic g -> acyclic g'.
Proof.
  intros g g' (_ & K & _) A x H. apply (A x).
  assert (X : forall a b, below g' a b -> below g a b).
  { intros a b Hab. induction Hab as [a b Hab|a m b _ I1 _ I2]; [apply t_step; unfold child_of in *; rewrite <- K; auto|eapply t_trans; eauto]. }
  apply X. exact H.
Qed.

Lemma order_length : forall g, length (order g) = length (g_nodes g).
Proof. intros g. apply map_length. Qed.

Lemma add_at_returns : forall fuel u pt x k z g, HWg g -> RG g -> g_state g = EDITABLE -> fresh_id g u pt -> acyclic g ->
  2 + length (g_nodes g) <= fuel -> exists g' r, add_node_at_index fuel u pt x k z g = Some (g', r).
Proof.
  intros fuel u pt x k z g W R Hs (Hu0 & Pu & Hpu) Ac Hf. unfold add_node_at_index.
  rewrite Hs. cbn [tstate_eqb negb]. cbv zeta.
  destruct (instantiate g (uuid_to_ros u) x) as [g1 r1] eqn:Ei.
  destruct (instantiate_cases _ _ _ _ _ Ei) as [(-> & Hr1 & Hno)|(c & n' & -> & En & -> & ->)].
  { destruct Hr1 as [[e ->]|Hr1]; [eauto|rewrite Hr1; eauto]. }
  cbn in En. injection En as <-. clear Ei.
  pose proof (register_HW g u c W Pu) as W1. pose proof (register_added g u c z W Pu) as A1.
  set (g1 := fst (register g u c)) in *.
  assert (Eu : nget u (g_nodes g1) = Some (g_next g)) by apply register_nget.
  assert (Hs1 : g_state g1 = EDITABLE) by exact Hs.
  destruct (ros_to_uuid pt) as [p|] eqn:Ep; [|eauto].
  destruct (negb (Nat.eqb p 0) && negb (nhas p (g_nodes g1))) eqn:Eabs; [eauto|].
  assert (Pr : nget p (g_nodes g1) = nget p (g_nodes g)).
  { unfold g1, register. cbn. rewrite nget_nset. destruct (Nat.eqb_spec p u); [congruence|reflexivity]. }
  destruct (if Nat.eqb p 0 then Ok (g_heap g1) else _) as [h|e|] eqn:Ea; [|eauto|eauto].
  assert (X : HWg (set_heap g1 h) /\ added g (set_heap g1 h) u c (if Nat.eqb p 0 then None else Some p) z).
  { destruct (Nat.eqb_spec p 0) as [->|Hp0]; [injection Ea as <-; split; [exact W1|exact A1]|].
    rewrite Pr in Ea. destruct (nget p (g_nodes g)) as [po|] eqn:Epo; [|discriminate].
    destruct (HWg_ids _ _ _ W Epo) as (Rpo & Eid & _).
    destruct (attach_added g u c po h z W Pu) as (W2 & A2 & Ch); auto; [congruence|]. split; auto. rewrite <- Eid. exact A2. }
  destruct X as [W2 A2]. set (g2 := set_heap g1 h) in *.
  destruct (undo_added g g2 u c _ z W R Pu W2 A2) as (S & HW' & Pn).
  assert (Fin : forall g3, HWg g3 -> acyclic g3 -> length (g_nodes g3) <= 1 + length (g_nodes g) -> find_nodes_in_cycles fuel g3 = Some []).
  { intros g3 W3 A3 L3. apply find_cycles_acyclic; auto. lia. }
  assert (F : find_nodes_in_cycles fuel (if negb match k with [] => true | _ => false end then fst (remove_node (uuid_to_ros u) false g2) else g2) = Some []).
  { destruct k; cbn [negb].
    - apply Fin; auto.
      + eapply added_acyclic; [apply HW_linked; exact W|apply HW_linked; exact W2|exact Pu|exact A2| |exact Ac]. destruct (Nat.eqb p 0); congruence.
      + destruct A2 as (O & _). rewrite <- !order_length, O, app_length. cbn. lia.
    - rewrite (remove_fresh g2 u (g_next g) Hs1 Eu). cbn [fst].
      assert (S' : same_tree g (publish_structure (drop_nodes (sync_children g2) [u]))) by (eapply same_trans; [exact S|apply om_same, om_publish]).
      apply Fin.
      + eapply om_HW; [apply om_publish|exact HW'].
      + eapply same_acyclic; [exact S'|exact Ac].
      + destruct S' as (O & _). rewrite <- !order_length, O. lia. }
  rewrite F. eauto.
Qed.
