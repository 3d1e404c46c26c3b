(** Proofs about editing, part 9: loading, and all histories. *)
From Coq Require Import String ZArith Bool Arith Lia Relations List.
From Verif Require Import Base ModelData ModelEdit SpecEdit ProofsEdit ProofsEditOps ProofsEditMove ProofsEditCycle ProofsEditWire ProofsEditAdd ProofsEditReplace ProofsEditMorph.
Import ListNotations.

(** ** load_tree *)

Lemma load_nodes_spec : forall l g g' r, HWg g -> NoDup (map (fun m => ros_to_uuid (ms_id m)) l) ->
  (forall n, In (Some n) (map (fun m => ros_to_uuid (ms_id m)) l) -> ~ present g n) ->
  load_nodes l g = (g', r) ->
  HWg g' /\ (forall i, par g' i = par g i) /\ (forall i, kids g' i = kids g i) /\ g_state g' = g_state g /\
  (r = Ok tt ->
     map Some (order g') = (map Some (order g) ++ map (fun m => ros_to_uuid (ms_id m)) l)%list /\
     (forall i, ~ In (Some i) (map (fun m => ros_to_uuid (ms_id m)) l) -> cfg g' i = cfg g i) /\
     (forall m n, In m l -> ros_to_uuid (ms_id m) = Some n -> exists c, ms_inst m = Ok c /\ cfg g' n = Some c)).
Proof.
  induction l as [|m l IH]; intros g g' r W Nd Np H; cbn [load_nodes] in H.
  - injection H as <- <-. split; [exact W|]. split; auto. split; auto. split; auto. intros _. cbn. rewrite app_nil_r. split; auto. split; auto. intros m n [].
  - cbn [map] in Nd, Np. apply NoDup_cons_iff in Nd. destruct Nd as [Nd1 Nd2].
    destruct (instantiate g (ms_id m) (ms_inst m)) as [g1 r1] eqn:E.
    destruct (instantiate_cases _ _ _ _ _ E) as [(-> & Hr & _)|(c & n & Ex & En & -> & ->)].
    { assert (X : g' = g /\ r <> Ok tt) by (destruct Hr as [[e ->] | ->]; injection H as <- <-; split; auto; discriminate).
      destruct X as [-> X]. split; auto. split; auto. split; auto. split; auto. intros Y. contradiction. }
    assert (Pn : ~ present g n) by (apply Np; left; exact En).
    destruct (register_view g n c W Pn) as (VO & VK & VP & VC).
    pose proof (register_HW g n c W Pn) as W1.
    destruct (IH (fst (register g n c)) g' r W1 Nd2) as (W' & P' & K' & S' & F'); auto.
    { intros i Hi. unfold present. cbn. rewrite nget_nset. destruct (Nat.eqb_spec i n) as [->|]; [rewrite En in Nd1; contradiction|].
      apply Np. right. exact Hi. }
    split; [exact W'|]. split; [intros i; rewrite P'; auto|]. split; [intros i; rewrite K'; auto|]. split; [exact S'|].
    intros Hr. destruct (F' Hr) as (F1 & F2 & F3). split; [|split].
    + rewrite F1, VO, map_app, <- app_assoc. cbn [map app]. rewrite En. reflexivity.
    + intros i Hi. cbn [map In] in Hi. rewrite F2 by tauto. rewrite VC. destruct (Nat.eqb_spec i n) as [->|]; [elim Hi; left; exact En|reflexivity].
    + intros m' n' [<-|Hm] Hn.
      * exists c. split; auto. assert (n' = n) by congruence. subst. rewrite F2 by (rewrite En in Nd1; exact Nd1). rewrite VC, Nat.eqb_refl. reflexivity.
      * eapply F3; eauto.
Qed.

(** What linking leaves alone. *)
Definition links_only (g g' : mgr) : Prop :=
  g_nodes g' = g_nodes g /\ (forall i, cfg g' i = cfg g i) /\ g_wires g' = g_wires g /\ g_state g' = g_state g.
Lemma links_only_refl : forall g, links_only g g.
Proof. intros g. unfold links_only. auto. Qed.
Lemma links_only_trans : forall a b c, links_only a b -> links_only b c -> links_only a c.
Proof.
  intros a b c (A1 & A2 & A3 & A4) (B1 & B2 & B3 & B4). unfold links_only. split; [congruence|]. split; [intros; rewrite B2; auto|]. split; congruence.
Qed.

Lemma load_children_spec : forall o l g g' r, HWg g -> reg (g_nodes g) (g_heap g) o -> NoDup (map ros_to_uuid l) ->
  (forall c, In (Some c) (map ros_to_uuid l) -> par g c = None) -> load_children o l g = (g', r) ->
  HWg g' /\ links_only g g' /\ n_id (g_heap g' o) = n_id (g_heap g o) /\
  (forall i, ~ In (Some i) (map ros_to_uuid l) -> par g' i = par g i) /\
  (forall i, i <> n_id (g_heap g o) -> kids g' i = kids g i) /\
  (r = Ok tt -> map Some (kids g' (n_id (g_heap g o))) = (map Some (kids g (n_id (g_heap g o))) ++ map ros_to_uuid l)%list).
Proof.
  intros o. induction l as [|t l IH]; intros g g' r W R Nd Np H; cbn [load_children] in H.
  - injection H as <- <-. split; auto. split; [apply links_only_refl|]. split; auto. split; auto. split; auto. intros _. cbn. rewrite app_nil_r. reflexivity.
  - cbn [map] in Nd, Np. apply NoDup_cons_iff in Nd. destruct Nd as [Nd1 Nd2].
    assert (Stop : forall x, x <> Ok tt -> (g, x) = (g', r) ->
      HWg g' /\ links_only g g' /\ n_id (g_heap g' o) = n_id (g_heap g o) /\
      (forall i, ~ In (Some i) (map ros_to_uuid (t :: l)) -> par g' i = par g i) /\
      (forall i, i <> n_id (g_heap g o) -> kids g' i = kids g i) /\
      (r = Ok tt -> map Some (kids g' (n_id (g_heap g o))) = (map Some (kids g (n_id (g_heap g o))) ++ map ros_to_uuid (t :: l))%list)).
    { intros x Hx E. injection E as <- <-. split; auto. split; [apply links_only_refl|]. split; auto. split; auto. split; auto. intros Y. contradiction. }
    destruct (ros_to_uuid t) as [c|] eqn:Et; [|eapply Stop; [|exact H]; discriminate].
    destruct (nget c (g_nodes g)) as [co|] eqn:Ec; [|eapply Stop; [|exact H]; discriminate].
    destruct (add_child (g_heap g) o co None) as [h|e|] eqn:Ea; [|eapply Stop; [|exact H]; discriminate|eapply Stop; [|exact H]; discriminate].
    clear Stop. destruct (HWg_ids _ _ _ W Ec) as (Rc & Ic & _).
    assert (Pc : n_parent (g_heap g co) = None).
    { assert (X : par g c = None) by (apply Np; left; reflexivity). rewrite <- Ic, par_reg in X by auto. destruct (n_parent (g_heap g co)); [discriminate|reflexivity]. }
    assert (W1 : HWg (set_heap g h)) by (eapply (add_child_HW _ _ _ _ _ _ _ W R Rc Pc Ea)).
    destruct (add_child_spec _ _ _ _ _ Ea) as (_ & _ & S & Ch & Pa).
    destruct (view_all g h W S
      (fun j => if Nat.eqb j (n_id (g_heap g o)) then (kids g j ++ [c])%list else kids g j)
      (fun j => if Nat.eqb j c then Some (n_id (g_heap g o)) else par g j)) as [VK VP].
    { intros x Rx. rewrite Ch. destruct (Nat.eqb_spec x o) as [->|Hx].
      - rewrite Nat.eqb_refl, insert_last, kids_reg by auto. unfold ids_of. rewrite map_app. cbn. rewrite Ic. reflexivity.
      - destruct (Nat.eqb_spec (n_id (g_heap g x)) (n_id (g_heap g o))) as [E|_]; [elim Hx; eapply reg_eq; [exact Rx|exact R|exact E]|].
        symmetry. apply kids_reg. exact Rx. }
    { intros j Hj. destruct (Nat.eqb_spec j (n_id (g_heap g o))) as [->|]; [elim Hj; apply reg_present; exact R|]. apply kids_nil. exact Hj. }
    { intros x Rx. rewrite Pa. destruct (Nat.eqb_spec x co) as [->|Hx].
      - rewrite Ic, Nat.eqb_refl. reflexivity.
      - destruct (Nat.eqb_spec (n_id (g_heap g x)) c) as [E|_]; [elim Hx; eapply reg_eq; [exact Rx|exact Rc|congruence]|].
        symmetry. apply par_reg. exact Rx. }
    { intros j Hj. destruct (Nat.eqb_spec j c) as [->|]; [elim Hj; unfold present; rewrite Ec; discriminate|]. apply par_none. exact Hj. }
    assert (R1 : reg (g_nodes (set_heap g h)) (g_heap (set_heap g h)) o) by (apply (same_ids_reg _ _ _ o S); exact R).
    destruct (IH (set_heap g h) g' r W1 R1 Nd2) as (W' & LO & Id & P' & K' & F'); auto.
    { intros d Hd. rewrite VP. destruct (Nat.eqb_spec d c) as [->|]; [contradiction|]. apply Np. right. exact Hd. }
    change (g_heap (set_heap g h)) with h in *. destruct (S o) as [Eid _]. rewrite Eid in *.
    split; [exact W'|]. split.
    { eapply links_only_trans; [|exact LO]. unfold links_only. split; auto. split; auto. apply cfg_set_heap. exact S. }
    split; [exact Id|]. split; [|split].
    + intros i Hi. cbn [map In] in Hi. rewrite P' by tauto. rewrite VP. destruct (Nat.eqb_spec i c) as [->|]; [elim Hi; left; exact Et|reflexivity].
    + intros i Hi. rewrite K' by auto. rewrite VK. apply Nat.eqb_neq in Hi. rewrite Hi. reflexivity.
    + intros Hr. rewrite (F' Hr), VK, Nat.eqb_refl, map_app, <- app_assoc. cbn [map app]. rewrite Et. reflexivity.
Qed.

Lemma NoDup_app_parts : forall {A} (l m : list A), NoDup (l ++ m) -> NoDup l /\ NoDup m /\ (forall x, In x l -> ~ In x m).
Proof.
  intros A. induction l as [|a l IH]; intros m H; cbn in H; [repeat split; auto; constructor|].
  apply NoDup_cons_iff in H. destruct H as [H1 H2]. destruct (IH m H2) as (A1 & A2 & A3). split; [|split; auto].
  - constructor; auto. intros X. apply H1, in_or_app. auto.
  - intros x [->|Hx]; [intros X; apply H1, in_or_app; auto|auto].
Qed.

Lemma load_links_spec : forall l g g' r, HWg g -> NoDup (map (fun m => ros_to_uuid (ms_id m)) l) ->
  NoDup (map ros_to_uuid (flat_map ms_children l)) ->
  (forall c, In (Some c) (map ros_to_uuid (flat_map ms_children l)) -> par g c = None) -> load_links l g = (g', r) ->
  HWg g' /\ links_only g g' /\
  (forall i, ~ In (Some i) (map (fun m => ros_to_uuid (ms_id m)) l) -> kids g' i = kids g i) /\
  (r = Ok tt -> forall m n, In m l -> ros_to_uuid (ms_id m) = Some n ->
      map Some (kids g' n) = (map Some (kids g n) ++ map ros_to_uuid (ms_children m))%list).
Proof.
  induction l as [|m l IH]; intros g g' r W Nd Nc Np H; cbn [load_links] in H.
  - injection H as <- <-. split; auto. split; [apply links_only_refl|]. split; auto. intros _ m n [].
  - cbn [map flat_map] in Nd, Nc, Np. rewrite map_app in Nc, Np. apply NoDup_cons_iff in Nd. destruct Nd as [Nd1 Nd2].
    destruct (NoDup_app_parts _ _ Nc) as (Nc1 & Nc2 & Nc3).
    destruct (ros_to_uuid (ms_id m)) as [n|] eqn:En.
    2:{ injection H as <- <-. split; auto. split; [apply links_only_refl|]. split; auto. discriminate. }
    destruct (nget n (g_nodes g)) as [o|] eqn:Eo.
    2:{ injection H as <- <-. split; auto. split; [apply links_only_refl|]. split; auto. discriminate. }
    destruct (HWg_ids _ _ _ W Eo) as (Ro & Io & _).
    destruct (load_children o (ms_children m) g) as [g1 r1] eqn:Ec.
    destruct (load_children_spec _ _ _ _ _ W Ro Nc1 (fun c Hc => Np c (in_or_app _ _ _ (or_introl Hc))) Ec) as (W1 & L1 & _ & P1 & K1 & F1).
    rewrite Io in *.
    destruct r1 as [u|e|].
    + destruct (IH g1 g' r W1 Nd2 Nc2) as (W' & L' & K' & F'); auto.
      { intros c Hc. rewrite P1 by (intros X; exact (Nc3 _ X Hc)). apply Np. apply in_or_app. right. exact Hc. }
      split; auto. split; [eapply links_only_trans; eauto|]. split.
      * intros i Hi. cbn [map In] in Hi. rewrite K' by tauto. apply K1. intros ->. apply Hi. left. exact En.
      * intros Hr m' n' [<-|Hm] Hn.
        -- assert (n' = n) by congruence. subst. rewrite K' by exact Nd1. apply F1. destruct u. reflexivity.
        -- rewrite (F' Hr m' n' Hm Hn). f_equal. rewrite K1; [reflexivity|]. intros ->. apply Nd1. rewrite <- Hn.
           apply (in_map (fun m => ros_to_uuid (ms_id m))). exact Hm.
    + injection H as <- <-. split; auto. split; auto. split; [|discriminate]. intros i Hi. apply K1. intros ->. apply Hi. left. exact En.
    + injection H as <- <-. split; auto. split; auto. split; [|discriminate]. intros i Hi. apply K1. intros ->. apply Hi. left. exact En.
Qed.

Lemma load_spec : forall nodes ws name g g' r, g_state g = EDITABLE -> forest_msg nodes -> load_tree nodes ws name g = (g', r) ->
  HWg g' /\ (r = Ok tt -> loaded g' nodes ws name).
Proof.
  intros nodes ws name g g' r Hs [F1 F2] H. apply edit_service_cases in H. destruct H as [(N & _)|(_ & gx & H & ->)]; [congruence|].
  rewrite clear_eq in H by auto.
  set (g00 := mkG (g_heap g) (g_next g) [] [] [] EDITABLE (Some 0) "UNKNOWN TREE" (g_pub g)) in *.
  assert (W00 : HWg g00) by (split; cbn; try discriminate; constructor).
  set (g0 := publish_structure g00) in *.
  assert (M0 : only_mirror g00 g0) by apply om_publish.
  assert (W0 : HWg g0) by (eapply om_HW; [exact M0|exact W00]).
  assert (Np : forall n, ~ present g0 n) by (intros n Hn; unfold present in Hn; destruct M0 as (_ & _ & E & _); rewrite E in Hn; apply Hn; reflexivity).
  assert (Or0 : order g0 = []) by (destruct M0 as (_ & _ & E & _); unfold order; rewrite E; reflexivity).
  clearbody g0. clear M0.
  destruct (load_nodes nodes g0) as [g1 r1] eqn:E1.
  destruct (load_nodes_spec _ _ _ _ W0 F1 (fun n _ => Np n) E1) as (W1 & P1 & K1 & _ & R1).
  assert (Bad : forall b x, HWg b -> x <> Ok tt -> (b, x) = (gx, r) -> HWg (publish_structure gx) /\ (r = Ok tt -> loaded (publish_structure gx) nodes ws name)).
  { intros b x Wb Hx E. injection E as <- <-. split; [eapply om_HW; [apply om_publish|exact Wb]|]. intros Y. contradiction. }
  destruct r1 as [u1|e|]; [|eapply Bad; [exact W1| |exact H]; discriminate|eapply Bad; [exact W1| |exact H]; discriminate].
  destruct u1.
  destruct (load_links nodes g1) as [g2 r2] eqn:E2.
  assert (Par1 : forall c, In (Some c) (map ros_to_uuid (flat_map ms_children nodes)) -> par g1 c = None).
  { intros c _. rewrite P1. apply par_none. apply Np. }
  destruct (load_links_spec _ _ _ _ W1 F1 F2 Par1 E2) as (W2 & (L1 & L2 & L3 & L4) & _ & F').
  destruct r2 as [u2|e|]; [|eapply Bad; [exact W2| |exact H]; discriminate|eapply Bad; [exact W2| |exact H]; discriminate].
  destruct u2. cbv zeta in H.
  destruct (check_wirings (sync_children g2) false ws) as [ws'|] eqn:Ec.
  2:{ eapply Bad; [|  |exact H]; [|discriminate]. eapply om_HW; [apply om_sync|exact W2]. }
  injection H as <- <-. clear Bad.
  assert (Ews : ws' = ws).
  { clear -Ec. revert ws' Ec. induction ws as [|w l IH]; intros ws' Ec; cbn [check_wirings] in Ec; [injection Ec as <-; reflexivity|].
    destruct (validate_wiring _ w); [|discriminate]. destruct (check_wirings _ false l) as [s|]; [|discriminate]. cbn in Ec. injection Ec as <-. f_equal. apply IH. reflexivity. }
  subst ws'.
  set (g3 := set_name (set_wires (sync_children g2) ws) name).
  assert (M : only_mirror g3 (publish_structure (fst (find_root g3)))) by (eapply om_trans; [apply om_find_root|apply om_publish]).
  assert (W3 : HWg g3) by exact W2.
  split; [eapply om_HW; [exact M|exact W3]|]. intros _.
  destruct (om_same _ _ M) as (O & K & _ & C & Wi & Nm & _). destruct (R1 eq_refl) as (O1 & _ & C1).
  unfold loaded. split; [|split; [|split]].
  - rewrite O. change (order g3) with (order g2). unfold order in *. rewrite L1, O1, Or0. reflexivity.
  - intros m n Hm Hn. split.
    + destruct (C1 m n Hm Hn) as (c & Ei & Ecf). exists c. split; auto. rewrite C. change (cfg g3 n) with (cfg g2 n). rewrite L2. exact Ecf.
    + rewrite K. change (kids g3 n) with (kids g2 n). rewrite (F' eq_refl m n Hm Hn). rewrite K1, kids_nil by apply Np. reflexivity.
  - rewrite Wi. reflexivity.
  - rewrite Nm. reflexivity.
Qed.

(** ** add_node *)

Lemma add_node_eq : forall fuel u p x k g, g_state g = EDITABLE ->
  add_node fuel u p x k g = option_map (fun gr => (publish_structure (fst gr), snd gr)) (add_node_at_index fuel u p x k (-1) g).
Proof.
  intros. unfold add_node. rewrite H. cbn [tstate_eqb negb]. destruct (add_node_at_index _ _ _ _ _ _ _) as [[]|]; reflexivity.
Qed.

(** ** All histories *)

Theorem serve_HW : forall fuel e g g' r, HWg g -> RG g -> g_state g = EDITABLE -> fresh g e -> sane_call g e (g', r) ->
  serve fuel e g = Some (g', r) -> HWg g'.
Proof.
  intros fuel e g g' r W R Hs F Sn H. destruct e; cbn [serve] in H; cbn [sane_call] in Sn.
  - destruct (add_node_at_index _ _ _ _ _ _ _) as [[g1 r1]|] eqn:E; [|discriminate]. cbn in H. injection H as <- <-.
    eapply add_at_spec; eauto.
  - rewrite add_node_eq in H by auto. destruct (add_node_at_index _ _ _ _ _ _ _) as [[g1 r1]|] eqn:E; [|discriminate]. cbn in H. injection H as <- <-.
    eapply om_HW; [apply om_publish|]. eapply add_at_spec; eauto.
  - injection H as H. eapply remove_node_HW; [exact W|exact H].
  - injection H as H. eapply move_node_spec; [exact W|exact H].
  - injection H as H. eapply replace_HW; [exact W|exact H].
  - injection H as H. eapply morph_spec; [exact W|exact R|exact Hs|exact Sn|exact H].
  - injection H as H. eapply options_spec; [exact W|exact R|exact Hs|exact Sn|exact H].
  - injection H as H. apply edit_service_cases in H. destruct H as [(_ & -> & _)|(_ & g1 & H & ->)]; [exact W|].
    eapply om_HW; [apply om_publish|]. destruct (check_wirings g ignore l); injection H as <- <-; exact W.
  - injection H as H. apply edit_service_cases in H. destruct H as [(_ & -> & _)|(_ & g1 & H & ->)]; [exact W|].
    eapply om_HW; [apply om_publish|]. destruct (check_unwirings g ignore l) as [s|]; [|injection H as <- <-; exact W].
    assert (X : forall s g g1 r, HWg g -> wremove_all s g = (g1, r) -> HWg g1).
    { clear. induction s as [|w s IH]; intros g g1 r W H; cbn [wremove_all] in H; [injection H as <- <-; exact W|].
      destruct (wremove w (g_wires g)); [|injection H as <- <-; exact W]. eapply IH; [|exact H]. exact W. }
    eapply X; eauto.
  - injection H as H. apply edit_service_cases in H. destruct H as [(_ & -> & _)|(_ & g1 & H & ->)]; [exact W|].
    eapply om_HW; [apply om_publish|]. injection H as <- <-. exact W.
  - injection H as H. rewrite clear_eq in H by auto. injection H as <- <-. eapply om_HW; [apply om_publish|]. split; cbn; try discriminate; constructor.
  - injection H as H. eapply load_spec; [exact Hs|exact Sn|exact H].
Qed.

Theorem history_HW : forall pub g, history sane_call pub g -> HWg g.
Proof.
  intros pub g H. induction H as [|fuel g e g' r H0 IH F E P].
  - split; cbn; try discriminate. constructor.
  - destruct (history_RG _ _ _ H0) as (R & S & B). eapply serve_HW; eauto.
Qed.
