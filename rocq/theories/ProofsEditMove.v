(** Proofs about editing, part 3: moving nodes. *)
From Coq Require Import String ZArith Bool Arith Lia Relations List.
From Verif Require Import Base ModelData ModelEdit SpecEdit ProofsEdit ProofsEditOps.
Import ListNotations.

Lemma ids_without : forall nodes h o l, reg nodes h o -> (forall c, In c l -> reg nodes h c) ->
  ids_of h (without o l) = without (n_id (h o)) (ids_of h l).
Proof.
  intros nodes h o l Ro Hl. unfold ids_of, without. rewrite filter_map. f_equal. apply filter_ext_in.
  intros c Hc. f_equal. destruct (Nat.eqb_spec o c) as [->|Hne]; [rewrite Nat.eqb_refl; reflexivity|].
  symmetry. apply Nat.eqb_neq. intros E. apply Hne. eapply reg_eq; eauto.
Qed.

(** Taking a node away from its parent, if any. *)
Definition detach (h : oid -> nobj) (o : oid) : res (oid -> nobj) :=
  match n_parent (h o) with
  | None => Ok h
  | Some p => match remove_child h p (n_id (h o)) with Ok (h', _) => Ok h' | Err e => Err e | Raise => Raise end
  end.

Lemma detach_spec : forall nodes next h o, HW nodes next h -> reg nodes h o ->
  exists h1, detach h o = Ok h1 /\ HW nodes next h1 /\ same_ids h h1 /\
    (forall x, reg nodes h x -> n_children (h1 x) = without o (n_children (h x))) /\
    (forall x, n_parent (h1 x) = if Nat.eqb x o then None else n_parent (h x)).
Proof.
  intros nodes next h o W R. unfold detach. destruct (n_parent (h o)) as [p|] eqn:Ep.
  - destruct (HW_remove_total _ _ _ _ _ W R Ep) as [h1 E]. rewrite E. exists h1. split; [reflexivity|].
    destruct (hw_par _ _ _ W _ _ R Ep) as [Rp Ip].
    destruct (remove_child_HW _ _ _ _ _ _ _ W Rp E) as [W1 _].
    destruct (remove_child_spec _ _ _ _ _ (hw_nodup _ _ _ W _ Rp) E) as (_ & _ & S & Hc & Hp).
    split; [exact W1|]. split; [exact S|]. split; [|exact Hp].
    intros x Rx. rewrite Hc. destruct (Nat.eqb_spec x p) as [->|Hne]; [reflexivity|].
    symmetry. apply without_id. intros Hi. destruct (hw_child _ _ _ W _ _ Rx Hi) as [_ X]. congruence.
  - exists h. split; [reflexivity|]. split; [exact W|]. split; [apply same_ids_refl|]. split.
    + intros x Rx. symmetry. apply without_id. intros Hi. destruct (hw_child _ _ _ W _ _ Rx Hi) as [_ X]. congruence.
    + intros x. destruct (Nat.eqb_spec x o) as [->|]; auto.
Qed.

(** Appending it to another node. *)
Lemma attach_spec : forall nodes next h o np idx, HW nodes next h -> reg nodes h o -> reg nodes h np ->
  (forall m, f_max (n_cfg (h np)) = Some m -> length (without o (n_children (h np))) < m) ->
  exists h1 h', detach h o = Ok h1 /\ add_child h1 np o idx = Ok h' /\ HW nodes next h' /\ same_ids h h' /\
    (forall x, reg nodes h x -> n_children (h' x) =
        if Nat.eqb x np then insert idx o (without o (n_children (h np))) else without o (n_children (h x))) /\
    (forall x, n_parent (h' x) = if Nat.eqb x o then Some np else n_parent (h x)).
Proof.
  intros nodes next h o np idx W Ro Rn Hm.
  destruct (detach_spec _ _ _ _ W Ro) as (h1 & E1 & W1 & S1 & C1 & P1).
  assert (R1 : forall x, reg nodes h1 x <-> reg nodes h x) by (intros; apply same_ids_reg; auto).
  assert (Po : n_parent (h1 o) = None) by (rewrite P1, Nat.eqb_refl; reflexivity).
  destruct (add_child_total h1 np o idx) as [h' E'].
  - intros m. destruct (S1 np) as [_ ->]. rewrite C1 by auto. apply Hm.
  - eapply HW_notin_ids; eauto; try (apply R1; auto). congruence.
  - exists h1, h'. split; [exact E1|]. split; [exact E'|].
    destruct (add_child_spec _ _ _ _ _ E') as (_ & _ & S2 & C2 & P2).
    split; [eapply add_child_HW; eauto; apply R1; auto|].
    split; [eapply same_ids_trans; eauto|]. split.
    + intros x Rx. rewrite C2. rewrite !C1 by auto. reflexivity.
    + intros x. rewrite P2, P1. destruct (Nat.eqb x o); reflexivity.
Qed.

Lemma set_heap_links : forall g h', HWg g -> same_ids (g_heap g) h' -> only_links g (set_heap g h').
Proof.
  intros g h' W S. unfold only_links, order. cbn. split; [reflexivity|]. split; [|auto].
  intros i. unfold cfg, obj. cbn. destruct (nget i (g_nodes g)) as [o|]; [|reflexivity]. cbn. f_equal. apply S.
Qed.
Lemma set_heap_present : forall g h' i, present (set_heap g h') i <-> present g i.
Proof. reflexivity. Qed.

Lemma view_all : forall g h', HWg g -> same_ids (g_heap g) h' ->
  forall (F : nid -> list nid) (P : nid -> option nid),
  (forall o, reg (g_nodes g) (g_heap g) o -> ids_of (g_heap g) (n_children (h' o)) = F (n_id (g_heap g o))) ->
  (forall i, ~ present g i -> F i = []) ->
  (forall o, reg (g_nodes g) (g_heap g) o -> option_map (fun p => n_id (g_heap g p)) (n_parent (h' o)) = P (n_id (g_heap g o))) ->
  (forall i, ~ present g i -> P i = None) ->
  (forall i, kids (set_heap g h') i = F i) /\ (forall i, par (set_heap g h') i = P i).
Proof.
  intros g h' W S F P HF HF0 HP HP0. split; intros i; destruct (present_dec g i) as [Pi|Pi].
  - destruct (HW_present _ _ W Pi) as (o & _ & Ro & <-). destruct (set_heap_view g h' W S o Ro) as (-> & _). auto.
  - rewrite kids_nil by exact Pi. symmetry. auto.
  - destruct (HW_present _ _ W Pi) as (o & _ & Ro & <-). destruct (set_heap_view g h' W S o Ro) as (_ & -> & _). auto.
  - rewrite par_none by exact Pi. symmetry. auto.
Qed.

Lemma detach_view : forall g o h1, HWg g -> reg (g_nodes g) (g_heap g) o -> detach (g_heap g) o = Ok h1 ->
  detached g (set_heap g h1) (n_id (g_heap g o)).
Proof.
  intros g o h1 W R H. destruct (detach_spec _ _ _ _ W R) as (h & E & _ & S & C & P).
  rewrite E in H. injection H as ->. split; [apply set_heap_links; auto|]. apply view_all; auto.
  - intros x Rx. rewrite C by auto. rewrite kids_reg by auto. eapply ids_without; eauto.
    intros c Hc. eapply hw_child; eauto.
  - intros i Hi. rewrite kids_nil by auto. reflexivity.
  - intros x Rx. rewrite P, par_reg by auto. destruct (Nat.eqb_spec x o) as [->|Hne]; [rewrite Nat.eqb_refl; reflexivity|].
    destruct (Nat.eqb_spec (n_id (g_heap g x)) (n_id (g_heap g o))) as [E'|]; [|reflexivity].
    elim Hne. eapply reg_eq; eauto.
  - intros i Hi. rewrite par_none by auto. destruct (Nat.eqb i _); reflexivity.
Qed.

Lemma attach_view : forall g o np idx h1 h', HWg g -> reg (g_nodes g) (g_heap g) o -> reg (g_nodes g) (g_heap g) np ->
  (forall m, f_max (n_cfg (g_heap g np)) = Some m -> length (without o (n_children (g_heap g np))) < m) ->
  detach (g_heap g) o = Ok h1 -> add_child h1 np o (Some idx) = Ok h' ->
  moved g (set_heap g h') (n_id (g_heap g o)) (n_id (g_heap g np)) idx.
Proof.
  intros g o np idx h1 h' W Ro Rn Hm E1 E2.
  destruct (attach_spec _ _ _ _ _ (Some idx) W Ro Rn Hm) as (h1' & h'' & F1 & F2 & _ & S & C & P).
  rewrite F1 in E1. injection E1 as ->. rewrite F2 in E2. injection E2 as ->.
  set (i := n_id (g_heap g o)). set (p := n_id (g_heap g np)).
  destruct (view_all g h' W S
     (fun j => if Nat.eqb j p then insert (Some idx) i (without i (kids g j)) else without i (kids g j))
     (fun j => if Nat.eqb j i then Some p else par g j)) as [VK VP].
  - intros x Rx. rewrite C by auto. rewrite kids_reg by auto.
    assert (X : ids_of (g_heap g) (without o (n_children (g_heap g x))) = without i (ids_of (g_heap g) (n_children (g_heap g x)))).
    { eapply ids_without; eauto. intros c Hc. eapply hw_child; eauto. }
    destruct (Nat.eqb_spec x np) as [->|Hne].
    + unfold p. rewrite Nat.eqb_refl. unfold ids_of at 1. rewrite insert_map. f_equal. exact X.
    + destruct (Nat.eqb_spec (n_id (g_heap g x)) p) as [E'|]; [elim Hne; eapply reg_eq; eauto|exact X].
  - intros j Hj. rewrite kids_nil by auto. destruct (Nat.eqb_spec j p) as [->|]; [|reflexivity].
    elim Hj. apply reg_present. exact Rn.
  - intros x Rx. rewrite P, par_reg by auto. destruct (Nat.eqb_spec x o) as [->|Hne]; [unfold i; rewrite Nat.eqb_refl; reflexivity|].
    destruct (Nat.eqb_spec (n_id (g_heap g x)) i) as [E'|]; [|reflexivity]. elim Hne. eapply reg_eq; eauto.
  - intros j Hj. rewrite par_none by auto. destruct (Nat.eqb_spec j i) as [->|]; [|reflexivity].
    elim Hj. apply reg_present. exact Ro.
  - split; [apply set_heap_links; auto|]. split; [|split; [|exact VP]].
    + intros j Hj. rewrite VK. apply Nat.eqb_neq in Hj. rewrite Hj. reflexivity.
    + rewrite VK, Nat.eqb_refl. apply insert_placed.
Qed.

(** Only the mirror changes afterwards. *)
Lemma only_links_om : forall a b c, only_links a b -> only_mirror b c -> only_links a c.
Proof.
  intros a b c (A1 & A2 & A3 & A4 & A5) H. pose proof (om_same _ _ H) as (B1 & _ & _ & B2 & B3 & B4 & B5).
  unfold only_links. split; [congruence|]. split; [intros; rewrite B2; auto|]. repeat split; congruence.
Qed.
Lemma detached_om : forall a b c i, detached a b i -> only_mirror b c -> detached a c i.
Proof.
  intros a b c i (A & B & C) H. pose proof (om_same _ _ H) as (_ & K & P & _).
  split; [eapply only_links_om; eauto|]. split; intros; [rewrite K; auto|rewrite P; auto].
Qed.
Lemma moved_om : forall a b c i p k, moved a b i p k -> only_mirror b c -> moved a c i p k.
Proof.
  intros a b c i p k (A & B & C & D) H. pose proof (om_same _ _ H) as (_ & K & P & _).
  split; [eapply only_links_om; eauto|]. split; [intros; rewrite K; auto|]. split; [rewrite K; auto|intros; rewrite P; auto].
Qed.

Definition movable (g : mgr) (i p : nid) : Prop :=
  present g i /\ (p = 0 \/ (present g p /\ ~ full g p /\ ~ In p (descendants g i))).

Lemma full_reg : forall g o, reg (g_nodes g) (g_heap g) o ->
  (full g (n_id (g_heap g o)) <-> exists m, f_max (n_cfg (g_heap g o)) = Some m /\ length (n_children (g_heap g o)) = m).
Proof.
  intros g o R. unfold full. rewrite cfg_reg, kids_reg by auto. unfold ids_of. rewrite map_length. split.
  - intros (c & m & E & H). injection E as <-. eauto.
  - intros (m & H). eauto.
Qed.

Lemma move_node_spec : forall t pt k g g' r, HWg g -> move_node t pt k g = (g', r) ->
  HWg g' /\
  ((r = Ok tt /\ g_state g = EDITABLE /\ exists i p, ros_to_uuid t = Some i /\ ros_to_uuid pt = Some p /\ movable g i p /\
      ((p = 0 /\ detached g g' i) \/ (p <> 0 /\ moved g g' i p k))) \/
   (only_mirror g g' /\ (exists e, r = Err e) /\
      ~ (g_state g = EDITABLE /\ exists i p, ros_to_uuid t = Some i /\ ros_to_uuid pt = Some p /\ movable g i p))).
Proof.
  intros t pt k g g' r W H. apply edit_service_cases in H.
  destruct H as [(Hs & -> & ->)|(Hs & g1 & H & ->)].
  { split; auto. right. split; [apply om_refl|]. split; [eauto|]. intros [X _]. auto. }
  assert (Refuse : g1 = g -> (exists e, r = Err e) ->
    ~ (exists i p, ros_to_uuid t = Some i /\ ros_to_uuid pt = Some p /\ movable g i p) ->
    HWg (publish_structure g1) /\
    ((r = Ok tt /\ g_state g = EDITABLE /\ exists i p, ros_to_uuid t = Some i /\ ros_to_uuid pt = Some p /\ movable g i p /\
      ((p = 0 /\ detached g (publish_structure g1) i) \/ (p <> 0 /\ moved g (publish_structure g1) i p k))) \/
   (only_mirror g (publish_structure g1) /\ (exists e, r = Err e) /\
      ~ (g_state g = EDITABLE /\ exists i p, ros_to_uuid t = Some i /\ ros_to_uuid pt = Some p /\ movable g i p)))).
  { intros -> He Hn. split; [eapply om_HW; [apply om_publish|exact W]|]. right. split; [apply om_publish|]. split; auto. tauto. }
  destruct (ros_to_uuid t) as [i|] eqn:Et; [|injection H as <- <-; apply Refuse; eauto; intros (? & ? & X & _); discriminate].
  destruct (ros_to_uuid pt) as [p|] eqn:Ep; [|injection H as <- <-; apply Refuse; eauto; intros (? & ? & _ & X & _); discriminate].
  destruct (nget i (g_nodes g)) as [o|] eqn:Eo.
  2:{ injection H as <- <-; apply Refuse; eauto; intros (? & ? & X & _ & [Y _]). injection X as <-. apply Y. exact Eo. }
  destruct (HWg_ids _ _ _ W Eo) as (Ro & Ei & _).
  destruct (detach_spec _ _ _ _ W Ro) as (h1 & E1 & W1 & S1 & _).
  assert (Pi : present g i) by (unfold present; rewrite Eo; discriminate).
  destruct (Nat.eqb_spec p 0) as [->|Hp0].
  - assert (D : g1 = sync_children (set_heap g h1) /\ r = Ok tt).
    { unfold detach in E1. rewrite Ei in E1. destruct (n_parent (g_heap g o)) as [po|].
      - destruct (remove_child (g_heap g) po i) as [[h2 c2]|e|]; try discriminate. injection E1 as ->. injection H as <- <-. auto.
      - injection E1 as <-. injection H as <- <-. destruct g; auto. }
    destruct D as [-> ->]. clear H Refuse.
    assert (OM : only_mirror (set_heap g h1) (publish_structure (sync_children (set_heap g h1))))
      by (eapply om_trans; [apply om_sync|apply om_publish]).
    split; [eapply om_HW; [exact OM|exact W1]|]. left. split; auto. split; auto. exists i, 0. split; auto. split; auto.
    split; [split; auto|]. left. split; auto. eapply detached_om; [|exact OM]. rewrite <- Ei. apply detach_view; auto.
  - destruct (nget p (g_nodes g)) as [np|] eqn:Enp.
    2:{ injection H as <- <-; apply Refuse; eauto; intros (? & ? & X & Y & [_ [Z|[Z _]]]). congruence. injection Y as <-. apply Z. exact Enp. }
    destruct (HWg_ids _ _ _ W Enp) as (Rp & Epi & _).
    destruct (match f_max (n_cfg (g_heap g np)) with Some m => _ | None => _ end) eqn:Em.
    { injection H as <- <-; apply Refuse; eauto; intros (? & ? & X & Y & [_ [Z|[_ [Z _]]]]). congruence. injection Y as <-. apply Z.
      rewrite <- Epi. apply full_reg; auto. destruct (f_max (n_cfg (g_heap g np))) as [m|]; [|discriminate]. apply Nat.eqb_eq in Em. eauto. }
    rewrite Epi in H. destruct (mem p (descendants g i)) eqn:Ed.
    { injection H as <- <-; apply Refuse; eauto; intros (? & ? & X & Y & [_ [Z|[_ [_ Z]]]]). congruence. injection X as <-. injection Y as <-.
      apply Z, mem_In. exact Ed. }
    apply mem_nIn in Ed.
    assert (Hm : forall m, f_max (n_cfg (g_heap g np)) = Some m -> length (without o (n_children (g_heap g np))) < m).
    { intros m Hm. rewrite Hm in Em. apply Nat.eqb_neq in Em. pose proof (hw_max _ _ _ W _ _ Rp Hm).
      assert (length (without o (n_children (g_heap g np))) <= length (n_children (g_heap g np))) by apply length_filter_le.
      lia. }
    destruct (attach_spec _ _ _ _ _ (Some k) W Ro Rp Hm) as (h1' & h' & F1 & F2 & W' & S & _).
    rewrite F1 in E1. injection E1 as ->.
    fold (detach (g_heap g) o) in H. rewrite F1, F2 in H. injection H as <- <-. clear Refuse.
    assert (OM : only_mirror (set_heap g h') (publish_structure (sync_children (set_heap g h'))))
      by (eapply om_trans; [apply om_sync|apply om_publish]).
    split; [eapply om_HW; [exact OM|exact W']|]. left. split; auto. split; auto. exists i, p. split; auto. split; auto. split.
    + split; auto. right. split; [unfold present; rewrite Enp; discriminate|]. split; auto.
      rewrite <- Epi. rewrite full_reg by auto. intros (m & X & Y). rewrite X in Em. apply Nat.eqb_neq in Em. auto.
    + right. split; auto. eapply moved_om; [|exact OM]. rewrite <- Ei, <- Epi. eapply attach_view; eauto.
Qed.

(** No cycle is created. *)
Lemma moved_child : forall g g' i p k a b, linked g -> moved g g' i p k -> child_of g' a b ->
  (a = p /\ b = i) \/ child_of g a b.
Proof.
  intros g g' i p k a b L (_ & K & Pl & P) H. unfold child_of in *. destruct (Nat.eq_dec a p) as [->|Hne].
  - destruct Pl as (x & y & E1 & E2 & _). rewrite E2 in H. apply in_app_or in H.
    assert (X : In b (without i (kids g p)) \/ b = i).
    { rewrite E1. destruct H as [H|[H|H]]; [left|right|left]; auto; apply in_or_app; auto. }
    destruct X as [X | ->]; auto. apply In_without in X. tauto.
  - rewrite K in H by auto. apply In_without in H. tauto.
Qed.
Lemma moved_below : forall g g' i p k a b, linked g -> moved g g' i p k -> below g' a b ->
  below g a b \/ ((a = p \/ below g a p) /\ (b = i \/ below g i b)).
Proof.
  intros g g' i p k a b L M H. induction H as [a b H|a b c _ IH1 _ IH2].
  - destruct (moved_child _ _ _ _ _ _ _ L M H) as [[-> ->]|X]; [right; auto|left; apply t_step; auto].
  - destruct IH1 as [IH1|[A1 B1]], IH2 as [IH2|[A2 B2]].
    + left. eapply t_trans; eauto.
    + right. split; auto. right. destruct A2 as [->|A2]; auto. eapply t_trans; eauto.
    + right. split; auto. right. destruct B1 as [->|B1]; auto. eapply t_trans; eauto.
    + right. auto.
Qed.
Lemma moved_acyclic : forall g g' i p k, linked g -> moved g g' i p k -> acyclic g -> p <> i -> ~ below g i p -> acyclic g'.
Proof.
  intros g g' i p k L M A Hne Hb x Hx. destruct (moved_below _ _ _ _ _ _ _ L M Hx) as [X|[X Y]]; [exact (A x X)|].
  destruct X as [->|X], Y as [Y|Y]; subst; auto. apply Hb. eapply t_trans; eauto.
Qed.
