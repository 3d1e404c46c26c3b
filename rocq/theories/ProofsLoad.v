(** Proofs about loading: which messages can be loaded, files, reloading. *)
From Coq Require Import Ascii String ZArith Bool Arith Lia Relations List.
From Verif Require Import Base ModelData ModelEdit ModelMsg SpecEdit SpecMsg ProofsEdit ProofsEditOps ProofsEditMove ProofsEditCycle ProofsEditWire ProofsEditHist ProofsEditLast ProofsMsg.
Import ListNotations.

(** ** Which messages can be loaded *)

Lemma load_nodes_ok : forall l g, (forall m, In m l -> exists n c, ros_to_uuid (ms_id m) = Some n /\ ms_inst m = Ok c) ->
  exists g', load_nodes l g = (g', Ok tt).
Proof.
  induction l as [|m l IH]; intros g H; [eexists; reflexivity|]. cbn [load_nodes].
  destruct (H m (or_introl eq_refl)) as (n & c & En & Ec). unfold instantiate. rewrite Ec, En.
  destruct (register g n c) as [g1 o]. apply IH. intros m' Hm. apply H. right. exact Hm.
Qed.

Lemma load_children_ok : forall o l g, HWg g -> reg (g_nodes g) (g_heap g) o -> NoDup (map ros_to_uuid l) ->
  (forall t, In t l -> exists c, ros_to_uuid t = Some c /\ present g c /\ par g c = None) ->
  (forall m, f_max (n_cfg (g_heap g o)) = Some m -> length (kids g (n_id (g_heap g o))) + length l <= m) ->
  exists g', load_children o l g = (g', Ok tt).
Proof.
  intros o. induction l as [|t l IH]; intros g W R Nd Hc Hm; [eexists; reflexivity|].
  cbn [load_children]. destruct (Hc t (or_introl eq_refl)) as (c & Et & Pc & Qc). rewrite Et.
  unfold present in Pc. destruct (nget c (g_nodes g)) as [co|] eqn:Ec; [|contradiction].
  destruct (HWg_ids _ _ _ W Ec) as (Rc & Ic & _).
  destruct (add_child_total (g_heap g) o co None) as [h Eh].
  { intros m Em. specialize (Hm m Em). rewrite kids_reg in Hm by exact R. unfold ids_of in Hm. rewrite map_length in Hm. cbn in Hm. lia. }
  { rewrite Ic, <- kids_reg by exact R. intros X. destruct (li_child _ (HW_linked _ W) _ _ X) as [_ Y]. congruence. }
  rewrite Eh.
  assert (E1 : load_children o [t] g = (set_heap g h, Ok tt)) by (cbn [load_children]; rewrite Et, Ec, Eh; reflexivity).
  cbn [map] in Nd. apply NoDup_cons_iff in Nd. destruct Nd as [Nd1 Nd2].
  destruct (load_children_spec o [t] g (set_heap g h) (Ok tt) W R) as (W1 & (L1 & L2 & L3 & L4) & I1 & P1 & K1 & F1); auto.
  { cbn. constructor; [intros []|constructor]. }
  { intros d [Hd|[]]. rewrite Et in Hd. injection Hd as <-. exact Qc. }
  destruct (add_child_spec _ _ _ _ _ Eh) as (_ & _ & S & _).
  apply IH; auto.
  - apply (same_ids_reg _ _ _ o S). exact R.
  - intros t' Ht'. destruct (Hc t' (or_intror Ht')) as (d & Ed & Pd & Qd). exists d. split; auto. split; [exact Pd|].
    rewrite P1; auto. intros [X|[]]. rewrite Et in X. injection X as ->. apply Nd1. rewrite <- Et in Ed. rewrite Et, <- Et, <- Ed. apply in_map. exact Ht'.
  - intros m Em. cbn [set_heap g_heap] in Em. rewrite (proj2 (S o)) in Em. specialize (Hm m Em). rewrite I1.
    specialize (F1 eq_refl). apply (f_equal (@length _)) in F1. rewrite app_length, !map_length in F1. cbn in F1, Hm. lia.
Qed.

Lemma load_links_ok : forall l g, HWg g -> NoDup (map (fun m => ros_to_uuid (ms_id m)) l) ->
  NoDup (map ros_to_uuid (flat_map ms_children l)) ->
  (forall m, In m l -> exists n c, ros_to_uuid (ms_id m) = Some n /\ cfg g n = Some c /\ kids g n = [] /\
     match f_max c with Some k => length (ms_children m) <= k | None => True end) ->
  (forall m t, In m l -> In t (ms_children m) -> exists c, ros_to_uuid t = Some c /\ present g c /\ par g c = None) ->
  exists g', load_links l g = (g', Ok tt).
Proof.
  induction l as [|m l IH]; intros g W Nd Nc Hn Hc; [eexists; reflexivity|].
  cbn [map flat_map] in Nd, Nc. rewrite map_app in Nc. apply NoDup_cons_iff in Nd. destruct Nd as [Nd1 Nd2].
  destruct (NoDup_app_parts _ _ Nc) as (Nc1 & Nc2 & Nc3).
  destruct (Hn m (or_introl eq_refl)) as (n & c & En & Ecf & Ek & Em). cbn [load_links]. rewrite En.
  destruct (nget n (g_nodes g)) as [o|] eqn:Eo; [|unfold cfg, obj in Ecf; rewrite Eo in Ecf; discriminate].
  destruct (HWg_ids _ _ _ W Eo) as (Ro & Io & _).
  assert (Ecf' : n_cfg (g_heap g o) = c) by (unfold cfg, obj in Ecf; rewrite Eo in Ecf; cbn in Ecf; congruence).
  destruct (load_children_ok o (ms_children m) g W Ro Nc1) as [g1 E1].
  { intros t Ht. apply (Hc m t); [left; reflexivity|exact Ht]. }
  { intros k Hk. rewrite Io, Ek. cbn. rewrite Ecf' in Hk. rewrite Hk in Em. exact Em. }
  rewrite E1.
  assert (Q1 : forall c, In (Some c) (map ros_to_uuid (ms_children m)) -> par g c = None).
  { intros d Hd. apply in_map_iff in Hd. destruct Hd as (t & Et & It). destruct (Hc m t (or_introl eq_refl) It) as (d' & Ed & _ & Qd). congruence. }
  destruct (load_children_spec _ _ _ _ _ W Ro Nc1 Q1 E1) as (W1 & (L1 & L2 & L3 & L4) & _ & P1 & K1 & _).
  rewrite Io in K1. apply IH; auto.
  - intros m' Hm'. destruct (Hn m' (or_intror Hm')) as (n' & c' & En' & Ec' & Ek' & Em'). exists n', c'. split; auto. split; [rewrite L2; exact Ec'|].
    split; [|exact Em']. rewrite K1; [exact Ek'|]. intros ->. apply Nd1. rewrite En, <- En'. apply (in_map (fun m => ros_to_uuid (ms_id m))). exact Hm'.
  - intros m' t Hm' Ht. destruct (Hc m' t (or_intror Hm') Ht) as (d & Ed & Pd & Qd). exists d. split; auto.
    split; [unfold present; rewrite L1; exact Pd|]. rewrite P1; auto. intros X. apply (Nc3 _ X). rewrite <- Ed. apply in_map. apply in_flat_map. exists m'. auto.
Qed.

Lemma msg_id_unique : forall nodes m m' , NoDup (map (fun m => ros_to_uuid (ms_id m)) nodes) -> In m nodes -> In m' nodes ->
  ros_to_uuid (ms_id m) = ros_to_uuid (ms_id m') -> m = m'.
Proof.
  induction nodes as [|x l IH]; intros m m' Nd H H' E; [contradiction|]. cbn in Nd. apply NoDup_cons_iff in Nd. destruct Nd as [N1 N2].
  destruct H as [->|H], H' as [->|H']; auto.
  - elim N1. rewrite E. apply (in_map (fun m => ros_to_uuid (ms_id m))). exact H'.
  - elim N1. rewrite <- E. apply (in_map (fun m => ros_to_uuid (ms_id m))). exact H.
Qed.

Lemma load_complete : forall nodes ws name g, g_state g = EDITABLE -> loadable nodes ws ->
  exists g', load_tree nodes ws name g = (g', Ok tt).
Proof.
  intros nodes ws name g Hs ([F1 F2] & Hn & Hc & Hw).
  unfold load_tree, edit_service at 1. rewrite Hs. cbn [tstate_eqb negb]. rewrite clear_eq by exact Hs.
  set (g00 := mkG (g_heap g) (g_next g) [] [] [] EDITABLE (Some 0) "UNKNOWN TREE" (g_pub g)).
  assert (W00 : HWg g00) by (split; cbn; try discriminate; constructor).
  pose proof (om_publish g00) as M0. set (g0 := publish_structure g00) in *.
  assert (W0 : HWg g0) by (eapply om_HW; [exact M0|exact W00]).
  assert (Np : forall n, ~ present g0 n) by (intros n Hp; unfold present in Hp; destruct M0 as (_ & _ & E & _); rewrite E in Hp; apply Hp; reflexivity).
  clearbody g0. clear M0.
  destruct (load_nodes_ok nodes g0) as [g1 E1].
  { intros m Hm. destruct (Hn m Hm) as (n & c & A & B & _). eauto. }
  rewrite E1. destruct (load_nodes_spec _ _ _ _ W0 F1 (fun n _ => Np n) E1) as (W1 & P1 & K1 & _ & R1). destruct (R1 eq_refl) as (O1 & _ & C1).
  assert (Pr : forall n c, node_of nodes n c -> cfg g1 n = Some c /\ present g1 n).
  { intros n c (m & Im & Em & Ec). destruct (C1 m n Im Em) as (c' & Ec' & X). assert (c' = c) by congruence. subst. split; [exact X|].
    unfold present. unfold cfg, obj in X. destruct (nget n (g_nodes g1)); [discriminate|discriminate]. }
  destruct (load_links_ok nodes g1 W1 F1 F2) as [g2 E2].
  { intros m Hm. destruct (Hn m Hm) as (n & c & En & Ec & Em). exists n, c. split; auto.
    destruct (Pr n c) as [X _]; [exists m; auto|]. split; [exact X|]. split; [rewrite K1; apply kids_nil, Np|exact Em]. }
  { intros m t Hm Ht. destruct (Hc m t Hm Ht) as (n & c & Et & X). exists n. split; auto. split; [apply (Pr n c X)|]. rewrite P1. apply par_none, Np. }
  rewrite E2. cbv zeta.
  assert (Par1 : forall c, In (Some c) (map ros_to_uuid (flat_map ms_children nodes)) -> par g1 c = None).
  { intros c _. rewrite P1. apply par_none. apply Np. }
  destruct (load_links_spec _ _ _ _ W1 F1 F2 Par1 E2) as (W2 & (L1 & L2 & L3 & L4) & _ & _).
  pose proof (check_wirings_all (sync_children g2) ws) as X. destruct (check_wirings (sync_children g2) false ws) as [ws'|].
  { eexists. reflexivity. }
  exfalso. destruct X as (w & Iw & B). apply B. destruct (Hw w Iw) as (s & t & sc & tc & so & ti & A1 & A2 & A3 & A4 & A5 & A6 & A7).
  exists s, t, sc, tc, so, ti. repeat (split; auto).
  - change (cfg (sync_children g2) s) with (cfg g2 s). rewrite L2. apply Pr. exact A3.
  - change (cfg (sync_children g2) t) with (cfg g2 t). rewrite L2. apply Pr. exact A4.
Qed.

Lemma loaded_loadable : forall g' nodes ws name, linked g' -> forest_msg nodes -> loaded g' nodes ws name ->
  (forall w, In w ws -> good_wiring g' w) -> loadable nodes ws.
Proof.
  intros g' nodes ws name L F (O & D & _ & _) Wi.
  assert (Idn : forall m, In m nodes -> exists n, ros_to_uuid (ms_id m) = Some n).
  { intros m Hm. apply (in_map (fun m => ros_to_uuid (ms_id m))) in Hm. rewrite <- O in Hm. apply in_map_iff in Hm. destruct Hm as (n & E & _). eauto. }
  assert (Has : forall n, present g' n -> exists c, node_of nodes n c /\ cfg g' n = Some c).
  { intros n Hn. apply nget_present in Hn. apply (in_map Some) in Hn. change (map fst (g_nodes g')) with (order g') in Hn. rewrite O in Hn.
    apply in_map_iff in Hn. destruct Hn as (m & Em & Im). destruct (D m n Im Em) as [(c & Ec & X) _]. exists c. split; [exists m; auto|exact X]. }
  split; [exact F|]. split; [|split].
  - intros m Hm. destruct (Idn m Hm) as [n En]. destruct (D m n Hm En) as [(c & Ec & X) K]. exists n, c. split; auto. split; auto.
    destruct (f_max c) as [k|] eqn:Ek; [|exact I]. pose proof (li_max _ L n c k X Ek) as Y.
    apply (f_equal (@length _)) in K. rewrite !map_length in K. rewrite <- K. exact Y.
  - intros m t Hm Ht. destruct (Idn m Hm) as [n En]. destruct (D m n Hm En) as [_ K].
    assert (X : In (ros_to_uuid t) (map Some (kids g' n))) by (rewrite K; apply in_map; exact Ht).
    apply in_map_iff in X. destruct X as (d & Ed & Id). destruct (li_child _ L _ _ Id) as [Pd _]. destruct (Has d Pd) as (c & Hc & _). exists d, c. auto.
  - intros w Hw. destruct (Wi w Hw) as (s & t & sc & tc & so & ti & A1 & A2 & A3 & A4 & A5 & A6 & A7).
    assert (Pq : forall n c, cfg g' n = Some c -> node_of nodes n c).
    { intros n c X. destruct (Has n) as (c' & Hc & Y); [unfold present; unfold cfg, obj in X; destruct (nget n (g_nodes g')); [discriminate|discriminate]|].
      assert (c' = c) by congruence. subst. exact Hc. }
    exists s, t, sc, tc, so, ti. repeat (split; auto).
Qed.

(** ** Paths *)

Lemma prefix_app : forall a b, prefix a (a ++ b) = true.
Proof. induction a as [|c a IH]; intros b; [destruct b; reflexivity|]. cbn. destruct (Ascii.ascii_dec c c); [apply IH|contradiction]. Qed.
Lemma prefix_split : forall a p, prefix a p = true -> p = (a ++ drop (String.length a) p)%string.
Proof.
  induction a as [|c a IH]; intros p H; [reflexivity|]. destruct p as [|d p]; [discriminate|]. cbn in H. destruct (Ascii.ascii_dec c d) as [->|]; [|discriminate].
  cbn. f_equal. apply IH. exact H.
Qed.
Lemma drop_app : forall a b, drop (String.length a) (a ++ b) = b.
Proof. induction a as [|c a IH]; intros b; [destruct b; reflexivity|]. cbn. apply IH. Qed.
Lemma drop_add : forall n m s, drop (n + m) s = drop m (drop n s).
Proof. induction n as [|n IH]; intros m s; [reflexivity|]. destruct s as [|c s]; cbn; [destruct m; reflexivity|]. apply IH. Qed.

Lemma up_to_slash_split : forall s, exists rest, s = (up_to_slash s ++ rest)%string /\ (rest = ""%string \/ exists r, rest = ("/" ++ r)%string).
Proof.
  induction s as [|c s IH]; [exists ""%string; auto|]. cbn. destruct (Ascii.eqb_spec c "/"%char) as [->|N].
  - exists (String "/"%char s). split; [reflexivity|]. right. exists s. reflexivity.
  - destruct IH as (rest & E & H). exists rest. split; [|exact H]. cbn. f_equal. exact E.
Qed.
Lemma up_to_slash_none : forall s a b, up_to_slash s <> (a ++ "/" ++ b)%string.
Proof.
  induction s as [|c s IH]; intros a b; cbn; [destruct a; discriminate|]. destruct (Ascii.eqb_spec c "/"%char) as [->|N]; [destruct a; discriminate|].
  destruct a as [|d a]; cbn; intros E; injection E; [intros _ X; congruence|]. intros E' _. exact (IH a b E').
Qed.
Lemma up_to_slash_unique : forall pkg rest, (forall a b, pkg <> (a ++ "/" ++ b)%string) -> (rest = ""%string \/ exists r, rest = ("/" ++ r)%string) ->
  up_to_slash (pkg ++ rest) = pkg.
Proof.
  induction pkg as [|c pkg IH]; intros rest N H; cbn.
  - destruct H as [->|(r & ->)]; reflexivity.
  - destruct (Ascii.eqb_spec c "/"%char) as [->|X]; [elim (N ""%string pkg); reflexivity|]. f_equal. apply IH; [|exact H].
    intros a b E. apply (N (String c a) b). cbn. f_equal. exact E.
Qed.

Lemma file_path_names : forall w p f, file_path w p = Ok f <-> names_file w p f.
Proof.
  intros w p f. unfold file_path, names_file. split.
  - destruct (prefix "file://" p) eqn:E1.
    + intros H. injection H as <-. left. apply (prefix_split "file://"). exact E1.
    + destruct (prefix "package://" p) eqn:E2; [|discriminate]. cbv zeta. intros H. right.
      pose proof (prefix_split "package://" p E2) as Ep. change (String.length "package://") with 10 in Ep.
      rewrite drop_add in H. destruct (up_to_slash_split (drop 10 p)) as (rest & Er & Hr).
      assert (Ed : drop (String.length (up_to_slash (drop 10 p))) (drop 10 p) = rest) by (rewrite Er at 2; apply drop_app).
      rewrite Ed in H. destruct (w_share w (up_to_slash (drop 10 p))) as [dir|] eqn:Es; [|discriminate]. injection H as <-.
      exists (up_to_slash (drop 10 p)), rest, dir. split; [rewrite <- Er; exact Ep|]. split; [exact Es|]. split; [reflexivity|]. split; [|exact Hr].
      intros a b. apply up_to_slash_none.
  - intros [->|(pkg & rest & dir & -> & Es & -> & N & Hr)].
    + rewrite (prefix_app "file://"). exact (f_equal Ok (drop_app "file://" f)).
    + change (prefix "file://" ("package://" ++ pkg ++ rest)%string) with false. rewrite (prefix_app "package://"). cbn iota. cbv zeta.
      rewrite drop_add. pose proof (drop_app "package://" (pkg ++ rest)) as X. change (String.length "package://") with 10 in X. rewrite X. rewrite up_to_slash_unique by auto. rewrite Es, drop_app. reflexivity.
Qed.

(** ** The content of files *)

Lemma version_lt_0 : forall v, version_ltb v (0, 0, 0) = false.
Proof. intros [[a b] c]. destruct a, b, c; reflexivity. Qed.

Lemma parse_more : forall cur l e t, match parse_docs cur l e (Some t) with
  | PTree t' b => t' = t /\ ((b = false /\ exists d, In d l /\ d <> DNone) \/ (b = true /\ Forall (eq DNone) l /\ e = YEnd))
  | PScan => e = YScan | PRaise => e = YOther end.
Proof.
  induction l as [|d l IH]; intros e t; cbn; [destruct e; auto|].
  destruct d; [|split; [reflexivity|left; split; [reflexivity|exists DOther; split; [left; auto|discriminate]]]|
    split; [reflexivity|left; split; [reflexivity|eexists; split; [left; reflexivity|discriminate]]]].
  specialize (IH e t). destruct (parse_docs cur l e (Some t)); auto. destruct IH as [-> [(-> & d & I & N)|(-> & F & ->)]]; split; auto.
  left. split; auto. exists d. split; [right; exact I|exact N].
Qed.

(** What reading gives. *)
Lemma parse_cases : forall cur docs e, match parse_tree_yaml cur docs e with
  | PTree t _ => (t_nodes t <> [] -> first_tree cur docs t) /\ (t_nodes t = [] -> nodeless cur docs e)
  | _ => ~ nodeless cur docs e end.
Proof.
  unfold parse_tree_yaml. intros cur. induction docs as [|d l IH]; intros e.
  - cbn. destruct e.
    + split; [intros H; elim H; reflexivity|]. intros _. left. auto.
    + intros [(_ & X)|[(a & v & b & r & X & _)|(t & (a & v & r & X & _) & _)]]; [discriminate X| |]; destruct a; discriminate X.
    + intros [(_ & X)|[(a & v & b & r & X & _)|(t & (a & v & r & X & _) & _)]]; [discriminate X| |]; destruct a; discriminate X.
  - destruct d as [| |v body].
    + cbn [parse_docs]. specialize (IH e).
      assert (N : forall t, first_tree cur l t -> first_tree cur (DNone :: l) t).
      { intros t (a & v & r & -> & F & S). exists (DNone :: a), v, r. split; [reflexivity|]. split; [constructor; auto|exact S]. }
      assert (N' : forall t, first_tree cur (DNone :: l) t -> first_tree cur l t).
      { intros t ([|x a] & v & r & E & F & S); [discriminate|]. injection E as <- ->. exists a, v, r. inversion F; auto. }
      assert (K : nodeless cur (DNone :: l) e <-> nodeless cur l e).
      { split.
        - intros [(F & E)|[([|x a] & v & b & r & X & F & Q)|(t & F & Et & Q)]]; [left; inversion F; auto|discriminate X| |].
          + injection X as <- ->. right. left. exists a, v, b, r. inversion F; auto.
          + right. right. exists t. split; [apply N'; exact F|]. split; [exact Et|]. destruct Q as [(a & d & b & d' & c & X & Q1 & Q2)|Q]; [|auto].
            left. destruct a as [|x a]; injection X as X0 X; [congruence|]. exists a, d, b, d', c. auto.
        - intros [(F & E)|[(a & v & b & r & X & F & Q)|(t & F & Et & Q)]]; [left; auto| |].
          + right. left. exists (DNone :: a), v, b, r. subst l. split; [reflexivity|]. split; [constructor; auto|exact Q].
          + right. right. exists t. split; [apply N; exact F|]. split; [exact Et|]. destruct Q as [(a & d & b & d' & c & X & Q)|Q]; [|auto].
            left. exists (DNone :: a), d, b, d', c. subst l. auto. }
      destruct (parse_docs cur l e None); rewrite K; auto. destruct IH as [A B]. split; [auto|exact B].
    + cbn. intros [(F & _)|[([|x a] & v & b & r & X & F & Q)|(t & ([|x a] & v & r & X & F & _) & _)]]; try discriminate X.
      * inversion F; discriminate.
      * injection X as <- _. inversion F; discriminate.
      * injection X as <- _. inversion F; discriminate.
    + (* a dictionary *)
      assert (Un : forall a v' b r, DTree v body :: l = (a ++ DTree v' b :: r)%list -> Forall (eq DNone) a -> v' = v /\ b = body /\ r = l).
      { intros [|x a] v' b r X F; injection X; intros; subst; auto. inversion F; discriminate. }
      assert (Bad : (v = VBad \/ (v = VMissing /\ version_ltb (0, 0, 0) cur = false)) -> ~ nodeless cur (DTree v body :: l) e).
      { intros V [(F & _)|[(a & v' & b & r & X & F & Q1 & Q2 & _)|(t & (a & v' & r & X & F & S) & _)]]; [inversion F; discriminate| |].
        - destruct (Un _ _ _ _ X F) as (-> & _ & _). destruct V as [->|(-> & V)]; [auto|]. rewrite Q2 in V; [discriminate|reflexivity].
        - destruct (Un _ _ _ _ X F) as (-> & _ & _). destruct S as (n & -> & _). destruct V as [V|(V & _)]; discriminate V. }
      assert (Old : v <> VBad -> (v = VMissing -> version_ltb (0, 0, 0) cur = true) -> ~ supported cur v -> nodeless cur (DTree v body :: l) e).
      { intros A B C. right. left. exists [], v, body, l. auto. }
      assert (NoBody : supported cur v -> body = None -> ~ nodeless cur (DTree v body :: l) e).
      { intros S B [(F & _)|[(a & v' & b & r & X & F & _ & _ & Q)|(t & (a & v' & r & X & F & _) & _)]]; [inversion F; discriminate| |].
        - destruct (Un _ _ _ _ X F) as (-> & _ & _). contradiction.
        - destruct (Un _ _ _ _ X F) as (_ & Y & _). subst body. discriminate Y. }
      assert (Read : forall t, supported cur v -> body = Some t -> match parse_docs cur l e (Some t) with
        | PTree t _ => (t_nodes t <> [] -> first_tree cur (DTree v body :: l) t) /\ (t_nodes t = [] -> nodeless cur (DTree v body :: l) e)
        | _ => ~ nodeless cur (DTree v body :: l) e end).
      { intros t S ->. pose proof (parse_more cur l e t) as P.
        assert (FT : first_tree cur (DTree v (Some t) :: l) t) by (exists [], v, l; auto).
        assert (NE : (e = YScan \/ e = YOther) -> (forall d, In d l -> d = DNone) -> ~ nodeless cur (DTree v (Some t) :: l) e).
        { intros E AllN [(F & _)|[(a & v' & b & r & X & F & _ & _ & Q)|(t' & _ & _ & Q)]]; [inversion F; discriminate| |].
          - destruct (Un _ _ _ _ X F) as (-> & _ & _). contradiction.
          - destruct Q as [(a & d & b & d' & c & X & Q1 & Q2)|Q]; [|destruct E; congruence]. apply Q2, AllN. destruct a as [|x a]; injection X as _ X; subst l.
            + apply in_or_app. right. left. reflexivity.
            + apply in_or_app. right. right. apply in_or_app. right. left. reflexivity. }
        assert (AllN : forall x, parse_docs cur l e (Some t) = x -> (forall t b, x <> PTree t b) -> forall d, In d l -> d = DNone).
        { clear. intros x E N d. revert E. induction l as [|y l IH]; intros E Hd; [contradiction|]. cbn in E.
          destruct y; [|subst x; elim (N t false); reflexivity|subst x; elim (N t false); reflexivity]. destruct Hd as [<-|Hd]; auto. }
        destruct (parse_docs cur l e (Some t)) as [t' b| |].
        - destruct P as [-> Q]. split; [auto|]. intros Et. right. right. exists t. split; [exact FT|]. split; [exact Et|].
          destruct Q as [(_ & d & I & N)|(_ & _ & ->)]; [|auto]. left. apply in_split in I. destruct I as (b1 & c & ->).
          exists [], (DTree v (Some t)), b1, d, c. split; [reflexivity|]. split; [discriminate|exact N].
        - apply NE; [auto|]. apply (AllN _ eq_refl). discriminate.
        - apply NE; [auto|]. apply (AllN _ eq_refl). discriminate. }
      cbn [parse_docs]. destruct v as [| |n].
      * destruct (version_ltb (0, 0, 0) cur) eqn:V; [|apply Bad; auto].
        cbn. split; [intros H; elim H; reflexivity|]. intros _. apply Old; [discriminate|auto|]. intros (n & X & _). discriminate.
      * apply Bad. auto.
      * destruct (version_ltb n cur) eqn:V.
        -- unfold migrate. destruct (version_ltb n (1, 0, 0)) eqn:V1.
           ++ cbn. split; [intros H; elim H; reflexivity|]. intros _. apply Old; [discriminate|discriminate|]. intros (n' & X & Y). injection X as <-. rewrite (Y V) in V1. discriminate.
           ++ assert (S : supported cur (VNum n)) by (exists n; auto). destruct body as [t|]; cbn [set_fields]; [apply Read; auto|apply NoBody; auto].
        -- assert (S : supported cur (VNum n)) by (exists n; split; [auto|congruence]). destruct body as [t|]; cbn [set_fields]; [apply Read; auto|apply NoBody; auto].
Qed.

(** ** Reading the file *)

Lemma names_nonempty : forall w p f, names_file w p f -> String.eqb p "" = false.
Proof. intros w p f [->|(pkg & rest & dir & -> & _)]; reflexivity. Qed.

Lemma loop_ok : forall w p n k t own t' own', t_path t = p -> load_loop n k w p t own = Some (LOk t' own') ->
  (t' = t /\ own' = own /\ t_nodes t <> []) \/ (own' = false /\ t_nodes t = [] /\ exists j t0, yields w j p t0 /\ t' = with_path t0 p).
Proof.
  intros w p. induction n as [|n IH]; intros k t own t' own' Ep H; cbn [load_loop] in H.
  - destruct (t_nodes t) eqn:Et; [discriminate|]. injection H as <- <-. left. split; auto. split; auto. discriminate.
  - destruct (t_nodes t) eqn:Et; [|injection H as <- <-; left; split; auto; split; auto; discriminate].
    right. rewrite Ep in H. destruct (String.eqb p "") eqn:E0; [discriminate|]. destruct (file_path w p) as [f| |] eqn:Ef; try discriminate.
    destruct (w_file w k f) as [| |docs e] eqn:Ew; try discriminate.
    pose proof (parse_cases (w_version w) docs e) as P. destruct (parse_tree_yaml (w_version w) docs e) as [t1 b| |]; try discriminate.
    apply IH in H; [|reflexivity]. destruct H as [(-> & -> & N)|(-> & _ & j & t0 & Y & ->)].
    + split; auto. split; auto. exists k, t1. split; [|reflexivity]. exists f, docs, e. split; [apply file_path_names; exact Ef|]. split; [exact Ew|].
      split; [apply P; exact N|exact N].
    + split; auto. split; auto. exists j, t0. auto.
Qed.

Lemma loop_hangs : forall w p f docs e, steady_files w -> names_file w p f -> w_file w 0 f = FText docs e -> nodeless (w_version w) docs e ->
  forall n k t own, t_path t = p -> t_nodes t = [] -> load_loop n k w p t own = None.
Proof.
  intros w p f docs e S Nf Ef Nl. induction n as [|n IH]; intros k t own Ep Et; cbn [load_loop]; rewrite Et; [reflexivity|].
  rewrite Ep, (names_nonempty _ _ _ Nf), (proj2 (file_path_names w p f) Nf), (S k 0), Ef.
  pose proof (parse_cases (w_version w) docs e) as P. destruct (parse_tree_yaml (w_version w) docs e) as [t1 b| |]; try contradiction.
  destruct (t_nodes t1) eqn:E1; [apply IH; [reflexivity|exact E1]|]. exfalso.
  (* a tree with nodes is not nodeless *)
  assert (F : first_tree (w_version w) docs t1) by (apply P; discriminate). destruct F as (a & v & r & -> & Fa & Su).
  assert (Un : forall a' v' b' r', (a ++ DTree v (Some t1) :: r = a' ++ DTree v' b' :: r')%list -> Forall (eq DNone) a' -> v' = v /\ b' = Some t1).
  { clear -Fa. revert Fa. induction a as [|x a IH]; intros Fa [|x' a'] v' b' r' X F'; cbn in X; injection X; intros; subst.
    - auto.
    - inversion F'; discriminate.
    - inversion Fa; discriminate.
    - inversion Fa; inversion F'; eauto. }
  destruct Nl as [(X & _)|[(a' & v' & b' & r' & X & Fa' & _ & _ & Q)|(t' & (a' & v' & r' & X & Fa' & _) & Et' & _)]].
  - apply Forall_app in X. destruct X as [_ X]. inversion X. discriminate.
  - destruct (Un _ _ _ _ X Fa') as [-> _]. contradiction.
  - destruct (Un _ _ _ _ X Fa') as [_ Y]. injection Y as ->. congruence.
Qed.

Lemma loop_returns : forall w p, steady_files w ->
  (forall f docs e, names_file w p f -> w_file w 0 f = FText docs e -> ~ nodeless (w_version w) docs e) ->
  forall n k t own, t_path t = p -> exists x, load_loop (S n) k w p t own = Some x.
Proof.
  intros w p S N n k t own Ep. cbn [load_loop]. destruct (t_nodes t); [|eexists; reflexivity]. rewrite Ep.
  destruct (String.eqb p ""); [eexists; reflexivity|]. destruct (file_path w p) as [f| |] eqn:Ef; try (eexists; reflexivity).
  rewrite (S k 0). destruct (w_file w 0 f) as [| |docs e] eqn:Ew; try (eexists; reflexivity).
  pose proof (parse_cases (w_version w) docs e) as P. destruct (parse_tree_yaml (w_version w) docs e) as [t1 b| |]; try (eexists; reflexivity).
  destruct (t_nodes t1) eqn:E1; [elim (N f docs e); [apply file_path_names; exact Ef|exact Ew|apply P; reflexivity]|].
  assert (X : t_nodes (with_path t1 p) = n0 :: l) by exact E1. destruct n; cbn [load_loop]; rewrite X; eexists; reflexivity.
Qed.

(** ** load_tree *)

Section WithMessages.
Variable describe : nobj -> instance.
Variable depth : nat.

Lemma publish_g : forall s s' r, publish_msg describe depth s = (s', r) ->
  s_g s' = publish_structure (s_g s) /\ s_path s' = s_path s /\ s_freq s' = s_freq s.
Proof.
  intros s s' r. unfold publish_msg, publish_structure. destruct (g_pub (s_g s)); [|intros H; injection H as <- <-; auto].
  unfold structure_to_msg. destruct (find_root (s_g s)) as [g x]. destruct x as [[o|]|e|];
    try (intros H; injection H as <- <-; auto).
  destruct (get_subtree_msg describe depth (g_heap g) o); intros H; injection H as <- <-; auto.
Qed.
Lemma finally_g : forall s r s' r', finally_publish describe depth (s, r) = (s', r') ->
  s_g s' = publish_structure (s_g s) /\ s_path s' = s_path s /\ s_freq s' = s_freq s /\ (r' = r \/ r' = Raise).
Proof.
  intros s r s' r'. unfold finally_publish. destruct (publish_msg describe depth s) as [s1 r1] eqn:E.
  destruct (publish_g _ _ _ E) as (A & B & C). destruct r1; intros H; injection H as <- <-; auto.
Qed.

(** Publishing works on a tree that is linked, if calls may be nested deeply enough. *)
Lemma publish_ok : forall s, HWg (s_g s) -> length (order (s_g s)) <= depth -> exists s', publish_msg describe depth s = (s', Ok tt).
Proof.
  intros s W D. unfold publish_msg. destruct (g_pub (s_g s)); [|eexists; reflexivity].
  destruct (structure_spec describe depth s W) as (s' & t & -> & _); [|eexists; reflexivity].
  intros _ _. unfold order in D. rewrite map_length in D. exact D.
Qed.

(** After clear nothing is left; the node list of the message is emptied when the
    structure is published. *)
Lemma clear_msg_eq : forall s, g_state (s_g s) = EDITABLE -> exists s0, clear_msg describe depth s = (s0, Ok tt) /\
  s_g s0 = publish_structure (mkG (g_heap (s_g s)) (g_next (s_g s)) [] [] [] EDITABLE (Some 0) "UNKNOWN TREE" (g_pub (s_g s))) /\
  s_path s0 = ""%string /\ s_ins s0 = [] /\ s_outs s0 = [] /\ s_freq s0 = s_freq s /\
  s_nodes s0 = (if g_pub (s_g s) then [] else s_nodes s).
Proof.
  intros s Hs. unfold clear_msg. rewrite Hs. cbn [tstate_eqb negb]. unfold finally_publish, publish_msg, publish_structure. cbn [s_g g_pub].
  destruct (g_pub (s_g s)); eexists; split; reflexivity || (repeat split; reflexivity).
Qed.

Lemma load_body_given : forall look s s' r, g_state (s_g s) = EDITABLE -> load_body describe depth look s = (s', r) ->
  exists s0, clear_msg describe depth s = (s0, Ok tt) /\
  load_tree (t_nodes (look s0)) (t_wires (look s0)) (t_name (look s0)) (s_g s) = (publish_structure (s_g s'), r) /\
  (r = Ok tt -> s_path s' = t_path (look s0) /\ s_ins s' = t_ins (look s0) /\ s_outs s' = t_outs (look s0) /\
     s_freq s' = if Z.eqb (t_freq (look s0)) 0 then 10%Z else t_freq (look s0)).
Proof.
  intros look s s' r Hs H. destruct (clear_msg_eq s Hs) as (s0 & E0 & Eg & _). exists s0. split; [exact E0|].
  unfold load_body in H. rewrite E0 in H. cbv zeta in H.
  unfold load_tree, edit_service at 1. rewrite Hs. cbn [tstate_eqb negb]. rewrite clear_eq, <- Eg by exact Hs.
  destruct (load_nodes (t_nodes (look s0)) (s_g s0)) as [g1 r1].
  destruct r1; [|injection H as <- <-; split; [reflexivity|discriminate]|injection H as <- <-; split; [reflexivity|discriminate]].
  destruct (load_links (t_nodes (look s0)) g1) as [g2 r2].
  destruct r2; [|injection H as <- <-; split; [reflexivity|discriminate]|injection H as <- <-; split; [reflexivity|discriminate]]. cbv zeta.
  destruct (check_wirings (sync_children g2) false (t_wires (look s0))) as [ws|]; injection H as <- <-; [|split; [reflexivity|discriminate]].
  split; [reflexivity|]. intros _. repeat split; reflexivity.
Qed.

Lemma edit_inv : forall f s s' r, edit_service_msg describe depth f s = Some (s', r) -> g_state (s_g s) = EDITABLE ->
  exists s1 r1, f s = Some (s1, r1) /\ finally_publish describe depth (s1, r1) = (s', r).
Proof.
  intros f s s' r H Hs. unfold edit_service_msg in H. rewrite Hs in H. cbn [tstate_eqb negb] in H.
  destruct (f s) as [[s1 r1]|]; [|discriminate]. exists s1, r1. split; [reflexivity|]. cbn [option_map] in H. injection H as H. exact H.
Qed.
Lemma loaded_om : forall g g' n w s, only_mirror g g' -> loaded g n w s -> loaded g' n w s.
Proof.
  intros g g' n w s M (A & B & C & D). destruct (om_same _ _ M) as (O & K & _ & Cf & Wi & Nm & _). unfold loaded. rewrite O, Wi, Nm.
  split; [exact A|]. split; [|auto]. intros m i Hm Hi. rewrite K, Cf. apply B; auto.
Qed.

(** The part after the file was read, for a message that is not the manager's own. *)
Lemma load_given_ok : forall t s s1, g_state (s_g s) = EDITABLE -> load_body describe depth (fun _ => t) s = (s1, Ok tt) ->
  load_tree (t_nodes t) (t_wires t) (t_name t) (s_g s) = (publish_structure (s_g s1), Ok tt) /\ s_path s1 = t_path t /\
  s_ins s1 = t_ins t /\ s_outs s1 = t_outs t.
Proof.
  intros t s s1 Hs H. destruct (load_body_given _ s s1 (Ok tt) Hs H) as (s0 & _ & A & B). destruct (B eq_refl) as (B1 & B2 & B3 & _). auto.
Qed.

Lemma load_msg_inv : forall n w t s s', g_state (s_g s) = EDITABLE -> load_tree_msg describe depth n w (Given t) s = Some (s', Ok tt) ->
  exists t', load_tree (t_nodes t') (t_wires t') (t_name t') (s_g s) = (s_g s', Ok tt) /\ s_path s' = t_path t /\
  ((t' = t /\ t_nodes t <> []) \/ (t_nodes t = [] /\ exists k t0, yields w k (t_path t) t0 /\ t' = with_path t0 (t_path t))).
Proof.
  intros n w t s s' Hs H. unfold load_tree_msg in H. destruct (edit_inv _ _ _ _ H Hs) as (s1 & r1 & E & F).
  destruct (load_tree_from_file n w t) as [x|] eqn:El; [|discriminate].
  destruct (finally_g _ _ _ _ F) as (Fg & Fp & _ & [Fr|Fr]); [|discriminate]. subst r1.
  destruct x as [t' own| |]; try discriminate. injection E as E.
  destruct (load_given_ok t' s s1 Hs E) as (A & B & _). exists t'. split; [rewrite Fg; exact A|].
  destruct (loop_ok _ _ _ _ _ _ _ _ eq_refl El) as [(-> & _ & N)|(_ & N & k & t0 & Y & ->)].
  - split; [congruence|]. left. auto.
  - split; [rewrite Fp, B; reflexivity|]. right. split; [exact N|]. eauto.
Qed.

Lemma om_untouched : forall s s', only_mirror (s_g s) (s_g s') -> s_path s' = s_path s -> s_freq s' = s_freq s -> untouched s s'.
Proof. intros s s' M P F. split; [apply om_same; exact M|auto]. Qed.

Lemma load_msg_kept : forall n w t s s' r, g_state (s_g s) = EDITABLE -> t_nodes t = [] -> (forall k t0, ~ yields w k (t_path t) t0) ->
  load_tree_msg describe depth n w (Given t) s = Some (s', r) ->
  is_ok r = false /\ only_mirror (s_g s) (s_g s') /\ s_path s' = s_path s /\ s_freq s' = s_freq s.
Proof.
  intros n w t s s' r Hs Et N H. unfold load_tree_msg in H. destruct (edit_inv _ _ _ _ H Hs) as (s1 & r1 & E & F).
  destruct (load_tree_from_file n w t) as [x|] eqn:El; [|discriminate].
  destruct (finally_g _ _ _ _ F) as (Fg & Fp & Ff & Fr).
  assert (X : s1 = s /\ is_ok r1 = false).
  { destruct x as [t' own| |].
    - destruct (loop_ok _ _ _ _ _ _ _ _ eq_refl El) as [(_ & _ & X)|(_ & _ & k & t0 & Y & _)]; [contradiction|elim (N k t0 Y)].
    - injection E as <- <-. auto.
    - injection E as <- <-. auto. }
  destruct X as [-> Er]. split; [destruct Fr as [-> | ->]; auto|]. split; [rewrite Fg; apply om_publish|auto].
Qed.

Lemma from_path_inv : forall n w p s s', g_state (s_g s) = EDITABLE -> load_tree_from_path describe depth n w p s = Some (s', Ok tt) ->
  exists k t g1, yields w k p t /\ load_tree (t_nodes t) (t_wires t) (t_name t) (s_g s) = (g1, Ok tt) /\ only_mirror g1 (s_g s') /\ s_path s' = p.
Proof.
  intros n w p s s' Hs H. unfold load_tree_from_path in H. destruct (edit_inv _ _ _ _ H Hs) as (s1 & r1 & E & F).
  destruct (finally_g _ _ _ _ F) as (Fg & Fp & _ & [Fr|Fr]); [|discriminate]. subst r1.
  destruct (load_msg_inv _ _ _ _ _ Hs E) as (t' & A & B & [(-> & X)|(_ & k & t0 & Y & ->)]); [elim X; reflexivity|].
  exists k, t0, (s_g s1). split; [exact Y|]. split; [exact A|]. split; [rewrite Fg; apply om_publish|]. rewrite Fp, B. reflexivity.
Qed.
Lemma from_path_kept : forall n w p s s' r, g_state (s_g s) = EDITABLE -> (forall k t, ~ yields w k p t) ->
  load_tree_from_path describe depth n w p s = Some (s', r) -> is_ok r = false /\ untouched s s'.
Proof.
  intros n w p s s' r Hs N H. unfold load_tree_from_path in H. destruct (edit_inv _ _ _ _ H Hs) as (s1 & r1 & E & F).
  destruct (finally_g _ _ _ _ F) as (Fg & Fp & Ff & Fr).
  destruct (load_msg_kept n w (with_path no_tree p) s s1 r1 Hs eq_refl N E) as (A & M & P1 & F1).
  split; [destruct Fr as [-> | ->]; auto|]. apply om_untouched; [rewrite Fg; eapply om_trans; [exact M|apply om_publish]|congruence|congruence].
Qed.

Lemma edit_none : forall f s, g_state (s_g s) = EDITABLE -> (edit_service_msg describe depth f s = None <-> f s = None).
Proof.
  intros f s Hs. unfold edit_service_msg. rewrite Hs. cbn [tstate_eqb negb]. destruct (f s) as [[]|]; cbn; split; auto; discriminate.
Qed.
Lemma from_path_none : forall n w p s, g_state (s_g s) = EDITABLE ->
  (load_tree_from_path describe depth n w p s = None <-> load_loop n 0 w p (with_path no_tree p) true = None).
Proof.
  intros n w p s Hs. unfold load_tree_from_path. rewrite edit_none by exact Hs. unfold load_tree_msg. rewrite edit_none by exact Hs.
  unfold load_tree_from_file. cbn [t_path with_path]. destruct (load_loop n 0 w p (with_path no_tree p) true) as [[]|]; split; auto; discriminate.
Qed.

(** ** Loading what can be loaded *)

Lemma finally_ok : forall s r, HWg (s_g s) -> length (order (s_g s)) <= depth -> exists s', finally_publish describe depth (s, r) = (s', r) /\
  only_mirror (s_g s) (s_g s') /\ s_path s' = s_path s.
Proof.
  intros s r W D. unfold finally_publish. destruct (publish_ok s W D) as [s' E]. rewrite E. exists s'. split; [reflexivity|].
  destruct (publish_g _ _ _ E) as (-> & P & _). split; [apply om_publish|exact P].
Qed.
Lemma loaded_length : forall g n w s, loaded g n w s -> length (order g) = length n.
Proof. intros g n w s (A & _). apply (f_equal (@length _)) in A. rewrite !map_length in A. exact A. Qed.

Lemma load_body_total : forall t s, g_state (s_g s) = EDITABLE -> loadable (t_nodes t) (t_wires t) ->
  exists s1, load_body describe depth (fun _ => t) s = (s1, Ok tt) /\ HWg (s_g s1) /\ loaded (s_g s1) (t_nodes t) (t_wires t) (t_name t) /\ s_path s1 = t_path t.
Proof.
  intros t s Hs L. destruct (load_body describe depth (fun _ => t) s) as [s1 r] eqn:E.
  destruct (load_body_given _ s s1 r Hs E) as (s0 & E0 & A & B). destruct (load_complete _ _ (t_name t) _ Hs L) as [g' C].
  rewrite C in A. injection A as Eg <-. exists s1. split; [reflexivity|].
  destruct (load_spec _ _ _ _ _ _ Hs (proj1 L) C) as (W & Ld). specialize (Ld eq_refl). destruct (B eq_refl) as (P & _).
  assert (M : only_mirror (publish_structure (s_g s1)) (s_g s1)).
  { pose proof (om_publish (s_g s1)) as M. unfold only_mirror in *. intuition congruence. }
  rewrite Eg in W, Ld. split; [eapply om_HW; [exact M|exact W]|]. split; [eapply loaded_om; [exact M|exact Ld]|exact P].
Qed.

Lemma load_msg_total : forall n w t s, g_state (s_g s) = EDITABLE -> t_nodes t <> [] -> loadable (t_nodes t) (t_wires t) ->
  length (t_nodes t) <= depth ->
  exists s', load_tree_msg describe depth n w (Given t) s = Some (s', Ok tt) /\ HWg (s_g s') /\ loaded (s_g s') (t_nodes t) (t_wires t) (t_name t) /\
    s_path s' = t_path t.
Proof.
  intros n w t s Hs Nn L D. unfold load_tree_msg, edit_service_msg. rewrite Hs. cbn [tstate_eqb negb].
  assert (E : load_tree_from_file n w t = Some (LOk t true)).
  { unfold load_tree_from_file. destruct n; cbn [load_loop]; destruct (t_nodes t); reflexivity || (elim Nn; reflexivity). }
  rewrite E. destruct (load_body_total t s Hs L) as (s1 & E1 & W & Ld & P). rewrite E1. cbn [option_map].
  destruct (finally_ok s1 (Ok tt) W) as (s' & E' & M & P'); [rewrite (loaded_length _ _ _ _ Ld); exact D|]. rewrite E'.
  exists s'. split; [reflexivity|]. split; [eapply om_HW; eauto|]. split; [eapply loaded_om; eauto|congruence].
Qed.

Lemma from_path_total : forall n w p f t s, g_state (s_g s) = EDITABLE -> names_file w p f ->
  (exists v e docs, w_file w 0 f = FText (DTree v (Some t) :: docs) e /\ supported (w_version w) v /\ Forall (eq DNone) docs /\ e = YEnd) ->
  t_nodes t <> [] -> loadable (t_nodes t) (t_wires t) -> length (t_nodes t) <= depth ->
  exists s', load_tree_from_path describe depth (S n) w p s = Some (s', Ok tt) /\ HWg (s_g s') /\
    loaded (s_g s') (t_nodes t) (t_wires t) (t_name t) /\ s_path s' = p.
Proof.
  intros n w p f t s Hs Nf (v & e & docs & Ef & Su & Fd & ->) Nn L D.
  assert (E : load_tree_from_file (S n) w (with_path no_tree p) = Some (LOk (with_path t p) false)).
  { unfold load_tree_from_file. cbn [t_path with_path load_loop t_nodes no_tree].
    rewrite (names_nonempty _ _ _ Nf), (proj2 (file_path_names w p f) Nf), Ef.
    assert (P : parse_tree_yaml (w_version w) (DTree v (Some t) :: docs) YEnd = PTree t true).
    { assert (X : parse_docs (w_version w) docs YEnd (Some t) = PTree t true).
      { clear -Fd. induction Fd as [|d l <- F IH]; [reflexivity|]. exact IH. }
      destruct Su as (u & -> & Su). unfold parse_tree_yaml. cbn [parse_docs]. destruct (version_ltb u (w_version w)).
      - unfold migrate. rewrite Su by reflexivity. exact X.
      - exact X. }
    rewrite P. destruct n; cbn [load_loop]; change (t_nodes (with_path t p)) with (t_nodes t); destruct (t_nodes t); reflexivity || (elim Nn; reflexivity). }
  unfold load_tree_from_path, load_tree_msg, edit_service_msg. rewrite Hs. cbn [tstate_eqb negb]. rewrite E.
  destruct (load_body_total (with_path t p) s Hs L) as (s1 & E1 & W & Ld & P). cbn iota. rewrite E1. cbn [option_map].
  assert (Dn : forall g, loaded g (t_nodes (with_path t p)) (t_wires (with_path t p)) (t_name (with_path t p)) -> length (order g) <= depth).
  { intros g X. rewrite (loaded_length _ _ _ _ X). exact D. }
  destruct (finally_ok s1 (Ok tt) W) as (s2 & E2 & M2 & P2); [apply Dn; exact Ld|]. rewrite E2.
  assert (Ld2 : loaded (s_g s2) (t_nodes t) (t_wires t) (t_name t)) by (eapply loaded_om; eauto).
  destruct (finally_ok s2 (Ok tt) (om_HW _ _ M2 W)) as (s' & E' & M & P'); [apply Dn; exact Ld2|]. rewrite E'.
  exists s'. split; [reflexivity|]. split; [eapply om_HW; [exact M|]; eapply om_HW; eauto|]. split; [eapply loaded_om; eauto|].
  rewrite P', P2, P. reflexivity.
Qed.
End WithMessages.
