(** Proofs about editing, part 2: registering, removing and moving nodes. *)
From Coq Require Import String ZArith Bool Arith Lia Relations List.
From Verif Require Import Base ModelData ModelEdit SpecEdit ProofsEdit.
Import ListNotations.

Ltac eqs := repeat match goal with
  | |- context [Nat.eqb ?a ?b] => destruct (Nat.eqb_spec a b)
  | H : context [Nat.eqb ?a ?b] |- _ => destruct (Nat.eqb_spec a b)
  end.

Lemma HWg_ids : forall g i o, HWg g -> nget i (g_nodes g) = Some o ->
  reg (g_nodes g) (g_heap g) o /\ n_id (g_heap g o) = i /\ o < g_next g.
Proof. intros g i o W H. destruct (hw_id _ _ _ W _ _ H). split; [eapply nget_reg; eauto|auto]. Qed.

(** ** Changing only the heap *)

Lemma set_heap_view : forall g h', HWg g -> same_ids (g_heap g) h' -> forall o, reg (g_nodes g) (g_heap g) o ->
  kids (set_heap g h') (n_id (g_heap g o)) = ids_of (g_heap g) (n_children (h' o)) /\
  par (set_heap g h') (n_id (g_heap g o)) = option_map (fun p => n_id (g_heap g p)) (n_parent (h' o)) /\
  cfg (set_heap g h') (n_id (g_heap g o)) = cfg g (n_id (g_heap g o)).
Proof.
  intros g h' W S o R. unfold kids, par, cfg, obj. cbn [g_nodes g_heap set_heap]. rewrite R. cbn [option_map].
  rewrite (same_ids_of _ _ _ S). split; [reflexivity|]. split.
  - destruct (n_parent (h' o)); cbn; [|reflexivity]. f_equal. apply S.
  - f_equal. apply S.
Qed.

(** ** Registering a new node *)

Lemma register_HW : forall g u c, HWg g -> ~ present g u -> HWg (fst (register g u c)).
Proof.
  intros g u c W Hu. unfold present in Hu. destruct (nget u (g_nodes g)) eqn:Eu; [elim Hu; discriminate|]. clear Hu.
  set (o := g_next g).
  assert (Fresh : forall i x, nget i (g_nodes g) = Some x -> x <> o) by (intros i x Hx; destruct (hw_id _ _ _ W _ _ Hx); unfold o; lia).
  unfold register, HWg. cbn [fst g_nodes g_next g_heap]. fold o.
  set (h := upd (g_heap g) o (mkN u c None [])).
  assert (Ho : h o = mkN u c None []) by (unfold h, upd; rewrite Nat.eqb_refl; reflexivity).
  assert (Hx : forall x, x <> o -> h x = g_heap g x) by (intros x Hne; unfold h, upd; eqs; congruence).
  assert (R : forall x, reg (nset u o (g_nodes g)) h x <-> x = o \/ reg (g_nodes g) (g_heap g) x).
  { intros x. unfold reg. rewrite nget_nset. destruct (Nat.eq_dec x o) as [->|Hne].
    - rewrite Ho. cbn [n_id]. rewrite Nat.eqb_refl. tauto.
    - rewrite Hx by auto. destruct (Nat.eqb_spec (n_id (g_heap g x)) u) as [E|E].
      + rewrite E, Eu. split; [intros H; congruence|intros [H|H]; congruence].
      + tauto. }
  assert (Rne : forall x, reg (g_nodes g) (g_heap g) x -> x <> o) by (intros x Rx; eapply Fresh; exact Rx).
  split.
  - apply NoDup_nset. apply W.
  - intros i x. rewrite nget_nset. destruct (Nat.eqb_spec i u) as [->|Hi].
    + intros E. injection E as <-. rewrite Ho. cbn. unfold o. split; auto.
    + intros E. rewrite Hx by eauto. destruct (hw_id _ _ _ W _ _ E). split; [auto|]. unfold o. lia.
  - intros x Rx. apply R in Rx. destruct Rx as [->|Rx]; [rewrite Ho; constructor|].
    rewrite Hx by auto. apply (hw_nodup _ _ _ W); auto.
  - intros x d Rx Hd. apply R in Rx. destruct Rx as [->|Rx]; [rewrite Ho in Hd; destruct Hd|].
    rewrite Hx in Hd by auto. destruct (hw_child _ _ _ W _ _ Rx Hd). rewrite R, Hx by auto. auto.
  - intros x p Rx Hp. apply R in Rx. destruct Rx as [->|Rx]; [rewrite Ho in Hp; discriminate|].
    rewrite Hx in Hp by auto. destruct (hw_par _ _ _ W _ _ Rx Hp). rewrite R, (Hx p) by auto. auto.
  - intros x m Rx. apply R in Rx. destruct Rx as [->|Rx]; [rewrite Ho; cbn; lia|].
    rewrite Hx by auto. apply (hw_max _ _ _ W); auto.
Qed.

Lemma register_view : forall g u c, HWg g -> ~ present g u ->
  let g' := fst (register g u c) in
  order g' = (order g ++ [u])%list /\
  (forall i, kids g' i = kids g i) /\ (forall i, par g' i = par g i) /\
  (forall i, cfg g' i = if Nat.eqb i u then Some c else cfg g i).
Proof.
  intros g u c W Hu g'. unfold order, kids, par, cfg, obj, g', register. cbn [fst g_nodes g_heap].
  unfold present in Hu. destruct (nget u (g_nodes g)) eqn:Eu; [elim Hu; discriminate|].
  split; [rewrite nset_keys; unfold nhas; rewrite Eu; reflexivity|].
  set (o := g_next g) in *.
  assert (Fresh : forall i x, nget i (g_nodes g) = Some x -> x <> o) by (intros i x Hx; destruct (hw_id _ _ _ W _ _ Hx); unfold o; lia).
  assert (Hx : forall x, x <> o -> upd (g_heap g) o (mkN u c None []) x = g_heap g x) by (intros x Hne; unfold upd; eqs; congruence).
  assert (Ho : upd (g_heap g) o (mkN u c None []) o = mkN u c None []) by (unfold upd; rewrite Nat.eqb_refl; reflexivity).
  repeat split; intros i; rewrite nget_nset; destruct (Nat.eqb_spec i u) as [->|Hi]; cbn [option_map].
  - rewrite Ho, Eu. reflexivity.
  - destruct (nget i (g_nodes g)) as [x|] eqn:E; [|reflexivity]. cbn [option_map].
    rewrite Hx by eauto. apply map_ext_in. intros d Hd.
    destruct (hw_child _ _ _ W x d) as [Rd _]; auto; [eapply nget_reg; eauto|]. rewrite Hx by eauto. reflexivity.
  - rewrite Ho, Eu. reflexivity.
  - destruct (nget i (g_nodes g)) as [x|] eqn:E; [|reflexivity]. cbn [option_map]. rewrite Hx by eauto.
    destruct (n_parent (g_heap g x)) as [p|] eqn:Ep; [|reflexivity]. cbn [option_map].
    destruct (hw_par _ _ _ W x p) as [Rp _]; auto; [eapply nget_reg; eauto|]. rewrite Hx by eauto. reflexivity.
  - rewrite Ho. reflexivity.
  - destruct (nget i (g_nodes g)) as [x|] eqn:E; [|reflexivity]. cbn [option_map]. rewrite Hx by eauto. reflexivity.
Qed.

(** ** Removing nodes *)

Lemma idtext_eqb_eq : forall a b, idtext_eqb a b = true <-> a = b.
Proof.
  intros [n v|n] [m u|m]; cbn [idtext_eqb]; split; intros H; try discriminate; try congruence.
  - apply andb_true_iff in H. destruct H as [H H']. apply Nat.eqb_eq in H, H'. congruence.
  - injection H as <- <-. rewrite !Nat.eqb_refl. reflexivity.
  - apply Nat.eqb_eq in H. congruence.
  - injection H as <-. rewrite Nat.eqb_refl. reflexivity.
Qed.
Lemma wiring_eqb_eq : forall a b, wiring_eqb a b = true <-> a = b.
Proof.
  intros [a1 a2 a3 a4] [b1 b2 b3 b4]. unfold wiring_eqb. cbn. rewrite !andb_true_iff, !idtext_eqb_eq, !String.eqb_eq.
  split; [intros [[[-> ->] ->] ->]; reflexivity|]. intros E. injection E as -> -> -> ->. auto.
Qed.
Lemma wmem_In : forall w l, wmem w l = true <-> In w l.
Proof.
  intros w l. unfold wmem. rewrite existsb_exists. split.
  - intros (x & Hx & E). apply wiring_eqb_eq in E. subst. exact Hx.
  - intros H. exists w. split; auto. apply wiring_eqb_eq. reflexivity.
Qed.

Definition touches (rm : list nid) (w : wiring) : bool := existsb (wiring_has_id w) rm.
Definition outside (rm : list nid) (i : nid) : bool := negb (mem i rm).

Lemma drop_wires : forall g rm, g_wires (drop_nodes g rm) = filter (fun w => negb (touches rm w)) (g_wires g).
Proof.
  intros g rm. unfold drop_nodes. cbn [g_wires]. apply filter_ext_in. intros w Hw. f_equal.
  destruct (wmem w _) eqn:E.
  - apply wmem_In, filter_In in E. symmetry. apply E.
  - destruct (touches rm w) eqn:E'; auto. exfalso. assert (X : wmem w (filter (fun w0 => existsb (wiring_has_id w0) rm) (g_wires g)) = true).
    { apply wmem_In, filter_In. split; auto. } congruence.
Qed.

Lemma drop_registered : forall g o, reg (g_nodes g) (g_heap g) o ->
  match nget (n_id (g_heap g o)) (g_nodes g) with Some o' => Nat.eqb o o' | None => false end = true.
Proof. intros g o R. rewrite R. apply Nat.eqb_refl. Qed.

(** The heap after removal, for nodes of the tree. *)
Lemma drop_heap : forall g rm o, reg (g_nodes g) (g_heap g) o ->
  g_heap (drop_nodes g rm) o =
    if mem (n_id (g_heap g o)) rm then mkN (n_id (g_heap g o)) (n_cfg (g_heap g o)) None []
    else mkN (n_id (g_heap g o)) (n_cfg (g_heap g o))
             (match n_parent (g_heap g o) with Some p => if mem (n_id (g_heap g p)) rm then None else Some p | None => None end)
             (filter (fun c => outside rm (n_id (g_heap g c))) (n_children (g_heap g o))).
Proof.
  intros g rm o R. unfold drop_nodes. cbn [g_heap]. rewrite (drop_registered _ _ R). cbn [andb].
  destruct (mem (n_id (g_heap g o)) rm) eqn:E; cbn [negb set_children set_parent n_id n_parent n_cfg n_children].
  - rewrite E. cbn. rewrite E. reflexivity.
  - rewrite E. cbn [negb andb].
    destruct (n_parent (g_heap g o)) as [p|] eqn:Ep; cbn [n_id n_parent n_cfg n_children set_parent].
    + destruct (mem (n_id (g_heap g p)) rm) eqn:E'; cbn; rewrite E; cbn; unfold set_children, set_parent; cbn; rewrite ?Ep; reflexivity.
    + cbn. rewrite E. unfold set_children. cbn. rewrite Ep. reflexivity.
Qed.
Lemma drop_ids : forall g rm, same_ids (g_heap g) (g_heap (drop_nodes g rm)).
Proof.
  intros g rm o. unfold drop_nodes. cbn [g_heap].
  repeat match goal with |- context [if ?b then _ else _] => destruct b; cbn [set_children set_parent n_id n_parent n_cfg n_children] end; auto.
Qed.
Lemma drop_nodes_eq : forall g rm, g_nodes (drop_nodes g rm) = filter (fun io => outside rm (fst io)) (g_nodes g).
Proof. reflexivity. Qed.
Lemma drop_reg : forall g rm o, reg (g_nodes (drop_nodes g rm)) (g_heap (drop_nodes g rm)) o <->
  reg (g_nodes g) (g_heap g) o /\ outside rm (n_id (g_heap g o)) = true.
Proof.
  intros g rm o. unfold reg at 1. destruct (drop_ids g rm o) as [-> _].
  rewrite drop_nodes_eq, nget_filter. unfold reg.
  destruct (outside rm (n_id (g_heap g o))); split; try tauto; try discriminate. intros [_ H]. discriminate.
Qed.

Lemma drop_HW : forall g rm, HWg g -> HWg (drop_nodes g rm).
Proof.
  intros g rm W. unfold HWg. split.
  - rewrite drop_nodes_eq. apply NoDup_nfilter, W.
  - intros i o. rewrite drop_nodes_eq, nget_filter. destruct (outside rm i); [|discriminate]. intros H.
    destruct (hw_id _ _ _ W _ _ H) as [E L]. split; [|exact L]. destruct (drop_ids g rm o) as [-> _]. exact E.
  - intros o R. apply drop_reg in R. destruct R as [R Ho]. rewrite drop_heap by auto.
    apply negb_true_iff in Ho. rewrite Ho. apply NoDup_filter, (hw_nodup _ _ _ W); auto.
  - intros o c R Hc. apply drop_reg in R. destruct R as [R Ho]. rewrite drop_heap in Hc by auto.
    pose proof Ho as Ho'. apply negb_true_iff in Ho. rewrite Ho in Hc. cbn [n_children] in Hc. apply filter_In in Hc. destruct Hc as [Hc Hr].
    destruct (hw_child _ _ _ W _ _ R Hc) as [Rc Pc]. rewrite drop_reg. split; [tauto|].
    rewrite drop_heap by auto. pose proof Hr as Hr'. apply negb_true_iff in Hr. rewrite Hr. cbn [n_parent]. rewrite Pc, Ho. reflexivity.
  - intros o p R Hp. apply drop_reg in R. destruct R as [R Ho]. rewrite drop_heap in Hp by auto.
    apply negb_true_iff in Ho. rewrite Ho in Hp. cbn [n_parent] in Hp.
    destruct (n_parent (g_heap g o)) as [q|] eqn:Eq; [|discriminate].
    destruct (mem (n_id (g_heap g q)) rm) eqn:Em; [discriminate|]. injection Hp as <-.
    destruct (hw_par _ _ _ W _ _ R Eq) as [Rq Iq]. rewrite drop_reg. split; [split; auto; unfold outside; rewrite Em; reflexivity|].
    rewrite drop_heap by auto. rewrite Em. cbn [n_children]. apply filter_In. split; auto. unfold outside. rewrite Ho. reflexivity.
  - intros o m R Hm. apply drop_reg in R. destruct R as [R Ho]. destruct (drop_ids g rm o) as [_ Ec]. rewrite Ec in Hm.
    rewrite drop_heap by auto. apply negb_true_iff in Ho. rewrite Ho. cbn [n_children].
    etransitivity; [apply length_filter_le|]. eapply hw_max; eauto.
Qed.

Lemma filter_map : forall {A B} (f : A -> B) (p : B -> bool) l, filter p (map f l) = map f (filter (fun x => p (f x)) l).
Proof. induction l as [|x l IH]; cbn [map filter]; [reflexivity|]. destruct (p (f x)); cbn [map]; rewrite IH; reflexivity. Qed.

Lemma drop_view : forall g rm, HWg g -> let g' := drop_nodes g rm in
  order g' = filter (outside rm) (order g) /\
  (forall i, kids g' i = if outside rm i then filter (outside rm) (kids g i) else []) /\
  (forall i, par g' i = if outside rm i then match par g i with Some p => if outside rm p then Some p else None | None => None end else None) /\
  (forall i, cfg g' i = if outside rm i then cfg g i else None).
Proof.
  intros g rm W g'. split; [|split; [|split]].
  - unfold order, g'. rewrite drop_nodes_eq. rewrite filter_map. reflexivity.
  - intros i. unfold kids, obj, g'. rewrite drop_nodes_eq, nget_filter. destruct (outside rm i) eqn:Eo; [|reflexivity].
    destruct (nget i (g_nodes g)) as [o|] eqn:E; [|reflexivity]. destruct (HWg_ids _ _ _ W E) as (R & Ei & _). cbn [option_map].
    rewrite drop_heap by auto. pose proof Eo as Eo'. apply negb_true_iff in Eo. rewrite Ei, Eo. cbn [n_children].
    rewrite (same_ids_of _ _ _ (drop_ids g rm)). unfold ids_of. rewrite filter_map. reflexivity.
  - intros i. unfold par, obj, g'. rewrite drop_nodes_eq, nget_filter. destruct (outside rm i) eqn:Eo; [|reflexivity].
    destruct (nget i (g_nodes g)) as [o|] eqn:E; [|reflexivity]. destruct (HWg_ids _ _ _ W E) as (R & Ei & _). cbn [option_map].
    rewrite drop_heap by auto. apply negb_true_iff in Eo. rewrite Ei, Eo. cbn [n_parent].
    destruct (n_parent (g_heap g o)) as [p|]; [|reflexivity]. cbn [option_map]. unfold outside.
    destruct (mem (n_id (g_heap g p)) rm); [reflexivity|]. cbn [negb option_map]. f_equal. apply drop_ids.
  - intros i. unfold cfg, obj, g'. rewrite drop_nodes_eq, nget_filter. destruct (outside rm i) eqn:Eo; [|reflexivity].
    destruct (nget i (g_nodes g)) as [o|] eqn:E; [|reflexivity]. cbn [option_map]. f_equal. apply drop_ids.
Qed.

(** ** The set of nodes to remove *)

Definition mirrored (g : mgr) : Prop := forall i, kids_of (g_kids g) i = kids g i.

Lemma nget_map : forall {A B} (f : A -> B) l i, nget i (map (fun kv => (fst kv, f (snd kv))) l) = option_map f (nget i l).
Proof. induction l as [|[k v] l IH]; intros i; cbn [map nget fst snd]; [reflexivity|]. destruct (Nat.eqb i k); [reflexivity|apply IH]. Qed.
Lemma mirrored_sync : forall g, mirrored (sync_children g).
Proof.
  intros g i. unfold kids_of, kids, obj, sync_children. cbn [g_kids set_kids g_nodes g_heap].
  rewrite (nget_map (fun o => ids_of (g_heap g) (n_children (g_heap g o)))). destruct (nget i (g_nodes g)); reflexivity.
Qed.
Lemma mirrored_find_root : forall g, mirrored (fst (find_root g)).
Proof.
  intros g i. pose proof (mirrored_sync g i) as H. unfold find_root.
  destruct (g_nodes (sync_children g)) eqn:E; [exact H|]. destruct (filter _ _) as [|? [|]]; exact H.
Qed.
Lemma mirrored_publish : forall g, g_pub g = true -> mirrored (publish_structure g).
Proof. intros g H. unfold publish_structure. rewrite H. apply mirrored_find_root. Qed.

Lemma push_new_spec : forall nodes l seen pending seen' pending',
  push_new nodes l seen pending = (seen', pending') -> NoDup seen ->
  exists new, seen' = (new ++ seen)%list /\ pending' = (new ++ pending)%list /\ NoDup seen' /\
    (forall c, In c new -> In c l /\ In c (map fst nodes)) /\
    (forall c, In c l -> In c (map fst nodes) -> In c seen').
Proof.
  induction l as [|c l IH]; intros seen pending seen' pending' H Hn; cbn [push_new] in H.
  - injection H as <- <-. exists []. cbn. split; [auto|]. split; [auto|]. split; auto. split; intros; contradiction.
  - destruct (nhas c nodes && negb (mem c seen)) eqn:E.
    + apply andb_true_iff in E. destruct E as [E1 E2]. apply nhas_present in E1. apply negb_true_iff, mem_nIn in E2.
      destruct (IH _ _ _ _ H) as (new & -> & -> & Hn' & Ha & Hb); [constructor; auto|].
      exists (new ++ [c])%list. rewrite <- !app_assoc. cbn [app]. split; [auto|]. split; [auto|]. split; [exact Hn'|]. split.
      * intros d Hd. apply in_app_or in Hd. destruct Hd as [Hd|[<-|[]]]; [|split; auto; left; auto].
        destruct (Ha _ Hd). split; auto. right. auto.
      * intros d [<-|Hd] Hp; [|apply Hb; auto]. apply in_or_app. right. left. auto.
    + destruct (IH _ _ _ _ H) as (new & -> & -> & Hn' & Ha & Hb); auto.
      exists new. split; [auto|]. split; [auto|]. split; [exact Hn'|]. split.
      * intros d Hd. destruct (Ha _ Hd). split; auto. right. auto.
      * intros d [<-|Hd] Hp; [|apply Hb; auto]. apply andb_false_iff in E. destruct E as [E|E].
        -- apply nhas_present in Hp. congruence.
        -- apply negb_false_iff, mem_In in E. apply in_or_app. auto.
Qed.

Lemma collect_spec : forall g (Q : nid -> Prop), HWg g -> mirrored g ->
  (forall x c, Q x -> In c (kids g x) -> Q c) ->
  forall fuel pending seen, length pending + (length (g_nodes g) - length seen) <= fuel ->
  incl pending seen -> NoDup seen -> incl seen (order g) -> (forall x, In x seen -> Q x) ->
  (forall x, In x seen -> ~ In x pending -> forall c, In c (kids g x) -> In c seen) ->
  let R := collect fuel g pending seen in
  incl seen R /\ (forall x, In x R -> Q x) /\ (forall x c, In x R -> In c (kids g x) -> In c R).
Proof.
  intros g Q W M HQ. induction fuel as [|f IH]; intros pending seen Hf Hi Hn Ho Hs Hc; cbn [collect].
  - destruct pending; [|cbn in Hf; lia]. split; [apply incl_refl|]. split; auto. intros x c Hx Hcx. eapply Hc; eauto.
  - destruct pending as [|p rest].
    + split; [apply incl_refl|]. split; auto. intros x c Hx Hcx. eapply Hc; eauto.
    + destruct (push_new (g_nodes g) _ seen rest) as [seen' pending'] eqn:E.
      destruct (push_new_spec _ _ _ _ _ _ E Hn) as (new & -> & -> & Hn' & Ha & Hb).
      change (match nget p (g_kids g) with Some l => l | None => [] end) with (kids_of (g_kids g) p) in *.
      rewrite (M p) in *.
      assert (HQp : Q p) by (apply Hs, Hi; left; auto).
      assert (Hlen : length (new ++ seen) <= length (g_nodes g)).
      { assert (incl (new ++ seen) (order g)) by (intros x Hx; apply in_app_or in Hx; destruct Hx as [Hx|Hx]; [apply Ha; auto|auto]).
        pose proof (NoDup_incl_length Hn' H) as X. unfold order in X. rewrite map_length in X. exact X. }
      rewrite app_length in Hlen.
      destruct (IH (new ++ rest)%list (new ++ seen)%list) as (A & B & C).
      * rewrite !app_length. cbn [length] in Hf. lia.
      * intros x Hx. apply in_app_or in Hx. apply in_or_app. destruct Hx; auto. right. apply Hi. right. auto.
      * exact Hn'.
      * intros x Hx. apply in_app_or in Hx. destruct Hx as [Hx|Hx]; [apply Ha; auto|auto].
      * intros x Hx. apply in_app_or in Hx. destruct Hx as [Hx|Hx]; auto. apply (HQ p); auto. apply Ha; auto.
      * intros x Hx Hnx c Hcx. apply in_app_or in Hx. destruct Hx as [Hx|Hx]; [elim Hnx; apply in_or_app; auto|].
        destruct (Nat.eq_dec x p) as [->|Hne].
        -- apply Hb; auto. apply nget_present. apply (li_child _ (HW_linked _ W) p c); auto.
        -- apply in_or_app. right. apply (Hc x); auto. intros [X|X]; [congruence|]. apply Hnx, in_or_app. auto.
      * split; [intros x Hx; apply A, in_or_app; auto|]. auto.
Qed.

Lemma below_step : forall g a b c, below g a b -> In c (kids g b) -> below g a c.
Proof. intros g a b c H Hc. eapply t_trans; [exact H|]. apply t_step. exact Hc. Qed.

Lemma to_remove_all : forall g i, HWg g -> mirrored g -> present g i ->
  forall x, In x (to_remove g i true) <-> x = i \/ below g i x.
Proof.
  intros g i W M P. unfold to_remove.
  destruct (collect_spec g (fun x => x = i \/ below g i x) W M) with (fuel := S (length (g_nodes g))) (pending := [i]) (seen := [i])
    as (A & B & C).
  - intros x c [->|Hx] Hc; right; [apply t_step; exact Hc|eapply below_step; eauto].
  - cbn [length]. lia.
  - apply incl_refl.
  - constructor; [auto|constructor].
  - intros x [<-|[]]. apply nget_present. exact P.
  - intros x [<-|[]]. auto.
  - intros x Hx Hnx. elim Hnx. exact Hx.
  - intros x. split; [apply B|]. intros [->|H]; [apply A; left; auto|].
    assert (Hi : In i (collect (S (length (g_nodes g))) g [i] [i])) by (apply A; left; auto).
    cbv zeta in C. remember (collect (S (length (g_nodes g))) g [i] [i]) as R eqn:ER. clear ER A B P.
    induction H as [a b H|a b c _ IH1 _ IH2]; [apply (C a b); auto|auto].
Qed.

(** ** remove_node *)

Lemma remove_node_cases : forall t ch g g' r, remove_node t ch g = (g', r) ->
  (r = Ok tt /\ g_state g = EDITABLE /\ exists i, ros_to_uuid t = Some i /\ present g i /\
     g' = publish_structure (drop_nodes (sync_children g) (to_remove (sync_children g) i ch))) \/
  (only_mirror g g' /\ exists e, r = Err e /\
     (g_state g = EDITABLE -> forall i, ros_to_uuid t = Some i -> ~ present g i)).
Proof.
  intros t ch g g' r H. apply edit_service_cases in H. destruct H as [(Hs & -> & ->)|(Hs & g1 & H & ->)].
  - right. split; [apply om_refl|]. eexists. split; [reflexivity|]. congruence.
  - destruct (ros_to_uuid t) as [i|] eqn:Et.
    + destruct (nhas i (g_nodes g)) eqn:Eh; cbn [negb] in H.
      * injection H as <- <-. left. split; auto. split; auto. exists i. split; auto. split; auto.
        unfold present. unfold nhas in Eh. destruct (nget i (g_nodes g)); [discriminate|discriminate].
      * injection H as <- <-. right. split; [apply om_publish|]. eexists. split; [reflexivity|].
        intros _ j Ej. injection Ej as <-. unfold present. unfold nhas in Eh. destruct (nget i (g_nodes g)); [discriminate|auto].
    + injection H as <- <-. right. split; [apply om_publish|]. eexists. split; [reflexivity|]. congruence.
Qed.

Lemma sync_view : forall g, (forall i, kids (sync_children g) i = kids g i) /\ (forall i, par (sync_children g) i = par g i) /\
  (forall i, cfg (sync_children g) i = cfg g i) /\ order (sync_children g) = order g /\ (forall i, present (sync_children g) i <-> present g i).
Proof. intros g. unfold kids, par, cfg, obj, order, present, sync_children. cbn. tauto. Qed.
Lemma sync_below : forall g i x, below (sync_children g) i x <-> below g i x.
Proof. intros g i x. unfold below, child_of. destruct (sync_view g) as (E & _). split; intros H; induction H;
  try (apply t_step; rewrite E in *; assumption); try (apply t_step; rewrite <- E; assumption); eapply t_trans; eauto. Qed.

Lemma remove_node_HW : forall t ch g g' r, HWg g -> remove_node t ch g = (g', r) -> HWg g'.
Proof.
  intros t ch g g' r W H. apply remove_node_cases in H. destruct H as [(_ & _ & i & _ & _ & ->)|(M & _)].
  - eapply om_HW; [apply om_publish|]. apply drop_HW. eapply om_HW; [apply om_sync|exact W].
  - eapply om_HW; eauto.
Qed.

(** ** Descendants in the adjacency mirror *)

Definition todo (k : list (nid * list nid)) (seen : list nid) : nat :=
  list_sum (map (fun e => if mem (fst e) seen then 0 else length (snd e)) k).

Lemma todo_step : forall k d seen, mem d seen = false -> todo k (d :: seen) + length (kids_of k d) <= todo k seen.
Proof.
  intros k d seen Hd. unfold todo, kids_of. induction k as [|[x l] k IH]; cbn [map list_sum nget fst snd]; [cbn; lia|].
  unfold mem at 1. cbn [existsb]. fold (mem x seen). rewrite (Nat.eqb_sym x d).
  assert (Mono : list_sum (map (fun e => if mem (fst e) (d :: seen) then 0 else length (snd e)) k) <=
                 list_sum (map (fun e : nid * list nid => if mem (fst e) seen then 0 else length (snd e)) k)).
  { clear IH. induction k as [|[y m] k IH]; cbn [map list_sum fst snd]; [lia|].
    change (list_sum (?a :: ?b)) with (a + list_sum b). unfold mem at 1. cbn [existsb]. fold (mem y seen).
    destruct (Nat.eqb y d), (mem y seen); cbn [orb]; lia. }
  destruct (Nat.eqb_spec d x) as [->|Hne]; cbn [orb].
  - change (list_sum (?a :: ?b)) with (a + list_sum b). rewrite Hd. cbn [length]. lia.
  - change (list_sum (?a :: ?b)) with (a + list_sum b). destruct (mem x seen); cbn [length]; lia.
Qed.
Lemma todo_nil : forall k, todo k [] = length (flat_map snd k).
Proof. unfold todo. induction k as [|[x l] k IH]; cbn [map flat_map fst snd mem existsb]; [reflexivity|]. rewrite app_length, <- IH. reflexivity. Qed.

Lemma descend_spec : forall g (Q : nid -> Prop), mirrored g ->
  (forall x c, Q x -> In c (kids g x) -> Q c) ->
  forall fuel pending seen, length pending + todo (g_kids g) seen < fuel ->
  (forall x, In x pending -> Q x) -> (forall x, In x seen -> Q x) ->
  (forall x c, In x seen -> In c (kids g x) -> In c seen \/ In c pending) ->
  let R := descend fuel (g_kids g) pending seen in
  incl seen R /\ incl pending R /\ (forall x, In x R -> Q x) /\ (forall x c, In x R -> In c (kids g x) -> In c R).
Proof.
  intros g Q M HQ. induction fuel as [|f IH]; intros pending seen Hf Hp Hs Hc; [lia|]. cbn [descend].
  destruct pending as [|d rest].
  - split; [apply incl_refl|]. split; [intros x []|]. split; auto. intros x c Hx Hcx. destruct (Hc _ _ Hx Hcx) as [?|[]]; auto.
  - destruct (mem d seen) eqn:Ed.
    + apply mem_In in Ed. destruct (IH rest seen) as (A & B & C & D); auto.
      * cbn [length] in Hf. lia.
      * intros x Hx. apply Hp. right. auto.
      * intros x c Hx Hcx. destruct (Hc _ _ Hx Hcx) as [?|[->|?]]; auto.
      * split; auto. split; auto. intros x [<-|Hx]; auto.
    + change (match nget d (g_kids g) with Some l => l | None => [] end) with (kids_of (g_kids g) d).
      pose proof (todo_step (g_kids g) d seen Ed) as Ht. rewrite (M d) in *.
      assert (Qd : Q d) by (apply Hp; left; auto).
      destruct (IH (kids g d ++ rest)%list (d :: seen)) as (A & B & C & D); auto.
      * rewrite app_length. cbn [length] in Hf. lia.
      * intros x Hx. apply in_app_or in Hx. destruct Hx as [Hx|Hx]; [eauto|]. apply Hp. right. auto.
      * intros x [<-|Hx]; auto.
      * intros x c [<-|Hx] Hcx; [right; apply in_or_app; auto|].
        destruct (Hc _ _ Hx Hcx) as [?|[->|?]]; [left; right; auto|left; left; auto|right; apply in_or_app; auto].
      * split; [intros x Hx; apply A; right; auto|]. split; [|auto].
        intros x [<-|Hx]; [apply A; left; auto|]. apply B, in_or_app. auto.
Qed.

Lemma descendants_spec : forall g i, mirrored g -> forall x, In x (descendants g i) <-> below g i x.
Proof.
  intros g i M x. unfold descendants. rewrite (M i).
  destruct (descend_spec g (fun x => below g i x) M) with (fuel := S (length (kids g i) + length (flat_map snd (g_kids g))))
    (pending := kids g i) (seen := @nil nid) as (A & B & C & D).
  - intros y c Hy Hc. eapply below_step; eauto.
  - rewrite todo_nil. lia.
  - intros y Hy. apply t_step. exact Hy.
  - intros y [].
  - intros y c [].
  - split; [apply C|]. intros H.
    assert (X : forall a b, below g a b -> a = i \/ In a (descend (S (length (kids g i) + length (flat_map snd (g_kids g)))) (g_kids g) (kids g i) []) ->
      In b (descend (S (length (kids g i) + length (flat_map snd (g_kids g)))) (g_kids g) (kids g i) [])).
    { clear H. intros a b H. induction H as [a b H|a b c _ IH1 _ IH2].
      - intros [->|Ha]; [apply B; exact H|eapply D; eauto].
      - intros Ha. apply IH2. right. auto. }
    apply (X i x); auto.
Qed.
