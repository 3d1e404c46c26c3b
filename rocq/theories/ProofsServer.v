(** Proofs for C109: links that agree unfold into a tree; the plant of ModelServer.v keeps
    the invariants of ModelEdit.v and those of ProofsFlowExec.v. *)
From Coq Require Import List Bool Arith String Lia Relations.
From Verif Require Import Base ModelTree SpecTree ProofsTree ProofsLife ProofsWhole ModelSubtreeNode.
From Verif Require Import ModelEdit SpecEdit ProofsEdit ProofsEditWire ProofsEditHist ProofsEditCycle ProofsEditLast.
From Verif Require Import ModelExec SpecExec ModelServer SpecServer.
From Verif Require Import ProofsExec ProofsExecRun ProofsFlowExec.
From Verif Require SpecFlowExec.
Import ListNotations.
Local Open Scope nat_scope.

(** ** From links to trees *)

Lemma nodup_app2 : forall A (l m : list A), NoDup l -> NoDup m -> (forall x, In x l -> In x m -> False) -> NoDup (l ++ m).
Proof.
  intros A l m NL NM D. induction NL as [|x l H NL IH]; [exact NM|]. cbn. constructor.
  - intros X. apply in_app_or in X. destruct X as [X|X]; [contradiction|]. exact (D x (or_introl eq_refl) X).
  - apply IH. intros y Y. exact (D y (or_intror Y)).
Qed.

Section Unfold.
Variable g : mgr.
Variable cl : nid -> ModelTree.kind * string.
Hypothesis W : HWg g.
Let rg (o : oid) : Prop := reg (g_nodes g) (g_heap g) o.
Let nm (o : oid) : nid := n_id (g_heap g o).
Let ch (o : oid) : list oid := n_children (g_heap g o).

(** [c] is [j] levels below [a]. *)
Inductive down (a : oid) : nat -> oid -> Prop :=
| down_0 : down a 0 a
| down_S j p c : down a j p -> In c (ch p) -> down a (S j) c.

Lemma down_reg : forall a j c, rg a -> down a j c -> rg c.
Proof. intros a j c R D. induction D as [|j p c D IH H]; [exact R|]. exact (proj1 (hw_child _ _ _ W _ _ IH H)). Qed.
Lemma down_parent : forall a j c, rg a -> down a (S j) c -> exists p, down a j p /\ n_parent (g_heap g c) = Some p.
Proof.
  intros a j c R D. inversion D as [|j' p c' D' H]; subst. exists p. split; [exact D'|].
  exact (proj2 (hw_child _ _ _ W _ _ (down_reg _ _ _ R D') H)).
Qed.
Lemma down_det : forall j a b c, rg a -> rg b -> down a j c -> down b j c -> a = b.
Proof.
  induction j as [|j IH]; intros a b c Ra Rb Da Db.
  - inversion Da; inversion Db; subst. reflexivity.
  - destruct (down_parent _ _ _ Ra Da) as (p & Dp & Ep). destruct (down_parent _ _ _ Rb Db) as (q & Dq & Eq).
    assert (p = q) by congruence. subst q. eauto.
Qed.
Lemma down_trans : forall a j b k c, down a j b -> down b k c -> down a (j + k) c.
Proof.
  intros a j b k c D1 D2. induction D2 as [|k p c D2 IH H]; [rewrite Nat.add_0_r; exact D1|].
  rewrite Nat.add_succ_r. econstructor; eauto.
Qed.

Variable o0 : oid.
Hypothesis R0 : rg o0.
Hypothesis N0 : n_parent (g_heap g o0) = None.

Lemma depth_unique : forall j k c, down o0 j c -> down o0 k c -> j = k.
Proof.
  induction j as [|j IH]; intros [|k] c Dj Dk; auto.
  - inversion Dj; subst. destruct (down_parent _ _ _ R0 Dk) as (p & _ & E). congruence.
  - inversion Dk; subst. destruct (down_parent _ _ _ R0 Dj) as (p & _ & E). congruence.
  - destruct (down_parent _ _ _ R0 Dj) as (p & Dp & Ep). destruct (down_parent _ _ _ R0 Dk) as (q & Dq & Eq).
    assert (p = q) by congruence. subst q. f_equal. eauto.
Qed.

(** The way from the root down to a node. *)
Lemma down_way : forall j c, down o0 j c -> exists l, List.length l = S j /\ NoDup l /\ In c l /\
  forall x, In x l -> rg x /\ exists k, k <= j /\ down o0 k x.
Proof.
  intros j c D. induction D as [|j p c D IH H].
  - exists [o0]. split; [reflexivity|]. split; [constructor; [intros []|constructor]|]. split; [left; reflexivity|].
    intros x [<-|[]]. split; [exact R0|]. exists 0. split; [lia|constructor].
  - destruct IH as (l & L & ND & _ & A). assert (Dc : down o0 (S j) c) by (econstructor; eauto).
    exists (c :: l). split; [cbn; lia|]. split.
    + constructor; [|exact ND]. intros X. destruct (A _ X) as (_ & k & Lk & Dk).
      pose proof (depth_unique _ _ _ Dc Dk). lia.
    + split; [left; reflexivity|]. intros x [<-|X].
      * split; [exact (down_reg _ _ _ R0 Dc)|]. exists (S j). auto.
      * destruct (A _ X) as (Rx & k & Lk & Dk). split; [exact Rx|]. exists k. split; [lia|exact Dk].
Qed.
Lemma depth_small : forall j c, down o0 j c -> j < List.length (g_nodes g).
Proof.
  intros j c D. destruct (down_way _ _ D) as (l & L & ND & _ & A).
  assert (X : List.length (map nm l) <= List.length (order g)).
  { apply NoDup_incl_length.
    - assert (Y : forall l, NoDup l -> (forall x, In x l -> rg x) -> NoDup (map nm l)).
      { clear. induction l as [|a l IH]; intros ND A; cbn; constructor; inversion ND; subst.
        - intros X. apply in_map_iff in X. destruct X as (b & E & B). apply H1.
          assert (a = b); [|congruence]. symmetry. eapply reg_eq; [apply A; right; exact B|apply A; left; reflexivity|exact E].
        - apply IH; auto. intros x Hx. apply A. right. exact Hx. }
      apply Y; [exact ND|]. intros x Hx. apply A. exact Hx.
    - intros i X. apply in_map_iff in X. destruct X as (x & <- & Hx). unfold order. apply nget_present.
      apply reg_present. apply A. exact Hx. }
  unfold order in X. rewrite !map_length in X. lia.
Qed.

Lemma unfold_exists : forall j o, down o0 j o -> exists t, unfolds g cl o t.
Proof.
  assert (F : forall m j o, List.length (g_nodes g) <= j + m -> down o0 j o -> exists t, unfolds g cl o t).
  { induction m as [|m IH]; intros j o L D.
    - pose proof (depth_small _ _ D). lia.
    - assert (A : forall l, incl l (ch o) -> exists ts, unfolds_all g cl l ts).
      { induction l as [|c l IHl]; intros I; [exists []; constructor|].
        destruct (IH (S j) c) as [t Ht]; [lia|econstructor; [exact D|apply I; left; reflexivity]|].
        destruct IHl as [ts Hts]; [intros x Hx; apply I; right; exact Hx|]. exists (t :: ts). constructor; assumption. }
      destruct (A (ch o) (incl_refl _)) as [cs H]. eexists. constructor. exact H. }
  intros j o D. exact (F _ _ _ (Nat.le_add_l _ _) D).
Qed.
End Unfold.

Section Unfold2.
Variable g : mgr.
Variable cl : nid -> ModelTree.kind * string.

Lemma unfolds_id : forall o t, unfolds g cl o t -> t_id t = n_id (g_heap g o).
Proof. intros o t H. destruct H. reflexivity. Qed.
Lemma unfolds_all_In : forall os ts, unfolds_all g cl os ts -> forall t, In t ts -> exists o, In o os /\ unfolds g cl o t.
Proof.
  intros os ts H. induction H as [|o t os ts H1 H2 IH]; intros x X; [destruct X|].
  destruct X as [<-|X]; [exists o; split; [left; reflexivity|exact H1]|]. destruct (IH _ X) as (o' & A & B).
  exists o'. split; [right; exact A|exact B].
Qed.
Lemma unfolds_all_In' : forall os ts, unfolds_all g cl os ts -> forall o, In o os -> exists t, In t ts /\ unfolds g cl o t.
Proof.
  intros os ts H. induction H as [|o t os ts H1 H2 IH]; intros x X; [destruct X|].
  destruct X as [<-|X]; [exists t; split; [left; reflexivity|exact H1]|]. destruct (IH _ X) as (o' & A & B).
  exists o'. split; [right; exact A|exact B].
Qed.
Lemma unfolds_all_ids : forall os ts, unfolds_all g cl os ts -> map t_id ts = ids_of (g_heap g) os.
Proof. intros os ts H. induction H as [|o t os ts H1 H2 IH]; cbn; [reflexivity|]. rewrite IH, (unfolds_id _ _ H1). reflexivity. Qed.

Lemma unfolds_det : forall t o t', unfolds g cl o t -> unfolds g cl o t' -> t = t'.
Proof.
  induction t as [n k name cs IH] using tree_ind'. intros o t' H H'. inversion H; subst. inversion H'; subst.
  f_equal. match goal with A : unfolds_all _ _ _ cs, B : unfolds_all _ _ _ ?x |- _ => rename A into HA; rename B into HB end.
  clear H H'. revert cs0 HB. remember (n_children (g_heap g o)) as os eqn:Eo. clear Eo. induction HA as [|c t os ts A1 A2 IHA]; intros cs0 HB.
  - inversion HB; reflexivity.
  - inversion HB as [|? t2 ? ts2 B1 B2]; subst. inversion IH as [|? ? I1 I2]; subst. f_equal; [eapply I1; eauto|apply IHA; assumption].
Qed.

(** Every part of the tree is the unfolding of an object below. *)
Lemma unfolds_parts : forall t o, unfolds g cl o t -> forall x, In x (subtrees t) ->
  exists j c, down g o j c /\ unfolds g cl c x.
Proof.
  induction t as [n k name cs IH] using tree_ind'. intros o H x X. rewrite Forall_forall in IH. cbn [subtrees] in X. destruct X as [<-|X].
  - exists 0, o. split; [constructor|exact H].
  - inversion H; subst. apply in_flat_map in X. destruct X as (c & Hc & X).
    match goal with A : unfolds_all _ _ _ cs |- _ => destruct (unfolds_all_In _ _ A _ Hc) as (oc & I & U) end.
    destruct (IH _ Hc _ U _ X) as (j & d & D & U'). exists (S j), d. split; [|exact U'].
    change (S j) with (1 + j). eapply down_trans; [|exact D]. econstructor; [constructor|exact I].
Qed.
Lemma unfolds_reach : forall j o c, down g o j c -> forall t, unfolds g cl o t ->
  exists x, In x (subtrees t) /\ unfolds g cl c x.
Proof.
  intros j o c D. induction D as [|j p c D IH H]; intros t U.
  - exists t. split; [destruct t; left; reflexivity|exact U].
  - destruct (IH _ U) as (x & X & Ux). inversion Ux; subst.
    match goal with A : unfolds_all _ _ _ ?cs |- _ => destruct (unfolds_all_In' _ _ A _ H) as (y & Y & Uy) end.
    exists y. split; [|exact Uy]. clear - X Y. revert X. induction t as [n k name ds IHt] using tree_ind'. rewrite Forall_forall in IHt.
    cbn [subtrees]. intros [X|X].
    + right. injection X as _ _ _ ->. apply in_flat_map. exists y. split; [exact Y|]. destruct y. left. reflexivity.
    + right. apply in_flat_map in X. destruct X as (d & Hd & X). apply in_flat_map. exists d. split; [exact Hd|]. apply IHt; assumption.
Qed.
Lemma ids_subtrees : forall t, ids t = map t_id (subtrees t).
Proof.
  induction t as [n k name cs IH] using tree_ind'. cbn. f_equal. rewrite Forall_forall in IH.
  induction cs as [|c cs IHc]; [reflexivity|]. cbn. rewrite map_app, IH by (left; reflexivity). f_equal.
  apply IHc. intros x Hx. apply IH. right. exact Hx.
Qed.

Hypothesis W : HWg g.
Let rg (o : oid) : Prop := reg (g_nodes g) (g_heap g) o.

Lemma ids_down : forall o t, unfolds g cl o t -> forall i, In i (ids t) <-> exists j c, down g o j c /\ n_id (g_heap g c) = i.
Proof.
  intros o t U i. rewrite ids_subtrees, in_map_iff. split.
  - intros (x & <- & X). destruct (unfolds_parts _ _ U _ X) as (j & c & D & Ux). exists j, c. split; [exact D|]. symmetry. apply unfolds_id, Ux.
  - intros (j & c & D & <-). destruct (unfolds_reach _ _ _ D _ U) as (x & X & Ux). exists x. split; [apply unfolds_id, Ux|exact X].
Qed.

Lemma down_below : forall o c j, rg o -> down g o j c ->
  n_id (g_heap g c) = n_id (g_heap g o) \/ below g (n_id (g_heap g o)) (n_id (g_heap g c)).
Proof.
  intros o c j R D. induction D as [|j p c D IH H]; [left; reflexivity|right].
  assert (Rp : rg p) by (eapply down_reg; eauto).
  assert (X : child_of g (n_id (g_heap g p)) (n_id (g_heap g c))).
  { unfold child_of. rewrite kids_reg by exact Rp. apply in_map_iff. exists c. split; [reflexivity|exact H]. }
  destruct IH as [IH|IH]; [rewrite <- IH; apply t_step; exact X|]. eapply t_trans; [exact IH|apply t_step; exact X].
Qed.
Lemma below_down : forall i d, below g i d -> forall o, rg o -> n_id (g_heap g o) = i ->
  exists j c, down g o j c /\ n_id (g_heap g c) = d.
Proof.
  intros i d B. induction B as [i d C|i e d B1 IH1 B2 IH2]; intros o R <-.
  - unfold child_of in C. rewrite kids_reg in C by exact R. apply in_map_iff in C. destruct C as (c & <- & C).
    exists 1, c. split; [|reflexivity]. econstructor; [constructor|exact C].
  - destruct (IH1 _ R eq_refl) as (j & c & D & E). destruct (IH2 c (down_reg _ W _ _ _ R D) E) as (k & x & D' & E').
    exists (j + k), x. split; [eapply down_trans; eauto|exact E'].
Qed.

(** Below a root no node occurs twice. *)
Lemma unfolds_NoDup : forall o0, rg o0 -> n_parent (g_heap g o0) = None ->
  forall t o j, down g o0 j o -> unfolds g cl o t -> NoDup (ids t).
Proof.
  intros o0 R0 N0. induction t as [n k name cs IH] using tree_ind'. intros o j D U. rewrite Forall_forall in IH.
  pose proof (down_reg _ W _ _ _ R0 D) as Ro. inversion U as [o' cs1 A E1 E2]; subst.
  pose proof (hw_nodup _ _ _ W _ Ro) as ND. cbn [ids]. constructor.
  - intros X. apply in_flat_map in X. destruct X as (c & Hc & X). destruct (unfolds_all_In _ _ A _ Hc) as (oc & I & Uc).
    apply (ids_down _ _ Uc) in X. destruct X as (m & d & Dd & Ed).
    assert (Dd' : down g o0 (S j + m) d) by (eapply down_trans; [econstructor; [exact D|exact I]|exact Dd]).
    assert (d = o) by (eapply reg_eq; [eapply down_reg; [exact W|exact R0|exact Dd']|exact Ro|exact Ed]). subst d.
    pose proof (depth_unique _ W _ R0 N0 _ _ _ D Dd'). lia.
  - assert (AC : forall c, In c (n_children (g_heap g o)) -> down g o0 (S j) c) by (intros c Hc; econstructor; eauto).
    clear U. remember (n_children (g_heap g o)) as os eqn:Eo. clear Eo. induction A as [|c t os ts A1 A2 IHA]; [constructor|].
    cbn [flat_map]. inversion ND as [|? ? Nc Nos]; subst.
    apply nodup_app2.
    + eapply IH; [left; reflexivity|apply AC; left; reflexivity|exact A1].
    + apply IHA; auto. intros x Hx. apply IH. right. exact Hx.
      intros x Hx. apply AC. right. exact Hx.
    + intros i X Y. apply in_flat_map in Y. destruct Y as (t2 & Ht & Y). destruct (unfolds_all_In _ _ A2 _ Ht) as (c2 & I2 & U2).
      apply (ids_down _ _ A1) in X. apply (ids_down _ _ U2) in Y. destruct X as (m & d & Dd & Ed). destruct Y as (m2 & d2 & Dd2 & Ed2).
      pose proof (AC c (or_introl eq_refl)) as Dc. pose proof (AC c2 (or_intror I2)) as Dc2.
      pose proof (down_trans _ _ _ _ _ _ Dc Dd) as X1. pose proof (down_trans _ _ _ _ _ _ Dc2 Dd2) as X2.
      assert (d = d2) by (eapply reg_eq; [eapply down_reg; [exact W|exact R0|exact X1]|eapply down_reg; [exact W|exact R0|exact X2]|congruence]).
      subst d2. assert (m = m2) by (pose proof (depth_unique _ W _ R0 N0 _ _ _ X1 X2); lia). subst m2.
      assert (c = c2) by (eapply (down_det _ W); [eapply down_reg; [exact W|exact R0|exact Dc]|eapply down_reg; [exact W|exact R0|exact Dc2]|exact Dd|exact Dd2]).
      subst c2. contradiction.
Qed.
End Unfold2.

(** ** What every step keeps *)

Definition sound_mgr (g : mgr) : Prop := HWg g /\ RG g /\ g_state g = EDITABLE.

Lemma sound_empty : forall pub, sound_mgr (empty_mgr pub).
Proof.
  intros pub. pose proof (H_new sane_call pub) as H. split; [exact (history_HW _ _ H)|].
  destruct (history_RG _ _ _ H) as (A & B & _). auto.
Qed.
Lemma synced_om : forall g g0, maybe_synced g g0 -> only_mirror g g0.
Proof. intros g g0 [-> | ->]; [apply om_refl|apply om_find_root]. Qed.
Lemma sound_synced : forall g g0, maybe_synced g g0 -> sound_mgr g -> sound_mgr g0.
Proof.
  intros g g0 M (A & B & C). pose proof (synced_om _ _ M) as O. split; [exact (om_HW _ _ O A)|].
  destruct (keeps_om _ _ O) as [K [S _]]. split; [exact (K B)|congruence].
Qed.

Lemma unlink_reg : forall g o, reg (g_nodes g) (g_heap g) o ->
  g_heap (unlink_nodes g) o = set_children (set_parent (g_heap g o) None) [].
Proof.
  intros g o R. unfold unlink_nodes. cbn [g_heap set_heap].
  assert (X : existsb (fun io : nid * nat => Nat.eqb (snd io) o) (g_nodes g) = true); [|rewrite X; reflexivity].
  apply existsb_exists. exists (n_id (g_heap g o), o). split; [exact (nget_In _ _ _ R)|apply Nat.eqb_refl].
Qed.
Lemma unlink_ids_same : forall g, same_ids (g_heap g) (g_heap (unlink_nodes g)).
Proof. intros g o. unfold unlink_nodes. cbn. destruct (existsb _ _); split; reflexivity. Qed.
Lemma sound_unlink : forall g, sound_mgr g -> sound_mgr (unlink_nodes g).
Proof.
  intros g (A & B & C). pose proof (unlink_ids_same g) as S.
  assert (RR : forall o, reg (g_nodes g) (g_heap (unlink_nodes g)) o -> reg (g_nodes g) (g_heap g) o)
    by (intros o X; unfold reg in *; rewrite (proj1 (S o)) in X; exact X).
  split; [|split; [|exact C]].
  - constructor; change (g_nodes (unlink_nodes g)) with (g_nodes g); change (g_next (unlink_nodes g)) with (g_next g).
    + apply A.
    + intros i o H. rewrite (proj1 (S o)). exact (hw_id _ _ _ A _ _ H).
    + intros o R. rewrite unlink_reg by auto. constructor.
    + intros o c R X. rewrite unlink_reg in X by auto. destruct X.
    + intros o p R X. rewrite unlink_reg in X by auto. discriminate X.
    + intros o m R X. rewrite unlink_reg by auto. cbn. lia.
  - exact (proj1 (keeps_heap g (g_heap (unlink_nodes g)) S) B).
Qed.

Section Plant.
Context {E : Type}.
Variable ev : env E.
Implicit Types (s : server E).
Let P := server_plant ev sane_call.

Lemma sound_edit : forall s s' b, sv_edit sane_call s s' b -> sound_mgr (sv_mgr s) -> sound_mgr (sv_mgr s').
Proof.
  intros s s' b (fuel & e & g0 & r & M & F & H & C & _) S. destruct (sound_synced _ _ M S) as (A & B & D).
  split; [eapply serve_HW; eauto|]. destruct (serve_keeps _ _ _ _ _ B F H) as [K [K' _]]. split; [exact (K B)|congruence].
Qed.

(** How the nodes change in a step. *)
Lemma step_world : forall y e y', step P y e y' ->
  y_world y' = y_world y \/
  (exists p o r, e = EAct p (AEnd o r) /\ sv_op ev o (y_world y) (y_world y') r) \/
  (exists p b, e = EAct p (AInit b) /\ sv_init (y_world y) (y_world y') b) \/
  (exists p, e = EAct p AUnlink /\ sv_unlink (y_world y) (y_world y')) \/
  (exists p b, e = EAct p (AEditEnd b) /\ sv_edit sane_call (y_world y) (y_world y') b).
Proof.
  intros y e y' S. destruct S as [y k NK|y p k c a c' y' A S H].
  - left. reflexivity.
  - destruct H; try (left; reflexivity); cbn.
    + right; left; eauto 6.
    + right; right; left; eauto 6.
    + left. match goal with X : p_push _ _ _ _ |- _ => destruct X as [-> _]; reflexivity end.
    + right; right; right; left; eauto 6.
    + left. match goal with X : p_subclear _ _ _ |- _ => exact X end.
    + right; right; right; right; eauto 6.
Qed.
Lemma init_mgr : forall s s' b, sv_init s s' b -> sv_mgr s' = sv_mgr s /\ sv_class s' = sv_class s.
Proof. intros s s' b H. unfold sv_init in H. destruct (connect _ _). destruct H as [-> _]. auto. Qed.

Lemma step_sound : forall y e y', step P y e y' -> sound_mgr (sv_mgr (y_world y)) -> sound_mgr (sv_mgr (y_world y')).
Proof.
  intros y e y' S H. destruct (step_world _ _ _ S) as [->|[(p & o & r & _ & X)|[(p & b & _ & X)|[(p & _ & X)|(p & b & _ & X)]]]].
  - exact H.
  - destruct X as [-> _]. exact H.
  - destruct (init_mgr _ _ _ X) as [-> _]. exact H.
  - destruct X as (g0 & M & ->). cbn. apply sound_unlink. eapply sound_synced; eauto.
  - eapply sound_edit; eauto.
Qed.
Lemma runs_sound : forall G y es y', runs G P y es y' -> sound_mgr (sv_mgr (y_world y)) -> sound_mgr (sv_mgr (y_world y')).
Proof. intros G y es y' R. induction R as [y|y es y1 e y2 R IH HG S]; intros H; [exact H|]. exact (step_sound _ _ _ S (IH H)). Qed.

Theorem server_linked : forall s es y, new_server s -> runs anything P (fresh s) es y ->
  linked (sv_mgr (y_world y)) /\ forall x, In x (g_wires (sv_mgr (y_world y))) -> good_wiring (sv_mgr (y_world y)) x.
Proof.
  intros s es y [pub N] R. destruct (runs_sound _ _ _ _ R) as (A & B & _).
  - cbn. rewrite N. apply sound_empty.
  - split; [exact (HW_linked _ A)|exact (rg_wires _ B)].
Qed.

(** No node has a parent that is not there. *)
Lemma no_orphan : forall s, HWg (sv_mgr s) -> sv_orphan s = false.
Proof.
  intros s W. unfold sv_orphan. destruct (existsb _ _) eqn:X; [|reflexivity]. exfalso. apply existsb_exists in X.
  destruct X as ([i o] & X & Y). cbn in Y. assert (N : nget i (g_nodes (sv_mgr s)) = Some o) by (apply In_nget; [apply W|exact X]).
  destruct (n_parent (g_heap (sv_mgr s) o)) as [q|] eqn:Q; [|discriminate].
  destruct (hw_par _ _ _ W _ _ (nget_reg _ _ _ _ _ W N) Q) as [R _]. unfold nhas in Y. unfold reg in R. rewrite R in Y. discriminate.
Qed.
Theorem server_orphans : forall s es y p b, new_server s -> runs anything P (fresh s) es y -> In (EAct p (AOrphans b)) es -> b = false.
Proof.
  intros s es y p b N R. remember (fresh s) as y0 eqn:E0. induction R as [y|y es y1 e y2 R IH G S]; intros H; [destruct H|]. subst y.
  apply in_app_or in H. destruct H as [H|[->|[]]]; [auto|]. destruct N as [pub N].
  destruct (runs_sound _ _ _ _ R) as (A & _); [cbn; rewrite N; apply sound_empty|].
  inversion S as [|y0 p0 k c a c' y3 X L F]; subst. inversion F; subst. exact (no_orphan _ A).
Qed.

(** ** One root *)

Definition classed s : Prop := forall i o, nget i (g_nodes (sv_mgr s)) = Some o ->
  f_max (n_cfg (g_heap (sv_mgr s) o)) = class_max (fst (sv_class s i)).

Lemma one_root_obj : forall g o, HWg g -> snd (find_root g) = Ok (Some o) ->
  reg (g_nodes g) (g_heap g) o /\ n_parent (g_heap g o) = None /\ only_root g (n_id (g_heap g o)).
Proof.
  intros g o W H. destruct (find_root_roots g W) as [X _]. rewrite X in H.
  assert (In_roots : forall i, In i (roots g) <-> present g i /\ par g i = None).
  { intros i. unfold roots. rewrite filter_In. unfold present. rewrite nget_present. fold (order g).
    destruct (par g i); split; intros [A B]; try discriminate; auto. }
  destruct (roots g) as [|i [|j l]].
  - destruct (g_nodes g); discriminate H.
  - injection H as H. destruct (hw_id _ _ _ W _ _ H) as [N _]. pose proof (nget_reg _ _ _ _ _ W H) as R.
    destruct (proj1 (In_roots i) (or_introl eq_refl)) as [Pi Qi]. split; [exact R|].
    assert (Q : par g (n_id (g_heap g o)) = None) by (rewrite N; exact Qi). split.
    + rewrite par_reg in Q by exact R. destruct (n_parent (g_heap g o)); [discriminate Q|reflexivity].
    + split; [exact (reg_present _ _ R)|]. split; [exact Q|]. intros j Pj Qj.
      destruct (proj2 (In_roots j) (conj Pj Qj)) as [<-|[]]. symmetry. exact N.
  - discriminate H.
Qed.

Lemma root_tree : forall s o, HWg (sv_mgr s) -> classed s -> snd (find_root (sv_mgr s)) = Ok (Some o) ->
  exists t, unfolds (sv_mgr s) (sv_class s) o t.
Proof.
  intros s o W _ H. destruct (one_root_obj _ _ W H) as (R & N & _). eapply unfold_exists; [exact W|exact R|exact N|constructor].
Qed.
Lemma root_tree_wf : forall s o t, HWg (sv_mgr s) -> classed s -> snd (find_root (sv_mgr s)) = Ok (Some o) ->
  unfolds (sv_mgr s) (sv_class s) o t -> SpecTree.wf t /\ shows_tree s (n_id (g_heap (sv_mgr s) o)) t /\
  forall i, In i (ids t) -> present (sv_mgr s) i.
Proof.
  intros s o t W C H U. destruct (one_root_obj _ _ W H) as (R & N & _).
  assert (ND : NoDup (ids t)) by (eapply unfolds_NoDup; [exact W|exact R|exact N|constructor|exact U]).
  assert (PT : forall n k name cs, In (T n k name cs) (subtrees t) -> exists c, reg (g_nodes (sv_mgr s)) (g_heap (sv_mgr s)) c /\
    n_id (g_heap (sv_mgr s) c) = n /\ sv_class s n = (k, name) /\ unfolds_all (sv_mgr s) (sv_class s) (n_children (g_heap (sv_mgr s) c)) cs).
  { intros n k name cs X. destruct (unfolds_parts _ _ _ _ U _ X) as (j & c & D & Uc). exists c.
    split; [eapply down_reg; eauto|]. inversion Uc as [? ? A]; subst. split; [reflexivity|]. split; [|exact A].
    destruct (sv_class s (n_id (g_heap (sv_mgr s) c))); reflexivity. }
  split; [split; [exact ND|]|split].
  - intros n k name cs X. destruct (PT _ _ _ _ X) as (c & Rc & Nc & Cc & Ac). subst n.
    pose proof (C _ _ Rc) as M. rewrite Cc in M. cbn [fst] in M.
    assert (L : List.length cs = List.length (n_children (g_heap (sv_mgr s) c))).
    { rewrite <- (map_length t_id cs), (unfolds_all_ids _ _ _ _ Ac). unfold ids_of. apply map_length. }
    rewrite L. destruct k; cbn in M |- *; auto; pose proof (hw_max _ _ _ W _ _ Rc M); lia.
  - split; [exact (unfolds_id _ _ _ _ U)|]. split; [exact ND|]. split.
    + intros i. rewrite (ids_down _ _ _ _ U). split.
      * intros (j & c & D & <-). eapply down_below; eauto.
      * intros [->|B]; [exists 0, o; split; [constructor|reflexivity]|]. eapply below_down; eauto.
    + intros n k name cs X. destruct (PT _ _ _ _ X) as (c & Rc & Nc & Cc & Ac). subst n.
      split; [|exact Cc]. rewrite kids_reg by exact Rc. exact (unfolds_all_ids _ _ _ _ Ac).
  - intros i X. apply (ids_down _ _ _ _ U) in X. destruct X as (j & c & D & <-). apply reg_present. eapply down_reg; eauto.
Qed.

(** ** The invariants of ProofsFlowExec.v *)

Hypothesis Hl : SpecFlowExec.leaves_stop ev.

Definition resting s (i : nid) : Prop := w_st (sv_world s) i = UNINITIALIZED \/ w_st (sv_world s) i = SHUTDOWN.
Definition Dn s : Prop := forall i, present (sv_mgr s) i -> resting s i.
(** Nodes that are not in the tree of the root are at rest. *)
Definition apart s : Prop := forall o t, snd (find_root (sv_mgr s)) = Ok (Some o) -> unfolds (sv_mgr s) (sv_class s) o t ->
  forall i, present (sv_mgr s) i -> ~ In i (ids t) -> resting s i.
Definition Iv s : Prop := sound_mgr (sv_mgr s) /\ classed s /\ apart s.
Lemma Dn_apart : forall s, Dn s -> apart s.
Proof. intros s D o t _ _ i Pi _. exact (D i Pi). Qed.

Lemma sv_one : forall s, sv_root s = ROne -> exists o, snd (find_root (sv_mgr s)) = Ok (Some o).
Proof. intros s H. unfold sv_root in H. destruct (snd (find_root (sv_mgr s))) as [[o|]|e|]; try discriminate. eauto. Qed.

Lemma s_op : forall o s s' r, sv_root s = ROne -> Iv s -> sv_op ev o s s' r ->
  sv_root s' = ROne /\ Iv s' /\ (wires_flow s -> wires_flow s') /\ (o <> OSetup -> Dn s -> Dn s') /\
  (o = OShutdown -> forall x, r = Ok x -> Dn s').
Proof.
  intros o s s' r R (V1 & V2 & V3) (HM & HC & HO). destruct (sv_one _ R) as [root F]. rewrite F in HO. destruct HO as (t & U & C).
  destruct (root_tree_wf _ _ _ (proj1 V1) V2 F U) as (WT & ST & PI).
  assert (FR := frame_tree E ev t o (sv_world s)). rewrite C in FR. cbn [fst] in FR. destruct FR as [FS FC].
  assert (OUT : forall i, ~ In i (ids t) -> w_st (sv_world s') i = w_st (sv_world s) i)
    by (intros i X; destruct (FS _ X) as [Y _]; exact Y).
  assert (AP : forall i, present (sv_mgr s') i -> ~ In i (ids t) -> resting s' i).
  { intros i X Y. unfold resting. rewrite OUT by exact Y. apply (V3 _ _ F U); [rewrite <- HM; exact X|exact Y]. }
  assert (SD : o = OShutdown -> Dn s').
  { intros ->. destruct (shutdown_tree_ok E ev t WT) with (w := sv_world s) as (w1 & X & Y).
    { intros n k name cs X -> w0. apply Hl. }
    rewrite C in X. injection X as <- _. intros i Pi. destruct (in_dec Nat.eq_dec i (ids t)) as [Q|Q]; [|auto].
    right. apply Y. exact Q. }
  split; [unfold sv_root; rewrite HM; exact R|]. split.
  { split; [rewrite HM; exact V1|]. split; [intros i x; rewrite HM, HC; apply V2|].
    intros o' t' F' U'. rewrite HM in F'. rewrite HM, HC in U'. assert (o' = root) by congruence. subst o'.
    assert (t' = t) by (eapply unfolds_det; eauto). subst t'. exact AP. }
  split. { intros [F1 F2]. unfold wires_flow. rewrite HM, FC. split; assumption. }
  split; [|intros X x _; apply SD; exact X].
  intros NS D. assert (OO : o = OShutdown \/ o = OTick \/ o = OUntick \/ o = OReset) by (destruct o; auto; contradiction).
  destruct OO as [OO|OO]; [apply SD, OO|].
  assert (IT : In (t_id t) (ids t)) by (destruct t; left; reflexivity).
  assert (DT : SpecTree.dead (w_st (sv_world s) (t_id t)))
    by (destruct (D _ (PI _ IT)) as [X|X]; rewrite X; unfold SpecTree.dead; auto).
  destruct t as [n k name cs]. cbn [t_id] in DT.
  pose proof (refuse_dead E ev n k name (map (obj_of ev) cs) o (sv_world s) (or_introl (conj DT OO))) as X.
  change (obj_of ev (ModelTree.T n k name cs)) with (make_obj ev n k name (map (obj_of ev) cs)) in C.
  rewrite X in C. injection C as C _. intros m Hm. unfold resting. rewrite <- C. apply D. rewrite <- HM. exact Hm.
Qed.

Lemma s_state : forall s, Iv s -> sv_root s = ROne -> Dn s -> state_in (sv_state s) [UNINITIALIZED; SHUTDOWN] = true.
Proof.
  intros s (V1 & V2 & _) R D. destruct (sv_one _ R) as [o F]. unfold sv_state. rewrite F.
  destruct (one_root_obj _ _ (proj1 V1) F) as (_ & _ & PR & _). destruct (D _ PR) as [X|X]; rewrite X; reflexivity.
Qed.

Lemma passes_wires : forall n g, SpecFlowExec.passes_on n (sv_wires g) = passes_along n (g_wires g).
Proof. intros n g. unfold sv_wires. induction (g_wires g) as [|x l IH]; [reflexivity|]. cbn. f_equal. exact IH. Qed.

Lemma s_init : forall s s' b, Iv s -> sv_init s s' b ->
  b = true /\ wires_flow s' /\ Iv s' /\ sv_root s' = sv_root s /\ (Dn s -> Dn s').
Proof.
  intros s s' b (V1 & V2 & V3) H. unfold sv_init in H.
  set (c0 := (fun n => if nhas n (g_nodes (sv_mgr s)) then Some [] else None) : conns) in H.
  assert (IN : forall n, nhas n (g_nodes (sv_mgr s)) = true <-> present (sv_mgr s) n).
  { intros n. unfold nhas, present. destruct (nget n (g_nodes (sv_mgr s))); split; intros X; auto; try discriminate. }
  destruct (connect_ok (sv_wires (sv_mgr s)) c0) as (c & A & B & C).
  { intros x X. unfold sv_wires in X. apply in_map_iff in X. destruct X as (w & <- & Hw). cbn.
    destruct (rg_wires _ (proj1 (proj2 V1)) _ Hw) as (a & t & sc & tc & so & ti & E1 & E2 & E3 & _).
    rewrite E1, E2. split; [|discriminate]. exists a. split; [reflexivity|]. unfold c0.
    assert (Q : nhas a (g_nodes (sv_mgr s)) = true); [|rewrite Q; discriminate].
    apply IN. unfold present. unfold cfg, obj in E3. destruct (nget a (g_nodes (sv_mgr s))); [discriminate|discriminate E3]. }
  rewrite A in H. destruct H as [-> ->]. split; [reflexivity|]. split.
  - split; cbn; intros n X.
    + rewrite <- passes_wires. apply (B n []). unfold c0. apply IN in X. rewrite X. reflexivity.
    + apply C. unfold c0. destruct (nhas n (g_nodes (sv_mgr s))) eqn:Q; [|reflexivity]. apply IN in Q. contradiction.
  - split; [split; [exact V1|split; [exact V2|exact V3]]|]. split; [reflexivity|]. intros X. exact X.
Qed.

Lemma s_unlink : forall s s', Iv s -> Dn s -> sv_unlink s s' -> Iv s' /\ Dn s'.
Proof.
  intros s s' (V1 & V2 & V3) D (g0 & M & ->). pose proof (synced_om _ _ M) as (Eh & En & Ed & _).
  assert (D' : Dn (mkSv (unlink_nodes g0) (sv_class s) (sv_world s))).
  { intros i Pi. apply D. unfold present in *. cbn in Pi. rewrite Ed in Pi. exact Pi. }
  split; [|exact D']. split; [cbn; apply sound_unlink; eapply sound_synced; eauto|]. split; [|apply Dn_apart, D'].
  intros i o X. change (g_nodes (unlink_nodes g0)) with (g_nodes g0) in X. cbn [sv_mgr sv_class] in *.
  rewrite (proj2 (unlink_ids_same g0 o)), Eh. apply V2. rewrite <- Ed. exact X.
Qed.
Lemma s_edit : forall s s' b, Iv s -> Dn s -> sv_edit sane_call s s' b -> Iv s' /\ Dn s'.
Proof.
  intros s s' b (V1 & V2 & V3) D H. pose proof (sound_edit _ _ _ H V1) as S. destruct H as (fuel & e & g0 & r & M & F & HS & C & _ & K).
  assert (D' : Dn s').
  { intros i Pi. destruct (HW_present _ _ (proj1 S) Pi) as (o & Eo & _ & _). destruct (K i o Eo) as (_ & K1 & K2).
    assert (X : nget i (g_nodes (sv_mgr s)) = Some o \/ nget i (g_nodes (sv_mgr s)) <> Some o).
    { destruct (nget i (g_nodes (sv_mgr s))) as [o'|]; [|right; discriminate]. destruct (Nat.eq_dec o' o); [left|right]; congruence. }
    destruct X as [X|X]; [|left; auto]. destruct (K1 X) as [_ [Z|Z]]; [|right; exact Z].
    unfold resting. rewrite Z. apply D. unfold present. rewrite X. discriminate. }
  split; [|exact D']. split; [exact S|]. split; [|apply Dn_apart, D']. intros i o X. apply (K i o X).
Qed.

Lemma server_fine : forall s es y, new_server s -> runs SpecFlowExec.patient P (fresh s) es y -> fine P Iv Dn wires_flow y.
Proof.
  intros s es y [pub N] R.
  assert (D : Dn s) by (intros i Pi; unfold present in Pi; rewrite N in Pi; elim Pi; reflexivity).
  assert (V : Iv s).
  { split; [rewrite N; apply sound_empty|]. split; [|apply Dn_apart, D]. intros i o X. rewrite N in X. discriminate X. }
  apply (fine_runs P Iv Dn wires_flow) with (y := fresh s) (es := es); [..|exact R|].
  - exact s_op.
  - exact s_state.
  - exact s_init.
  - intros ? ? ? X [-> _]. auto.
  - intros ? ? X ->. auto.
  - exact s_unlink.
  - exact s_edit.
  - apply fine_fresh; assumption.
Qed.

Theorem server_tick : forall s es y p, new_server s -> runs SpecFlowExec.patient P (fresh s) es y -> ticking y p ->
  exists r t, only_root (sv_mgr (y_world y)) r /\ shows_tree (y_world y) r t /\ SpecTree.wf t /\ wires_flow (y_world y) /\
    forall q o res y', step P y (EAct q (AEnd o res)) y' ->
      call o (obj_of ev t) (sv_world (y_world y)) = (sv_world (y_world y'), res) /\
      sv_mgr (y_world y') = sv_mgr (y_world y) /\ sv_class (y_world y') = sv_class (y_world y).
Proof.
  intros s es y p N R T. pose proof (server_fine _ _ _ N R) as F.
  pose proof (fine_root _ _ _ _ _ _ F T) as RO. pose proof (fine_ticking _ _ _ _ _ _ F T) as CU.
  destruct (fine_iv _ _ _ _ _ F) as (V1 & V2 & V3). destruct (sv_one _ RO) as [o Fo].
  destruct (root_tree _ _ (proj1 V1) V2 Fo) as [t U]. destruct (root_tree_wf _ _ _ (proj1 V1) V2 Fo U) as (WT & ST & _).
  exists (n_id (g_heap (sv_mgr (y_world y)) o)), t. split; [apply (one_root_obj _ _ (proj1 V1) Fo)|].
  split; [exact ST|]. split; [exact WT|]. split; [exact CU|].
  intros q o' res y' S. inversion S as [|y0 p0 k c a c' y1 A L EF]; subst. inversion EF; subst.
  match goal with X : p_op _ _ _ _ _ |- _ => destruct X as (HM & HC & HO) end. cbn. rewrite Fo in HO.
  destruct HO as (t' & U' & HO). assert (t' = t) by (eapply unfolds_det; eauto). subst t'. auto.
Qed.

Lemma whole_root : forall s, HWg (sv_mgr s) -> whole (sv_mgr s) -> sv_root s <> RBad.
Proof.
  intros s W H. destruct (find_root_spec _ W) as (A & B & _). unfold sv_root. destruct H as [H|(r & H1 & H2 & H3)].
  - rewrite (A H). discriminate.
  - destruct (B r H1 H2 H3) as (o & -> & _). discriminate.
Qed.
Theorem server_unchanged : forall s es y es' y', new_server s -> runs SpecFlowExec.patient P (fresh s) es y ->
  whole (sv_mgr (y_world y)) -> runs SpecFlowExec.patient P y es' y' -> no_edits es' ->
  sv_mgr (y_world y') = sv_mgr (y_world y) /\ sv_class (y_world y') = sv_class (y_world y).
Proof.
  intros s es y es' y' N R WH R'. revert R WH. induction R' as [y|y es1 y1 e y2 R' IH G S]; intros R WH NE; [auto|].
  destruct (IH R WH) as [IM IC]; [intros p b X; apply (NE p b); apply in_or_app; auto|].
  assert (R1 : runs SpecFlowExec.patient P (fresh s) (es ++ es1) y1).
  { clear - R R'. induction R' as [y|y es1 y1 e y2 R' IH G S]; [rewrite app_nil_r; exact R|]. rewrite app_assoc. econstructor; eauto. }
  pose proof (server_fine _ _ _ N R1) as F1. pose proof (fine_iv _ _ _ _ _ F1) as (V1 & _).
  destruct (step_world _ _ _ S) as [->|[(p & o & r & _ & X)|[(p & b & _ & X)|[(p & -> & X)|(p & b & -> & X)]]]].
  - auto.
  - destruct X as (-> & -> & _). auto.
  - destruct (init_mgr _ _ _ X) as [-> ->]. auto.
  - exfalso. pose proof (fine_unlink _ _ _ _ _ _ _ F1 S) as Z. apply (whole_root _ (proj1 V1)); [rewrite IM; exact WH|exact Z].
  - exfalso. apply (NE p b). apply in_or_app. right. left. reflexivity.
Qed.
End Plant.
