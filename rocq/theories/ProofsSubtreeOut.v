(** Proofs about the outputs of the Subtree node (C74). *)
From Coq Require Import String Ascii ZArith Bool Arith SpecFloat List.
From Verif Require Import Base ModelData ModelUtility ModelTree ModelSubtreeNode SpecTree SpecFlow SpecSubtreeNode SpecSubtreeOut
  ProofsData ProofsTree ProofsLife ProofsWhole ProofsFlow ProofsSubtreeNode.
Import ListNotations.
Local Open Scope string_scope.

Lemma check_again : forall t v v', check t v = Ok v' -> check t v' = Ok v'.
Proof.
  assert (G : forall t v v', check t v = Ok v' -> v' = v \/ exists a b, t = TFloat a b).
  { intros t v v' H. destruct t; cbn [check] in H; eauto; left;
      repeat match type of H with context [match ?x with _ => _ end] => destruct x end; congruence. }
  intros t v v' H. destruct (G t v v' H) as [->|(a & b & ->)]; auto.
  cbn [check] in *.
  match type of H with match ?x with _ => _ end = _ => destruct x as [f|e|] end; try discriminate.
  destruct (SFltb f a) eqn:Ea; [discriminate|]. destruct (SFltb b f) eqn:Eb; [discriminate|].
  inversion H; subst. rewrite Ea, Eb. reflexivity.
Qed.

(** ** Lifting with one leaf apart *)
Section LiftLeaf.
  Context {E : Type}.
  Variable ev : env E.
  Variable R : world E -> world E -> Prop.
  Variable m : nid.
  Hypothesis Rrefl : forall w, R w w.
  Hypothesis Rtrans : forall a b c, R a b -> R b c -> R a c.
  Hypothesis Rst : forall w n s, R w (set_st w n s).
  Hypothesis Rmem : forall w n a, R w (set_mem w n a).
  Hypothesis Rext : forall w e, R w (set_ext w e).
  Hypothesis Routs : forall w n l, n <> m -> R w (set_outs w n l).
  Hypothesis Rins : forall w n l, R w (set_ins w n l).
  Hypothesis Rpush : forall w n, n <> m -> R w (fst (push_outputs w n)).
  Hypothesis Rleaf : forall o name w, R w (fst (call o (make_obj ev m KLeaf name []) w)).

  Ltac go := match goal with
    | |- R ?w ?w => apply Rrefl
    | H : R ?w ?x |- R ?w ?x => exact H
    | |- R _ (set_st _ _ _) => eapply Rtrans; [|apply Rst]; go
    | |- R _ (set_mem _ _ _) => eapply Rtrans; [|apply Rmem]; go
    | |- R _ (set_ext _ _) => eapply Rtrans; [|apply Rext]; go
    | |- R _ (set_outs _ _ _) => eapply Rtrans; [|apply Routs; assumption]; go
    | |- R _ (set_ins _ _ _) => eapply Rtrans; [|apply Rins]; go
    end.

  Lemma leaf_wrap : forall n (d : act E) (w : world E), n <> m -> (forall w, R w (fst (d w))) ->
    R w (fst (node_setup n d w)) /\ R w (fst (node_tick n d w)) /\
    R w (fst (node_untick n d w)) /\ R w (fst (node_reset n d w)).
  Proof.
    intros n d w Hnm Hd.
    assert (Hin : forall w1, R w w1 -> R w (fst (d w1))) by (intros w1 H; eapply Rtrans; [exact H|apply Hd]).
    split; [|split; [|split]].
    - destruct (node_setup_cases E n d w) as [[_ [_ Heq]]|[_ Heq]]; rewrite Heq; [apply Rrefl|].
      unfold setup_live. cbn zeta.
      match goal with |- context [d ?x] => assert (H : R w (fst (d x))) by (apply Hin; go); destruct (d x) as [w3 [s|e|]] end;
        cbn [fst] in *; auto; try go.
      dif; cbn [fst]; go.
    - destruct (node_tick_cases E n d w) as [[_ Heq]|[_ Heq]]; rewrite Heq; [apply Rrefl|].
      unfold tick_live. destruct (negb _); [apply Rst|].
      match goal with |- context [d ?x] => assert (H : R w (fst (d x))) by (apply Hin; go); destruct (d x) as [w3 [s|e|]] end;
        cbn [fst] in *; auto; try go. cbn zeta.
      match goal with |- context [push_outputs ?x n] =>
        assert (Hp : R w (fst (push_outputs x n))) by (eapply Rtrans; [|apply Rpush; assumption]; go);
        destruct (push_outputs x n) as [w5 [u|e|]] end; cbn [fst] in *; dif; cbn [fst]; try go.
    - destruct (node_untick_cases E n d w) as [[_ Heq]|[_ Heq]]; rewrite Heq; [apply Rrefl|].
      unfold untick_live. cbn zeta.
      match goal with |- context [d ?x] => assert (H : R w (fst (d x))) by (apply Hin; go); destruct (d x) as [w3 [s|e|]] end;
        cbn [fst] in *; auto; try go.
      dif; cbn [fst]; go.
    - destruct (node_reset_cases E n d w) as [[_ Heq]|[_ Heq]]; rewrite Heq; [apply Rrefl|].
      unfold reset_live. cbn zeta.
      match goal with |- context [d ?x] => assert (H : R w (fst (d x))) by (apply Hin; go); destruct (d x) as [w3 [s|e|]] end;
        cbn [fst] in *; auto; try go.
      dif; cbn [fst]; go.
  Qed.

  Lemma leaf_shutdown : forall n cs (d : act E) (w : world E),
    (forall w, R w (fst (d w))) -> (forall c w, In c cs -> R w (fst (o_shutdown c w))) ->
    R w (fst (node_shutdown n cs d w)).
  Proof.
    intros n cs d w Hd Hc.
    assert (Hcs : forall w e, R w (fst (shutdown_children cs w e))).
    { clear w. induction cs as [|c r IH]; simpl; intros w0 e; [apply Rrefl|].
      pose proof (Hc c w0 (or_introl eq_refl)) as H.
      destruct (o_shutdown c w0) as [w1 [s|e1|]]; simpl in *; auto; (eapply Rtrans; [exact H|apply IH; auto]). }
    unfold node_shutdown.
    match goal with |- R w (fst (bind ?x _)) => assert (Ho : R w (fst x)) end.
    { destruct (w_st w n); try apply Rrefl; pose proof (Hd w) as H;
        destruct (d w) as [w1 [s|e|]]; cbn [fst] in *; auto; try go; dif; cbn [fst]; go. }
    match goal with |- R w (fst (bind ?x _)) => destruct x as [w1 [s|e|]] end; simpl in *; auto.
    pose proof (Hcs w1 None) as H.
    destruct (shutdown_children cs w1 None) as [w2 [[e|]|e|]]; simpl in *; eapply Rtrans; eauto.
  Qed.

  Lemma leaf_tree : forall t o w, leaf_only m t -> R w (fst (call o (obj_of ev t) w)).
  Proof.
    induction t as [n k name cs IH] using tree_ind'. intros o w Hl. rewrite Forall_forall in IH.
    destruct (Nat.eq_dec n m) as [->|Hnm].
    { destruct (Hl k name cs (or_introl eq_refl)) as [-> ->]. apply Rleaf. }
    assert (Hsub : forall c o w, In c (map (obj_of ev) cs) -> R w (fst (call o c w))).
    { intros c o' w' Hc. apply in_map_iff in Hc. destruct Hc as [t [Ht Hin]]. subst c. apply IH; auto.
      intros k' name' cs' H'. apply (Hl k' name' cs'). simpl. right. apply in_flat_map. eauto. }
    simpl obj_of. rewrite call_make.
    assert (Hd : forall o w, R w (fst (do_op ev o n k (map (obj_of ev) cs) w))).
    { intros o' w'. apply do_op_rel with (phase := True) (okop := fun _ => True); auto. }
    destruct o.
    - apply leaf_wrap; auto.
    - apply leaf_wrap; auto.
    - apply leaf_wrap; auto.
    - apply leaf_wrap; auto.
    - apply leaf_shutdown; [apply Hd|]. intros c w0 Hc. apply (Hsub c OShutdown); auto.
  Qed.
End LiftLeaf.

(** ** The output of the leaf and the outgoing data *)
(** With [b] unset only the shape of the data is meant. *)
Definition tied (b : bool) (o g : container) : Prop :=
  c_static o = false /\ c_static g = false /\ c_ty g = c_ty o /\
  (b = true -> forall v, c_val o = Some v -> exists x, c_val g = Some x /\ (x = v \/ py_eq x v = true)).
Definition unwired {F} (b : bool) (m : nid) (w : world F) : Prop :=
  w_conns w m = Some [] \/ (b = false /\ w_conns w m = None).
Definition synced {F} (b : bool) (m : nid) (w : world F) : Prop :=
  unwired b m w /\
  exists o g, w_outs w m = [("out", o)] /\ og_get m "out" (w_outg w) = Some g /\ tied b o g.
Definition keeps {F} (b : bool) (m : nid) (w w' : world F) : Prop := synced b m w -> synced b m w'.

Lemma synced_ext : forall F b m (w w' : world F), w_conns w' m = w_conns w m -> w_outs w' m = w_outs w m ->
  og_get m "out" (w_outg w') = og_get m "out" (w_outg w) -> synced b m w -> synced b m w'.
Proof. intros F b m w w' H1 H2 H3 [A B]. split; [unfold unwired; rewrite H1; exact A|]. rewrite H2, H3. exact B. Qed.

Lemma tied_flag : forall b o g, tied b o g -> tied b (reset_updated o) g.
Proof. intros b o g (A & B & C & D). repeat split; simpl; auto. Qed.
Lemma tied_flag_g : forall b o g, tied b o g -> tied b o (reset_updated g).
Proof. intros b o g (A & B & C & D). repeat split; simpl; auto. Qed.
Lemma tied_none : forall b o g, tied b o g -> tied b (reset_value o) g.
Proof. intros b o g (A & B & C & D). repeat split; simpl; auto. intros _ v H. rewrite A in H. discriminate. Qed.
Lemma tied_none_g : forall b o g, tied b o g -> tied false o (reset_value g).
Proof. intros b o g (A & B & C & D). repeat split; simpl; auto. discriminate. Qed.
Lemma tied_weak : forall b o g, tied b o g -> tied false o g.
Proof. intros b o g (A & B & C & D). repeat split; simpl; auto. discriminate. Qed.
Lemma tied_unset : forall o g, tied false o g -> c_val o = None -> tied true o g.
Proof. intros o g (A & B & C & D) H. repeat split; simpl; auto. intros _ v Hv. congruence. Qed.

Lemma map_io1 : forall f o, map_io f [("out", o)] = [("out", f o)].
Proof. reflexivity. Qed.

(** Writing, then passing on. *)
Lemma set_tied : forall b o g v o' x, tied b o g -> c_upd o = false -> set_value o v = (o', Ok x) ->
  (c_upd o' = false /\ tied b o' g) \/
  (c_upd o' = true /\ exists v' g' y, c_val o' = Some v' /\ set_value g v' = (g', Ok y) /\ tied b o' g').
Proof.
  intros b o g v o' x (A & B & C & D) Hu H.
  destruct (set_value_cases o v) as [[e H1]|[H1|[[v' [_ [Hl _]]]|[v' [Hc [_ H1]]]]]]; try (rewrite H in H1; discriminate).
  { rewrite A in Hl; discriminate. }
  rewrite H in H1. inversion H1; subst o'. simpl. clear H1. destruct (changed (c_val o) v') eqn:Ech; [right|left].
  - split; auto. pose proof (check_again _ _ _ Hc) as Hc'. exists v'.
    destruct (set_value g v') as [g' r] eqn:Eg.
    pose proof (set_value_static g v') as [S1 S2]. rewrite Eg in S1, S2. simpl in S1, S2.
    assert (exists y, r = Ok y) as [y ->].
    { revert Eg. unfold set_value, base_set. rewrite C, Hc', B. cbn [andb]. destruct (c_ty o); intros Eg; inversion Eg; eauto. }
    exists g', y. split; auto. split; auto. repeat split; simpl; auto; try congruence.
    intros _ v0 H0. inversion H0; subst v0. pose proof (set_value_given g v' g' y Eg B) as (p & q & Q1 & Q2 & Q3).
    rewrite S2, C, Hc' in Q2. inversion Q2; subst q. exists p. auto.
  - split; auto. repeat split; simpl; auto.
Qed.

Section Leaf.
  Context {F : Type}.
  Variable ev : env F.
  Variable m : nid.
  Hypothesis io : io_output ev m.
  Variable b : bool.

  Lemma leaf_quiet : forall o (w : world F), o <> OTick ->
    fst (leaf_act ev o m w) = set_ext w (w_ext (fst (leaf_act ev o m w))).
  Proof.
    intros o w Ho. unfold leaf_act. pose proof (io o (w_st w m) (w_ins w m) (w_ext w)) as H.
    destruct (ev_leaf ev o m (w_st w m) (w_ins w m) (w_ext w)) as [[e' ws] r].
    destruct H as [->|[H _]]; [|congruence]. simpl. reflexivity.
  Qed.
  Lemma leaf_synced : forall o (w : world F), o <> OTick -> synced b m w -> synced b m (fst (leaf_act ev o m w)).
  Proof. intros o w Ho H. rewrite leaf_quiet by auto. eapply synced_ext; [..|exact H]; reflexivity. Qed.

  Lemma synced_outs : forall f (w : world F), (forall o g, tied b o g -> tied b (f o) g) -> synced b m w ->
    synced b m (set_outs w m (map_io f (w_outs w m))).
  Proof.
    intros f w Hf [A (o & g & B1 & B2 & B3)]. split; auto. exists (f o), g. simpl. unfold upd. rewrite Nat.eqb_refl, B1. auto.
  Qed.

  Lemma leaf_keeps : forall o name (w : world F), keeps b m w (fst (call o (make_obj ev m KLeaf name []) w)).
  Proof.
    intros o name w H. rewrite call_make.
    assert (Hst : forall (w : world F) s, synced b m w -> synced b m (set_st w m s)) by (intros; eapply synced_ext; [..|eassumption]; reflexivity).
    assert (Hins : forall (w : world F) l, synced b m w -> synced b m (set_ins w m l)) by (intros; eapply synced_ext; [..|eassumption]; reflexivity).
    destruct o.
    - destruct (node_setup_cases F m (do_op ev OSetup m KLeaf []) w) as [[_ [_ Heq]]|[_ Heq]]; rewrite Heq; auto.
      unfold setup_live. cbn zeta.
      match goal with |- context [do_op ev OSetup m KLeaf [] ?x] =>
        assert (H1 : synced b m (fst (do_op ev OSetup m KLeaf [] x))) by
          (apply (leaf_synced OSetup); [discriminate|]; apply (synced_outs (fun c => reset_updated (reset_value c)));
           [intros; apply tied_flag, tied_none; auto|apply Hins; auto]);
        destruct (do_op ev OSetup m KLeaf [] x) as [w3 [s|e|]] end; cbn [fst] in *; auto.
      dif; cbn [fst]; auto.
    - destruct (node_tick_cases F m (do_op ev OTick m KLeaf []) w) as [[_ Heq]|[_ Heq]]; rewrite Heq; auto.
      unfold tick_live. destruct (negb _); [apply Hst; auto|].
      assert (H1 : synced b m (set_outs w m (map_io reset_updated (w_outs w m)))) by (apply synced_outs; auto; apply tied_flag).
      set (w1 := set_outs w m (map_io reset_updated (w_outs w m))) in *.
      assert (Hu1 : exists o1, w_outs w1 m = [("out", o1)] /\ c_upd o1 = false).
      { destruct H as [_ (o & g & B1 & _)]. exists (reset_updated o). subst w1. simpl. unfold upd. rewrite Nat.eqb_refl, B1. auto. }
      clearbody w1. cbn [do_op do_tick]. unfold leaf_act.
      pose proof (io OTick (w_st w1 m) (w_ins w1 m) (w_ext w1)) as Hio.
      destruct (ev_leaf ev OTick m (w_st w1 m) (w_ins w1 m) (w_ext w1)) as [[e' ws] r].
      assert (Hq : forall w2 : world F, synced b m w2 -> (exists o1, w_outs w2 m = [("out", o1)] /\ c_upd o1 = false) ->
        synced b m (fst (push_outputs w2 m))).
      { intros w2 [A (o & g & B1 & B2 & B3)] (o1 & C1 & C2). rewrite B1 in C1. inversion C1; subst o1.
        unfold push_outputs. destruct A as [A|[A0 A]]; rewrite A; simpl; [rewrite B1; simpl; rewrite C2; simpl|];
          (split; [unfold unwired; auto|exists o, g; auto]). }
      destruct Hio as [->|(_ & -> & v & ->)].
      + cbn [out_set_all bind].
        assert (H2 : synced b m (set_ext w1 e')) by (eapply synced_ext; [..|exact H1]; reflexivity).
        destruct r as [s|e|]; cbn [fst]; auto.
        match goal with |- context [push_outputs ?x m] =>
          assert (H3 : synced b m (fst (push_outputs x m))) by (apply Hq; [auto|exact Hu1]);
          assert (H4 : synced b m x) by auto;
          destruct (push_outputs x m) as [w5 [u|e|]] end; cbn [fst] in *; dif; cbn [fst]; auto.
      + destruct H1 as [A (o & g & B1 & B2 & B3)]. destruct Hu1 as (o1 & C1 & C2). rewrite B1 in C1. inversion C1; subst o1.
        cbn [out_set_all]. unfold out_set. simpl w_outs. rewrite B1. cbn [dget]. rewrite String.eqb_refl.
        destruct (set_value o v) as [o' r'] eqn:Es.
        assert (Hbad : (forall x, r' <> Ok x) -> synced b m (set_outs (set_ext w1 e') m (dset "out" o' [("out", o)]))).
        { intros Hr. split; auto. exists o, g. split; [|auto]. simpl. unfold upd. rewrite Nat.eqb_refl.
          destruct (set_value_cases o v) as [[e H1]|[H1|[[v' [_ [Hl [_ H1]]]]|[v' [Hc [_ H1]]]]]]; rewrite Es in H1; inversion H1; subst; auto.
          exfalso. eapply Hr. reflexivity. }
        destruct r' as [x|e|]; cbn [bind fst]; [|apply Hst; apply Hbad; discriminate|apply Hbad; discriminate].
        cbn zeta. change (state_in SUCCEEDED _) with true. cbn iota.
        set (w4 := set_ins _ m _).
        assert (W1 : w_outs w4 m = [("out", o')]) by (subst w4; simpl; unfold upd; rewrite Nat.eqb_refl; reflexivity).
        assert (W2 : unwired b m w4) by exact A.
        assert (W3 : og_get m "out" (w_outg w4) = Some g) by exact B2.
        clearbody w4.
        assert (H3 : synced b m (fst (push_outputs w4 m))).
        { unfold push_outputs. destruct W2 as [W2|[Wb W2]]; rewrite W2; cbn [push_conns bind].
          2:{ cbn [fst]. split; [right; auto|]. exists o', g. split; auto. split; auto. subst b.
              pose proof (set_value_static o v) as [S1 S2]. rewrite Es in S1, S2. simpl in S1, S2.
              destruct B3 as (T1 & T2 & T3 & _). repeat split; try congruence. }
          rewrite W1. cbn [push_outgoing].
          destruct (set_tied _ _ _ _ _ _ B3 C2 Es) as [[U T]|(U & v' & g' & y & V & G & T)]; rewrite U; cbn [negb fst].
          - split; [left; auto|]. exists o', g. auto.
          - rewrite W3, V, G. cbn [fst]. split; [left; exact W2|]. exists o', g'. split; auto. split; auto. simpl.
            apply og_set_same. rewrite W3. discriminate. }
        destruct (push_outputs w4 m) as [w5 [u|e|]]; cbn [fst] in *; auto.
    - destruct (node_untick_cases F m (do_op ev OUntick m KLeaf []) w) as [[_ Heq]|[_ Heq]]; rewrite Heq; auto.
      unfold untick_live. cbn zeta.
      match goal with |- context [do_op ev OUntick m KLeaf [] ?x] =>
        assert (H1 : synced b m (fst (do_op ev OUntick m KLeaf [] x))) by (apply (leaf_synced OUntick); [discriminate|]; auto);
        destruct (do_op ev OUntick m KLeaf [] x) as [w3 [s|e|]] end; cbn [fst] in *; auto.
      dif; cbn [fst]; auto. apply synced_outs; auto.
    - destruct (node_reset_cases F m (do_op ev OReset m KLeaf []) w) as [[_ Heq]|[_ Heq]]; rewrite Heq; auto.
      unfold reset_live. cbn zeta.
      match goal with |- context [do_op ev OReset m KLeaf [] ?x] =>
        assert (H1 : synced b m (fst (do_op ev OReset m KLeaf [] x))) by
          (apply (leaf_synced OReset); [discriminate|]; apply (synced_outs (fun c => reset_updated (reset_value c)));
           [intros; apply tied_flag, tied_none; auto|apply Hins; auto]);
        destruct (do_op ev OReset m KLeaf [] x) as [w3 [s|e|]] end; cbn [fst] in *; auto.
      dif; cbn [fst]; auto.
    - unfold node_shutdown. cbn [shutdown_children].
      pose proof (leaf_synced OShutdown w ltac:(discriminate) H) as H1. cbn [do_op do_shutdown].
      destruct (w_st w m); cbn [bind fst]; auto;
        destruct (leaf_act ev OShutdown m w) as [w1 [s|e|]]; cbn [fst bind] in *; auto; dif; cbn [fst bind]; auto.
  Qed.

  Lemma tree_keeps : forall t o (w : world F), leaf_only m t -> keeps b m w (fst (call o (obj_of ev t) w)).
  Proof.
    intros t o w Hl. apply (leaf_tree ev (keeps b m) m); auto; unfold keeps; auto;
      try (intros; eapply synced_ext; [..|eassumption]; reflexivity).
    - intros w0 n l Hn H. eapply synced_ext; [..|exact H]; auto. simpl. unfold upd. destruct (Nat.eqb_spec m n); congruence.
    - intros w0 n Hn H. pose proof (push_outputs_frame F n w0) as (_ & _ & P3 & P4 & _ & _ & P7).
      eapply synced_ext; [..|exact H]; [rewrite P4|rewrite P3|]; auto.
    - intros o0 name w0. apply leaf_keeps.
  Qed.
End Leaf.

(** ** Setup and reset reach the leaf *)
Definition blank {F} (m : nid) (w : world F) : Prop :=
  forall key c, dget key (w_outs w m) = Some c -> c_static c = false -> c_val c = None.

Lemma blank_ext : forall F m (w w' : world F), w_outs w' m = w_outs w m -> blank m w -> blank m w'.
Proof. intros F m w w' H B key c. rewrite H. apply B. Qed.
Lemma blank_map : forall F m (w : world F),
  blank m (set_outs w m (map_io (fun c => reset_updated (reset_value c)) (w_outs w m))).
Proof.
  intros F m w key c. simpl. unfold upd. rewrite Nat.eqb_refl, dget_map_io. destruct (dget key (w_outs w m)) as [c0|]; [|discriminate].
  simpl. intros H. inversion H; subst. simpl. intros ->. reflexivity.
Qed.

Lemma all_blank : forall F (ev : env F) m o, io_output ev m -> (o = OSetup \/ o = OReset) ->
  forall t (w w' : world F) s, wf t -> resets_all t -> leaf_only m t -> In m (ids t) ->
  call o (obj_of ev t) w = (w', Ok s) -> blank m w'.
Proof.
  intros F ev m o io Ho. induction t as [n k name cs IH] using tree_ind'. intros w w' s Hwf Hra Hl Hm H.
  rewrite Forall_forall in IH. pose proof (wf_fresh _ _ _ _ Hwf) as [Hn [Hnd Har]].
  simpl obj_of in H. rewrite call_make in H.
  assert (Hd : forall w0 w3 s3, blank m w0 \/ n <> m -> do_op ev o n k (map (obj_of ev) cs) w0 = (w3, Ok s3) -> blank m w3).
  { intros w0 w3 s3 Hb H3. destruct (Nat.eq_dec n m) as [->|Hnm].
    - destruct (Hl k name cs (or_introl eq_refl)) as [-> ->]. destruct Hb as [Hb|]; [|congruence].
      assert (Hq : fst (leaf_act ev o m w0) = set_ext w0 (w_ext (fst (leaf_act ev o m w0)))) by (apply leaf_quiet; auto; destruct Ho; subst; discriminate).
      assert (E3 : leaf_act ev o m w0 = (w3, Ok s3)) by (destruct Ho; subst; exact H3).
      rewrite E3 in Hq. simpl in Hq. rewrite Hq. eapply blank_ext; [|exact Hb]. reflexivity.
    - simpl in Hm. destruct Hm as [|Hm]; [congruence|]. apply in_flat_map in Hm. destruct Hm as [c [Hc Hm]].
      destruct (Hra n k name cs (or_introl eq_refl)) as [K1 K2].
      assert (Hfr : forall S (t : tree) (w w' : world F), stays_inside S w w' -> disjoint (ids t) S ->
        (In m (ids t) -> blank m w) -> (In m (ids t) -> blank m w')).
      { intros S t0 w1 w2 [Hs _] Hdj HP Hin. destruct (Hs m (Hdj m Hin)) as (_ & _ & Q & _). eapply blank_ext; [exact Q|auto]. }
      assert (Hch : forall c (w w' : world F) s, In c cs -> call o (obj_of ev c) w = (w', Ok s) -> In m (ids c) -> blank m w').
      { intros c0 w1 w2 s0 Hc0 Hcall Hin. eapply (IH c0 Hc0 w1 w2 s0); eauto.
        - eapply wf_child; eauto.
        - intros n' k' name' cs' Hx. apply (Hra n' k' name' cs'). simpl. right. apply in_flat_map. eauto.
        - intros k' name' cs' Hx. apply (Hl k' name' cs'). simpl. right. apply in_flat_map. eauto. }
      destruct Ho; subst o; simpl in H3.
      + apply (do_setup_post F ev n k cs w0 w3 s3 (fun w t => In m (ids t) -> blank m w)) in H3; auto.
        destruct H3 as [_ H3]. destruct (H3 c Hc) as [[HH _]|HH]; [congruence|auto].
      + apply (do_reset_post F ev n k cs w0 w3 s3 (fun w t => In m (ids t) -> blank m w)) in H3; auto.
        destruct H3 as [_ H3]. destruct (H3 c Hc) as [[HH _]|HH]; [congruence|auto]. }
  assert (Hbm : forall w1 : world F, blank m (set_outs w1 n (map_io (fun c => reset_updated (reset_value c)) (w_outs w1 n))) \/ n <> m).
  { intros w1. destruct (Nat.eq_dec n m) as [->|]; auto. left. apply blank_map. }
  destruct Ho; subst o.
  - destruct (node_setup_cases F n (do_op ev OSetup n k (map (obj_of ev) cs)) w) as [[_ [_ Heq]]|[_ Heq]]; rewrite Heq in H; [discriminate|].
    unfold setup_live in H. cbn zeta in H.
    match type of H with context [do_op ev OSetup n k (map (obj_of ev) cs) ?x] =>
      destruct (do_op ev OSetup n k (map (obj_of ev) cs) x) as [w3 [s3|e|]] eqn:Ed end; try discriminate.
    apply Hd in Ed; [|apply Hbm]. destruct (state_in s3 [IDLE]); inversion H; subst. eapply blank_ext; [|exact Ed]. reflexivity.
  - destruct (node_reset_cases F n (do_op ev OReset n k (map (obj_of ev) cs)) w) as [[_ Heq]|[_ Heq]]; rewrite Heq in H; [discriminate|].
    unfold reset_live in H. cbn zeta in H.
    match type of H with context [do_op ev OReset n k (map (obj_of ev) cs) ?x] =>
      destruct (do_op ev OReset n k (map (obj_of ev) cs) x) as [w3 [s3|e|]] eqn:Ed end; try discriminate.
    apply Hd in Ed; [|apply Hbm]. destruct (state_in s3 [IDLE]); inversion H; subst. eapply blank_ext; [|exact Ed]. reflexivity.
Qed.

Lemma connect_unwired : forall m l (c : conns), (forall x, In x l -> iw_src x <> Some m) -> fst (connect l c) m = c m.
Proof.
  intros m. induction l as [|x l IH]; intros c H; [reflexivity|]. cbn [connect].
  pose proof (H x (or_introl eq_refl)) as Hx. destruct (iw_src x) as [s|]; [|reflexivity]. destruct (iw_tgt x); [|reflexivity].
  destruct (c s); [|reflexivity]. rewrite IH by (intros; apply H; right; auto). destruct (Nat.eqb_spec m s); congruence.
Qed.

(** ** The node *)
Section Node.
  Context {X F : Type}.
  Variable ev : env F.
  Variable u : uuids.
  Variable d : subdef.
  Variable n : nid.
  Variable name : string.
  Variable t : tree.
  Variable m : nid.
  Hypothesis io : io_output ev m.
  Hypothesis leafy : leaf_only m t.
  Hypothesis uok : uuids_ok u.
  Hypothesis found : sd_found d = Ok (Some t).
  Hypothesis wft : wf t.
  Hypothesis resets : resets_all t.
  Hypothesis inside_t : In m (ids t).
  Hypothesis in_ids : In m (sd_ids d).
  Hypothesis no_wire : forall x, In x (sd_wires d) -> iw_src x <> Some m.
  Notation W := (world (X * sub F)).

  Lemma no_dot : ~ In "."%char (list_ascii_of_string "out").
  Proof. simpl. intuition discriminate. Qed.

  Definition shows (b : bool) (w : W) : Prop :=
    unwired b m (below w) /\
    exists o g, w_outs (below w) m = [("out", o)] /\ dget (public_name u m "out") (w_outs w n) = Some g /\ tied b o g.

  Lemma og_of_outs : forall outs, og_get m "out" (outgoing_of u outs) = dget (public_name u m "out") outs.
  Proof.
    induction outs as [|[k c] r IH]; [reflexivity|]. unfold outgoing_of in *. cbn [flat_map fst snd dget].
    pose proof (split_public u m "out" uok no_dot) as Hp.
    destruct (String.eqb_spec (public_name u m "out") k) as [<-|Hk].
    - rewrite Hp. cbn [fst]. rewrite String.eqb_refl. cbn [app og_get]. rewrite Nat.eqb_refl. reflexivity.
    - destruct (split_key u k) as [[a b]|]; [|exact IH]. destruct (String.eqb_spec (public_name u a b) k) as [Hab|]; [|exact IH].
      cbn [app og_get]. destruct (Nat.eqb_spec m a) as [<-|]; cbn [andb]; auto. destruct (String.eqb_spec "out" b) as [<-|]; auto. congruence.
  Qed.

  Lemma inside_shows : forall b b' f (w w' : W) r, inside u n f w = (w', r) ->
    (synced b m (set_outg (below w) (outgoing_of u (w_outs w n))) ->
     f (set_outg (below w) (outgoing_of u (w_outs w n))) = (below w', r) -> synced b' m (below w')) ->
    shows b w -> shows b' w'.
  Proof.
    intros b b' f w w' r E Hf (A & o & g & B1 & B2 & B3).
    apply inside_spec in E. destruct E as (I1 & I2 & _ & _ & I5 & _).
    assert (Hs : synced b' m (below w')).
    { apply Hf; auto. split; [exact A|].
      exists o, g. split; [exact B1|]. split; auto. simpl. rewrite og_of_outs. exact B2. }
    destruct Hs as [A' (o' & g' & C1 & C2 & C3)]. split; auto. exists o', g'. split; auto. split; auto.
    rewrite I5. rewrite (outputs_from_get u _ _ m "out" g uok no_dot B2), C2. reflexivity.
  Qed.

  Lemma incoming_keeps : forall b l (wi : world F), keeps b m wi (fst (push_incoming u l wi)).
  Proof.
    intros b l wi H. pose proof (push_incoming_same F u l wi) as ((_ & _ & P3 & _) & P4 & P5 & _).
    eapply synced_ext; [..|exact H]; [rewrite P4|rewrite P3|rewrite P5]; reflexivity.
  Qed.
  Lemma call_keeps : forall b o (wi wi' : world F) r, call o (obj_of ev t) wi = (wi', r) -> synced b m wi -> synced b m wi'.
  Proof. intros b o wi wi' r H Hs. pose proof (tree_keeps ev m io b t o wi leafy Hs) as K. rewrite H in K. exact K. Qed.
  Lemma synced_blank : forall wi : world F, synced false m wi -> w_conns wi m = Some [] -> blank m wi -> synced true m wi.
  Proof.
    intros wi [A (o & g & B1 & B2 & B3)] Hc Hb. split; [left; auto|]. exists o, g. split; auto. split; auto.
    apply tied_unset; auto. apply (Hb "out"); [rewrite B1; reflexivity|apply B3].
  Qed.

  Lemma shows_ext : forall b (w w' : W), w_outs w' n = w_outs w n -> w_ext w' = w_ext w -> shows b w -> shows b w'.
  Proof. intros b w w' H1 H2 H. unfold shows, below, inner in *. rewrite H1, H2. exact H. Qed.
  Lemma shows_weak : forall b (w : W), shows b w -> shows false w.
  Proof.
    intros b w (A & o & g & B1 & B2 & B3). split; [destruct A as [A|[_ A]]; [left|right]; auto|].
    exists o, g. split; auto. split; auto. eapply tied_weak; eauto.
  Qed.
  Lemma shows_flags : forall b (w : W), shows b w -> shows b (set_outs w n (map_io reset_updated (w_outs w n))).
  Proof.
    intros b w (A & o & g & B1 & B2 & B3). split; auto. exists o, (reset_updated g). split; auto. split.
    - simpl. unfold upd. rewrite Nat.eqb_refl, dget_map_io, B2. reflexivity.
    - apply tied_flag_g. exact B3.
  Qed.
  Lemma shows_unset : forall b (w : W), shows b w ->
    shows false (set_outs w n (map_io (fun c => reset_updated (reset_value c)) (w_outs w n))).
  Proof.
    intros b w (A & o & g & B1 & B2 & B3). split; [destruct A as [A|[_ A]]; [left|right]; auto|].
    exists o, (reset_updated (reset_value g)). split; auto. split.
    - simpl. unfold upd. rewrite Nat.eqb_refl, dget_map_io, B2. reflexivity.
    - apply tied_flag_g. eapply tied_none_g. exact B3.
  Qed.

  (** What the node knows between operations. *)
  Definition sinv (w : W) : Prop :=
    (sb_root (inner w) = None \/ sb_root (inner w) = Some t) /\ shows false w /\
    (live (w_st w n) -> sb_root (inner w) = Some t /\ shows true w).

  Lemma root_tick : forall (w w' : W) r, sub_tick ev u n w = (w', r) -> sb_root (inner w') = sb_root (inner w).
  Proof.
    intros w w' r H. unfold sub_tick in H. destruct (sb_root (inner w)) eqn:E; [|inversion H; subst; auto].
    apply inside_spec in H. destruct H as (_ & -> & _). auto.
  Qed.

  Lemma dead_states : ~ live UNINITIALIZED /\ ~ live SHUTDOWN /\ ~ live BROKEN.
  Proof. unfold live, dead. tauto. Qed.

  Lemma st_same : forall (w : W) s, w_st (set_st w n s) n = s.
  Proof. intros. simpl. unfold upd. rewrite Nat.eqb_refl. reflexivity. Qed.

  Lemma live_shows : forall b o (w : W), (o = OTick \/ o = OUntick) -> sb_root (inner w) = Some t -> shows b w ->
    shows b (fst (call o (subtree_obj ev u d n name) w)) /\
    sb_root (inner (fst (call o (subtree_obj ev u d n name) w))) = Some t.
  Proof.
    intros b o w Ho R H.
    assert (Hst : forall w s, shows b w /\ sb_root (inner w) = Some t -> shows b (set_st w n s) /\ sb_root (inner (set_st w n s)) = Some t).
    { intros w0 s [H1 H2]. split; [|exact H2]. eapply shows_ext; [..|exact H1]; reflexivity. }
    destruct Ho; subst o; simpl.
    - destruct (node_tick_cases _ n (sub_tick ev u n) w) as [[_ G]|[_ G]]; rewrite G; auto.
      unfold tick_live. destruct (negb _); [apply Hst; auto|].
      pose proof (shows_flags b w H) as Ha. set (wa := set_outs w n (map_io reset_updated (w_outs w n))) in *.
      assert (Ra : sb_root (inner wa) = Some t) by exact R. clearbody wa.
      assert (Hb : shows b (fst (sub_tick ev u n wa)) /\ sb_root (inner (fst (sub_tick ev u n wa))) = Some t).
      { destruct (sub_tick ev u n wa) as [w1 r1] eqn:E. simpl. split; [|rewrite (root_tick _ _ _ E); auto].
        unfold sub_tick in E. rewrite Ra in E. eapply inside_shows; [exact E| |exact Ha].
        intros Hs Hcall. revert Hs Hcall. generalize (set_outg (below wa) (outgoing_of u (w_outs wa n))). intros wi Hs Hcall. pose proof (incoming_keeps b (w_ins wa n) wi Hs) as Hi.
        destruct (push_incoming u (w_ins wa n) wi) as [w2 [x|e|]]; cbn [fst bind] in *; try (inversion Hcall; subst; exact Hi).
        eapply (call_keeps b OTick); [exact Hcall|exact Hi]. }
      destruct (sub_tick ev u n wa) as [w3 [s|e|]]; cbn [fst] in *; auto. cbn zeta.
      destruct Hb as [Hb1 Hb2].
      match goal with |- context [push_outputs ?x n] =>
        assert (Hx : shows b x) by (eapply shows_ext; [..|exact Hb1]; reflexivity);
        pose proof (push_outputs_frame _ n x) as (_ & _ & P3 & _ & P5 & _);
        assert (Hy : shows b (fst (push_outputs x n))) by (eapply shows_ext; [..|exact Hx]; [rewrite P3; reflexivity|exact P5]);
        assert (Hz : sb_root (inner (fst (push_outputs x n))) = Some t) by (unfold inner; rewrite P5; exact Hb2);
        destruct (push_outputs x n) as [w5 [z|e|]] end; cbn [fst] in *; dif; cbn [fst]; auto.
    - destruct (node_untick_cases _ n (sub_untick ev u n) w) as [[_ G]|[_ G]]; rewrite G; auto.
      unfold untick_live. cbn zeta.
      assert (Hb : shows b (fst (sub_untick ev u n w)) /\ sb_root (inner (fst (sub_untick ev u n w))) = Some t).
      { unfold sub_untick. rewrite R. destruct (inside u n (o_untick (obj_of ev t)) w) as [w1 r1] eqn:E. simpl.
        split; [|apply inside_spec in E; destruct E as (_ & -> & _); auto].
        eapply inside_shows; [exact E| |exact H]. intros Hs Hcall. eapply (call_keeps b OUntick); [exact Hcall|exact Hs]. }
      destruct (sub_untick ev u n w) as [w3 [s|e|]]; cbn [fst] in *; auto. destruct Hb as [Hb1 Hb2].
      dif; cbn [fst]; [|apply Hst; auto]. split; [apply shows_flags; eapply shows_ext; [..|exact Hb1]; reflexivity|exact Hb2].
  Qed.

  Lemma sinv_call : forall o (w w' : W) r, sinv w -> call o (subtree_obj ev u d n name) w = (w', r) ->
    (o = OReset -> r <> Raise) -> sinv w'.
  Proof.
    intros o w w' r (R & H0 & H1) H Hra. pose proof dead_states as (D1 & D2 & D3).
    destruct o; simpl in H.
    - (* setup *)
      destruct (node_setup_cases _ n (sub_setup ev u d n) w) as [[_ [_ G]]|[Hst G]]; rewrite G in H; [inversion H; subst; split; auto|].
      unfold setup_live in H. cbn zeta in H. set (wa := set_outs _ n _) in *.
      assert (Ha : shows false wa).
      { apply (shows_unset false (set_ins w n (map_io (fun c => flag_updated (reset_value c)) (w_ins w n)))).
        eapply shows_ext; [..|exact H0]; reflexivity. }
      assert (Sa : w_st wa n = w_st w n) by reflexivity. clearbody wa.
      destruct (sub_setup ev u d n wa) as [w3 r3] eqn:E. unfold sub_setup in E. rewrite found in E.
      set (wb := set_inner wa (mkSub (Some t) (sb_w (inner wa)))) in *.
      assert (Hb : shows false wb) by exact Ha.
      pose proof (inside_spec _ _ _ _ _ _ E) as (I1 & I2 & I3 & _).
      assert (Rb : sb_root (inner w3) = Some t) by (rewrite I2; reflexivity).
      assert (S3 : w_st w3 n = w_st w n) by (rewrite I3; exact Sa).
      assert (G0 : shows false w3 /\ forall s, r3 = Ok s -> shows true w3).
      { assert (K : forall b', (synced b' m (below w3)) -> shows b' w3).
        { intros b' Hk. eapply inside_shows; [exact E| |exact Hb]. auto. }
        assert (Hs : synced false m (set_outg (below wb) (outgoing_of u (w_outs wb n)))).
        { destruct Hb as (A & o & g & B1 & B2 & B3). split; [exact A|]. exists o, g. split; [exact B1|]. split; auto. simpl. rewrite og_of_outs. exact B2. }
        set (wi := set_outg _ _) in *. clearbody wi.
        pose proof (initialize_same F d wi) as ((_ & _ & N3 & _) & _ & N5).
        assert (N6 : w_conns (fst (initialize d wi)) m = Some []).
        { unfold initialize. pose proof (connect_unwired m (sd_wires d) (fun n0 => if existsb (Nat.eqb n0) (sd_ids d) then Some [] else None) no_wire) as Hw.
          destruct (connect _ _) as [c rc]. simpl in *. rewrite Hw.
          replace (existsb (Nat.eqb m) (sd_ids d)) with true; auto. symmetry. apply existsb_exists. exists m. split; auto. apply Nat.eqb_refl. }
        assert (Hi : synced false m (fst (initialize d wi))).
        { destruct Hs as [A (o & g & B1 & B2 & B3)]. split; [left; exact N6|]. exists o, g. rewrite N3, N5. auto. }
        destruct (initialize d wi) as [w4 [x|e|]]; cbn [fst bind] in *.
        - pose proof (call_keeps false OSetup _ _ _ I1 Hi) as Hk. split; [apply K; auto|]. intros s ->. apply K.
          apply synced_blank; auto.
          + pose proof (frame_tree F ev t OSetup w4) as [_ Q]. simpl in Q. rewrite I1 in Q. simpl in Q. rewrite Q. exact N6.
          + eapply (all_blank F ev m OSetup); eauto.
        - inversion I1; subst. split; [apply K; exact Hi|discriminate].
        - inversion I1; subst. split; [apply K; exact Hi|discriminate]. }
      destruct G0 as [G1 G2]. destruct r3 as [s|e|].
      + assert (w' = set_st w3 n s) as -> by (destruct (state_in s [IDLE]); inversion H; auto).
        split; [right; exact Rb|]. split; [eapply shows_ext; [..|exact G1]; reflexivity|].
        intros _. split; [exact Rb|]. eapply shows_ext; [..|exact (G2 s eq_refl)]; reflexivity.
      + inversion H; subst. split; [right; exact Rb|]. split; [eapply shows_ext; [..|exact G1]; reflexivity|].
        rewrite st_same. tauto.
      + inversion H; subst. split; [right; exact Rb|]. split; [exact G1|].
        rewrite S3. destruct Hst as [->| ->]; tauto.
    - (* tick *)
      destruct (node_tick_cases _ n (sub_tick ev u n) w) as [[_ G]|[Hst _]]; [rewrite G in H; inversion H; subst; split; auto|].
      destruct (H1 Hst) as [Rt Ht].
      pose proof (live_shows true OTick w (or_introl eq_refl) Rt Ht) as [K1 K2]. simpl in K1, K2. rewrite H in K1, K2. simpl in K1, K2.
      split; auto. split; auto. eapply shows_weak; eauto.
    - destruct (node_untick_cases _ n (sub_untick ev u n) w) as [[_ G]|[Hst _]]; [rewrite G in H; inversion H; subst; split; auto|].
      destruct (H1 Hst) as [Rt Ht].
      pose proof (live_shows true OUntick w (or_intror eq_refl) Rt Ht) as [K1 K2]. simpl in K1, K2. rewrite H in K1, K2. simpl in K1, K2.
      split; auto. split; auto. eapply shows_weak; eauto.
    - (* reset *)
      destruct (node_reset_cases _ n (sub_reset ev u n) w) as [[_ G]|[Hst G]]; rewrite G in H; [inversion H; subst; split; auto|].
      destruct (H1 Hst) as [Rt Ht].
      unfold reset_live in H. cbn zeta in H. set (wa := set_outs _ n _) in *.
      assert (Ha : shows false wa /\ unwired true m (below wa)).
      { split; [|apply Ht]. apply (shows_unset true (set_ins w n (map_io flag_updated (w_ins w n)))).
        eapply shows_ext; [..|exact Ht]; reflexivity. }
      assert (Ra : sb_root (inner wa) = Some t) by exact Rt. clearbody wa. destruct Ha as [Ha Hu].
      destruct (sub_reset ev u n wa) as [w3 r3] eqn:E. unfold sub_reset in E. rewrite Ra in E.
      pose proof (inside_spec _ _ _ _ _ _ E) as (I1 & I2 & I3 & _).
      assert (Rb : sb_root (inner w3) = Some t) by (rewrite I2; exact Ra).
      assert (G0 : shows false w3 /\ forall s, r3 = Ok s -> shows true w3).
      { split.
        - eapply inside_shows; [exact E| |exact Ha]. intros Hs Hcall. eapply (call_keeps false OReset); [exact Hcall|exact Hs].
        - intros s ->. eapply inside_shows; [exact E| |exact Ha]. intros Hs Hcall.
          apply synced_blank.
          + eapply (call_keeps false OReset); [exact Hcall|exact Hs].
          + set (wi := set_outg _ _) in *. pose proof (frame_tree F ev t OReset wi) as [_ Q]. simpl in Q. rewrite Hcall in Q. simpl in Q.
            rewrite Q. destruct Hu as [Hu|[Hu _]]; [exact Hu|discriminate].
          + eapply (all_blank F ev m OReset); eauto. }
      destruct G0 as [G1 G2]. destruct r3 as [s|e|].
      + assert (w' = set_st w3 n s) as -> by (destruct (state_in s [IDLE]); inversion H; auto).
        split; [right; exact Rb|]. split; [eapply shows_ext; [..|exact G1]; reflexivity|].
        intros _. split; [exact Rb|]. eapply shows_ext; [..|exact (G2 s eq_refl)]; reflexivity.
      + inversion H; subst. split; [right; exact Rb|]. split; [eapply shows_ext; [..|exact G1]; reflexivity|].
        rewrite st_same. tauto.
      + inversion H; subst. exfalso. apply Hra; auto.
    - (* shutdown *)
      unfold node_shutdown in H. cbn [shutdown_children] in H.
      assert (Hs : forall b, shows b w -> shows b (fst (sub_shutdown ev u n w))).
      { intros b Hb. unfold sub_shutdown. destruct R as [R|R]; rewrite R; [exact Hb|].
        destruct (inside u n (o_shutdown (obj_of ev t)) w) as [w1 r1] eqn:E. simpl.
        eapply inside_shows; [exact E| |exact Hb]. intros Hs Hcall. eapply (call_keeps b OShutdown); [exact Hcall|exact Hs]. }
      assert (Hr : sb_root (inner (fst (sub_shutdown ev u n w))) = sb_root (inner w) /\ w_st (fst (sub_shutdown ev u n w)) = w_st w /\
        forall s, snd (sub_shutdown ev u n w) = Ok s -> s = SHUTDOWN).
      { unfold sub_shutdown. destruct R as [R|R]; rewrite R; [simpl; split; auto; split; auto; congruence|].
        destruct (inside u n (o_shutdown (obj_of ev t)) w) as [w1 r1] eqn:E. apply inside_spec in E. destruct E as (I1 & I2 & I3 & _).
        simpl. split; [congruence|]. split; auto. intros s ->.
        pose proof (inner_states ev d t found OShutdown _ _ s (proj1 wft) I1) as [Q _]. exact Q. }
      destruct (sub_shutdown ev u n w) as [w1 r1]. cbn [fst snd] in Hs, Hr. destruct Hr as (Hr1 & Hr2 & Hr3).
      assert (Hend : forall s, ~ live s -> sinv (set_st w1 n s)).
      { intros s Hl. split; [change (inner (set_st w1 n s)) with (inner w1); rewrite Hr1; exact R|].
        split; [eapply shows_ext; [..|exact (Hs false H0)]; reflexivity|]. rewrite st_same. tauto. }
      assert (Hrest : forall q, (match r1 with Ok s => if state_in s [SHUTDOWN] then (set_st w1 n s, Ok s) else (set_st w1 n s, Err EState)
          | Err _ => (set_st w1 n BROKEN, Err EState) | Raise => (w1, Raise) end) = q -> sinv (fst q)).
      { intros q <-. destruct r1 as [s|e|].
        - rewrite (Hr3 s eq_refl). cbn. apply Hend. exact D2.
        - simpl. apply Hend. exact D3.
        - simpl. split; [rewrite Hr1; exact R|]. split; [auto|]. rewrite Hr2, Hr1. intros Hl. destruct (H1 Hl). auto. }
      destruct (w_st w n) eqn:Es; cbn [bind] in H;
        try (match type of H with bind ?q _ = _ => pose proof (Hrest q eq_refl) as Hq; destruct q as [w2 [z|e|]] end;
          cbn [bind fst] in H, Hq; inversion H; subst; exact Hq).
      inversion H; subst. split; auto. split; auto. rewrite Es. tauto.
  Qed.

  Lemma shows_shown : forall w : W, shows true w -> forall v, written w m v -> shown u n m w v.
  Proof.
    intros w (_ & o' & g & B1 & B2 & _ & _ & _ & D) v (o & V1 & V2). unfold output in V1. rewrite B1 in V1. cbn [dget] in V1.
    rewrite String.eqb_refl in V1. inversion V1; subst o'. destruct (D eq_refl v V2) as (x & X1 & X2). exists g, x. auto.
  Qed.

  Theorem history_shows : forall gi ok (w0 w : W) l, sub_history ev u d n name gi ok w0 l w ->
    sub_fresh n t w0 -> public_output u d n m w0 -> ~ In (OReset, Raise) l -> live (w_st w n) ->
    forall v, written w m v -> shown u n m w v.
  Proof.
    intros gi ok w0 w l H Hf Hp Hr Hlive.
    assert (G : sinv w).
    { clear Hlive. revert Hf Hp Hr. induction H as [w|w0 o r w1 l w2 H IH Hok Hc|w0 l w1 w2 f H IH Hst Ho Hi Hn]; intros Hf Hp Hr.
      - destruct Hf as (F1 & F2 & _). destruct Hp as ((o & g & A1 & A2 & A3 & A4 & A5) & A6 & _). split; [left; exact F2|]. split.
        + split; [destruct A6; [right|left]; auto|]. exists o, g. repeat split; auto. discriminate.
        + rewrite F1. intros Hl. exfalso. apply (proj1 dead_states). exact Hl.
      - eapply sinv_call; [|exact Hc|].
        + apply IH; auto. intros Hin. apply Hr. apply in_or_app. auto.
        + intros -> ->. apply Hr. apply in_or_app. right. left. reflexivity.
      - destruct (IH Hf Hp Hr) as (R & S1 & S2). unfold sinv, shows, below. rewrite Hn, Hst, Ho. simpl. auto. }
    destruct G as (_ & _ & G). apply shows_shown. apply G. exact Hlive.
  Qed.
End Node.

(** Ticks only: no condition on the tree. *)
Section Ticks.
  Context {X F : Type}.
  Variable ev : env F.
  Variable u : uuids.
  Variable d : subdef.
  Variable n : nid.
  Variable name : string.
  Variable t : tree.
  Variable m : nid.
  Hypothesis io : io_output ev m.
  Hypothesis leafy : leaf_only m t.
  Hypothesis uok : uuids_ok u.
  Notation W := (world (X * sub F)).

  Theorem ticks_show : forall gi ok (w0 w : W) l, sub_history ev u d n name gi ok w0 l w ->
    sb_root (inner w0) = Some t -> public_output u d n m w0 -> w_conns (below w0) m <> None ->
    (forall v, ~ written w0 m v) -> (forall o r, In (o, r) l -> o = OTick \/ o = OUntick) ->
    forall v, written w m v -> shown u n m w v.
  Proof.
    intros gi ok w0 w l H Hroot Hp Hc0 Hw0 Hl.
    assert (G : shows u n m true w /\ sb_root (inner w) = Some t).
    { revert Hroot Hp Hc0 Hw0 Hl. induction H as [w|w0 o r w1 l w2 H IH Hok Hc|w0 l w1 w2 f H IH Hst Ho Hi Hn]; intros Hroot Hp Hc0 Hw0 Hl.
      - destruct Hp as ((o & g & A1 & A2 & A3 & A4 & A5) & A6 & _). split; [|exact Hroot].
        split; [destruct A6; [contradiction|left; auto]|]. exists o, g. repeat split; auto. intros _ v Hv. exfalso. apply (Hw0 v).
        exists o. split; auto. unfold output. rewrite A1. reflexivity.
      - destruct IH as [S1 S2]; auto. { intros o0 r0 Hin. apply (Hl o0 r0). apply in_or_app. auto. }
        assert (Ho : o = OTick \/ o = OUntick) by (apply (Hl o r); apply in_or_app; right; left; reflexivity).
        pose proof (live_shows ev u d n name t m io leafy uok true o w1 Ho S2 S1) as [K1 K2]. rewrite Hc in K1, K2. auto.
      - destruct (IH Hroot Hp Hc0 Hw0 Hl) as (S1 & R). unfold shows, below. rewrite Hn, Ho. simpl. auto. }
    apply shows_shown. apply G.
  Qed.
End Ticks.
