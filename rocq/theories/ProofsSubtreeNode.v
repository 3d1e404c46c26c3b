(** Proofs about the Subtree node. *)
From Coq Require Import String Ascii ZArith Bool Arith Lia List.
From Verif Require Import Base ModelData ModelUtility ModelTree ModelSubtreeNode SpecTree SpecFlow SpecSubtreeNode
  ProofsTree ProofsLife ProofsWhole ProofsData ProofsFlow.
Import ListNotations.
Local Open Scope string_scope.

(** ** Names *)
Lemma split_dot_none : forall s, ~ In "."%char (list_ascii_of_string s) -> split_dot s = None.
Proof.
  induction s as [|c r IH]; simpl; auto. intros H.
  destruct (Ascii.eqb_spec c "."%char) as [->|]; [tauto|]. rewrite IH; auto.
Qed.
Lemma existsb_dot : forall s, existsb (Ascii.eqb "."%char) (list_ascii_of_string s) = true <-> In "."%char (list_ascii_of_string s).
Proof.
  intros s. rewrite existsb_exists. split.
  - intros [x [H1 H2]]. apply Ascii.eqb_eq in H2. subst. auto.
  - intros H. exists "."%char. split; auto.
Qed.
Lemma split_dot_join : forall a b, ~ In "."%char (list_ascii_of_string a) -> ~ In "."%char (list_ascii_of_string b) ->
  split_dot (a ++ "." ++ b) = Some (a, b).
Proof.
  induction a as [|c r IH]; intros b Ha Hb.
  - cbn -[existsb list_ascii_of_string]. rewrite split_dot_none by auto.
    destruct (existsb _ _) eqn:E; auto. apply existsb_dot in E. tauto.
  - cbn [append split_dot]. simpl in Ha. destruct (Ascii.eqb_spec c "."%char) as [->|]; [tauto|].
    specialize (IH b (fun H => Ha (or_intror H)) Hb). cbn [append] in IH. rewrite IH. reflexivity.
Qed.
Lemma split_public : forall u n key, uuids_ok u -> ~ In "."%char (list_ascii_of_string key) ->
  split_key u (public_name u n key) = Some (n, key).
Proof.
  intros u n key Hu Hk. destruct (Hu n) as [H1 H2]. unfold split_key, public_name.
  rewrite split_dot_join by auto. rewrite H1. reflexivity.
Qed.
Lemma split_in : forall u n, uuids_ok u -> split_key u (public_name u n "in") = Some (n, "in").
Proof. intros. apply split_public; auto. simpl. intuition discriminate. Qed.
Lemma public_inj : forall u n m, uuids_ok u -> public_name u n "in" = public_name u m "in" -> n = m.
Proof. intros u n m Hu H. pose proof (split_in u n Hu) as A. pose proof (split_in u m Hu). congruence. Qed.

(** ** Preparing the inner tree *)
Lemma same_nodes_refl : forall F (w : world F), same_nodes w w.
Proof. intros. repeat split. Qed.
Lemma same_nodes_trans : forall F (a b c : world F), same_nodes a b -> same_nodes b c -> same_nodes a c.
Proof. intros F a b c (A1 & A2 & A3 & A4) (B1 & B2 & B3 & B4). repeat split; congruence. Qed.

Lemma connect_bad : forall l c c' r ids, connect l c = (c', r) -> (forall n, c n = None -> ~ In n ids) ->
  r = Ok tt \/
  exists x, In x l /\ (iw_src x = None \/ iw_tgt x = None \/ exists s, iw_src x = Some s /\ ~ In s ids).
Proof.
  induction l as [|x l IH]; simpl; intros c c' r ids H Hc.
  - inversion H; auto.
  - destruct (iw_src x) as [s|] eqn:Es; [|inversion H; subst; right; exists x; auto].
    destruct (iw_tgt x) as [t|] eqn:Et; [|inversion H; subst; right; exists x; auto].
    destruct (c s) as [k|] eqn:Ek.
    + apply IH with (ids := ids) in H.
      * destruct H as [H|[y [Hy H]]]; auto. right. exists y. auto.
      * intros n Hn. destruct (Nat.eqb n s); [discriminate|auto].
    + inversion H; subst. right. exists x. split; auto. right. right. exists s. auto.
Qed.
Lemma initialize_same : forall F d (w : world F), same_nodes (fst (initialize d w)) w /\
  w_ins (fst (initialize d w)) = w_ins w /\ w_outg (fst (initialize d w)) = w_outg w.
Proof. intros F d w. unfold initialize. destruct (connect _ _) as [c r]. simpl. repeat split. Qed.
Lemma initialize_bad : forall F d (w w' : world F) r, initialize d w = (w', r) -> r = Ok tt \/ bad_wiring d.
Proof.
  intros F d w w' r H. unfold initialize in H. destruct (connect _ _) as [c r0] eqn:Ec. inversion H; subst.
  apply connect_bad with (ids := sd_ids d) in Ec.
  - destruct Ec; [left; auto|right; auto].
  - intros n Hn Hin. destruct (existsb (Nat.eqb n) (sd_ids d)) eqn:Ex; [discriminate|].
    apply Bool.not_true_iff_false in Ex. apply Ex. apply existsb_exists. exists n. split; auto. apply Nat.eqb_refl.
Qed.

(** Types and staticness of inputs are unaffected by deliveries. *)
Definition typed_alike {F} (a b : world F) : Prop :=
  forall m key, option_map (fun c => (c_ty c, c_static c)) (input a m key) = option_map (fun c => (c_ty c, c_static c)) (input b m key).
Lemma push_incoming_same : forall F u l (w : world F),
  let w' := fst (push_incoming u l w) in
  same_nodes w' w /\ w_conns w' = w_conns w /\ w_outg w' = w_outg w /\ typed_alike w' w.
Proof.
  intros F u. induction l as [|[k c] l IH]; simpl; intros w.
  { repeat split. }
  destruct (negb (c_upd c)); [apply IH|]. destruct (c_val c) as [v|]; [|apply IH].
  destruct (split_key u k) as [[m key]|]; [|apply IH]. destruct (w_conns w m); [|apply IH].
  destruct (dget key (w_ins w m)) as [t|] eqn:Et; [|apply IH].
  destruct (set_value t v) as [t' [x|e|]] eqn:Es; simpl; try (repeat split; fail).
  match goal with |- context [push_incoming u l ?x] => specialize (IH x); destruct (push_incoming u l x) as [w1 r1] end.
  simpl in *. destruct IH as ((A1 & A2 & A3 & A4) & A5 & A6 & A7). simpl in *.
  split; [repeat split; auto|]. split; auto. split; auto.
  intros m' key'. rewrite A7. rewrite input_set. pose proof (set_value_static t v) as [S1 S2]. rewrite Es in S1, S2. simpl in S1, S2.
  destruct (Nat.eqb_spec m' m) as [->|]; simpl; auto. destruct (String.eqb_spec key' key) as [->|]; simpl; auto.
  unfold input. rewrite Et. simpl. congruence.
Qed.

Lemma push_incoming_refused : forall F u l (w w' : world F) r, push_incoming u l w = (w', r) ->
  r = Ok tt \/
  exists k c v m key t, In (k, c) l /\ c_upd c = true /\ c_val c = Some v /\ split_key u k = Some (m, key) /\
    input w m key = Some t /\ (c_static t = true \/ forall v', check (c_ty t) v <> Ok v').
Proof.
  intros F u. induction l as [|[k c] l IH]; cbn [push_incoming]; intros w w' r H.
  { inversion H; auto. }
  assert (Hrec : forall w0, typed_alike w0 w -> push_incoming u l w0 = (w', r) ->
    r = Ok tt \/
    exists k' c' v m key t, In (k', c') ((k, c) :: l) /\ c_upd c' = true /\ c_val c' = Some v /\ split_key u k' = Some (m, key) /\
      input w m key = Some t /\ (c_static t = true \/ forall v', check (c_ty t) v <> Ok v')).
  { intros w0 Ht H0. destruct (IH _ _ _ H0) as [Hr|(k' & c' & v & m & key & t & A1 & A2 & A3 & A4 & A5 & A6)]; auto.
    right. specialize (Ht m key). rewrite A5 in Ht. simpl in Ht. destruct (input w m key) as [t0|] eqn:E0; [|discriminate].
    simpl in Ht. injection Ht as Ht1 Ht2.
    exists k', c', v, m, key, t0. rewrite <- Ht1, <- Ht2. simpl. tauto. }
  assert (Hsame : typed_alike w w) by (intros ? ?; reflexivity).
  destruct (c_upd c) eqn:Eu; cbn [negb] in H; [|apply (Hrec _ Hsame H)]. destruct (c_val c) as [v|] eqn:Ev; [|apply (Hrec _ Hsame H)].
  destruct (split_key u k) as [[m key]|] eqn:Ek; [|apply (Hrec _ Hsame H)]. destruct (w_conns w m); [|apply (Hrec _ Hsame H)].
  destruct (dget key (w_ins w m)) as [t|] eqn:Et; [|apply (Hrec _ Hsame H)].
  assert (Hbad : forall t' e, set_value t v = (t', e) -> e <> Ok tt -> c_static t = true \/ forall v', check (c_ty t) v <> Ok v').
  { intros t' e Hs He. destruct (c_static t) eqn:Est; auto. right. intros v' Hv. apply He. revert Hs. unfold set_value, base_set. rewrite Hv, Est.
    cbn [andb]. destruct (c_ty t); intros Hs; inversion Hs; subst; auto. }
  destruct (set_value t v) as [t' [x|e|]] eqn:Es; [| |].
  - apply (Hrec _) in H; auto. intros m' key'. rewrite input_set. pose proof (set_value_static t v) as [S1 S2]. rewrite Es in S1, S2. simpl in S1, S2.
    destruct (Nat.eqb_spec m' m) as [->|]; simpl; auto. destruct (String.eqb_spec key' key) as [->|]; simpl; auto.
    unfold input. rewrite Et. simpl. congruence.
  - right. exists k, c, v, m, key, t. repeat split; auto. { left; auto. } eapply Hbad; [exact eq_refl|discriminate].
  - right. exists k, c, v, m, key, t. repeat split; auto. { left; auto. } eapply Hbad; [exact eq_refl|discriminate].
Qed.

Section SubNode.
  Context {X F : Type}.
  Variable ev : env F.
  Variable u : uuids.
  Variable d : subdef.
  Variable n : nid.
  Variable name : string.
  Variable t : tree.
  Hypothesis found : sd_found d = Ok (Some t).
  Notation W := (world (X * sub F)).

  Lemma inside_spec : forall f (w w' : W) r, inside u n f w = (w', r) ->
    f (set_outg (below w) (outgoing_of u (w_outs w n))) = (below w', r) /\
    sb_root (inner w') = sb_root (inner w) /\ w_st w' = w_st w /\ w_ins w' = w_ins w /\
    w_outs w' n = outputs_from u (w_outg (below w')) (w_outs w n) /\ w_mem w' = w_mem w /\ w_conns w' = w_conns w /\ w_outg w' = w_outg w.
  Proof.
    intros f w w' r H. unfold inside in H. fold (below w) in H. destruct (f _) as [wi r0] eqn:Ef. inversion H; subst.
    repeat split. simpl. unfold upd. rewrite Nat.eqb_refl. reflexivity.
  Qed.

  Definition sub_do (o : op) : act (X * sub F) :=
    match o with
    | OSetup => sub_setup ev u d n | OTick => sub_tick ev u n | OUntick => sub_untick ev u n
    | OReset => sub_reset ev u n | OShutdown => sub_shutdown ev u n
    end.

  Definition prep_failed (o : op) (w : W) : Prop :=
    (o = OSetup /\ bad_wiring d) \/ (o = OTick /\ refused_input u w n).

  Lemma sub_do_spec : forall o (w w1 : W) r, (o = OSetup \/ sb_root (inner w) = Some t) -> sub_do o w = (w1, r) ->
    w_st w1 = w_st w /\ w_ins w1 = w_ins w /\ sb_root (inner w1) = Some t /\
    ((exists wi, same_nodes wi (below w) /\ call o (obj_of ev t) wi = (below w1, r)) \/
     (prep_failed o w /\ same_nodes (below w1) (below w) /\ forall s, r <> Ok s)).
  Proof.
    intros o w w1 r Hroot H.
    assert (Hsn : forall g, same_nodes (set_outg (below w) g) (below w)) by (repeat split).
    destruct o; simpl in H.
    - unfold sub_setup in H. rewrite found in H. apply inside_spec in H. destruct H as (A1 & A2 & A3 & A4 & _).
      repeat split; auto. cbn [w_outs set_inner set_ext] in A1.
      match type of A1 with context [initialize d ?a] => set (a0 := a) in * end.
      pose proof (initialize_same F d a0) as (I1 & _). destruct (initialize d a0) as [wi r0] eqn:Ei. simpl in I1.
      assert (I2 : same_nodes wi (below w)) by (eapply same_nodes_trans; [exact I1|repeat split]).
      destruct (initialize_bad _ _ _ _ _ Ei) as [->|Hb].
      + left. exists wi. split; auto.
      + destruct r0 as [[]|e|]; cbn [bind] in A1.
        * left. exists wi. split; auto.
        * injection A1 as A1 <-. right. rewrite <- A1. split; [left; auto|]. split; auto. discriminate.
        * injection A1 as A1 <-. right. rewrite <- A1. split; [left; auto|]. split; auto. discriminate.
    - destruct Hroot as [|Hroot]; [discriminate|]. unfold sub_tick in H. rewrite Hroot in H.
      apply inside_spec in H. destruct H as (A1 & A2 & A3 & A4 & _). repeat split; auto; [congruence|].
      match type of A1 with context [push_incoming u ?l ?a] => set (a0 := a) in * end.
      pose proof (push_incoming_same F u (w_ins w n) a0) as (I1 & _). destruct (push_incoming u (w_ins w n) a0) as [wi r0] eqn:Ei. simpl in I1.
      assert (I2 : same_nodes wi (below w)) by (eapply same_nodes_trans; [exact I1|repeat split]).
      destruct (push_incoming_refused _ _ _ _ _ _ Ei) as [->|Hb].
      + left. exists wi. split; auto.
      + destruct r0 as [[]|e|]; cbn [bind] in A1.
        * left. exists wi. split; auto.
        * injection A1 as A1 <-. right. rewrite <- A1. split; [right; auto|]. split; auto. discriminate.
        * injection A1 as A1 <-. right. rewrite <- A1. split; [right; auto|]. split; auto. discriminate.
    - destruct Hroot as [|Hroot]; [discriminate|]. unfold sub_untick in H. rewrite Hroot in H.
      apply inside_spec in H. destruct H as (A1 & A2 & A3 & A4 & _). repeat split; auto; [congruence|].
      left. eexists. split; [|exact A1]. auto.
    - destruct Hroot as [|Hroot]; [discriminate|]. unfold sub_reset in H. rewrite Hroot in H.
      apply inside_spec in H. destruct H as (A1 & A2 & A3 & A4 & _). repeat split; auto; [congruence|].
      left. eexists. split; [|exact A1]. auto.
    - destruct Hroot as [|Hroot]; [discriminate|]. unfold sub_shutdown in H. rewrite Hroot in H.
      apply inside_spec in H. destruct H as (A1 & A2 & A3 & A4 & _). repeat split; auto; [congruence|].
      left. eexists. split; [|exact A1]. auto.
  Qed.
End SubNode.

Section SubCall.
  Context {X F : Type}.
  Variable ev : env F.
  Variable u : uuids.
  Variable d : subdef.
  Variable n : nid.
  Variable name : string.
  Variable t : tree.
  Hypothesis found : sd_found d = Ok (Some t).
  Notation W := (world (X * sub F)).
  Notation node := (subtree_obj ev u d n name).

  Lemma inner_states : forall o wi wi' s, NoDup (ids t) -> call o (obj_of ev t) wi = (wi', Ok s) ->
    op_states o s /\ w_st wi' (t_id t) = s.
  Proof.
    intros o wi wi' s Hnd H. destruct o.
    5:{ apply shutdown_result in H; auto. destruct H as [-> H]. split; [reflexivity|auto]. }
    all: destruct t as [m k nm cs]; apply (node_result F ev m k nm (map (obj_of ev) cs)) in H; auto; discriminate.
  Qed.

  Lemma inputs_set_b : forall (w : W), inputs_set w n -> negb (forallb (fun kc => has_value (snd kc)) (w_ins w n)) = false.
  Proof.
    intros w H. apply negb_false_iff. apply forallb_forall. intros [k c] Hin. specialize (H k c Hin). simpl. unfold has_value.
    destruct (c_val c); congruence.
  Qed.

  Theorem sub_call : forall o (w w' : W) r, NoDup (ids t) ->
    (o = OSetup \/ sb_root (inner w) = Some t) -> accepted w n o -> call o node w = (w', r) ->
    sb_root (inner w') = Some t /\
    ((exists wi ri, same_nodes wi (below w) /\ call o (obj_of ev t) wi = (below w', ri) /\ node_ends n o w' ri r) \/
     (prep_failed u d n o w /\ same_nodes (below w') (below w) /\
      (r = Raise \/ exists e, r = Err e /\ w_st w' n = BROKEN))).
  Proof.
    intros o w w' r Hnd Hroot Hacc H.
    (* what _do_X does, then what the wrapper makes of it *)
    assert (Hst : forall (x : W) s, w_st (set_st x n s) n = s) by (intros; simpl; unfold upd; rewrite Nat.eqb_refl; reflexivity).
    destruct o; simpl in H, Hacc.
    - destruct (node_setup_cases _ n (sub_setup ev u d n) w) as [(G1 & G2 & _)|[_ G]]; [tauto|]. rewrite G in H. unfold setup_live in H. clear G.
      match type of H with context [sub_setup ev u d n ?a] => destruct (sub_setup ev u d n a) as [w1 r1] eqn:E; set (w0 := a) in * end.
      destruct (sub_do_spec ev u d n t found OSetup w0 w1 r1 (or_introl eq_refl) E) as (A1 & A2 & A3 & A4).
      change (below w0) with (below w) in A4.
      destruct A4 as [(wi & B1 & B2)|(B1 & B2 & B3)].
      + destruct r1 as [s|e|].
        * destruct (inner_states _ _ _ _ Hnd B2) as [C1 C2]. simpl in C1. subst s. cbn in H. inversion H; subst.
          split; auto. left. exists wi, (Ok IDLE). split; auto. split; auto. left. split; [reflexivity|apply Hst].
        * inversion H; subst. split; auto. left. exists wi, (Err e). split; auto. split; auto. exists e. split; [reflexivity|apply Hst].
        * inversion H; subst. split; auto. left. exists wi, Raise. split; auto. split; auto. reflexivity.
      + destruct r1 as [s|e|]; [congruence| |]; inversion H; subst; (split; [exact A3|]); right; (split; [|split; auto]).
        * destruct B1 as [B1|[B1 _]]; [left; auto|discriminate].
        * right. exists e. split; [reflexivity|apply Hst].
        * destruct B1 as [B1|[B1 _]]; [left; auto|discriminate].
    - destruct Hroot as [|Hroot]; [discriminate|]. destruct Hacc as [Hl Hi].
      destruct (node_tick_cases _ n (sub_tick ev u n) w) as [[G _]|[_ G]]; [unfold live, dead in *; tauto|].
      rewrite G in H. unfold tick_live in H. rewrite inputs_set_b in H by auto. clear G.
      match type of H with context [sub_tick ev u n ?a] => destruct (sub_tick ev u n a) as [w1 r1] eqn:E; set (w0 := a) in * end.
      destruct (sub_do_spec ev u d n t found OTick w0 w1 r1 (or_intror Hroot) E) as (A1 & A2 & A3 & A4).
      change (below w0) with (below w) in A4.
      destruct A4 as [(wi & B1 & B2)|(B1 & B2 & B3)].
      + destruct r1 as [s|e|].
        * destruct (inner_states _ _ _ _ Hnd B2) as [C1 C2]. simpl in C1. cbn zeta in H.
          assert (Hin : state_in s [RUNNING; SUCCEEDED; FAILED; ASSIGNED; UNASSIGNED] = true).
          { destruct C1 as [->|[->|[->|[->| ->]]]]; reflexivity. }
          rewrite Hin in H. clear C1 C2 Hin.
          match type of H with context [push_outputs ?a n] => pose proof (push_outputs_frame _ n a) as (P1 & P2 & P3 & P4 & P5 & _);
            destruct (push_outputs a n) as [w5 r5] eqn:E5 end. simpl in P1, P5.
          assert (Q : inner w5 = inner w1) by (unfold inner; congruence).
          assert (Q1 : w_st w5 n = s) by (rewrite P1; unfold upd; rewrite Nat.eqb_refl; auto).
          destruct r5 as [x|e|]; inversion H; subst.
          -- rewrite Q. split; auto. left. exists wi, (Ok (w_st w' n)). unfold below. rewrite Q. split; auto. split; auto. left; auto.
          -- change (inner (set_st w5 n BROKEN)) with (inner w5). rewrite Q. split; auto. left. exists wi, (Ok (w_st w5 n)).
             unfold below. change (inner (set_st w5 n BROKEN)) with (inner w5). rewrite Q. split; auto. split; auto. right. split; auto. right. exists e. split; [reflexivity|apply Hst].
          -- rewrite Q. split; auto. left. exists wi, (Ok (w_st w' n)). unfold below. rewrite Q. split; auto. split; auto. right; auto.
        * inversion H; subst. split; auto. left. exists wi, (Err e). split; auto. split; auto. exists e. split; [reflexivity|apply Hst].
        * inversion H; subst. split; auto. left. exists wi, Raise. split; auto. split; auto. reflexivity.
      + destruct r1 as [s|e|]; [congruence| |]; inversion H; subst; (split; [exact A3|]); right; (split; [|split; auto]).
        * destruct B1 as [[B1 _]|B1]; [discriminate|right; auto].
        * right. exists e. split; [reflexivity|apply Hst].
        * destruct B1 as [[B1 _]|B1]; [discriminate|right; auto].
    - destruct Hroot as [|Hroot]; [discriminate|].
      destruct (node_untick_cases _ n (sub_untick ev u n) w) as [[G _]|[_ G]]; [unfold live, dead in *; tauto|].
      rewrite G in H. unfold untick_live in H. clear G.
      destruct (sub_untick ev u n w) as [w1 r1] eqn:E.
      destruct (sub_do_spec ev u d n t found OUntick w w1 r1 (or_intror Hroot) E) as (A1 & A2 & A3 & A4).
      destruct A4 as [(wi & B1 & B2)|([[B1 _]|[B1 _]] & B2 & B3)]; [|discriminate|discriminate].
      destruct r1 as [s|e|].
      + destruct (inner_states _ _ _ _ Hnd B2) as [C1 C2]. simpl in C1. cbn zeta in H.
        replace (state_in s [IDLE; PAUSED]) with true in H by (destruct C1 as [->| ->]; reflexivity).
        inversion H; subst. split; auto. left. exists wi, (Ok (w_st (below w1) (t_id t))). split; auto. split; auto. left. split; [reflexivity|apply Hst].
      + inversion H; subst. split; auto. left. exists wi, (Err e). split; auto. split; auto. exists e. split; [reflexivity|apply Hst].
      + inversion H; subst. split; auto. left. exists wi, Raise. split; auto. split; auto. reflexivity.
    - destruct Hroot as [|Hroot]; [discriminate|].
      destruct (node_reset_cases _ n (sub_reset ev u n) w) as [[G _]|[_ G]]; [unfold live, dead in *; tauto|].
      rewrite G in H. unfold reset_live in H. clear G.
      match type of H with context [sub_reset ev u n ?a] => destruct (sub_reset ev u n a) as [w1 r1] eqn:E; set (w0 := a) in * end.
      destruct (sub_do_spec ev u d n t found OReset w0 w1 r1 (or_intror Hroot) E) as (A1 & A2 & A3 & A4).
      change (below w0) with (below w) in A4.
      destruct A4 as [(wi & B1 & B2)|([[B1 _]|[B1 _]] & B2 & B3)]; [|discriminate|discriminate].
      destruct r1 as [s|e|].
      + destruct (inner_states _ _ _ _ Hnd B2) as [C1 C2]. simpl in C1. subst s. cbn in H. inversion H; subst.
        split; auto. left. exists wi, (Ok IDLE). split; auto. split; auto. left. split; [reflexivity|apply Hst].
      + inversion H; subst. split; auto. left. exists wi, (Err e). split; auto. split; auto. exists e. split; [reflexivity|apply Hst].
      + inversion H; subst. split; auto. left. exists wi, Raise. split; auto. split; auto. reflexivity.
    - destruct Hroot as [|Hroot]; [discriminate|].
      destruct (sub_shutdown ev u n w) as [w1 r1] eqn:E.
      destruct (sub_do_spec ev u d n t found OShutdown w w1 r1 (or_intror Hroot) E) as (A1 & A2 & A3 & A4).
      destruct A4 as [(wi & B1 & B2)|([[B1 _]|[B1 _]] & B2 & B3)]; [|discriminate|discriminate].
      unfold node_shutdown in H. rewrite E in H.
      assert (H' : bind (match r1 with
          | Err _ => (set_st w1 n BROKEN, Err EState)
          | Raise => (w1, Raise)
          | Ok s => if state_in s [SHUTDOWN] then (set_st w1 n s, Ok s) else (set_st w1 n s, Err EState)
          end) (fun _ w1 => (w1, Ok (w_st w1 n))) = (w', r)).
      { destruct (w_st w n); try (destruct r1; exact H). tauto. }
      clear H. destruct r1 as [s|e|].
      + destruct (inner_states _ _ _ _ Hnd B2) as [C1 C2]. simpl in C1. subst s. cbn in H'. inversion H'; subst.
        split; auto. left. exists wi, (Ok SHUTDOWN). split; auto. split; auto. left. unfold upd. rewrite Nat.eqb_refl. auto.
      + cbn in H'. inversion H'; subst. split; auto. left. exists wi, (Err e). split; auto. split; auto. exists EState. split; [reflexivity|apply Hst].
      + cbn in H'. inversion H'; subst. split; auto. left. exists wi, Raise. split; auto. split; auto. reflexivity.
  Qed.
End SubCall.

Lemma live_dec : forall s, live s \/ ~ live s.
Proof. intros s. unfold live, dead. destruct s; solve [left; intros [H|[H|H]]; discriminate|right; tauto]. Qed.
Lemma accepted_dec : forall E (w : world E) n o, accepted w n o \/ ~ accepted w n o.
Proof.
  intros E w n o. pose proof (live_dec (w_st w n)) as Hl.
  assert (Hi : inputs_set w n \/ ~ inputs_set w n).
  { unfold inputs_set. destruct (forallb (fun kc => has_value (snd kc)) (w_ins w n)) eqn:Ef.
    - left. intros k c Hin. rewrite forallb_forall in Ef. specialize (Ef _ Hin). unfold has_value in Ef. simpl in Ef. destruct (c_val c); congruence.
    - right. intros Hi. apply Bool.not_true_iff_false in Ef. apply Ef. apply forallb_forall. intros [k c] Hin. specialize (Hi _ _ Hin).
      unfold has_value. simpl. destruct (c_val c); congruence. }
  destruct o; simpl; try tauto.
  - destruct (w_st w n); solve [left; tauto|right; intros [H|H]; discriminate].
  - destruct (w_st w n); solve [left; discriminate|right; tauto].
Qed.

Section SubState.
  Context {X F : Type}.
  Variable ev : env F.
  Variable u : uuids.
  Variable d : subdef.
  Variable n : nid.
  Variable name : string.
  Variable t : tree.
  Hypothesis found : sd_found d = Ok (Some t).
  Hypothesis nodup : NoDup (ids t).
  Notation W := (world (X * sub F)).
  Notation node := (subtree_obj ev u d n name).

  Definition follows (w : W) : Prop :=
    (sb_root (inner w) = None /\ (w_st w n = UNINITIALIZED \/ w_st w n = SHUTDOWN) /\ w_st (below w) (t_id t) = UNINITIALIZED) \/
    (sb_root (inner w) = Some t /\ (w_st w n = BROKEN \/ w_st w n = w_st (below w) (t_id t))).

  Lemma refused_call : forall o (w w' : W) r, ~ accepted w n o -> call o node w = (w', r) ->
    inner w' = inner w /\ (w_st w' n = w_st w n \/ (w_st w' n = BROKEN /\ live (w_st w n))) /\
    w_ins w' = w_ins w.
  Proof.
    intros o w w' r Hn H. destruct o; simpl in Hn, H.
    - unfold node_setup in H. destruct (w_st w n) eqn:Es; try (exfalso; apply Hn; tauto); inversion H; subst; auto.
    - destruct (node_tick_cases _ n (sub_tick ev u n) w) as [[_ G]|[Hl G]]; rewrite G in H; [inversion H; subst; auto|].
      unfold tick_live in H. destruct (negb _) eqn:En.
      + inversion H; subst. repeat split. right. split; auto. simpl. unfold upd. rewrite Nat.eqb_refl. auto.
      + exfalso. apply Hn. split; auto. intros k c Hin Hc. apply negb_false_iff in En. rewrite forallb_forall in En.
        specialize (En _ Hin). simpl in En. unfold has_value in En. rewrite Hc in En. discriminate.
    - destruct (node_untick_cases _ n (sub_untick ev u n) w) as [[_ G]|[Hl G]]; [rewrite G in H; inversion H; subst; auto|tauto].
    - destruct (node_reset_cases _ n (sub_reset ev u n) w) as [[_ G]|[Hl G]]; [rewrite G in H; inversion H; subst; auto|tauto].
    - unfold node_shutdown in H. destruct (w_st w n) eqn:Es; try (exfalso; apply Hn; discriminate).
      simpl in H. inversion H; subst. auto.
  Qed.

  Lemma follows_call : forall o (w w' : W) r, follows w -> call o node w = (w', r) -> r <> Raise -> follows w'.
  Proof.
    intros o w w' r Hf H Hr.
    assert (Hdec : accepted w n o \/ ~ accepted w n o) by (apply accepted_dec).
    destruct Hdec as [Ha|Ha].
    2:{ destruct (refused_call o w w' r Ha H) as (A1 & A2 & _). unfold follows, below in *. rewrite A1.
        destruct Hf as [(B1 & B2 & B3)|(B1 & B2)].
        - left. split; auto. split; auto. destruct A2 as [->|[_ A2]]; auto. unfold live, dead in A2. tauto.
        - right. split; auto. destruct A2 as [->|[-> _]]; auto. }
    assert (Hroot : (o = OSetup \/ sb_root (inner w) = Some t) \/
                    (o = OShutdown /\ sb_root (inner w) = None /\ w_st (below w) (t_id t) = UNINITIALIZED)).
    { destruct Hf as [(B1 & B2 & B3)|(B1 & B2)]; auto. destruct o; auto; simpl in Ha; unfold live, dead in Ha; tauto. }
    destruct Hroot as [Hroot|(-> & Hroot & Hu)].
    - destruct (sub_call ev u d n name t found o w w' r nodup Hroot Ha H) as (A1 & A2).
      right. split; auto. destruct A2 as [(wi & ri & C1 & C2 & C3)|(C1 & C2 & [C3|(e & _ & C3)])]; auto; [|congruence].
      destruct ri as [s|e|]; simpl in C3.
      + destruct C3 as [[_ C3]|[_ [C3|(e & _ & C3)]]]; auto; [|congruence].
        right. rewrite C3. symmetry. eapply inner_states; [exact found|exact nodup|exact C2].
      + destruct C3 as (e' & _ & C3). auto.
      + congruence.
    - left. simpl in H, Ha. unfold node_shutdown, sub_shutdown in H. rewrite Hroot in H.
      assert (w' = set_st w n SHUTDOWN) as ->.
      { destruct (w_st w n); try (simpl in H; inversion H; reflexivity). tauto. }
      split; auto. split; auto. right. simpl. unfold upd. rewrite Nat.eqb_refl. auto.
  Qed.

  Lemma follows_history : forall gi ok (w0 w : W) l, sub_history ev u d n name gi ok w0 l w ->
    follows w0 -> (forall o, ~ In (o, Raise) l) -> follows w.
  Proof.
    intros gi ok w0 w l H. induction H as [|w0 o r w1 l w2 H IH Hok Hc|w0 l w1 w2 f H IH Hs Ho Hi Hn]; intros Hf Hr; auto.
    - apply (follows_call o w1 w2 r); auto.
      + apply IH; auto. intros o' Hin. apply (Hr o'). apply in_or_app. auto.
      + intros ->. apply (Hr o). apply in_or_app. right. left. auto.
    - specialize (IH Hf Hr). unfold follows, below in *. rewrite Hs, Hn. simpl. exact IH.
  Qed.

  Theorem sub_follows : forall gi ok (w0 w : W) l, sub_history ev u d n name gi ok w0 l w ->
    sub_fresh n t w0 -> (forall o, ~ In (o, Raise) l) -> w_st w n <> BROKEN ->
    w_st w n = w_st (below w) (t_id t) \/ (w_st w n = SHUTDOWN /\ w_st (below w) (t_id t) = UNINITIALIZED).
  Proof.
    intros gi ok w0 w l H (A1 & A2 & A3) Hr Hb.
    assert (Hf : follows w) by (eapply follows_history; eauto; left; auto).
    destruct Hf as [(B1 & [B2|B2] & B3)|(B1 & [B2|B2])]; auto; [left; congruence|tauto].
  Qed.
End SubState.

(** ** Lifting a relation to operations other than setup *)
Section LiftLive.
  Context {E : Type}.
  Variable ev : env E.
  Variable R : world E -> world E -> Prop.
  Hypothesis Rrefl : forall w, R w w.
  Hypothesis Rtrans : forall a b c, R a b -> R b c -> R a c.
  Hypothesis Rst : forall w n s, R w (set_st w n s).
  Hypothesis Rmem : forall w n a, R w (set_mem w n a).
  Hypothesis Rext : forall w e, R w (set_ext w e).
  Hypothesis Routs : forall w n m, map fst m = map fst (w_outs w n) -> R w (set_outs w n m).
  Hypothesis Rins : forall w n f, (f = reset_updated \/ f = flag_updated) ->
    R w (set_ins w n (map_io f (w_ins w n))).
  Hypothesis Rpush : forall w n, R w (fst (push_outputs w n)).

  Ltac go := match goal with
    | |- R ?w ?w => apply Rrefl
    | H : R ?w ?x |- R ?w ?x => exact H
    | |- R _ (set_st _ _ _) => eapply Rtrans; [|apply Rst]; go
    | |- R _ (set_mem _ _ _) => eapply Rtrans; [|apply Rmem]; go
    | |- R _ (set_ext _ _) => eapply Rtrans; [|apply Rext]; go
    | |- R _ (set_outs _ _ (map_io _ _)) => eapply Rtrans; [|apply Routs; apply map_io_keys]; go
    | |- R _ (set_ins _ _ _) => eapply Rtrans; [|apply Rins; tauto]; go
    end.

  Lemma live_wrap : forall n (d : act E) (w : world E), (forall w, R w (fst (d w))) ->
    R w (fst (node_tick n d w)) /\ R w (fst (node_untick n d w)) /\ R w (fst (node_reset n d w)).
  Proof.
    intros n d w Hd.
    assert (Hin : forall w1, R w w1 -> R w (fst (d w1))) by (intros w1 H; eapply Rtrans; [exact H|apply Hd]).
    split; [|split].
    - destruct (node_tick_cases E n d w) as [[_ Heq]|[_ Heq]]; rewrite Heq; [apply Rrefl|].
      unfold tick_live. destruct (negb _); [apply Rst|].
      match goal with |- context [d ?x] => assert (H : R w (fst (d x))) by (apply Hin; go); destruct (d x) as [w3 [s|e|]] end;
        cbn [fst] in *; auto; try go. cbn zeta.
      match goal with |- context [push_outputs ?x n] =>
        assert (Hp : R w (fst (push_outputs x n))) by (eapply Rtrans; [|apply Rpush]; go);
        destruct (push_outputs x n) as [w5 [u|e|]] end; cbn [fst] in *; dif; cbn [fst]; try go.
    - destruct (node_untick_cases E n d w) as [[_ Heq]|[_ Heq]]; rewrite Heq; [apply Rrefl|].
      unfold untick_live. cbn zeta.
      match goal with |- context [d ?x] => assert (H : R w (fst (d x))) by (apply Hin; go); destruct (d x) as [w3 [s|e|]] end;
        cbn [fst] in *; auto; try go.
      dif; cbn [fst]; go.
    - destruct (node_reset_cases E n d w) as [[_ Heq]|[_ Heq]]; rewrite Heq; [apply Rrefl|].
      unfold reset_live. cbn zeta.
      match goal with |- context [d ?x] => assert (H : R w (fst (d x))) by (apply Hin; go); destruct (d x) as [w3 [s|e|]] end;
        cbn [fst] in *; auto; try go.
      dif; cbn [fst]; go.
  Qed.

  Lemma live_shutdown : forall n cs (d : act E) (w : world E),
    (forall w, R w (fst (d w))) -> (forall c w, In c cs -> R w (fst (o_shutdown c w))) ->
    R w (fst (node_shutdown n cs d w)).
  Proof.
    intros n cs d w Hd Hc.
    assert (Hcs : forall w e, R w (fst (shutdown_children cs w e))).
    { clear w. induction cs as [|c r IH]; simpl; intros w0 e; [apply Rrefl|].
      pose proof (Hc c w0 (or_introl eq_refl)) as H.
      destruct (o_shutdown c w0) as [w1 [s|e1|]]; simpl in *; auto; (eapply Rtrans; [exact H|apply IH; auto]). }
    unfold node_shutdown.
    match goal with |- R w (fst (bind ?x _)) => assert (Ho : R w (fst x)) end.
    { destruct (w_st w n); try apply Rrefl; pose proof (Hd w) as H;
        destruct (d w) as [w1 [s|e|]]; cbn [fst] in *; auto; try go; dif; cbn [fst]; go. }
    match goal with |- R w (fst (bind ?x _)) => destruct x as [w1 [s|e|]] end; simpl in *; auto.
    pose proof (Hcs w1 None) as H.
    destruct (shutdown_children cs w1 None) as [w2 [[e|]|e|]]; simpl in *; eapply Rtrans; eauto.
  Qed.

  Lemma live_tree : forall t o w, o <> OSetup -> R w (fst (call o (obj_of ev t) w)).
  Proof.
    induction t as [n k name cs IH] using tree_ind'. intros o w Ho. rewrite Forall_forall in IH.
    assert (Hsub : forall c o w, o <> OSetup -> In c (map (obj_of ev) cs) -> R w (fst (call o c w))).
    { intros c o' w' Ho' Hc. apply in_map_iff in Hc. destruct Hc as [t [Ht Hin]]. subst c. apply IH; auto. }
    simpl obj_of. rewrite call_make.
    assert (Hd : forall o w, o <> OSetup -> R w (fst (do_op ev o n k (map (obj_of ev) cs) w))).
    { intros o' w' Ho'. apply do_op_rel with (phase := False) (okop := fun o => o <> OSetup); auto; try discriminate; try tauto. }
    destruct o; try congruence.
    - apply live_wrap. intros; apply Hd; discriminate.
    - apply live_wrap. intros; apply Hd; discriminate.
    - apply live_wrap. intros; apply Hd; discriminate.
    - apply live_shutdown; [intros; apply Hd; discriminate|]. intros c w0 Hc. apply (Hsub c OShutdown); [discriminate|auto].
  Qed.
End LiftLive.

(** Inputs that nothing is wired to keep their values. *)
Definition vals_kept {E} (w w' : world E) : Prop :=
  w_conns w' = w_conns w /\
  forall m key, (forall n k, wired w n k -> ~ (k_tid k = m /\ k_tkey k = key)) ->
    option_map (fun c => (c_ty c, c_static c, c_val c)) (input w' m key) =
    option_map (fun c => (c_ty c, c_static c, c_val c)) (input w m key).

Lemma vals_same : forall E (w w' : world E), w_conns w' = w_conns w -> w_ins w' = w_ins w -> vals_kept w w'.
Proof. intros E w w' H1 H2. split; auto. intros m key _. unfold input. rewrite H2. auto. Qed.
Lemma vals_trans : forall E (a b c : world E), vals_kept a b -> vals_kept b c -> vals_kept a c.
Proof.
  intros E a b c [A1 A2] [B1 B2]. split; [congruence|]. intros m key Hm. rewrite <- (A2 m key Hm). apply B2.
  intros n k Hw. apply (Hm n). unfold wired in *. rewrite A1 in Hw. auto.
Qed.
Lemma vals_op : forall E (ev : env E) t o w, o <> OSetup -> vals_kept w (fst (call o (obj_of ev t) w)).
Proof.
  intros E ev t o w Ho. apply (live_tree ev vals_kept); auto;
    try (intros; apply vals_same; auto; fail).
  - apply vals_trans.
  - intros w0 n f Hf. split; [reflexivity|]. intros m key _. unfold input, set_ins, upd; simpl. destruct (Nat.eqb_spec m n) as [->|]; auto.
    rewrite dget_map_io. destruct (dget key (w_ins w0 n)); simpl; auto. destruct Hf as [->| ->]; reflexivity.
  - intros w0 n. pose proof (push_outputs_frame E n w0) as [_ [_ [_ [Hcn _]]]]. split; [exact Hcn|].
    intros m key Hm. f_equal. unfold push_outputs. destruct (w_conns w0 n) as [l|] eqn:El; auto.
    assert (Hi : input (fst (push_conns w0 n l)) m key = input w0 m key).
    { apply push_conns_frame_input. intros k v Hk _. apply (Hm n). exists l. auto. }
    destruct (push_conns w0 n l) as [w1 [x|e|]]; simpl in *; auto.
    pose proof (push_outgoing_frame E n (w_outs w1 n) w1) as [B1 [B2 [B3 [B4 [B5 [B6 B7]]]]]].
    rewrite <- Hi. unfold input. rewrite B5. auto.
Qed.

(** ** Delivering the inputs *)
Lemma push_incoming_frame : forall F u l (w : world F) m key,
  (forall k c, In (k, c) l -> c_upd c = true -> split_key u k <> Some (m, key)) ->
  input (fst (push_incoming u l w)) m key = input w m key.
Proof.
  intros F u. induction l as [|[k c] l IH]; cbn [push_incoming]; intros w m key Hl; [reflexivity|].
  assert (Hr : forall w0 : world F, input (fst (push_incoming u l w0)) m key = input w0 m key).
  { intros w0. apply IH. intros k' c' Hk. apply Hl. right. exact Hk. }
  destruct (c_upd c) eqn:Eu; cbn [negb]; auto. destruct (c_val c) as [v|]; auto.
  destruct (split_key u k) as [[m' key']|] eqn:Ek; auto. destruct (w_conns w m'); auto.
  destruct (dget key' (w_ins w m')) as [t|]; auto.
  destruct (set_value t v) as [t' [x|e|]]; auto. rewrite Hr, input_set.
  destruct (Nat.eqb_spec m m') as [->|]; simpl; auto. destruct (String.eqb_spec key key') as [->|]; simpl; auto.
  exfalso. apply (Hl k c); [left; auto|auto|auto].
Qed.

Definition names_ok (u : uuids) (l : list string) : Prop :=
  NoDup l /\ forall k, In k l -> match split_key u k with Some (m, key) => k = public_name u m key | None => True end.

Lemma push_incoming_given : forall F u l (w w' : world F) m c v t,
  uuids_ok u -> names_ok u (map fst l) -> push_incoming u l w = (w', Ok tt) ->
  In (public_name u m "in", c) l -> c_upd c = true -> c_val c = Some v -> w_conns w m <> None ->
  input w m "in" = Some t -> c_static t = false ->
  exists t', input w' m "in" = Some t' /\ given t' v.
Proof.
  intros F u l w w' m c v t Hu. revert w t. induction l as [|[k c0] l IH]; intros w t [Hnd Hnm] H Hin Hup Hv Hc Ht Hs; [destruct Hin|].
  cbn [push_incoming] in H. simpl in Hnd. apply NoDup_cons_iff in Hnd. destruct Hnd as [Hnk Hnd].
  assert (Hnm' : names_ok u (map fst l)) by (split; auto; intros; apply Hnm; right; auto).
  destruct Hin as [Hin|Hin].
  - inversion Hin; subst. rewrite Hup, Hv, split_in in H by auto. cbn [negb] in H.
    destruct (w_conns w m) as [x|] eqn:Ecn; [|congruence]. unfold input in Ht. rewrite Ht in H.
    destruct (set_value t v) as [t' [y|e|]] eqn:Es; try discriminate.
    exists t'. split; [|eapply set_value_given; eauto].
    match type of H with push_incoming u l ?a = _ => pose proof (push_incoming_frame F u l a m "in") as Hf; rewrite H in Hf end.
    simpl fst in Hf. rewrite Hf.
    + rewrite input_set, Nat.eqb_refl. reflexivity.
    + intros k c' Hk _ Hsp. apply Hnk. destruct Hnm' as [_ Hnm']. apply (in_map fst) in Hk. simpl in Hk.
      specialize (Hnm' k Hk). rewrite Hsp in Hnm'. congruence.
  - assert (Hgo : forall w0 t0, push_incoming u l w0 = (w', Ok tt) -> w_conns w0 m <> None -> input w0 m "in" = Some t0 -> c_static t0 = false ->
      exists t', input w' m "in" = Some t' /\ given t' v) by (intros w0 t0 ? ? ? ?; apply (IH w0 t0); auto).
    destruct (negb (c_upd c0)); eauto. destruct (c_val c0) as [v0|]; eauto.
    destruct (split_key u k) as [[m' key']|] eqn:Ek; eauto. destruct (w_conns w m') eqn:Em; eauto.
    destruct (dget key' (w_ins w m')) as [t0|] eqn:Et; eauto.
    destruct (set_value t0 v0) as [t1 [x|e|]] eqn:Es; try discriminate.
    assert (Hq : exists t2, input (set_ins w m' (dset key' t1 (w_ins w m'))) m "in" = Some t2 /\ c_static t2 = false).
    { rewrite input_set. destruct (Nat.eqb_spec m m') as [->|]; cbn [andb]; [|eauto].
      destruct (String.eqb_spec "in" key') as [<-|]; [|eauto]. exists t1. split; auto.
      unfold input in Ht. rewrite Et in Ht. inversion Ht; subst.
      pose proof (set_value_static t v0) as [S1 _]. rewrite Es in S1. simpl in S1. congruence. }
    destruct Hq as (t2 & Q1 & Q2). eapply Hgo; eauto.
Qed.

(** ** The inputs of the node reach the inputs inside *)
Definition dyn {F} (wi : world F) (m : nid) : Prop :=
  exists ti, input wi m "in" = Some ti /\ c_static ti = false.
Definition conns_ok {F} (d : subdef) (wi : world F) : Prop :=
  (forall m, In m (sd_ids d) -> w_conns wi m <> None) /\
  (forall a k, wired wi a k -> exists x, In x (sd_wires d) /\ iw_tgt x = Some (k_tid k) /\ iw_tkey x = k_tkey k).

Lemma connect_conns : forall l (c c' : conns) r ws, connect l c = (c', r) -> incl l ws ->
  (forall a k, (exists x, c a = Some x /\ In k x) -> exists x, In x ws /\ iw_tgt x = Some (k_tid k) /\ iw_tkey x = k_tkey k) ->
  (forall a, c a <> None -> c' a <> None) /\
  (forall a k, (exists x, c' a = Some x /\ In k x) -> exists x, In x ws /\ iw_tgt x = Some (k_tid k) /\ iw_tkey x = k_tkey k).
Proof.
  induction l as [|x l IH]; simpl; intros c c' r ws H Hi Hw.
  { inversion H; subst. auto. }
  destruct (iw_src x) as [s|]; [|inversion H; subst; auto]. destruct (iw_tgt x) as [g|] eqn:Eg; [|inversion H; subst; auto].
  destruct (c s) as [k|] eqn:Ek; [|inversion H; subst; auto].
  apply (IH _ _ _ ws) in H.
  - destruct H as [H1 H2]. split; auto. intros a Ha. apply H1. destruct (Nat.eqb a s); [discriminate|auto].
  - intros y Hy. apply Hi. right. auto.
  - intros a k' (y & Hy & Hin). destruct (Nat.eqb a s); [|apply (Hw a); eauto].
    inversion Hy; subst. apply in_app_or in Hin. destruct Hin as [Hin|[<-|[]]]; [apply (Hw s); eauto|].
    exists x. split; [apply Hi; left; auto|]. auto.
Qed.
Lemma initialize_conns : forall F d (w : world F), conns_ok d (fst (initialize d w)).
Proof.
  intros F d w. unfold initialize. destruct (connect _ _) as [c r] eqn:Ec.
  apply (connect_conns _ _ _ _ (sd_wires d)) in Ec; [|apply incl_refl|].
  - destruct Ec as [E1 E2]. split; simpl.
    + intros m Hm. apply E1. assert (existsb (Nat.eqb m) (sd_ids d) = true) as ->; [|discriminate].
      apply existsb_exists. exists m. split; auto. apply Nat.eqb_refl.
    + intros a k (l & Hl & Hk). apply (E2 a). simpl in Hl. eauto.
  - intros a k (x & Hx & Hk). destruct (existsb _ _); [|discriminate]. inversion Hx; subst. destruct Hk.
Qed.

Lemma call_static : forall F (ev : env F) t o w, static_kept w (fst (call o (obj_of ev t) w)).
Proof.
  intros F ev t o w. destruct (call o (obj_of ev t) w) as [w' r] eqn:E.
  apply (static_runs F ev w [(t, o, r)] w'). econstructor; [exact E|constructor].
Qed.
Lemma dyn_static : forall F (a b : world F) m, static_kept a b -> dyn a m -> dyn b m.
Proof.
  intros F a b m [_ [H _]] (ti & A1 & A2). specialize (H m "in"). rewrite A1 in H. simpl in H.
  destruct (input b m "in") as [tj|] eqn:E; simpl in H; [|discriminate]. exists tj. split; congruence.
Qed.
Lemma dyn_alike : forall F (a b : world F) m, typed_alike b a -> dyn a m -> dyn b m.
Proof.
  intros F a b m H (ti & A1 & A2). specialize (H m "in"). rewrite A1 in H. simpl in H.
  destruct (input b m "in") as [tj|] eqn:E; simpl in H; [|discriminate]. exists tj. split; congruence.
Qed.
Lemma conns_ok_same : forall F d (a b : world F), w_conns b = w_conns a -> conns_ok d a -> conns_ok d b.
Proof. intros F d a b H [A1 A2]. unfold conns_ok, wired. rewrite H. split; auto. Qed.
Lemma holds_kept : forall F d (a b : world F) m v, vals_kept a b -> conns_ok d a ->
  (forall x, In x (sd_wires d) -> ~ (iw_tgt x = Some m /\ iw_tkey x = "in")) -> holds a m v -> holds b m v.
Proof.
  intros F d a b m v [_ Hk] [_ Hc] Hx (ti & A1 & x & y & A2 & A3 & A4). specialize (Hk m "in"). rewrite A1 in Hk.
  assert (Hno : forall n k, wired a n k -> ~ (k_tid k = m /\ k_tkey k = "in")).
  { intros a0 k Hw [E1 E2]. destruct (Hc a0 k Hw) as (z & Z1 & Z2 & Z3). apply (Hx z Z1). split; congruence. }
  specialize (Hk Hno). simpl in Hk. destruct (input b m "in") as [tj|] eqn:E; simpl in Hk; [|discriminate].
  injection Hk as K1 K2 K3. exists tj. split; auto. exists x, y. rewrite K1, K3. auto.
Qed.

Section SubInputs.
  Context {X F : Type}.
  Variable ev : env F.
  Variable u : uuids.
  Variable d : subdef.
  Variable n : nid.
  Variable name : string.
  Variable t : tree.
  Hypothesis found : sd_found d = Ok (Some t).
  Hypothesis nodup : NoDup (ids t).
  Hypothesis uok : uuids_ok u.
  Variable keys : list string.
  Hypothesis kok : names_ok u keys.
  Notation W := (world (X * sub F)).
  Notation node := (subtree_obj ev u d n name).

  Definition pub (m : nid) : Prop :=
    In m (sd_ids d) /\ In (public_name u m "in") keys /\
    forall x, In x (sd_wires d) -> ~ (iw_tgt x = Some m /\ iw_tkey x = "in").

  Definition up (ins : iomap) (wi : world F) (m : nid) : Prop :=
    forall c v, dget (public_name u m "in") ins = Some c -> c_val c = Some v -> c_upd c = false -> holds wi m v.

  Definition inv (w : W) : Prop :=
    map fst (w_ins w n) = keys /\ (forall m, pub m -> dyn (below w) m) /\
    ((sb_root (inner w) = None /\ (w_st w n = UNINITIALIZED \/ w_st w n = SHUTDOWN)) \/
     (sb_root (inner w) = Some t /\ conns_ok d (below w) /\ forall m, pub m -> up (w_ins w n) (below w) m)).

  Lemma dget_in : forall k (c : container) l, dget k l = Some c -> In (k, c) l.
  Proof.
    intros k c l. induction l as [|[k' c'] l IH]; simpl; [discriminate|]. destruct (String.eqb_spec k k') as [->|]; auto.
    intros H. inversion H; auto.
  Qed.

  Lemma tick_inputs : forall (w w1 : W) r, inv w -> sb_root (inner w) = Some t -> sub_tick ev u n w = (w1, r) ->
    w_st w1 = w_st w /\ w_ins w1 = w_ins w /\ sb_root (inner w1) = Some t /\ w_conns w1 = w_conns w /\
    (forall m, pub m -> dyn (below w1) m) /\ conns_ok d (below w1) /\
    (forall m, pub m -> up (w_ins w n) (below w1) m) /\
    ((exists wi, same_nodes wi (below w) /\ call OTick (obj_of ev t) wi = (below w1, r) /\
        forall m c v, pub m -> dget (public_name u m "in") (w_ins w n) = Some c -> c_val c = Some v ->
          holds wi m v /\ holds (below w1) m v) \/
     (refused_input u w n /\ same_nodes (below w1) (below w) /\ forall s, r <> Ok s)).
  Proof.
    intros w w1 r (Hk & Hd & Hi) Hroot H. destruct Hi as [[Hi _]|(_ & Hc & Hup)]; [congruence|].
    unfold sub_tick in H. rewrite Hroot in H.
    apply inside_spec in H. destruct H as (A1 & A2 & A3 & A4 & _ & _ & A7 & _). 
    split; auto. split; auto. split; [congruence|]. split; auto.
    match type of A1 with context [push_incoming u ?l ?a] => set (a0 := a) in * end.
    pose proof (push_incoming_same F u (w_ins w n) a0) as (I1 & I2 & _ & I3).
    pose proof (push_incoming_frame F u (w_ins w n) a0) as I4.
    destruct (push_incoming u (w_ins w n) a0) as [wi r0] eqn:Ei. cbn [fst] in I1, I2, I3, I4.
    assert (J1 : same_nodes wi (below w)) by (eapply same_nodes_trans; [exact I1|repeat split]).
    assert (J2 : forall m, pub m -> dyn wi m) by (intros m Hm; eapply dyn_alike; [exact I3|apply (Hd m Hm)]).
    assert (J3 : conns_ok d wi) by (apply (conns_ok_same F d (below w)); auto).
    assert (J4 : forall m, pub m -> up (w_ins w n) wi m).
    { intros m Hm c v Hc1 Hc2 Hc3. destruct (Hup m Hm c v Hc1 Hc2 Hc3) as (ti & T1 & T2). exists ti. split; auto.
      rewrite I4; auto. intros k c' Hin Hu' Hsp.
      assert (k = public_name u m "in") as ->.
      { destruct kok as [_ K]. specialize (K k). rewrite Hsp in K. apply K. rewrite <- Hk. apply (in_map fst) in Hin. exact Hin. }
      assert (c' = c); [|congruence].
      { apply dget_in in Hc1. destruct kok as [K _]. rewrite <- Hk in K. revert K Hin Hc1. clear.
        induction (w_ins w n) as [|[k0 c0] l IH]; simpl; [tauto|]. intros K [E1|E1] [E2|E2].
        - congruence.
        - inversion E1; subst. apply NoDup_cons_iff in K. exfalso. apply K. apply (in_map fst) in E2. exact E2.
        - inversion E2; subst. apply NoDup_cons_iff in K. exfalso. apply K. apply (in_map fst) in E1. exact E1.
        - apply NoDup_cons_iff in K. apply IH; tauto. } }
    assert (J5 : r0 = Ok tt -> forall m c v, pub m -> dget (public_name u m "in") (w_ins w n) = Some c -> c_val c = Some v -> holds wi m v).
    { intros -> m c v Hm Hc1 Hc2. destruct (c_upd c) eqn:Eu; [|apply (J4 m Hm c v); auto].
      destruct (Hd m Hm) as (ti & T1 & T2). pose proof Hm as (M1 & M2 & M3).
      apply (push_incoming_given F u (w_ins w n) a0 wi m c v ti); auto.
      - rewrite Hk. exact kok.
      - apply dget_in. auto.
      - simpl. destruct Hc as [Hc _]. apply Hc. auto. }
    assert (Hcall : call OTick (obj_of ev t) wi = (below w1, r) ->
      (forall m, pub m -> dyn (below w1) m) /\ conns_ok d (below w1) /\
      (forall m, pub m -> up (w_ins w n) (below w1) m) /\
      (forall m v, pub m -> holds wi m v -> holds (below w1) m v)).
    { intros Hcl. pose proof (call_static F ev t OTick wi) as S1. pose proof (vals_op F ev t OTick wi) as S2. rewrite Hcl in S1, S2. cbn [fst] in S1, S2.
      assert (Hv : vals_kept wi (below w1)) by (apply S2; discriminate).
      assert (Hh : forall m v, pub m -> holds wi m v -> holds (below w1) m v).
      { intros m v Hm. apply (holds_kept F d wi (below w1) m v Hv J3). apply Hm. }
      split; [intros m Hm; apply (dyn_static F wi); auto|]. split; [apply (conns_ok_same F d wi); [apply Hv|auto]|].
      split; auto. intros m Hm c v Hc1 Hc2 Hc3. apply Hh; auto. apply (J4 m Hm c v); auto. }
    destruct (push_incoming_refused _ _ _ _ _ _ Ei) as [->|Hb].
    - cbn [bind] in A1. destruct (Hcall A1) as (C1 & C2 & C3 & C4). repeat (split; auto).
      left. exists wi. split; auto. split; auto. intros m c v Hm Hc1 Hc2. assert (holds wi m v) by eauto. auto.
    - destruct r0 as [[]|e|]; cbn [bind] in A1.
      + destruct (Hcall A1) as (C1 & C2 & C3 & C4). repeat (split; auto).
        left. exists wi. split; auto. split; auto. intros m c v Hm Hc1 Hc2. assert (holds wi m v) by eauto. auto.
      + injection A1 as A1 <-. rewrite <- A1. repeat (split; auto). right. split; [exact Hb|]. split; auto. discriminate.
      + injection A1 as A1 <-. rewrite <- A1. repeat (split; auto). right. split; [exact Hb|]. split; auto. discriminate.
  Qed.

  Lemma setup_inputs : forall (w w1 : W) r, (forall m, pub m -> dyn (below w) m) -> sub_setup ev u d n w = (w1, r) ->
    w_st w1 = w_st w /\ w_ins w1 = w_ins w /\ sb_root (inner w1) = Some t /\
    (forall m, pub m -> dyn (below w1) m) /\ conns_ok d (below w1).
  Proof.
    intros w w1 r Hd H. unfold sub_setup in H. rewrite found in H.
    apply inside_spec in H. destruct H as (A1 & A2 & A3 & A4 & _).
    split; auto. split; auto. split; [exact A2|]. cbn [w_outs set_inner set_ext] in A1.
    match type of A1 with context [initialize d ?a] => set (a0 := a) in * end.
    pose proof (initialize_same F d a0) as (_ & I1 & _). pose proof (initialize_conns F d a0) as I2.
    destruct (initialize d a0) as [wi r0] eqn:Ei. cbn [fst] in I1, I2.
    assert (J1 : forall m, pub m -> dyn wi m).
    { intros m Hm. destruct (Hd m Hm) as (ti & T1 & T2). exists ti. split; auto. unfold input in *. rewrite I1. exact T1. }
    destruct r0 as [x|e|]; cbn [bind] in A1.
    - pose proof (call_static F ev t OSetup wi) as S1. simpl call in S1. rewrite A1 in S1. cbn [fst] in S1.
      split; [intros m Hm; apply (dyn_static F wi); auto|]. apply (conns_ok_same F d wi); auto. apply S1.
    - injection A1 as <- _. auto.
    - injection A1 as <- _. auto.
  Qed.

  Lemma other_inputs : forall o (w w1 : W) r, o <> OSetup -> o <> OTick -> inv w -> sb_root (inner w) = Some t ->
    sub_do ev u d n o w = (w1, r) ->
    w_st w1 = w_st w /\ w_ins w1 = w_ins w /\ sb_root (inner w1) = Some t /\
    (forall m, pub m -> dyn (below w1) m) /\ conns_ok d (below w1) /\
    (forall m, pub m -> up (w_ins w n) (below w1) m).
  Proof.
    intros o w w1 r Ho1 Ho2 (Hk & Hd & Hi) Hroot H. destruct Hi as [[Hi _]|(_ & Hc & Hup)]; [congruence|].
    assert (Hin : inside u n (call o (obj_of ev t)) w = (w1, r)).
    { destruct o; try congruence; simpl in H; unfold sub_untick, sub_reset, sub_shutdown in H; rewrite Hroot in H; exact H. }
    clear H. apply inside_spec in Hin. destruct Hin as (A1 & A2 & A3 & A4 & _).
    split; auto. split; auto. split; [congruence|].
    match type of A1 with call o _ ?a = _ => set (a0 := a) in * end.
    pose proof (call_static F ev t o a0) as S1. pose proof (vals_op F ev t o a0 Ho1) as S2. rewrite A1 in S1, S2. cbn [fst] in S1, S2.
    split; [intros m Hm; apply (dyn_static F a0); auto; exact (Hd m Hm)|]. split; [apply (conns_ok_same F d a0); [apply S2|exact Hc]|].
    intros m Hm c v Hc1 Hc2 Hc3. apply (holds_kept F d a0 (below w1) m v S2); [exact Hc|apply Hm|].
    exact (Hup m Hm c v Hc1 Hc2 Hc3).
  Qed.

  Lemma up_flagged : forall (ins : iomap) f wi m, (forall c, c_upd (f c) = true) -> up (map_io f ins) wi m.
  Proof.
    intros ins f wi m Hf c v Hc _ Hu. rewrite dget_map_io in Hc. destruct (dget _ ins) as [x|]; simpl in Hc; [|discriminate].
    inversion Hc; subst. rewrite Hf in Hu. discriminate.
  Qed.
  Lemma up_empty : forall (m : nid) (wi : world F) ins1 ins2, ins1 = ins2 -> up ins1 wi m -> up ins2 wi m.
  Proof. intros; subst; auto. Qed.

  Lemma self_push : forall (w : W), not_wired_to_itself n w -> w_ins (fst (push_outputs w n)) n = w_ins w n.
  Proof.
    intros w Hs. unfold push_outputs. destruct (w_conns w n) as [l|] eqn:El; auto.
    assert (Hl : forall k, In k l -> k_tid k <> n) by (intros k Hk; apply Hs; exists l; auto).
    assert (Hc : forall l0 (w0 : W), (forall k, In k l0 -> k_tid k <> n) -> w_ins (fst (push_conns w0 n l0)) n = w_ins w0 n).
    { clear. induction l0 as [|k r IH]; intros w0 Hk; simpl; auto.
      assert (Hr : forall x : W, w_ins (fst (push_conns x n r)) n = w_ins x n) by (intros; apply IH; intros; apply Hk; right; auto).
      destruct (dget (k_src k) (w_outs w0 n)) as [c|]; auto. destruct (negb (c_upd c)); auto. destruct (c_val c) as [v|]; auto.
      destruct (w_conns w0 (k_tid k)); auto. destruct (dget (k_tkey k) (w_ins w0 (k_tid k))) as [x|]; auto.
      destruct (set_value x v) as [x' [y|e|]]; auto. rewrite Hr. simpl. unfold upd.
      destruct (Nat.eqb_spec n (k_tid k)); auto. exfalso. apply (Hk k); [left; auto|auto]. }
    specialize (Hc l w Hl). destruct (push_conns w n l) as [w1 [x|e|]]; simpl in *; auto.
    pose proof (push_outgoing_frame _ n (w_outs w1 n) w1) as [B1 [B2 [B3 [B4 [B5 [B6 B7]]]]]]. rewrite B5. auto.
  Qed.

  Lemma set_ins_n : forall (w : W) i, w_ins (set_ins w n i) n = i.
  Proof. intros. simpl. unfold upd. rewrite Nat.eqb_refl. auto. Qed.

  Lemma inv_call : forall o (w w' : W) r, inv w -> not_wired_to_itself n w -> call o node w = (w', r) -> inv w'.
  Proof.
    intros o w w' r Hinv Hself H. pose proof Hinv as (Hk & Hd & Hi).
    destruct (accepted_dec _ w n o) as [Ha|Ha].
    2:{ destruct (refused_call ev u d n name o w w' r Ha H) as (A1 & A2 & A3). unfold inv, below in *. rewrite A1, A3.
        split; auto. split; auto. destruct Hi as [[B1 B2]|B]; auto. left. split; auto.
        destruct A2 as [->|[_ A2]]; auto. unfold live, dead in A2. tauto. }
    destruct o; simpl in H, Ha.
    - destruct (node_setup_cases _ n (sub_setup ev u d n) w) as [(G1 & G2 & _)|[_ G]]; [tauto|]. rewrite G in H. unfold setup_live in H. clear G.
      match type of H with context [sub_setup ev u d n ?a] => destruct (sub_setup ev u d n a) as [w1 r1] eqn:E; set (w0 := a) in * end.
      destruct (setup_inputs w0 w1 r1 Hd E) as (A1 & A2 & A3 & A4 & A5).
      assert (Hins : w_ins w1 n = map_io (fun c => flag_updated (reset_value c)) (w_ins w n)).
      { rewrite A2. subst w0. simpl. unfold upd. rewrite Nat.eqb_refl. auto. }
      assert (Hinv' : forall w2, inner w2 = inner w1 -> w_ins w2 = w_ins w1 -> inv w2).
      { intros w2 E1 E2. unfold inv, below. rewrite E1, E2, Hins. split; [rewrite map_io_keys; auto|]. split; auto. right. split; auto. split; auto.
        intros m Hm. apply up_flagged. reflexivity. }
      destruct r1 as [s|e|]; [destruct (state_in s [IDLE])| |]; inversion H; subst; apply Hinv'; auto.
    - destruct Ha as [Hl Hin].
      destruct (node_tick_cases _ n (sub_tick ev u n) w) as [[G _]|[_ G]]; [unfold live, dead in *; tauto|].
      rewrite G in H. unfold tick_live in H. rewrite inputs_set_b in H by auto. clear G.
      assert (Hroot : sb_root (inner w) = Some t).
      { destruct Hi as [[_ B]|B]; [|apply B]. unfold live, dead in Hl. tauto. }
      match type of H with context [sub_tick ev u n ?a] => destruct (sub_tick ev u n a) as [w1 r1] eqn:E; set (w0 := a) in * end.
      assert (Hinv0 : inv w0) by exact Hinv.
      destruct (tick_inputs w0 w1 r1 Hinv0 Hroot E) as (A1 & A2 & A3 & A3c & A4 & A5 & A6 & A7).
      change (w_ins w0) with (w_ins w) in *. change (w_conns w0) with (w_conns w) in *.
      destruct r1 as [s|e|].
      2,3: inversion H; subst; unfold inv, below in *; simpl; rewrite A2; split; auto.
      destruct A7 as [(wi & B1 & B2 & B3)|(_ & _ & B3)]; [|exfalso; apply (B3 s); auto].
      cbn zeta in H.
      match type of H with context [push_outputs ?a n] => set (w4 := a) in * end.
      assert (Hi4 : w_ins w4 n = map_io reset_updated (w_ins w n)).
      { subst w4. simpl. unfold upd. rewrite Nat.eqb_refl, A2. auto. }
      assert (Hinv' : forall w2, inner w2 = inner w1 -> w_ins w2 n = w_ins w4 n -> inv w2).
      { intros w2 E1 E2. unfold inv, below. rewrite E1, E2, Hi4. split; [rewrite map_io_keys; auto|]. split; auto. right. split; auto. split; auto.
        intros m Hm c v Hc1 Hc2 Hc3. rewrite dget_map_io in Hc1. destruct (dget _ (w_ins w n)) as [c0|] eqn:Ec0; simpl in Hc1; [|discriminate].
        inversion Hc1; subst c. simpl in Hc2. apply (B3 m c0 v); auto. }
      assert (Hs4 : not_wired_to_itself n w4).
      { intros k Hw. apply Hself. unfold wired in *. simpl in Hw. rewrite A3c in Hw. exact Hw. }
      pose proof (self_push w4 Hs4) as P. pose proof (push_outputs_frame _ n w4) as (P1 & P2 & P3 & P4 & P5 & _).
      destruct (push_outputs w4 n) as [w5 r5]. cbn [fst] in P, P5.
      assert (Q : inner w5 = inner w1) by (unfold inner; rewrite P5; reflexivity).
      destruct (state_in s _); [destruct r5|]; inversion H; subst; apply Hinv'; auto.
    - destruct (node_untick_cases _ n (sub_untick ev u n) w) as [[G _]|[Hl G]]; [unfold live, dead in *; tauto|].
      assert (Hroot : sb_root (inner w) = Some t).
      { destruct Hi as [[_ B]|B]; [|apply B]. unfold live, dead in Hl. tauto. }
      rewrite G in H. unfold untick_live in H. clear G. destruct (sub_untick ev u n w) as [w1 r1] eqn:E.
      destruct (other_inputs OUntick w w1 r1 ltac:(discriminate) ltac:(discriminate) Hinv Hroot E) as (A1 & A2 & A3 & A4 & A5 & A6).
      assert (Hinv' : forall w2, inner w2 = inner w1 -> w_ins w2 = w_ins w1 -> inv w2).
      { intros w2 E1 E2. unfold inv, below. rewrite E1, E2, A2. split; [exact Hk|]. split; [exact A4|]. right. split; [exact A3|]. split; [exact A5|exact A6]. }
      destruct r1 as [s|e|]; [cbn zeta in H; destruct (state_in s _)| |]; inversion H; subst; apply Hinv'; auto.
    - destruct (node_reset_cases _ n (sub_reset ev u n) w) as [[G _]|[Hl G]]; [unfold live, dead in *; tauto|].
      assert (Hroot : sb_root (inner w) = Some t).
      { destruct Hi as [[_ B]|B]; [|apply B]. unfold live, dead in Hl. tauto. }
      rewrite G in H. unfold reset_live in H. clear G.
      match type of H with context [sub_reset ev u n ?a] => destruct (sub_reset ev u n a) as [w1 r1] eqn:E; set (w0 := a) in * end.
      assert (Hi0 : w_ins w0 n = map_io flag_updated (w_ins w n)) by (subst w0; simpl; unfold upd; rewrite Nat.eqb_refl; auto).
      assert (Hinv0 : inv w0).
      { unfold inv. rewrite Hi0. split; [rewrite map_io_keys; auto|]. split; [exact Hd|].
        destruct Hi as [Hi|(I1 & I2 & I3)]; [left; exact Hi|]. right. split; [exact I1|]. split; [exact I2|]. intros m Hm. apply up_flagged. reflexivity. }
      destruct (other_inputs OReset w0 w1 r1 ltac:(discriminate) ltac:(discriminate) Hinv0 Hroot E) as (A1 & A2 & A3 & A4 & A5 & A6).
      assert (Hinv' : forall w2, inner w2 = inner w1 -> w_ins w2 = w_ins w1 -> inv w2).
      { intros w2 E1 E2. unfold inv, below. rewrite E1, E2, A2. rewrite Hi0 in *. split; [rewrite map_io_keys; exact Hk|]. split; [exact A4|]. right. split; [exact A3|]. split; [exact A5|exact A6]. }
      destruct r1 as [s|e|]; [cbn zeta in H; destruct (state_in s _)| |]; inversion H; subst; apply Hinv'; auto.
    - destruct Hi as [[Hi1 Hi2]|Hi].
      + unfold node_shutdown, sub_shutdown in H. rewrite Hi1 in H.
        assert (w' = set_st w n SHUTDOWN) as ->.
        { destruct (w_st w n); try (simpl in H; inversion H; reflexivity). tauto. }
        split; auto. split; auto. left. split; auto. right. simpl. unfold upd. rewrite Nat.eqb_refl. auto.
      + assert (Hroot : sb_root (inner w) = Some t) by apply Hi.
        destruct (sub_shutdown ev u n w) as [w1 r1] eqn:E.
        destruct (other_inputs OShutdown w w1 r1 ltac:(discriminate) ltac:(discriminate) Hinv Hroot E) as (A1 & A2 & A3 & A4 & A5 & A6).
        assert (Hinv' : forall w2, inner w2 = inner w1 -> w_ins w2 = w_ins w1 -> inv w2).
        { intros w2 E1 E2. unfold inv, below. rewrite E1, E2, A2. split; [exact Hk|]. split; [exact A4|]. right. split; [exact A3|]. split; [exact A5|exact A6]. }
        unfold node_shutdown in H. rewrite E in H.
        assert (H' : bind (match r1 with
            | Err _ => (set_st w1 n BROKEN, Err EState)
            | Raise => (w1, Raise)
            | Ok s => if state_in s [SHUTDOWN] then (set_st w1 n s, Ok s) else (set_st w1 n s, Err EState)
            end) (fun _ w1 => (w1, Ok (w_st w1 n))) = (w', r)).
        { destruct (w_st w n); try (destruct r1; exact H). tauto. }
        clear H. destruct r1 as [s|e|]; [destruct (state_in s _)| |]; cbn in H'; inversion H'; subst; apply Hinv'; auto.
  Qed.

  Lemma inv_history : forall (w0 w : W) l, sub_history ev u d n name flagged (not_wired_to_itself n) w0 l w -> inv w0 -> inv w.
  Proof.
    intros w0 w l H. induction H as [|w0 o r w1 l w2 H IH Hok Hc|w0 l w1 w2 f H IH Hs Ho Hi Hn]; intros Hf; auto.
    - apply (inv_call o w1 w2 r); auto.
    - destruct (IH Hf) as (A1 & A2 & A3). destruct Hi as [Hi1 Hi2]. unfold inv, below in *. rewrite Hs, Hn. cbn [sb_root sb_w].
      split; [congruence|]. split; [exact A2|]. destruct A3 as [A3|(B1 & B2 & B3)]; auto. right. split; auto. split; [exact B2|].
      intros m Hm c v Hc1 Hc2 Hc3. destruct (Hi2 _ _ Hc1) as [D|[D _]]; [|congruence].
      exact (B3 m Hm c v D Hc2 Hc3).
  Qed.

  Theorem sub_inputs_reach : forall (w0 w w' : W) l r,
    sub_fresh n t w0 -> map fst (w_ins w0 n) = keys -> (forall m, pub m -> dyn (below w0) m) ->
    sub_history ev u d n name flagged (not_wired_to_itself n) w0 l w -> accepted w n OTick ->
    call OTick node w = (w', r) ->
    (exists wi ri, same_nodes wi (below w) /\ call OTick (obj_of ev t) wi = (below w', ri) /\ node_ends n OTick w' ri r /\
       forall m c v, pub m -> dget (public_name u m "in") (w_ins w n) = Some c -> c_val c = Some v -> holds wi m v) \/
    (refused_input u w n /\ same_nodes (below w') (below w) /\
      (r = Raise \/ exists e, r = Err e /\ w_st w' n = BROKEN)).
  Proof.
    intros w0 w w' l r (F1 & F2 & F3) Hk Hd Hh Ha H.
    assert (Hinv : inv w) by (eapply inv_history; [exact Hh|]; split; [auto|split; [auto|left; auto]]).
    pose proof Ha as [Hl Hin].
    assert (Hroot : sb_root (inner w) = Some t).
    { destruct Hinv as (_ & _ & [[_ B]|B]); [|apply B]. unfold live, dead in Hl. tauto. }
    assert (Hst : forall (x : W) s, w_st (set_st x n s) n = s) by (intros; simpl; unfold upd; rewrite Nat.eqb_refl; reflexivity).
    simpl in H. destruct (node_tick_cases _ n (sub_tick ev u n) w) as [[G _]|[_ G]]; [unfold live, dead in *; tauto|].
    rewrite G in H. unfold tick_live in H. rewrite inputs_set_b in H by auto. clear G.
    match type of H with context [sub_tick ev u n ?a] => destruct (sub_tick ev u n a) as [w1 r1] eqn:E; set (wz := a) in * end.
    assert (Hinv0 : inv wz) by exact Hinv.
    destruct (tick_inputs wz w1 r1 Hinv0 Hroot E) as (_ & _ & A3 & _ & _ & _ & _ & A7).
    change (below wz) with (below w) in A7. change (w_ins wz) with (w_ins w) in A7.
    destruct A7 as [(wi & B1 & B2 & B3)|(B1 & B2 & B3)].
    - left. destruct r1 as [s|e|].
      + destruct (inner_states ev d t found OTick wi (below w1) s nodup B2) as [C1 C2]. simpl in C1. cbn zeta in H.
        assert (Hsi : state_in s [RUNNING; SUCCEEDED; FAILED; ASSIGNED; UNASSIGNED] = true).
        { destruct C1 as [->|[->|[->|[->| ->]]]]; reflexivity. }
        rewrite Hsi in H. clear C1 C2 Hsi.
        match type of H with context [push_outputs ?a n] => pose proof (push_outputs_frame _ n a) as (P1 & P2 & P3 & P4 & P5 & _);
          destruct (push_outputs a n) as [w5 r5] eqn:E5 end. simpl in P1, P5.
        assert (Q : inner w5 = inner w1) by (unfold inner; congruence).
        assert (Q1 : w_st w5 n = s) by (rewrite P1; unfold upd; rewrite Nat.eqb_refl; auto).
        exists wi, (Ok s). split; auto.
        assert (Q2 : call OTick (obj_of ev t) wi = (below w', Ok s)).
        { unfold below in *. destruct r5; inversion H; subst; try rewrite Q; auto.
          change (inner (set_st w5 n BROKEN)) with (inner w5). rewrite Q. auto. }
        split; auto. split; [|intros m c v Hm Hc1 Hc2; apply (B3 m c v); auto].
        destruct r5 as [x|e|]; inversion H; subst; simpl.
        * left. auto.
        * right. split; auto. right. exists e. split; [reflexivity|]. unfold upd. rewrite Nat.eqb_refl. auto.
        * right. auto.
      + inversion H; subst. exists wi, (Err e). split; auto. split; auto. split; [exists e; split; [reflexivity|apply Hst]|]. intros m c v Hm Hc1 Hc2. apply (B3 m c v); auto.
      + inversion H; subst. exists wi, Raise. split; auto. split; auto. split; [reflexivity|]. intros m c v Hm Hc1 Hc2. apply (B3 m c v); auto.
    - right. destruct r1 as [s|e|]; [congruence| |]; inversion H; subst; (split; [exact B1|]); (split; [exact B2|]); auto.
      right. exists e. split; [reflexivity|apply Hst].
  Qed.
End SubInputs.

(** ** Outputs *)
Lemma og_set_same : forall n key c l, og_get n key l <> None -> og_get n key (og_set n key c l) = Some c.
Proof.
  intros n key c l. induction l as [|[[m k] c'] l IH]; simpl; [congruence|]. intros H.
  destruct (Nat.eqb n m && String.eqb key k) eqn:E; simpl; rewrite E; auto.
Qed.
Lemma og_set_other_key : forall n key c l m key', key' <> key \/ m <> n -> og_get m key' (og_set n key c l) = og_get m key' l.
Proof.
  intros n key c l m key' H. induction l as [|[[a k] c'] l IH]; simpl; auto.
  destruct (Nat.eqb n a && String.eqb key k) eqn:E; simpl; [|rewrite IH; auto].
  apply andb_true_iff in E. destruct E as [E1 E2]. apply Nat.eqb_eq in E1. apply String.eqb_eq in E2. subst.
  destruct (Nat.eqb_spec m a), (String.eqb_spec key' k); simpl; auto. subst. tauto.
Qed.
Lemma outgoing_frame_key : forall E n l (w : world E) m key, ~ In key (map fst l) ->
  og_get m key (w_outg (fst (push_outgoing w n l))) = og_get m key (w_outg w).
Proof.
  intros E n. induction l as [|[k c] l IH]; simpl; intros w m key Hn; auto.
  destruct (negb (c_upd c)); auto. destruct (og_get n k (w_outg w)) as [x|]; auto. destruct (c_val c) as [v|]; auto.
  destruct (set_value x v) as [x' [y|e|]]; simpl; auto. rewrite IH by auto. simpl. apply og_set_other_key. left. intros ->. apply Hn. auto.
Qed.
Lemma outgoing_given : forall E n l (w w' : world E) u key c v t,
  push_outgoing w n l = (w', Ok u) -> NoDup (map fst l) -> dget key l = Some c -> c_upd c = true -> c_val c = Some v ->
  og_get n key (w_outg w) = Some t -> c_static t = false ->
  exists t', og_get n key (w_outg w') = Some t' /\ given t' v.
Proof.
  intros E n. induction l as [|[k c0] l IH]; cbn [push_outgoing dget map fst]; intros w w' u key c v t H Hnd Hd Hu Hv Ht Hs; [discriminate|].
  apply NoDup_cons_iff in Hnd. destruct Hnd as [Hk Hnd].
  destruct (String.eqb_spec key k) as [->|Hne].
  - inversion Hd; subst. rewrite Hu, Ht, Hv in H. cbn [negb] in H. destruct (set_value t v) as [t' [y|e|]] eqn:Es; try discriminate.
    exists t'. split; [|eapply set_value_given; eauto].
    match type of H with push_outgoing ?a n l = _ => pose proof (outgoing_frame_key E n l a n k Hk) as Hf; rewrite H in Hf end.
    cbn [fst] in Hf. rewrite Hf. simpl. apply og_set_same. congruence.
  - assert (Hgo : forall w0 : world E, push_outgoing w0 n l = (w', Ok u) -> og_get n key (w_outg w0) = Some t ->
      exists t', og_get n key (w_outg w') = Some t' /\ given t' v) by (intros; eapply (IH w0); eauto).
    destruct (negb (c_upd c0)); eauto. destruct (og_get n k (w_outg w)) as [x|]; eauto. destruct (c_val c0) as [v0|]; eauto.
    destruct (set_value x v0) as [x' [y|e|]]; try discriminate. apply (Hgo _ H).
    cbn [w_outg set_outg]. rewrite og_set_other_key; auto.
Qed.

(** No output container is added, removed or made static. *)
Definition og_kept {E} (w w' : world E) : Prop :=
  forall m key, option_map c_static (og_get m key (w_outg w')) = option_map c_static (og_get m key (w_outg w)).
Lemma og_kept_push : forall E n (w : world E), og_kept w (fst (push_outputs w n)).
Proof.
  assert (Hc : forall E n l (w : world E), w_outg (fst (push_conns w n l)) = w_outg w).
  { intros E n. induction l as [|k r IH]; intros w; simpl; auto.
    destruct (dget (k_src k) (w_outs w n)) as [c|]; auto. destruct (negb (c_upd c)); auto. destruct (c_val c) as [v|]; auto.
    destruct (w_conns w (k_tid k)); auto. destruct (dget (k_tkey k) (w_ins w (k_tid k))) as [x|]; auto.
    destruct (set_value x v) as [x' [y|e|]]; auto. rewrite IH. reflexivity. }
  assert (Ho : forall E n l (w : world E), og_kept w (fst (push_outgoing w n l))).
  { intros E n. induction l as [|[k c] r IH]; intros w m key; simpl; auto.
    destruct (negb (c_upd c)); [apply IH|]. destruct (og_get n k (w_outg w)) as [x|] eqn:Ex; [|apply IH]. destruct (c_val c) as [v|]; [|apply IH].
    destruct (set_value x v) as [x' [y|e|]] eqn:Es; simpl; auto. rewrite IH. simpl.
    destruct (Nat.eq_dec m n) as [->|]; [destruct (String.eqb_spec key k) as [->|]|].
    - rewrite og_set_same by congruence. rewrite Ex. simpl. pose proof (set_value_static x v) as [S1 _]. rewrite Es in S1. simpl in S1. congruence.
    - rewrite og_set_other_key; auto.
    - rewrite og_set_other_key; auto. }
  intros E n w m key. unfold push_outputs. destruct (w_conns w n) as [l|]; auto.
  specialize (Hc E n l w). destruct (push_conns w n l) as [w1 [x|e|]]; simpl in *; rewrite <- ?Hc; auto.
  apply Ho.
Qed.
Lemma og_kept_op : forall E (ev : env E) t o w, og_kept w (fst (call o (obj_of ev t) w)).
Proof.
  intros E ev t o w. apply (lift_tree ev og_kept).
  2:{ intros a b c A B m key. rewrite B. apply A. }
  7:{ intros. apply og_kept_push. }
  all: intros; intros ? ?; reflexivity.
Qed.

(** What a node inside has written arrives in the outgoing data. *)
Theorem node_outgoing : forall E (ev : env E) m k name cs (w w' : world E) s key c v,
  call OTick (obj_of ev (T m k name cs)) w = (w', Ok s) ->
  NoDup (map fst (w_outs w' m)) -> output w' m key = Some c -> c_upd c = true -> c_val c = Some v ->
  (exists c0, og_get m key (w_outg w) = Some c0 /\ c_static c0 = false) ->
  exists c', og_get m key (w_outg w') = Some c' /\ given c' v.
Proof.
  intros E ev m k name cs w w' s key c v H Hnd Hc Hu Hv (c0 & G1 & G2).
  pose proof (og_kept_op E ev (T m k name cs) OTick w m key) as Hk. rewrite H in Hk. cbn [fst] in Hk. rewrite G1 in Hk. simpl in Hk.
  destruct (tick_push E ev m k name (map (obj_of ev) cs) w w' s H) as (w4 & x & Hp).
  pose proof (og_kept_push E m w4 m key) as Hk4. rewrite Hp in Hk4. cbn [fst] in Hk4. rewrite Hk4 in Hk.
  destruct (og_get m key (w_outg w4)) as [c4|] eqn:E4; simpl in Hk; [|discriminate]. injection Hk as Hk.
  pose proof (push_outputs_frame E m w4) as Hfr. rewrite Hp in Hfr. cbn [fst] in Hfr. destruct Hfr as [_ [_ [Ho [Hcn _]]]].
  unfold push_outputs in Hp. destruct (w_conns w4 m) as [l|]; [|discriminate].
  assert (Hcg : w_outg (fst (push_conns w4 m l)) = w_outg w4 /\ w_outs (fst (push_conns w4 m l)) = w_outs w4).
  { clear. revert w4. induction l as [|k0 r IH]; intros w; simpl; auto.
    destruct (dget (k_src k0) (w_outs w m)) as [c|]; auto. destruct (negb (c_upd c)); auto. destruct (c_val c) as [v|]; auto.
    destruct (w_conns w (k_tid k0)); auto. destruct (dget (k_tkey k0) (w_ins w (k_tid k0))) as [x|]; auto.
    destruct (set_value x v) as [x' [y|e|]]; auto.
    match goal with |- context [push_conns ?a m r] => destruct (IH a) as [I1 I2]; rewrite I1, I2; auto end. }
  destruct (push_conns w4 m l) as [w5 [y|e|]]; cbn [bind fst] in *; try discriminate. destruct Hcg as [Hg1 Hg2].
  assert (Hco : w_outs w5 = w_outs w') by congruence.
  apply (outgoing_given E m (w_outs w5 m) w5 w' x key c v c4 Hp); auto; try congruence.
  - rewrite Hco. auto.
Qed.

Lemma outputs_from_get : forall u g outs m key c0, uuids_ok u -> ~ In "."%char (list_ascii_of_string key) ->
  dget (public_name u m key) outs = Some c0 ->
  dget (public_name u m key) (outputs_from u g outs) = match og_get m key g with Some c => Some c | None => Some c0 end.
Proof.
  intros u g outs m key c0 Hu Hk. induction outs as [|[k c] r IH]; cbn [dget outputs_from map]; [discriminate|].
  intros H. fold (outputs_from u g r).
  assert (Hfst : forall kc, fst (match split_key u (fst kc) with
     | Some (m, key) => if String.eqb (public_name u m key) (fst kc) then
          match og_get m key g with Some c => (fst kc, c) | None => kc end else kc
     | None => kc end) = fst kc).
  { intros kc. destruct (split_key u (fst kc)) as [[a b]|]; [|reflexivity].
    destruct (String.eqb (public_name u a b) (fst kc)); [|reflexivity]. destruct (og_get a b g); reflexivity. }
  match goal with |- match ?x with _ => _ end = _ => destruct x as [k' c'] eqn:Ex end.
  specialize (Hfst (k, c)). cbn [fst snd] in *. rewrite Ex in Hfst. cbn [fst] in Hfst. subst k'.
  destruct (String.eqb_spec (public_name u m key) k) as [<-|]; auto.
  inversion H; subst. rewrite split_public in Ex by auto. rewrite String.eqb_refl in Ex.
  destruct (og_get m key g); inversion Ex; auto.
Qed.

Theorem sub_outputs : forall X F (ev : env F) u d n name (w w' : world (X * sub F)) s m key c0,
  uuids_ok u -> ~ In "."%char (list_ascii_of_string key) ->
  call OTick (subtree_obj ev u d n name) w = (w', Ok s) ->
  dget (public_name u m key) (w_outs w n) = Some c0 ->
  forall c, og_get m key (w_outg (below w')) = Some c ->
  dget (public_name u m key) (w_outs w' n) = Some c.
Proof.
  intros X F ev u d n name w w' s m key c0 Hu Hk H Ho c Hc. simpl in H.
  destruct (node_tick_cases _ n (sub_tick ev u n) w) as [[_ G]|[_ G]]; rewrite G in H; [discriminate|].
  unfold tick_live in H. destruct (negb _); [discriminate|].
  match type of H with context [sub_tick ev u n ?a] => destruct (sub_tick ev u n a) as [w1 r1] eqn:E; set (w0 := a) in * end.
  destruct r1 as [s1|e|]; try discriminate. cbn zeta in H. destruct (state_in s1 _); [|discriminate].
  match type of H with context [push_outputs ?a n] => pose proof (push_outputs_frame _ n a) as (P1 & P2 & P3 & P4 & P5 & _);
    destruct (push_outputs a n) as [w5 [x|e|]] eqn:E5; try discriminate end. cbn [fst] in P3, P5. simpl in P3, P5.
  inversion H; subst w'. unfold sub_tick in E. destruct (sb_root (inner w0)) as [t|]; [|discriminate].
  apply inside_spec in E. destruct E as (A1 & _ & _ & _ & A5 & _).
  rewrite P3. assert (Hb : below w5 = below w1) by (unfold below, inner; rewrite P5; reflexivity). rewrite Hb in Hc.
  rewrite A5. subst w0. cbn [w_outs set_outs]. unfold upd. rewrite Nat.eqb_refl.
  assert (Ho' : dget (public_name u m key) (map_io reset_updated (w_outs w n)) = Some (reset_updated c0)) by (rewrite dget_map_io, Ho; reflexivity).
  rewrite (outputs_from_get u _ _ m key (reset_updated c0) Hu Hk Ho'). rewrite Hc. reflexivity.
Qed.

Lemma outgoing_kept : forall E (ev : env E) t o (w : world E) m key, ~ In m (ids t) ->
  og_get m key (w_outg (fst (call o (obj_of ev t) w))) = og_get m key (w_outg w).
Proof. intros E ev t o w m key Hm. apply (frame_tree E ev t o w). exact Hm. Qed.

(** ** A Subtree without nodes *)
Theorem empty_call : forall X F (ev : env F) u d n name o (w w' : world (X * sub F)) r,
  sd_found d = Ok None -> (o = OSetup \/ sb_root (inner w) = None) -> accepted w n o ->
  call o (subtree_obj ev u d n name) w = (w', r) ->
  sb_root (inner w') = None /\ below w' = below w /\
  match o with
  | OSetup | OReset => r = Ok IDLE /\ w_st w' n = IDLE
  | OShutdown => r = Ok SHUTDOWN /\ w_st w' n = SHUTDOWN
  | OTick | OUntick => (exists e, r = Err e) /\ w_st w' n = BROKEN
  end.
Proof.
  intros X F ev u d n name o w w' r Hf Hr Ha H.
  assert (Hr' : o <> OSetup -> sb_root (snd (w_ext w)) = None) by (intros N; destruct Hr; [congruence|auto]).
  destruct o; cbn [call subtree_obj o_setup o_tick o_untick o_reset o_shutdown] in H; cbn [accepted] in Ha.
  - destruct (node_setup_cases _ n (sub_setup ev u d n) w) as [(G1 & G2 & _)|[_ G]]; [tauto|]. rewrite G in H. unfold setup_live, sub_setup in H. rewrite Hf in H.
    cbn -[map_io] in H. injection H as <- <-. split; [reflexivity|]. split; [reflexivity|]. split; [reflexivity|]. cbn. unfold upd. rewrite Nat.eqb_refl. reflexivity.
  - destruct (node_tick_cases _ n (sub_tick ev u n) w) as [[G _]|[_ G]]; [destruct Ha as [Ha _]; unfold live in Ha; tauto|]. rewrite G in H. unfold tick_live in H.
    destruct (negb _); [injection H as <- <-; split; [apply Hr'; discriminate|]; split; [reflexivity|]; split; [eauto|cbn; unfold upd; rewrite Nat.eqb_refl; reflexivity]|].
    unfold sub_tick in H. cbn -[map_io] in H. unfold inner in H. cbn -[map_io] in H. rewrite Hr' in H by discriminate. injection H as <- <-.
    split; [apply Hr'; discriminate|]. split; [reflexivity|]. split; [eauto|cbn; unfold upd; rewrite Nat.eqb_refl; reflexivity].
  - destruct (node_untick_cases _ n (sub_untick ev u n) w) as [[G _]|[_ G]]; [unfold live in Ha; tauto|]. rewrite G in H.
    unfold untick_live, sub_untick, inner in H. cbn -[map_io] in H. rewrite Hr' in H by discriminate. injection H as <- <-.
    split; [apply Hr'; discriminate|]. split; [reflexivity|]. split; [eauto|cbn; unfold upd; rewrite Nat.eqb_refl; reflexivity].
  - destruct (node_reset_cases _ n (sub_reset ev u n) w) as [[G _]|[_ G]]; [unfold live in Ha; tauto|]. rewrite G in H.
    unfold reset_live, sub_reset, inner in H. cbn -[map_io] in H. rewrite Hr' in H by discriminate. injection H as <- <-.
    split; [apply Hr'; discriminate|]. split; [reflexivity|]. split; [reflexivity|cbn; unfold upd; rewrite Nat.eqb_refl; reflexivity].
  - unfold node_shutdown, sub_shutdown, inner in H. rewrite Hr' in H by discriminate.
    destruct (w_st w n) eqn:S; try congruence; cbn in H; injection H as <- <-; cbn; unfold upd; rewrite ?Nat.eqb_refl; (split; [apply Hr'; discriminate|]; auto).
Qed.
