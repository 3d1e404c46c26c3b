(** Proofs about data flow between nodes: a lifting lemma for relations on
    worlds, static inputs, delivery of outputs. *)
From Coq Require Import List String ZArith Bool Arith Lia.
From Verif Require Import Base ModelData ModelUtility ModelTree SpecTree SpecData SpecFlow ProofsTree ProofsLife ProofsWhole ProofsData.
Import ListNotations.
Local Open Scope nat_scope.

(** ** Relations that every operation on every tree respects *)

Section Lift.
  Context {E : Type}.
  Variable ev : env E.
  Variable R : world E -> world E -> Prop.
  Hypothesis Rrefl : forall w, R w w.
  Hypothesis Rtrans : forall a b c, R a b -> R b c -> R a c.
  Hypothesis Rst : forall w n s, R w (set_st w n s).
  Hypothesis Rmem : forall w n a, R w (set_mem w n a).
  Hypothesis Rext : forall w e, R w (set_ext w e).
  Hypothesis Routs : forall w n m, map fst m = map fst (w_outs w n) -> R w (set_outs w n m).
  Hypothesis Rins : forall w n f,
    (f = reset_updated \/ f = flag_updated \/ f = (fun c => flag_updated (reset_value c))) ->
    R w (set_ins w n (map_io f (w_ins w n))).
  Hypothesis Rpush : forall w n, R w (fst (push_outputs w n)).

  Lemma map_io_keys : forall f m, map fst (map_io f m) = map fst m.
  Proof. intros f m. unfold map_io. rewrite map_map. apply map_ext. auto. Qed.

  Ltac go := match goal with
    | |- R ?w ?w => apply Rrefl
    | H : R ?w ?x |- R ?w ?x => exact H
    | |- R _ (set_st _ _ _) => eapply Rtrans; [|apply Rst]; go
    | |- R _ (set_mem _ _ _) => eapply Rtrans; [|apply Rmem]; go
    | |- R _ (set_ext _ _) => eapply Rtrans; [|apply Rext]; go
    | |- R _ (set_outs _ _ (map_io _ _)) => eapply Rtrans; [|apply Routs; apply map_io_keys]; go
    | |- R _ (set_ins _ _ _) => eapply Rtrans; [|apply Rins; tauto]; go
    end.

  Lemma lift_wrap : forall n (d : act E) (w : world E), (forall w, R w (fst (d w))) ->
    R w (fst (node_setup n d w)) /\ R w (fst (node_tick n d w)) /\
    R w (fst (node_untick n d w)) /\ R w (fst (node_reset n d w)).
  Proof.
    intros n d w Hd.
    assert (Hin : forall w1, R w w1 -> R w (fst (d w1))) by (intros w1 H; eapply Rtrans; [exact H|apply Hd]).
    split; [|split; [|split]].
    - destruct (node_setup_cases E n d w) as [[_ [_ Heq]]|[_ Heq]]; rewrite Heq; [apply Rrefl|].
      unfold setup_live. cbn zeta.
      match goal with |- context [d ?x] => assert (H : R w (fst (d x))) by (apply Hin; go); destruct (d x) as [w3 [s|e|]] end;
        cbn [fst] in *; auto; try go.
      dif; cbn [fst]; go.
    - destruct (node_tick_cases E n d w) as [[_ Heq]|[_ Heq]]; rewrite Heq; [apply Rrefl|].
      unfold tick_live. destruct (negb _); [apply Rst|].
      match goal with |- context [d ?x] => assert (H : R w (fst (d x))) by (apply Hin; go); destruct (d x) as [w3 [s|e|]] end;
        cbn [fst] in *; auto; try go. cbn zeta.
      match goal with |- context [push_outputs ?x n] =>
        assert (Hp : R w (fst (push_outputs x n))) by (eapply Rtrans; [|apply Rpush]; go);
        destruct (push_outputs x n) as [w5 [u|e|]] end; cbn [fst] in *; dif; cbn [fst]; try go.
    - destruct (node_untick_cases E n d w) as [[_ Heq]|[_ Heq]]; rewrite Heq; [apply Rrefl|].
      unfold untick_live. cbn zeta.
      match goal with |- context [d ?x] => assert (H : R w (fst (d x))) by (apply Hin; go); destruct (d x) as [w3 [s|e|]] end;
        cbn [fst] in *; auto; try go.
      dif; cbn [fst]; go.
    - destruct (node_reset_cases E n d w) as [[_ Heq]|[_ Heq]]; rewrite Heq; [apply Rrefl|].
      unfold reset_live. cbn zeta.
      match goal with |- context [d ?x] => assert (H : R w (fst (d x))) by (apply Hin; go); destruct (d x) as [w3 [s|e|]] end;
        cbn [fst] in *; auto; try go.
      dif; cbn [fst]; go.
  Qed.

  Lemma lift_shutdown : forall n cs (d : act E) (w : world E),
    (forall w, R w (fst (d w))) -> (forall c w, In c cs -> R w (fst (o_shutdown c w))) ->
    R w (fst (node_shutdown n cs d w)).
  Proof.
    intros n cs d w Hd Hc.
    assert (Hcs : forall w e, R w (fst (shutdown_children cs w e))).
    { clear w. induction cs as [|c r IH]; simpl; intros w0 e; [apply Rrefl|].
      pose proof (Hc c w0 (or_introl eq_refl)) as H.
      destruct (o_shutdown c w0) as [w1 [s|e1|]]; simpl in *; auto; (eapply Rtrans; [exact H|apply IH; auto]). }
    unfold node_shutdown.
    match goal with |- R w (fst (bind ?x _)) => assert (Ho : R w (fst x)) end.
    { destruct (w_st w n); try apply Rrefl; pose proof (Hd w) as H;
        destruct (d w) as [w1 [s|e|]]; cbn [fst] in *; auto; try go; dif; cbn [fst]; go. }
    match goal with |- R w (fst (bind ?x _)) => destruct x as [w1 [s|e|]] end; simpl in *; auto.
    pose proof (Hcs w1 None) as H.
    destruct (shutdown_children cs w1 None) as [w2 [[e|]|e|]]; simpl in *; eapply Rtrans; eauto.
  Qed.

  Lemma lift_tree : forall t o w, R w (fst (call o (obj_of ev t) w)).
  Proof.
    induction t as [n k name cs IH] using tree_ind'. intros o w. rewrite Forall_forall in IH.
    assert (Hsub : forall c o w, In c (map (obj_of ev) cs) -> R w (fst (call o c w))).
    { intros c o' w' Hc. apply in_map_iff in Hc. destruct Hc as [t [Ht Hin]]. subst c. apply IH; auto. }
    simpl obj_of. rewrite call_make.
    assert (Hd : forall o w, R w (fst (do_op ev o n k (map (obj_of ev) cs) w))).
    { intros o' w'. apply do_op_rel with (phase := True) (okop := fun _ => True); auto. }
    destruct o.
    - apply lift_wrap. apply Hd.
    - apply lift_wrap. apply Hd.
    - apply lift_wrap. apply Hd.
    - apply lift_wrap. apply Hd.
    - apply lift_shutdown; [apply Hd|]. intros c w0 Hc. apply (Hsub c OShutdown); auto.
  Qed.

  Lemma lift_runs : forall w l w', runs ev w l w' -> R w w'.
  Proof.
    intros w l w' H. induction H as [w|w t o r w1 l w2 Hc Hr IH|w e l w2 Hr IH]; auto.
    - eapply Rtrans; [|exact IH]. pose proof (lift_tree t o w) as Hl. rewrite Hc in Hl. exact Hl.
    - eapply Rtrans; [|exact IH]. apply Rext.
  Qed.
End Lift.

Lemma dget_map_io : forall f m key, dget key (map_io f m) = option_map f (dget key m).
Proof. intros f m key. induction m as [|[k c] r IH]; simpl; auto. destruct (String.eqb key k); auto. Qed.

Lemma dget_dset_same : forall A key (x : A) m, dget key (dset key x m) = Some x.
Proof.
  intros A key x m. induction m as [|[k c] r IH]; simpl; [rewrite String.eqb_refl; auto|].
  destruct (String.eqb_spec key k); simpl; [rewrite String.eqb_refl; auto|].
  destruct (String.eqb_spec key k); congruence.
Qed.
Lemma dget_dset_other : forall A key key' (x : A) m, key' <> key -> dget key' (dset key x m) = dget key' m.
Proof.
  intros A key key' x m H. induction m as [|[k c] r IH]; simpl; [destruct (String.eqb_spec key' key); congruence|].
  destruct (String.eqb_spec key k); simpl.
  - subst. destruct (String.eqb_spec key' k); congruence.
  - destruct (String.eqb key' k); auto.
Qed.

Lemma input_set : forall E (w : world E) n m key key' t,
  input (set_ins w n (dset key t (w_ins w n))) m key' =
  if Nat.eqb m n && String.eqb key' key then Some t else input w m key'.
Proof.
  intros E w n m key key' t. unfold input, set_ins, upd; simpl. destruct (Nat.eqb_spec m n) as [->|]; simpl; auto.
  destruct (String.eqb_spec key' key) as [->|]; [apply dget_dset_same|apply dget_dset_other; auto].
Qed.

Lemma set_value_static : forall c v, c_static (fst (set_value c v)) = c_static c /\ c_ty (fst (set_value c v)) = c_ty c.
Proof.
  intros c v. destruct (set_value_cases c v) as [[e H]|[H|[[v' [_ [_ [_ H]]]]|[v' [_ [_ H]]]]]]; rewrite H; auto.
Qed.

(** ** Static inputs *)

Definition static_kept {E} (w w' : world E) : Prop :=
  w_conns w' = w_conns w /\
  (forall m key, option_map c_static (input w' m key) = option_map c_static (input w m key)) /\
  ((forall n k c, wired w n k -> input w (k_tid k) (k_tkey k) = Some c -> c_static c = false) ->
   forall m key c, input w m key = Some c -> c_static c = true ->
     exists c', input w' m key = Some c' /\ c_val c' = c_val c).

Lemma static_kept_same : forall E (w w' : world E), w_conns w' = w_conns w -> w_ins w' = w_ins w -> static_kept w w'.
Proof. intros E w w' H1 H2. unfold static_kept, input. rewrite H2. split; auto. split; eauto. Qed.

Lemma static_kept_trans : forall E (a b c : world E), static_kept a b -> static_kept b c -> static_kept a c.
Proof.
  intros E a b c [A1 [A2 A3]] [B1 [B2 B3]]. split; [congruence|]. split; [intros; rewrite B2; auto|].
  intros Hn m key x Hx Hs. destruct (A3 Hn m key x Hx Hs) as [y [Hy Hv]].
  destruct (B3) with (m := m) (key := key) (c := y) as [z [Hz Hv2]]; auto.
  - intros n k d Hw Hd. pose proof (A2 (k_tid k) (k_tkey k)) as He. rewrite Hd in He. simpl in He.
    destruct (input a (k_tid k) (k_tkey k)) as [d0|] eqn:Ed; simpl in He; [|discriminate].
    unfold wired in Hw. rewrite A1 in Hw. specialize (Hn n k d0 Hw Ed). congruence.
  - pose proof (A2 m key) as He. rewrite Hy, Hx in He. simpl in He. congruence.
  - exists z. split; congruence.
Qed.

Lemma static_push_conns : forall E n l (w : world E),
  (forall k, In k l -> exists l', w_conns w n = Some l' /\ In k l') -> static_kept w (fst (push_conns w n l)).
Proof.
  intros E n l. induction l as [|k r IH]; intros w Hl; simpl; [apply static_kept_same; auto|].
  assert (Hr : forall k', In k' r -> exists l', w_conns w n = Some l' /\ In k' l') by (intros; apply Hl; right; auto).
  destruct (dget (k_src k) (w_outs w n)) as [c|]; [|apply static_kept_same; auto].
  destruct (negb (c_upd c)); auto. destruct (c_val c) as [v|]; auto.
  destruct (w_conns w (k_tid k)); [|apply static_kept_same; auto].
  destruct (dget (k_tkey k) (w_ins w (k_tid k))) as [t|] eqn:Et; [|apply static_kept_same; auto].
  destruct (set_value t v) as [t' [u|e|]] eqn:Es; try (apply static_kept_same; auto; fail).
  pose proof (set_value_static t v) as [Hst _]. rewrite Es in Hst. simpl in Hst.
  eapply static_kept_trans; [|apply IH; simpl; auto].
  split; [reflexivity|]. split.
  - intros m key. rewrite input_set. destruct (Nat.eqb_spec m (k_tid k)) as [->|]; simpl; auto.
    destruct (String.eqb_spec key (k_tkey k)) as [->|]; simpl; auto. unfold input. rewrite Et. simpl. congruence.
  - intros Hn m key c0 Hc Hs. rewrite input_set. destruct (Nat.eqb_spec m (k_tid k)) as [->|]; simpl; [|eauto].
    destruct (String.eqb_spec key (k_tkey k)) as [->|]; simpl; [|eauto]. exfalso.
    assert (Hf : c_static c0 = false); [|congruence]. apply (Hn n k c0); auto. destruct (Hl k (or_introl eq_refl)) as [l' Hl']. exists l'. exact Hl'.
Qed.

Lemma static_push : forall E n (w : world E), static_kept w (fst (push_outputs w n)).
Proof.
  intros E n w. unfold push_outputs. destruct (w_conns w n) as [l|] eqn:El; [|apply static_kept_same; auto].
  assert (H : static_kept w (fst (push_conns w n l))) by (apply static_push_conns; intros k Hk; exists l; auto).
  destruct (push_conns w n l) as [w1 [u|e|]]; simpl in *; auto.
  pose proof (push_outgoing_frame E n (w_outs w1 n) w1) as [B1 [B2 [B3 [B4 [B5 [B6 B7]]]]]].
  eapply static_kept_trans; [exact H|]. apply static_kept_same; auto.
Qed.

Lemma static_lift : forall E (w : world E) n f,
  (f = reset_updated \/ f = flag_updated \/ f = (fun c => flag_updated (reset_value c))) ->
  static_kept w (set_ins w n (map_io f (w_ins w n))).
Proof.
  intros E w n f Hf.
  assert (Hs : forall c, c_static (f c) = c_static c) by (intros c; destruct Hf as [ -> | [ -> | -> ]]; reflexivity).
  assert (Hv : forall c, c_static c = true -> c_val (f c) = c_val c).
  { intros c Hc; destruct Hf as [ -> | [ -> | -> ]]; simpl; try rewrite Hc; reflexivity. }
  assert (Hin : forall m key, input (set_ins w n (map_io f (w_ins w n))) m key =
    if Nat.eqb m n then option_map f (input w m key) else input w m key).
  { intros m key. unfold input, set_ins, upd; simpl. destruct (Nat.eqb_spec m n) as [->|]; auto. apply dget_map_io. }
  split; [reflexivity|]. split.
  - intros m key. rewrite Hin. destruct (Nat.eqb m n); auto. destruct (input w m key); simpl; auto. rewrite Hs. auto.
  - intros _ m key c Hc Hst. rewrite Hin. destruct (Nat.eqb m n); rewrite Hc; simpl; eauto.
Qed.

Lemma static_runs : forall E (ev : env E) w l w', runs ev w l w' -> static_kept w w'.
Proof.
  intros E ev w l w' H. eapply (lift_runs ev static_kept); eauto.
  - intros; apply static_kept_same; auto.
  - apply static_kept_trans.
  - intros; apply static_kept_same; auto.
  - intros; apply static_kept_same; auto.
  - intros; apply static_kept_same; auto.
  - intros; apply static_kept_same; auto.
  - intros. apply static_lift; auto.
  - intros. apply static_push.
Qed.

(** ** Delivery *)

Lemma set_value_given : forall t v t' u, set_value t v = (t', Ok u) -> c_static t = false -> given t' v.
Proof.
  intros t v t' u H Hs. destruct (set_value_cases t v) as [[e H1]|[H1|[[v' [_ [Hl _]]]|[v' [Hc [_ H1]]]]]];
    try (rewrite H in H1; discriminate).
  - rewrite Hs in Hl. discriminate.
  - rewrite H in H1. inversion H1; subst. unfold given. simpl. destruct (changed (c_val t) v') eqn:Ech.
    + exists v', v'. auto.
    + unfold changed in Ech. destruct (c_val t) as [x|]; [|discriminate]. apply negb_false_iff in Ech. exists x, v'. auto.
Qed.

Lemma push_conns_frame_input : forall E n l (w : world E) m key,
  (forall k v, In k l -> fresh w n k v -> ~ (k_tid k = m /\ k_tkey k = key)) ->
  input (fst (push_conns w n l)) m key = input w m key.
Proof.
  intros E n l. induction l as [|k r IH]; intros w m key Hk; simpl; auto.
  destruct (dget (k_src k) (w_outs w n)) as [c|] eqn:Ec; auto.
  assert (Hr : input (fst (push_conns w n r)) m key = input w m key) by (apply IH; intros; eapply Hk; eauto; right; auto).
  destruct (negb (c_upd c)) eqn:Eu; auto. destruct (c_val c) as [v|] eqn:Ev; auto.
  destruct (w_conns w (k_tid k)); auto. destruct (dget (k_tkey k) (w_ins w (k_tid k))) as [t|]; auto.
  destruct (set_value t v) as [t' [u|e|]]; auto. rewrite IH.
  - rewrite input_set. destruct (Nat.eqb_spec m (k_tid k)); simpl; auto. destruct (String.eqb_spec key (k_tkey k)); auto.
    exfalso. apply (Hk k v); simpl; auto. exists c. repeat split; auto. apply negb_false_iff; auto.
  - intros k' v' Hin Hf. apply (Hk k' v'); [right; auto|exact Hf].
Qed.

Lemma push_conns_given : forall E n pre k post (w w' : world E) u v t,
  push_conns w n (pre ++ k :: post) = (w', Ok u) -> fresh w n k v ->
  (forall k' v', In k' post -> fresh w n k' v' -> ~ (k_tid k' = k_tid k /\ k_tkey k' = k_tkey k)) ->
  input w (k_tid k) (k_tkey k) = Some t -> c_static t = false ->
  exists t', input w' (k_tid k) (k_tkey k) = Some t' /\ given t' v.
Proof.
  intros E n pre. induction pre as [|p pre IH]; intros k post w w' u v t H Hf Hp Ht Hs; simpl in H.
  - destruct Hf as [c [Hc [Hu Hv]]]. unfold output in Hc. rewrite Hc, Hu, Hv in H. simpl in H.
    destruct (w_conns w (k_tid k)); [|discriminate]. unfold input in Ht. rewrite Ht in H.
    destruct (set_value t v) as [t' [x|e|]] eqn:Es; try discriminate.
    exists t'. split; [|eapply set_value_given; eauto].
    match type of H with push_conns ?x n post = _ => pose proof (push_conns_frame_input E n post x (k_tid k) (k_tkey k)) as Hfr end.
    rewrite H in Hfr. simpl fst in Hfr. rewrite Hfr.
    + rewrite input_set, Nat.eqb_refl, String.eqb_refl. reflexivity.
    + intros k' v' Hin Hf. apply (Hp k' v' Hin). exact Hf.
  - assert (Hgo : push_conns w n (pre ++ k :: post) = (w', Ok u) ->
      exists t', input w' (k_tid k) (k_tkey k) = Some t' /\ given t' v) by (intros H0; eapply IH; eauto).
    destruct (dget (k_src p) (w_outs w n)) as [c|]; [|discriminate]. destruct (negb (c_upd c)); auto.
    destruct (c_val c) as [v0|]; auto. destruct (w_conns w (k_tid p)); [|discriminate].
    destruct (dget (k_tkey p) (w_ins w (k_tid p))) as [t0|] eqn:Et0; [|discriminate].
    destruct (set_value t0 v0) as [t1 [x|e|]] eqn:Es; try discriminate.
    pose proof (set_value_static t0 v0) as [Hst _]. rewrite Es in Hst. simpl in Hst.
    assert (Hin : exists t2, input (set_ins w (k_tid p) (dset (k_tkey p) t1 (w_ins w (k_tid p)))) (k_tid k) (k_tkey k) = Some t2 /\ c_static t2 = false).
    { rewrite input_set. destruct (Nat.eqb_spec (k_tid k) (k_tid p)) as [e|]; simpl; [|eauto].
      destruct (String.eqb_spec (k_tkey k) (k_tkey p)) as [e'|]; simpl; [|eauto]. exists t1. split; auto.
      unfold input in Ht. rewrite e, e' in Ht. rewrite Et0 in Ht. inversion Ht; subst. congruence. }
    destruct Hin as [t2 [Ht2 Hs2]]. eapply IH; eauto.
Qed.

Lemma tick_push : forall E (ev : env E) n k name cs w w' s,
  call OTick (make_obj ev n k name cs) w = (w', Ok s) ->
  exists w4 u, push_outputs w4 n = (w', Ok u).
Proof.
  intros E ev n k name cs w w' s H. change (node_tick n (do_op ev OTick n k cs) w = (w', Ok s)) in H.
  destruct (node_tick_cases E n (do_op ev OTick n k cs) w) as [[_ Heq]|[_ Heq]]; rewrite Heq in H; [discriminate|].
  unfold tick_live in H. destruct (negb _) in H; [discriminate|].
  destruct (do_op ev OTick n k cs _) as [w2 [s2|e|]] in H; try discriminate. cbn zeta in H.
  destruct (state_in s2 _) in H; [|discriminate]. destruct (push_outputs _ n) as [w5 [u|e|]] eqn:Ep in H; try discriminate.
  inversion H; subst. eauto.
Qed.

Lemma push_given : forall E n (w w' : world E) u pre k post v t,
  push_outputs w n = (w', Ok u) -> w_conns w' n = Some (pre ++ k :: post) -> fresh w' n k v ->
  (forall k' v', In k' post -> fresh w' n k' v' -> ~ (k_tid k' = k_tid k /\ k_tkey k' = k_tkey k)) ->
  input w' (k_tid k) (k_tkey k) = Some t -> c_static t = false -> given t v.
Proof.
  intros E n w w' u pre k post v t H Hc Hf Hp Ht Hs.
  pose proof (push_outputs_frame E n w) as Hfr. rewrite H in Hfr. simpl in Hfr. destruct Hfr as [_ [_ [Ho [Hcn _]]]].
  pose proof (static_push E n w) as [_ [Hst _]]. rewrite H in Hst. simpl in Hst.
  unfold push_outputs in H. rewrite <- Hcn, Hc in H.
  destruct (push_conns w n (pre ++ k :: post)) as [w1 [u1|e|]] eqn:Ep; simpl in H; try discriminate.
  pose proof (push_outgoing_frame E n (w_outs w1 n) w1) as [B1 [B2 [B3 [B4 [B5 [B6 B7]]]]]].
  rewrite H in B5. simpl in B5.
  assert (Hof : forall k' v', fresh w' n k' v' <-> fresh w n k' v') by (intros; unfold fresh, output; rewrite Ho; tauto).
  pose proof (Hst (k_tid k) (k_tkey k)) as He. rewrite Ht in He. simpl in He.
  destruct (input w (k_tid k) (k_tkey k)) as [t0|] eqn:Et0; simpl in He; [|discriminate].
  destruct (push_conns_given E n pre k post w w1 u1 v t0 Ep) as [t' [Hi Hg]]; auto.
  - apply Hof; auto.
  - intros k' v' Hin Hf'. apply (Hp k' v' Hin). apply Hof; auto.
  - congruence.
  - assert (Hq : input w' (k_tid k) (k_tkey k) = input w1 (k_tid k) (k_tkey k)) by (unfold input; rewrite B5; auto).
    rewrite Hq in Ht. rewrite Hi in Ht. inversion Ht; subst; auto.
Qed.

(** ** Inputs that nothing is wired to *)

(** The same input, up to the flag; its value may have been cleared. *)
Definition same_or_cleared (c c' : container) : Prop :=
  c_ty c' = c_ty c /\ c_static c' = c_static c /\
  (c_val c' = c_val c \/ c_static c = false /\ c_val c' = None).

Definition unwired_kept {E} (w w' : world E) : Prop :=
  w_conns w' = w_conns w /\
  forall m key, (forall n k, wired w n k -> ~ (k_tid k = m /\ k_tkey k = key)) ->
    match input w m key, input w' m key with
    | None, None => True
    | Some c, Some c' => same_or_cleared c c'
    | _, _ => False
    end.

Lemma unwired_same : forall E (w w' : world E), w_conns w' = w_conns w -> w_ins w' = w_ins w -> unwired_kept w w'.
Proof.
  intros E w w' H1 H2. split; auto. intros m key _. unfold input. rewrite H2. destruct (dget key (w_ins w m)); auto.
  split; auto.
Qed.

Lemma unwired_trans : forall E (a b c : world E), unwired_kept a b -> unwired_kept b c -> unwired_kept a c.
Proof.
  intros E a b c [A1 A2] [B1 B2]. split; [congruence|]. intros m key Hm. specialize (A2 m key Hm).
  assert (Hm' : forall n k, wired b n k -> ~ (k_tid k = m /\ k_tkey k = key)) by (intros n k Hw; unfold wired in *; rewrite A1 in Hw; eauto).
  specialize (B2 m key Hm').
  destruct (input a m key) as [x|], (input b m key) as [y|], (input c m key) as [z|]; try tauto.
  destruct A2 as [X1 [X2 X3]], B2 as [Y1 [Y2 Y3]]. split; [congruence|]. split; [congruence|].
  destruct Y3 as [Y3|[Y3 Y4]]; [|right; split; congruence]. destruct X3 as [X3|[X3 X4]]; [left|right]; try split; congruence.
Qed.

Lemma unwired_push : forall E n (w : world E), unwired_kept w (fst (push_outputs w n)).
Proof.
  intros E n w. pose proof (push_outputs_frame E n w) as [_ [_ [_ [Hcn _]]]]. split; [exact Hcn|].
  intros m key Hm.
  assert (H : input (fst (push_outputs w n)) m key = input w m key).
  { unfold push_outputs. destruct (w_conns w n) as [l|] eqn:El; auto.
    assert (Hi : input (fst (push_conns w n l)) m key = input w m key).
    { apply push_conns_frame_input. intros k v Hk _. apply (Hm n). exists l. auto. }
    destruct (push_conns w n l) as [w1 [u|e|]]; simpl in *; auto.
    pose proof (push_outgoing_frame E n (w_outs w1 n) w1) as [B1 [B2 [B3 [B4 [B5 [B6 B7]]]]]].
    rewrite <- Hi. unfold input. rewrite B5. auto. }
  rewrite H. destruct (input w m key); auto. split; auto.
Qed.

Lemma unwired_lift : forall E (w : world E) n f,
  (f = reset_updated \/ f = flag_updated \/ f = (fun c => flag_updated (reset_value c))) ->
  unwired_kept w (set_ins w n (map_io f (w_ins w n))).
Proof.
  intros E w n f Hf. split; [reflexivity|]. intros m key _.
  assert (Hs : forall c, same_or_cleared c (f c)).
  { intros c. unfold same_or_cleared. destruct Hf as [ -> | [ -> | -> ]]; simpl; auto.
    split; auto. split; auto. destruct (c_static c); auto. }
  unfold input, set_ins, upd; simpl. destruct (Nat.eqb_spec m n) as [->|].
  - rewrite dget_map_io. destruct (dget key (w_ins w n)); simpl; auto.
  - destruct (dget key (w_ins w m)); auto. split; auto.
Qed.

Lemma unwired_runs : forall E (ev : env E) w l w', runs ev w l w' -> unwired_kept w w'.
Proof.
  intros E ev w l w' H. eapply (lift_runs ev unwired_kept); eauto;
    try (intros; apply unwired_same; auto; fail).
  - apply unwired_trans.
  - intros. apply unwired_lift; auto.
  - intros. apply unwired_push.
Qed.

(** ** Every input keeps to its type *)

Definition typed_kept {E} (w w' : world E) : Prop :=
  forall m key,
    match input w m key, input w' m key with
    | None, None => True
    | Some c, Some c' => c_ty c' = c_ty c /\
        (c_val c' = None \/ c_val c' = c_val c \/ exists v, c_val c' = Some v /\ admits (c_ty c) v)
    | _, _ => False
    end.

Lemma typed_same : forall E (w w' : world E), w_ins w' = w_ins w -> typed_kept w w'.
Proof. intros E w w' H m key. unfold input. rewrite H. destruct (dget key (w_ins w m)); auto. Qed.

Lemma typed_trans : forall E (a b c : world E), typed_kept a b -> typed_kept b c -> typed_kept a c.
Proof.
  intros E a b c A B m key. specialize (A m key). specialize (B m key).
  destruct (input a m key) as [x|], (input b m key) as [y|], (input c m key) as [z|]; try tauto.
  destruct A as [A1 A2], B as [B1 B2]. split; [congruence|]. destruct B2 as [H|[H|[v [H1 H2]]]]; auto.
  - rewrite H. auto.
  - right. right. exists v. rewrite <- A1. auto.
Qed.

Lemma typed_push_conns : forall E n l (w : world E), typed_kept w (fst (push_conns w n l)).
Proof.
  intros E n l. induction l as [|k r IH]; intros w; simpl; [apply typed_same; auto|].
  destruct (dget (k_src k) (w_outs w n)) as [c|]; [|apply typed_same; auto].
  destruct (negb (c_upd c)); auto. destruct (c_val c) as [v|]; auto.
  destruct (w_conns w (k_tid k)); [|apply typed_same; auto].
  destruct (dget (k_tkey k) (w_ins w (k_tid k))) as [t|] eqn:Et; [|apply typed_same; auto].
  destruct (set_value t v) as [t' [u|e|]] eqn:Es; cbn [fst]; try (apply typed_same; auto; fail).
  eapply typed_trans; [|apply IH].
  intros m key. rewrite input_set. destruct (Nat.eqb_spec m (k_tid k)) as [->|]; cbn [andb]; [destruct (String.eqb_spec key (k_tkey k)) as [->|]|].
  - unfold input. rewrite Et.
    destruct (set_value_cases t v) as [[e H]|[H|[[v' [_ [_ [_ H]]]]|[v' [Hc [_ H]]]]]]; rewrite H in Es; inversion Es; subst; simpl; auto.
    split; auto. destruct (changed (c_val t) v'); auto. right. right. exists v'. split; auto. eapply check_admits; eauto.
  - destruct (input w (k_tid k) key); auto.
  - destruct (input w m key); auto.
Qed.

Lemma typed_push : forall E n (w : world E), typed_kept w (fst (push_outputs w n)).
Proof.
  intros E n w. unfold push_outputs. destruct (w_conns w n) as [l|] eqn:El; [|apply typed_same; auto].
  pose proof (typed_push_conns E n l w) as H.
  destruct (push_conns w n l) as [w1 [u|e|]]; simpl in *; auto.
  pose proof (push_outgoing_frame E n (w_outs w1 n) w1) as [B1 [B2 [B3 [B4 [B5 [B6 B7]]]]]].
  eapply typed_trans; [exact H|]. apply typed_same; auto.
Qed.

Lemma typed_lift : forall E (w : world E) n f,
  (f = reset_updated \/ f = flag_updated \/ f = (fun c => flag_updated (reset_value c))) ->
  typed_kept w (set_ins w n (map_io f (w_ins w n))).
Proof.
  intros E w n f Hf m key. unfold input, set_ins, upd; simpl. destruct (Nat.eqb_spec m n) as [->|].
  - rewrite dget_map_io. destruct (dget key (w_ins w n)) as [c|]; simpl; auto.
    destruct Hf as [ -> | [ -> | -> ]]; simpl; auto. destruct (c_static c); auto.
  - destruct (dget key (w_ins w m)); auto.
Qed.

Lemma typed_runs : forall E (ev : env E) w l w', runs ev w l w' -> typed_kept w w'.
Proof.
  intros E ev w l w' H. eapply (lift_runs ev typed_kept); eauto; try (intros; apply typed_same; auto; fail).
  - apply typed_trans.
  - intros. apply typed_lift; auto.
  - intros. apply typed_push.
Qed.

Lemma out_set_all_ins : forall E l n (w : world E), w_ins (fst (out_set_all w n l)) = w_ins w.
Proof.
  intros E l n. induction l as [|[k v] r IH]; intros w; simpl; auto.
  unfold out_set. destruct (dget k (w_outs w n)) as [c|]; simpl; auto.
  destruct (set_value c v) as [c' [u|e|]]; simpl; auto. rewrite IH. reflexivity.
Qed.
