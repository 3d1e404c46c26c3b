(** Proofs about reset of trees with RepeatNoAutoReset nodes. *)
From Coq Require Import List String ZArith Bool Arith Lia.
From Verif Require Import Base ModelData ModelUtility ModelTree SpecTree ProofsTree ProofsLife ProofsWhole.
Import ListNotations.
Local Open Scope nat_scope.

Definition is_nar (k : kind) : bool := match k with KRepeatNoAutoReset => true | _ => false end.
Lemma is_nar_true : forall k, is_nar k = true -> k = KRepeatNoAutoReset.
Proof. destruct k; simpl; auto; discriminate. Qed.

(** The nodes that a tree uses and that are not below a RepeatNoAutoReset. *)
Definition goes_on {E} (w : world E) (n : nid) (k : kind) : bool :=
  negb (is_nar k) && match k with KOptional => a_exec (w_mem w n) | _ => true end.
Fixpoint ractive {E} (w : world E) (t : tree) : list tree :=
  match t with T n k _ cs => t :: (if goes_on w n k then flat_map (ractive w) cs else []) end.

Lemma ractive_sub : forall E (w : world E) t s, In s (ractive w t) -> In s (subtrees t).
Proof.
  intros E w. induction t as [n k name cs IH] using tree_ind'. intros s H. rewrite Forall_forall in IH. simpl in *.
  destruct H as [H|H]; [left; exact H|right]. destruct (goes_on w n k); [|destruct H].
  apply in_flat_map in H. destruct H as [c [Hc H]]. apply in_flat_map. eauto.
Qed.
Lemma ractive_agree : forall E t (w w' : world E), agree (ids t) w w' -> ractive w' t = ractive w t.
Proof.
  intros E. induction t as [n k name cs IH] using tree_ind'. intros w w' H. rewrite Forall_forall in IH.
  assert (Hcs : flat_map (ractive w') cs = flat_map (ractive w) cs).
  { assert (Hc : forall c, In c cs -> ractive w' c = ractive w c).
    { intros c Hc. apply IH; auto. eapply agree_incl; [exact H|]. apply (incl_ids c n k name cs); auto. }
    clear - Hc. induction cs as [|c r IHr]; simpl; auto. rewrite Hc by (simpl; auto). rewrite IHr; auto. intros; apply Hc; simpl; auto. }
  simpl. rewrite Hcs. unfold goes_on. destruct (H n) as [_ Hm]; [simpl; auto|]. rewrite Hm. reflexivity.
Qed.

Lemma ractive_split : forall E (w : world E) t x, In x (active w t) ->
  In x (ractive w t) \/
  exists n name cs, In (T n KRepeatNoAutoReset name cs) (active w t) /\ In x (flat_map subtrees cs).
Proof.
  intros E w. induction t as [n k name cs IH] using tree_ind'. intros x H. rewrite Forall_forall in IH.
  assert (Hx : x = T n k name cs \/ (In x (flat_map (active w) cs) /\ incl (flat_map (active w) cs) (active w (T n k name cs)) /\
    (is_nar k = false -> goes_on w n k = true))).
  { simpl in H. destruct H as [H|H]; [left; auto|right]. unfold goes_on. simpl.
    destruct k; simpl; try (split; [exact H|split; [intros y Hy; right; exact Hy|auto; discriminate]]).
    destruct (a_exec (w_mem w n)); [|destruct H].
    split; [exact H|split; [intros y Hy; right; exact Hy|auto]]. }
  destruct Hx as [->|[Hx [Hi Ho]]]; [left; simpl; auto|].
  pose proof Hx as Hx'. apply in_flat_map in Hx'. destruct Hx' as [c [Hc Hx']].
  destruct (is_nar k) eqn:Ek.
  - right. apply is_nar_true in Ek. subst k. exists n, name, cs. split; [simpl; auto|].
    apply in_flat_map. exists c. split; [exact Hc|]. eapply active_sub; eauto.
  - destruct (IH c Hc x Hx') as [Hu|[n' [name' [cs' [H1 H3]]]]].
    + left. simpl. rewrite (Ho eq_refl). right. apply in_flat_map. eauto.
    + right. exists n', name', cs'. split; [apply Hi; apply in_flat_map; eauto|auto].
Qed.

Definition fresh_node {E} (w : world E) (n : nid) (k : kind) : Prop :=
  w_st w n = IDLE /\ (k <> KThrottle -> k <> KRepeatNoAutoReset -> fresh_memory k (w_mem w n)).
Definition all_r {E} (w : world E) (t : tree) : Prop :=
  forall n k name cs, In (T n k name cs) (ractive w t) -> fresh_node w n k.

Lemma all_r_agree : forall E t (w w' : world E), agree (ids t) w w' -> all_r w t -> all_r w' t.
Proof.
  intros E t w w' H Ha n k name cs Hin. rewrite (ractive_agree _ _ _ _ H) in Hin.
  destruct (H n) as [A B].
  { apply ractive_sub in Hin. apply subtrees_ids in Hin. apply Hin. simpl; auto. }
  unfold fresh_node. rewrite A, B. apply (Ha n k name cs); auto.
Qed.
Lemma all_r_intro : forall E (w : world E) n k name cs, fresh_node w n k ->
  (goes_on w n k = true -> forall c, In c cs -> all_r w c) -> all_r w (T n k name cs).
Proof.
  intros E w n k name cs H1 H2 n' k' name' cs' [H|H]; [inversion H; subst; exact H1|].
  destruct (goes_on w n k); [|destruct H]. apply in_flat_map in H. destruct H as [c [Hc H]].
  eapply (H2 eq_refl c Hc); eauto.
Qed.

Theorem reset_above : forall E (ev : env E) t w w' s,
  wf t -> call OReset (obj_of ev t) w = (w', Ok s) -> all_r w' t.
Proof.
  intros E ev. induction t as [n k name cs IH] using tree_ind'. intros w w' s Hwf H.
  rewrite Forall_forall in IH. pose proof (wf_fresh _ _ _ _ Hwf) as [Hn [Hnd Har]].
  pose proof H as Hres. apply (node_result E ev n k name (map (obj_of ev) cs)) in Hres; [|discriminate].
  destruct Hres as [Hs Hst]. simpl in Hs. subst s.
  destruct (is_nar k) eqn:Ek.
  { apply is_nar_true in Ek. subst k. apply all_r_intro.
    - split; auto. intros _ Q. congruence.
    - unfold goes_on. simpl. discriminate. }
  simpl obj_of in H. rewrite call_make in H.
  destruct (node_reset_cases E n (do_op ev OReset n k (map (obj_of ev) cs)) w) as [[_ Heq]|[_ Heq]];
    rewrite Heq in H; [discriminate|].
  unfold reset_live in H. cbn zeta in H.
  destruct (do_op ev OReset n k (map (obj_of ev) cs) _) as [w3 [s3|e|]] eqn:Ed; try discriminate.
  simpl in Ed.
  apply (do_reset_post E ev n k cs _ w3 s3 all_r) in Ed; auto.
  - destruct Ed as [Hm Hp]. destruct (state_in s3 [IDLE]) eqn:Es; inversion H; subst.
    apply all_r_intro.
    + split; auto.
    + intros Ho c Hc. destruct (Hp c Hc) as [[-> Hoff]|Ha].
      * unfold goes_on in Ho. simpl in Ho. congruence.
      * eapply all_r_agree; [|exact Ha]. apply set_st_agree. eapply child_disj; eauto.
  - intros S0 t w0 w1 Hsi Hdj. apply all_r_agree. eapply agree_si; eauto.
  - intros c w0 w1 s0 Hc. apply IH; auto. eapply wf_child; eauto.
  - intros ->. discriminate.
Qed.
