(** Proofs about operations on whole trees: setup, untick, reset, shutdown. *)
From Coq Require Import List String ZArith Bool Arith Lia.
From Verif Require Import Base ModelData ModelUtility ModelTree SpecTree ProofsTree ProofsLife.
Import ListNotations.
Local Open Scope nat_scope.

(** ** Lists of siblings *)

Definition disjoint {A} (l1 l2 : list A) : Prop := forall x, In x l1 -> ~ In x l2.

Lemma NoDup_app_inv : forall A (l1 l2 : list A), NoDup (l1 ++ l2) ->
  NoDup l1 /\ NoDup l2 /\ disjoint l1 l2.
Proof.
  induction l1 as [|a r IH]; simpl; intros l2 H.
  - repeat split; auto using NoDup_nil. intros x [].
  - inversion H; subst. destruct (IH _ H3) as [A1 [A2 A3]].
    split; [constructor; auto; intros Hin; apply H2; apply in_or_app; auto|]. split; auto.
    intros x [Hx|Hx]; auto. subst x. intros Hin. apply H2. apply in_or_app; auto.
Qed.

Lemma wf_child : forall n k name cs c, wf (T n k name cs) -> In c cs -> wf c.
Proof.
  intros n k name cs c [H1 H2] Hc. split.
  - simpl in H1. inversion H1; subst. clear - H4 Hc. induction cs as [|a r IH]; [destruct Hc|].
    simpl in H4. apply NoDup_app_inv in H4. destruct H4 as [A [B _]]. destruct Hc; subst; auto.
  - intros n' k' name' cs' Hin. apply (H2 n' k' name' cs'). simpl. right. apply in_flat_map. eauto.
Qed.

Lemma wf_fresh : forall n k name cs, wf (T n k name cs) ->
  ~ In n (flat_map ids cs) /\ NoDup (flat_map ids cs) /\ arity_ok k (List.length cs).
Proof.
  intros n k name cs [H1 H2]. simpl in H1. inversion H1; subst.
  repeat split; auto. apply (H2 n k name cs). simpl; auto.
Qed.

Lemma sub_self : forall t, In t (subtrees t).
Proof. destruct t; simpl; auto. Qed.

Lemma subtrees_ids : forall t s, In s (subtrees t) -> incl (ids s) (ids t).
Proof.
  induction t as [n k name cs IH] using tree_ind'. intros s Hs. simpl in Hs. destruct Hs as [Hs|Hs].
  - subst. apply incl_refl.
  - apply in_flat_map in Hs. destruct Hs as [c [Hc Hs]]. rewrite Forall_forall in IH.
    intros x Hx. apply (incl_ids c n k name cs Hc). eapply IH; eauto.
Qed.

Lemma active_sub : forall E (w : world E) t s, In s (active w t) -> In s (subtrees t).
Proof.
  intros E w. induction t as [n k name cs IH] using tree_ind'. intros s Hs. rewrite Forall_forall in IH.
  assert (H : s = T n k name cs \/ In s (flat_map (active w) cs)).
  { simpl in Hs. destruct Hs as [Hs|Hs]; auto. right. destruct k; auto. destruct (a_exec _); auto. destruct Hs. }
  simpl. destruct H as [H|H]; [left; auto|right]. apply in_flat_map in H. destruct H as [c [Hc H]].
  apply in_flat_map. exists c. split; auto.
Qed.

(** Worlds that agree on the nodes of a tree. *)
Definition agree {E} (S : list nid) (w w' : world E) : Prop :=
  forall m, In m S -> w_st w' m = w_st w m /\ w_mem w' m = w_mem w m.

Lemma agree_si : forall E S S' (w w' : world E), stays_inside S w w' -> disjoint S' S -> agree S' w w'.
Proof.
  intros E S S' w w' [H _] Hd m Hm. destruct (H m (Hd m Hm)) as [A [B _]]. auto.
Qed.

Lemma agree_incl : forall E S S' (w w' : world E), agree S w w' -> incl S' S -> agree S' w w'.
Proof. intros E S S' w w' H Hi m Hm. apply H. auto. Qed.

Lemma agree_sym : forall E S (w w' : world E), agree S w w' -> agree S w' w.
Proof. intros E S w w' H m Hm. destruct (H m Hm). auto. Qed.

Lemma active_agree : forall E t (w w' : world E), agree (ids t) w w' -> active w' t = active w t.
Proof.
  intros E. induction t as [n k name cs IH] using tree_ind'. intros w w' H. rewrite Forall_forall in IH.
  assert (Hcs : flat_map (active w') cs = flat_map (active w) cs).
  { assert (Hc : forall c, In c cs -> active w' c = active w c).
    { intros c Hc. apply IH; auto. eapply agree_incl; [exact H|]. apply (incl_ids c n k name cs); auto. }
    clear - Hc. induction cs as [|c r IHr]; simpl; auto. rewrite Hc by (simpl; auto). rewrite IHr; auto. intros; apply Hc; simpl; auto. }
  simpl. rewrite Hcs. destruct (H n) as [_ Hm]; [simpl; auto|]. rewrite Hm. reflexivity.
Qed.

(** A statement about the active nodes of a tree. *)
Definition all_active {E} (Q : kind -> state -> attrs -> Prop) (w : world E) (t : tree) : Prop :=
  forall n k name cs, In (T n k name cs) (active w t) -> Q k (w_st w n) (w_mem w n).

Lemma all_active_agree : forall E Q t (w w' : world E),
  agree (ids t) w w' -> all_active Q w t -> all_active Q w' t.
Proof.
  intros E Q t w w' H Ha n k name cs Hin. rewrite (active_agree _ _ _ _ H) in Hin.
  destruct (H n) as [A B].
  { apply active_sub in Hin. apply subtrees_ids in Hin. apply Hin. simpl; auto. }
  rewrite A, B. apply (Ha n k name cs); auto.
Qed.

Definition off {E} (w : world E) (n : nid) (k : kind) : Prop :=
  k = KOptional /\ a_exec (w_mem w n) = false.

Lemma all_active_intro : forall E (Q : kind -> state -> attrs -> Prop) (w : world E) n k name cs,
  Q k (w_st w n) (w_mem w n) ->
  (forall c, In c cs -> off w n k \/ all_active Q w c) ->
  all_active Q w (T n k name cs).
Proof.
  intros E Q w n k name cs Hn Hc n' k' name' cs' Hin.
  assert (H : T n' k' name' cs' = T n k name cs \/
              (In (T n' k' name' cs') (flat_map (active w) cs) /\ ~ off w n k)).
  { simpl in Hin. destruct Hin as [Hin|Hin]; [left; auto|right]. unfold off.
    destruct k; try (split; [auto|]; intros [HH _]; discriminate).
    destruct (a_exec (w_mem w n)) eqn:Ea; [|destruct Hin]. split; auto. intros [_ HH]. congruence. }
  destruct H as [H|[H Hoff]].
  - inversion H; subst. auto.
  - apply in_flat_map in H. destruct H as [c [H1 H2]]. destruct (Hc c H1) as [Ho|Ha]; [contradiction|].
    eapply Ha; eauto.
Qed.

Lemma all_active_child : forall E (Q : kind -> state -> attrs -> Prop) (w : world E) n k name cs c,
  all_active Q w (T n k name cs) -> In c cs -> ~ off w n k -> all_active Q w c.
Proof.
  intros E Q w n k name cs c Ha Hc Ho n' k' name' cs' Hin. apply (Ha n' k' name' cs'). simpl. right.
  assert (In (T n' k' name' cs') (flat_map (active w) cs)) by (apply in_flat_map; eauto).
  destruct k; auto. destruct (a_exec (w_mem w n)) eqn:Ea; auto. exfalso. apply Ho. split; auto.
Qed.

(** ** Calling the same method on all children *)

Section Each.
  Context {E : Type}.
  Variable ev : env E.
  Variable o : op.
  Variable P : world E -> tree -> Prop.
  Hypothesis P_frame : forall S t w w', stays_inside S w w' -> disjoint (ids t) S -> P w t -> P w' t.

  Lemma si_for_each : forall o' cs w,
    stays_inside (flat_map ids cs) w (fst (for_each (call o') (map (obj_of ev) cs) w)).
  Proof.
    intros o' cs. induction cs as [|c r IH]; intros w; simpl; [apply si_refl|].
    pose proof (frame_tree E ev c o' w) as H.
    destruct (call o' (obj_of ev c) w) as [w1 [s|e|]]; simpl in *.
    - eapply si_trans; [eapply si_weaken; [|exact H]; intros x Hx; apply in_or_app; auto|].
      eapply si_weaken; [|apply IH]. intros x Hx; apply in_or_app; auto.
    - eapply si_weaken; [|exact H]; intros x Hx; apply in_or_app; auto.
    - eapply si_weaken; [|exact H]; intros x Hx; apply in_or_app; auto.
  Qed.

  Lemma for_each_post : forall cs w w' u,
    NoDup (flat_map ids cs) ->
    (forall c w w' s, In c cs -> call o (obj_of ev c) w = (w', Ok s) -> P w' c) ->
    for_each (call o) (map (obj_of ev) cs) w = (w', Ok u) ->
    (forall c, In c cs -> P w' c) /\ stays_inside (flat_map ids cs) w w'.
  Proof.
    intros cs w w' u Hnd Hp H. split.
    2:{ pose proof (si_for_each o cs w) as K. rewrite H in K. exact K. }
    revert w Hnd Hp H. induction cs as [|c r IH]; intros w Hnd Hp H; simpl in *; [intros c []|].
    apply NoDup_app_inv in Hnd. destruct Hnd as [N1 [N2 N3]].
    destruct (call o (obj_of ev c) w) as [w1 [s|e|]] eqn:Ec; simpl in H; try discriminate.
    intros c' [Hc|Hc].
    - subst c'. apply (P_frame (flat_map ids r) c w1).
      + pose proof (si_for_each o r w1) as K. rewrite H in K. exact K.
      + exact N3.
      + apply (Hp c w w1 s); auto.
    - eapply IH; eauto.
  Qed.

  Lemma first_or_post : forall cs w w' s s0,
    List.length cs <= 1 ->
    (forall c w w' s, In c cs -> call o (obj_of ev c) w = (w', Ok s) -> P w' c) ->
    first_or (call o) (map (obj_of ev) cs) s0 w = (w', Ok s) ->
    (forall c, In c cs -> P w' c) /\ stays_inside (flat_map ids cs) w w'.
  Proof.
    intros cs w w' s s0 Hlen Hp H. destruct cs as [|c r]; simpl in *.
    - inversion H; subst. split; [intros c []|apply si_refl].
    - assert (r = []) by (destruct r; simpl in Hlen; auto; lia). subst r. simpl. split.
      + intros c' [Hc|[]]. subst. apply (Hp c' w w' s); auto.
      + pose proof (frame_tree E ev c o w) as K. rewrite H in K. rewrite app_nil_r. exact K.
  Qed.
End Each.

Lemma si_mem_out : forall E S (w w' : world E) n, stays_inside S w w' -> ~ In n S -> w_mem w' n = w_mem w n.
Proof. intros E S w w' n [H _] Hn. destruct (H n Hn) as [_ [A _]]. exact A. Qed.
Lemma si_st_out : forall E S (w w' : world E) n, stays_inside S w w' -> ~ In n S -> w_st w' n = w_st w n.
Proof. intros E S w w' n [H _] Hn. destruct (H n Hn) as [A _]. exact A. Qed.

Lemma set_st_agree : forall E (w : world E) n s S, ~ In n S -> agree S w (set_st w n s).
Proof. intros E w n s S Hn m Hm. simpl. split; auto. apply upd_neq. congruence. Qed.
Lemma set_outs_agree : forall E (w : world E) n x S, agree S w (set_outs w n x).
Proof. intros E w n x S m Hm. simpl. auto. Qed.

Lemma child_disj : forall c (cs : list tree) n, In c cs -> ~ In n (flat_map ids cs) -> ~ In n (ids c).
Proof. intros c cs n Hc Hn Hin. apply Hn. apply in_flat_map. eauto. Qed.

(** ** C06: setup *)

Definition setup_ok (k : kind) (s : state) (a : attrs) : Prop := s = IDLE /\ fresh_memory k a.

Ltac memsimp := simpl; repeat rewrite upd_eq; simpl.

Lemma do_setup_post : forall E (ev : env E) n k cs w w' s (P : world E -> tree -> Prop),
  (forall S t w w', stays_inside S w w' -> disjoint (ids t) S -> P w t -> P w' t) ->
  (forall c w w' s, In c cs -> call OSetup (obj_of ev c) w = (w', Ok s) -> P w' c) ->
  ~ In n (flat_map ids cs) -> NoDup (flat_map ids cs) -> arity_ok k (List.length cs) ->
  do_setup ev n k (map (obj_of ev) cs) w = (w', Ok s) ->
  fresh_memory k (w_mem w' n) /\ (forall c, In c cs -> off w' n k \/ P w' c).
Proof.
  intros E ev n k cs w w' s P Pag Hc Hn Hnd Har H.
  assert (HE : forall w0 s0, each_then o_setup (map (obj_of ev) cs) s0 w0 = (w', Ok s) ->
     w_mem w' n = w_mem w0 n /\ (forall c, In c cs -> off w' n k \/ P w' c)).
  { intros w0 s0 HH. unfold each_then in HH. change (@o_setup E) with (call (E:=E) OSetup) in HH.
    destruct (for_each (call OSetup) (map (obj_of ev) cs) w0) as [w1 [u|e|]] eqn:Ef; simpl in HH; try discriminate.
    inversion HH; subst. destruct (for_each_post ev OSetup P Pag cs w0 w' u Hnd Hc Ef) as [A B].
    split; [apply (si_mem_out _ _ _ _ _ B); auto|]. auto. }
  assert (HF : forall w0 s0, List.length cs <= 1 -> first_or o_setup (map (obj_of ev) cs) s0 w0 = (w', Ok s) ->
     w_mem w' n = w_mem w0 n /\ (forall c, In c cs -> off w' n k \/ P w' c)).
  { intros w0 s0 Hl HH. change (@o_setup E) with (call (E:=E) OSetup) in HH.
    destruct (first_or_post ev OSetup P cs w0 w' s s0 Hl Hc HH) as [A B].
    split; [apply (si_mem_out _ _ _ _ _ B); auto|]. auto. }
  destruct k; simpl in Har; unfold do_setup in H;
    try (apply HE in H; destruct H as [Hm Hp]; split; [rewrite Hm; memsimp; auto|]; exact Hp);
    try (apply HF in H; [|exact Har]; destruct H as [Hm Hp]; split; [rewrite Hm; memsimp; auto|]; exact Hp).
  - (* leaf *) destruct cs; [|discriminate]. split; [simpl; auto|intros c []].
  - unfold with_in in H. destruct (in_value_as _ _ _ _) as [i|e|]; try discriminate.
    cbn zeta in H. destruct (Z.ltb _ _); [discriminate|].
    apply HE in H; destruct H as [Hm Hp]; split; [rewrite Hm; memsimp; auto|]; exact Hp.
  - unfold with_in in H. destruct (in_value_as as_int w n _) as [i|e|]; try discriminate.
    cbn zeta in H. destruct (Z.ltb _ _); [discriminate|].
    destruct (in_value_as _ _ _ _) as [i'|e|]; try discriminate.
    apply HE in H; destruct H as [Hm Hp]; split; [rewrite Hm; memsimp; auto|]; exact Hp.
  - unfold with_in in H. destruct (in_value_as _ _ _ _) as [i|e|]; try discriminate.
    apply HF in H; [|exact Har]; destruct H as [Hm Hp]; split; [rewrite Hm; memsimp; auto|]; exact Hp.
  - unfold with_in in H. cbn zeta in H. destruct (in_value_as _ _ _ _) as [i|e|]; try discriminate.
    apply HF in H; [|exact Har]; destruct H as [Hm Hp]; split; [rewrite Hm; memsimp; auto|]; exact Hp.
  - unfold with_in in H. cbn zeta in H. destruct (in_value_as _ _ _ _) as [i|e|]; try discriminate.
    apply HF in H; [|exact Har]; destruct H as [Hm Hp]; split; [rewrite Hm; memsimp; auto|]; exact Hp.
  - unfold with_in in H. cbn zeta in H. destruct (in_value_as _ _ _ _) as [i|e|]; try discriminate.
    apply HF in H; [|exact Har]; destruct H as [Hm Hp]; split; [rewrite Hm; memsimp; auto|]; exact Hp.
  - (* Optional *) split; [simpl; auto|].
    destruct cs as [|c r]; [intros c []|]. assert (r = []) by (destruct r; simpl in Har; auto; lia). subst r.
    simpl in H. destruct (o_util (obj_of ev c) _) as [u|e|]; try discriminate.
    destruct (can_execute u).
    + intros c' [Hc'|[]]. subst c'. right. apply (Hc c _ _ s (or_introl eq_refl) H).
    + inversion H; subst. intros c' _. left. split; auto. memsimp. reflexivity.
  - unfold with_in in H. cbn zeta in H. destruct (in_value_as _ _ _ _) as [i|e|]; try discriminate.
    apply HF in H; [|exact Har]; destruct H as [Hm Hp]; split; [rewrite Hm; memsimp; auto|]; exact Hp.
  - unfold with_in in H. cbn zeta in H. destruct (in_value_as _ _ _ _) as [i|e|]; try discriminate.
    apply HF in H; [|exact Har]; destruct H as [Hm Hp]; split; [rewrite Hm; memsimp; auto|]; exact Hp.
  - unfold with_in in H. destruct (in_value_as _ _ _ _) as [i|e|]; try discriminate.
    apply HF in H; [|exact Har]; destruct H as [Hm Hp]; split; [rewrite Hm; memsimp; auto|]; exact Hp.
Qed.

Theorem setup_tree : forall E (ev : env E) t w w' s,
  wf t -> call OSetup (obj_of ev t) w = (w', Ok s) -> all_active setup_ok w' t.
Proof.
  intros E ev. induction t as [n k name cs IH] using tree_ind'. intros w w' s Hwf H.
  rewrite Forall_forall in IH. pose proof (wf_fresh _ _ _ _ Hwf) as [Hn [Hnd Har]].
  pose proof H as Hres. apply (node_result E ev n k name (map (obj_of ev) cs)) in Hres; [|discriminate].
  destruct Hres as [Hs Hst]. simpl in Hs. subst s.
  simpl obj_of in H. rewrite call_make in H.
  destruct (node_setup_cases E n (do_op ev OSetup n k (map (obj_of ev) cs)) w) as [[_ [_ Heq]]|[_ Heq]];
    rewrite Heq in H; [discriminate|].
  unfold setup_live in H. cbn zeta in H.
  destruct (do_op ev OSetup n k (map (obj_of ev) cs) _) as [w3 [s3|e|]] eqn:Ed; try discriminate.
  simpl in Ed.
  apply (do_setup_post E ev n k cs _ w3 s3 (all_active setup_ok)) in Ed; auto.
  - destruct Ed as [Hm Hp]. destruct (state_in s3 [IDLE]) eqn:Es; inversion H; subst.
    apply all_active_intro.
    + split; auto.
    + intros c Hc. destruct (Hp c Hc) as [Ho|Ha]; [left; exact Ho|right].
      eapply all_active_agree; [|exact Ha]. apply set_st_agree. eapply child_disj; eauto.
  - intros S0 t w0 w1 Hsi Hdj. apply all_active_agree. eapply agree_si; eauto.
  - intros c w0 w1 s0 Hc. apply IH; auto. eapply wf_child; eauto.
Qed.

(** ** Options are only read at setup *)

Definition keeps_options {E} (w w' : world E) : Prop :=
  forall m, same_options (w_mem w' m) (w_mem w m).

Lemma so_refl : forall a, same_options a a.
Proof. intros; repeat split. Qed.
Lemma so_trans : forall a b c, same_options a b -> same_options b c -> same_options a c.
Proof.
  unfold same_options. intros a b c [A1 [A2 [A3 [A4 [A5 [A6 A7]]]]]] [B1 [B2 [B3 [B4 [B5 [B6 B7]]]]]].
  repeat split; congruence.
Qed.

(** Any preorder on worlds that looks at private memory only lifts through the
    node wrappers. *)
Section MemRel.
  Context {E : Type}.
  Variable R : world E -> world E -> Prop.
  Hypothesis Rtrans : forall a b c, R a b -> R b c -> R a c.
  Hypothesis Rsame : forall w w', w_mem w' = w_mem w -> R w w'.

  Lemma memrel_wrap : forall n (d : act E) (w : world E),
    (forall w, R w (fst (d w))) ->
    R w (fst (node_setup n d w)) /\ R w (fst (node_tick n d w)) /\
    R w (fst (node_untick n d w)) /\ R w (fst (node_reset n d w)).
  Proof.
    intros n d w Hd.
    assert (Hin : forall w1, w_mem w1 = w_mem w -> R w (fst (d w1))) by
      (intros w1 He; eapply Rtrans; [apply Rsame; exact He|apply Hd]).
    assert (Hout : forall w1 w2, R w w1 -> w_mem w2 = w_mem w1 -> R w w2) by
      (intros w1 w2 H He; eapply Rtrans; [exact H|apply Rsame; exact He]).
    split; [|split; [|split]].
    - destruct (node_setup_cases E n d w) as [[_ [_ Heq]]|[_ Heq]]; rewrite Heq; [apply Rsame; reflexivity|].
      unfold setup_live. cbn zeta.
      match goal with |- context [d ?x] => pose proof (Hin x eq_refl) as H; destruct (d x) as [w3 [s|e|]] end;
        simpl in *; auto; try (eapply Hout; [exact H|reflexivity]).
      dif; eapply Hout; try exact H; reflexivity.
    - destruct (node_tick_cases E n d w) as [[_ Heq]|[_ Heq]]; rewrite Heq; [apply Rsame; reflexivity|].
      unfold tick_live. destruct (negb _); [apply Rsame; reflexivity|].
      match goal with |- context [d ?x] => pose proof (Hin x eq_refl) as H; destruct (d x) as [w3 [s|e|]] end;
        simpl in *; auto; try (eapply Hout; [exact H|reflexivity]).
      match goal with |- context [push_outputs ?x n] =>
        pose proof (push_outputs_frame E n x) as [_ [Hm _]]; destruct (push_outputs x n) as [w5 [u|e|]] end;
        simpl in Hm; dif; eapply Hout; try exact H; simpl; try exact Hm; reflexivity.
    - destruct (node_untick_cases E n d w) as [[_ Heq]|[_ Heq]]; rewrite Heq; [apply Rsame; reflexivity|].
      unfold untick_live. cbn zeta.
      match goal with |- context [d ?x] => pose proof (Hin x eq_refl) as H; destruct (d x) as [w3 [s|e|]] end;
        simpl in *; auto; try (eapply Hout; [exact H|reflexivity]).
      dif; eapply Hout; try exact H; reflexivity.
    - destruct (node_reset_cases E n d w) as [[_ Heq]|[_ Heq]]; rewrite Heq; [apply Rsame; reflexivity|].
      unfold reset_live. cbn zeta.
      match goal with |- context [d ?x] => pose proof (Hin x eq_refl) as H; destruct (d x) as [w3 [s|e|]] end;
        simpl in *; auto; try (eapply Hout; [exact H|reflexivity]).
      dif; eapply Hout; try exact H; reflexivity.
  Qed.

  Lemma memrel_shutdown : forall n cs (d : act E) (w : world E),
    (forall w, R w (fst (d w))) -> (forall c w, In c cs -> R w (fst (o_shutdown c w))) ->
    R w (fst (node_shutdown n cs d w)).
  Proof.
    intros n cs d w Hd Hc.
    assert (Hout : forall w w1 w2, R w w1 -> w_mem w2 = w_mem w1 -> R w w2) by
      (intros w0 w1 w2 H He; eapply Rtrans; [exact H|apply Rsame; exact He]).
    assert (Hcs : forall w e, R w (fst (shutdown_children cs w e))).
    { clear w. induction cs as [|c r IH]; simpl; intros w0 e; [apply Rsame; reflexivity|].
      pose proof (Hc c w0 (or_introl eq_refl)) as H.
      destruct (o_shutdown c w0) as [w1 [s|e1|]]; simpl in *; auto; (eapply Rtrans; [exact H|apply IH; auto]). }
    unfold node_shutdown.
    match goal with |- R w (fst (bind ?x _)) => assert (Ho : R w (fst x)) end.
    { destruct (w_st w n); try (apply Rsame; reflexivity); pose proof (Hd w) as H;
        destruct (d w) as [w1 [s|e|]]; simpl in *; auto; try (eapply Hout; [exact H|reflexivity]);
        dif; simpl; eapply Hout; try exact H; reflexivity. }
    match goal with |- R w (fst (bind ?x _)) => destruct x as [w1 [s|e|]] end; simpl in *; auto.
    pose proof (Hcs w1 None) as H. 
    destruct (shutdown_children cs w1 None) as [w2 [[e|]|e|]]; simpl in *; eapply Rtrans; eauto.
  Qed.
End MemRel.

Lemma options_tree : forall E (ev : env E) t o w,
  o <> OSetup -> keeps_options w (fst (call o (obj_of ev t) w)).
Proof.
  intros E ev. induction t as [n k name cs IH] using tree_ind'. intros o w Ho.
  rewrite Forall_forall in IH.
  assert (Rr : forall w : world E, keeps_options w w) by (intros w0 m; apply so_refl).
  assert (Rt : forall a b c : world E, keeps_options a b -> keeps_options b c -> keeps_options a c).
  { intros a b c H1 H2 m. eapply so_trans; [apply H2|apply H1]. }
  assert (Rs : forall w w' : world E, w_mem w' = w_mem w -> keeps_options w w').
  { intros w0 w1 He m. rewrite He. apply so_refl. }
  assert (Hsub : forall c o w, o <> OSetup -> In c (map (obj_of ev) cs) -> keeps_options w (fst (call o c w))).
  { intros c o' w' Ho' Hc. apply in_map_iff in Hc. destruct Hc as [t [Ht Hin]]. subst c. apply IH; auto. }
  simpl obj_of. rewrite call_make.
  assert (Hd : forall o w, o <> OSetup -> keeps_options w (fst (do_op ev o n k (map (obj_of ev) cs) w))).
  { intros o' w' Ho'. apply do_op_rel with (phase := False) (okop := fun o => o <> OSetup);
      auto; try discriminate; try tauto.
    intros w1 a [[]|Hs] m. simpl. unfold upd. destruct (Nat.eqb_spec m n); subst; auto. apply so_refl. }
  destruct o; try congruence.
  - apply (memrel_wrap keeps_options Rt Rs n _ w); intros; apply Hd; discriminate.
  - apply (memrel_wrap keeps_options Rt Rs n _ w); intros; apply Hd; discriminate.
  - apply (memrel_wrap keeps_options Rt Rs n _ w); intros; apply Hd; discriminate.
  - apply (memrel_shutdown keeps_options Rt Rs).
    + intros; apply Hd; discriminate.
    + intros c w0 Hc. apply (Hsub c OShutdown); auto.
Qed.

(** ** C07: untick *)

Definition untick_ok (k : kind) (s : state) (a : attrs) : Prop := s = IDLE \/ s = PAUSED.

Section Post.
  Context {E : Type}.
  Variable ev : env E.
  Variable P : world E -> tree -> Prop.
  Hypothesis Pag : forall S t w w', stays_inside S w w' -> disjoint (ids t) S -> P w t -> P w' t.
  Variable n : nid.
  Variable k : kind.
  Variable cs : list tree.
  Hypothesis Hn : ~ In n (flat_map ids cs).
  Hypothesis Hnd : NoDup (flat_map ids cs).

  Lemma each_post : forall o w0 w' s s0,
    (forall c w w' s, In c cs -> call o (obj_of ev c) w = (w', Ok s) -> P w' c) ->
    each_then (call o) (map (obj_of ev) cs) s0 w0 = (w', Ok s) ->
    w_mem w' n = w_mem w0 n /\ (forall c, In c cs -> off w' n k \/ P w' c).
  Proof.
    intros o w0 w' s s0 Hc HH. unfold each_then in HH.
    destruct (for_each (call o) (map (obj_of ev) cs) w0) as [w1 [u|e|]] eqn:Ef; simpl in HH; try discriminate.
    inversion HH; subst. destruct (for_each_post ev o P Pag cs w0 w' u Hnd Hc Ef) as [A B].
    split; [apply (si_mem_out _ _ _ _ _ B); auto|]. auto.
  Qed.

  Lemma first_post : forall o w0 w' s s0, List.length cs <= 1 ->
    (forall c w w' s, In c cs -> call o (obj_of ev c) w = (w', Ok s) -> P w' c) ->
    first_or (call o) (map (obj_of ev) cs) s0 w0 = (w', Ok s) ->
    w_mem w' n = w_mem w0 n /\ (forall c, In c cs -> off w' n k \/ P w' c).
  Proof.
    intros o w0 w' s s0 Hl Hc HH.
    destruct (first_or_post ev o P cs w0 w' s s0 Hl Hc HH) as [A B].
    split; [apply (si_mem_out _ _ _ _ _ B); auto|]. auto.
  Qed.

  Lemma optional_post : forall o w0 w' s s0, List.length cs <= 1 -> k = KOptional ->
    (forall c w w' s, In c cs -> call o (obj_of ev c) w = (w', Ok s) -> P w' c) ->
    optional_do (call o) n (map (obj_of ev) cs) s0 w0 = (w', Ok s) ->
    w_mem w' n = w_mem w0 n /\ (forall c, In c cs -> off w' n k \/ P w' c).
  Proof.
    intros o w0 w' s s0 Hl Hk Hc HH. unfold optional_do in HH. unfold off.
    destruct (a_exec (w_mem w0 n)) eqn:Ea.
    - destruct cs as [|c r]; [discriminate|]. simpl in *.
      assert (r = []) by (destruct r; simpl in Hl; auto; lia). subst r. split.
      + pose proof (frame_tree E ev c o w0) as K. rewrite HH in K.
        apply (si_mem_out _ _ _ _ _ K). intros Hi. apply Hn. apply in_or_app; auto.
      + intros c' [Hc'|[]]. subst c'. right. eapply Hc; eauto.
    - inversion HH; subst. split; auto.
  Qed.
End Post.

Lemma do_untick_post : forall E (ev : env E) n k cs w w' s (P : world E -> tree -> Prop),
  (forall S t w w', stays_inside S w w' -> disjoint (ids t) S -> P w t -> P w' t) ->
  (forall c w w' s, In c cs -> call OUntick (obj_of ev c) w = (w', Ok s) -> P w' c) ->
  ~ In n (flat_map ids cs) -> NoDup (flat_map ids cs) -> arity_ok k (List.length cs) ->
  do_untick ev n k (map (obj_of ev) cs) w = (w', Ok s) ->
  forall c, In c cs -> off w' n k \/ P w' c.
Proof.
  intros E ev n k cs w w' s P Pag Hc Hn Hnd Har H.
  destruct k; simpl in Har; unfold do_untick in H; try change (@o_untick E) with (call (E:=E) OUntick) in H;
    try (eapply each_post; eauto; fail); try (eapply first_post; eauto; fail).
  - destruct cs; [intros c []|discriminate].
  - eapply optional_post; eauto.
Qed.

Theorem untick_tree : forall E (ev : env E) t w w' s,
  wf t -> call OUntick (obj_of ev t) w = (w', Ok s) -> all_active untick_ok w' t.
Proof.
  intros E ev. induction t as [n k name cs IH] using tree_ind'. intros w w' s Hwf H.
  rewrite Forall_forall in IH. pose proof (wf_fresh _ _ _ _ Hwf) as [Hn [Hnd Har]].
  pose proof H as Hres. apply (node_result E ev n k name (map (obj_of ev) cs)) in Hres; [|discriminate].
  destruct Hres as [Hs Hst]. simpl in Hs.
  simpl obj_of in H. rewrite call_make in H.
  destruct (node_untick_cases E n (do_op ev OUntick n k (map (obj_of ev) cs)) w) as [[_ Heq]|[_ Heq]];
    rewrite Heq in H; [discriminate|].
  unfold untick_live in H. cbn zeta in H.
  destruct (do_op ev OUntick n k (map (obj_of ev) cs) _) as [w3 [s3|e|]] eqn:Ed; try discriminate.
  simpl in Ed.
  assert (Hp : forall c, In c cs -> off w3 n k \/ all_active untick_ok w3 c).
  { eapply do_untick_post; eauto.
    - intros S0 t w0 w1 Hsi Hdj. apply all_active_agree. eapply agree_si; eauto.
    - intros c w0 w1 s0 Hc. apply IH; auto. eapply wf_child; eauto. }
  assert (Hq : untick_ok k (w_st w' n) (w_mem w' n)) by (unfold untick_ok; rewrite Hst; exact Hs).
  clear Hst Hs. destruct (state_in s3 [IDLE; PAUSED]) eqn:Es; inversion H; subst.
  apply all_active_intro.
  - exact Hq.
  - intros c Hc. destruct (Hp c Hc) as [Ho|Ha]; [left; exact Ho|right].
    eapply all_active_agree; [|exact Ha]. intros m Hm.
    simpl. split; auto. apply upd_neq. intros ->. apply Hn. apply in_flat_map; eauto.
Qed.

(** ** C08: reset *)

Definition reset_ok (k : kind) (s : state) (a : attrs) : Prop :=
  s = IDLE /\ (k <> KThrottle -> fresh_memory k a).

Lemma do_reset_post : forall E (ev : env E) n k cs w w' s (P : world E -> tree -> Prop),
  (forall S t w w', stays_inside S w w' -> disjoint (ids t) S -> P w t -> P w' t) ->
  (forall c w w' s, In c cs -> call OReset (obj_of ev c) w = (w', Ok s) -> P w' c) ->
  ~ In n (flat_map ids cs) -> NoDup (flat_map ids cs) -> arity_ok k (List.length cs) ->
  k <> KRepeatNoAutoReset ->
  do_reset ev n k (map (obj_of ev) cs) w = (w', Ok s) ->
  (k <> KThrottle -> fresh_memory k (w_mem w' n)) /\ (forall c, In c cs -> off w' n k \/ P w' c).
Proof.
  intros E ev n k cs w w' s P Pag Hc Hn Hnd Har Hk H.
  destruct k; simpl in Har; unfold do_reset in H; try change (@o_reset E) with (call (E:=E) OReset) in H;
    try congruence;
    try (eapply each_post in H; eauto; destruct H as [Hm Hp]; split; [intros _; rewrite Hm; memsimp; auto|exact Hp]; fail);
    try (eapply first_post in H; eauto; destruct H as [Hm Hp]; split; [intros _; rewrite Hm; memsimp; auto|exact Hp]; fail).
  - destruct cs; [split; [simpl; auto|intros c []]|discriminate].
  - eapply optional_post in H; eauto. destruct H as [Hm Hp]. split; [simpl; auto|exact Hp].
  - eapply first_post in H; eauto. destruct H as [Hm Hp]. split; [congruence|exact Hp].
Qed.

Theorem reset_tree : forall E (ev : env E) t w w' s,
  wf t ->
  (forall n name cs, ~ In (T n KRepeatNoAutoReset name cs) (subtrees t)) ->
  call OReset (obj_of ev t) w = (w', Ok s) -> all_active reset_ok w' t.
Proof.
  intros E ev. induction t as [n k name cs IH] using tree_ind'. intros w w' s Hwf Hno H.
  rewrite Forall_forall in IH. pose proof (wf_fresh _ _ _ _ Hwf) as [Hn [Hnd Har]].
  pose proof H as Hres. apply (node_result E ev n k name (map (obj_of ev) cs)) in Hres; [|discriminate].
  destruct Hres as [Hs Hst]. simpl in Hs. subst s.
  simpl obj_of in H. rewrite call_make in H.
  destruct (node_reset_cases E n (do_op ev OReset n k (map (obj_of ev) cs)) w) as [[_ Heq]|[_ Heq]];
    rewrite Heq in H; [discriminate|].
  unfold reset_live in H. cbn zeta in H.
  destruct (do_op ev OReset n k (map (obj_of ev) cs) _) as [w3 [s3|e|]] eqn:Ed; try discriminate.
  simpl in Ed.
  apply (do_reset_post E ev n k cs _ w3 s3 (all_active reset_ok)) in Ed; auto.
  - destruct Ed as [Hm Hp]. destruct (state_in s3 [IDLE]) eqn:Es; inversion H; subst.
    apply all_active_intro.
    + split; auto.
    + intros c Hc. destruct (Hp c Hc) as [Ho|Ha]; [left; exact Ho|right].
      eapply all_active_agree; [|exact Ha]. apply set_st_agree. eapply child_disj; eauto.
  - intros S0 t w0 w1 Hsi Hdj. apply all_active_agree. eapply agree_si; eauto.
  - intros c w0 w1 s0 Hc. apply IH; auto.
    + eapply wf_child; eauto.
    + intros n' name' cs' Hin. apply (Hno n' name' cs'). simpl. right. apply in_flat_map. eauto.
  - intros ->. apply (Hno n name cs). simpl; auto.
Qed.

(** ** C05 and the result of shutdown *)

Lemma shutdown_children_si : forall E (ev : env E) cs w e,
  stays_inside (flat_map ids cs) w (fst (shutdown_children (map (obj_of ev) cs) w e)).
Proof.
  intros E ev cs w e. apply si_shutdown_children.
  intros c w0 Hc. apply in_map_iff in Hc. destruct Hc as [t [Ht Hin]]. subst c.
  eapply si_weaken; [|apply (frame_tree E ev t OShutdown)]. intros x Hx. apply in_flat_map; eauto.
Qed.

Lemma shutdown_result : forall E (ev : env E) t w w' s,
  NoDup (ids t) -> call OShutdown (obj_of ev t) w = (w', Ok s) -> s = SHUTDOWN /\ w_st w' (t_id t) = SHUTDOWN.
Proof.
  intros E ev [n k name cs] w w' s Hnd H. simpl in *. inversion Hnd as [|x l Hn Hnd']; subst.
  unfold node_shutdown in H.
  match type of H with bind ?x _ = _ => assert (Ho : forall w1 s1, x = (w1, Ok s1) -> w_st w1 n = SHUTDOWN) end.
  { intros w1 s1. destruct (w_st w n) eqn:Es; try (intros HH; inversion HH; subst; auto; fail);
      destruct (do_shutdown ev n k w) as [w2 [s2|e|]]; try discriminate; destruct (state_in s2 [SHUTDOWN]) eqn:E2;
      intros HH; inversion HH; subst; simpl; rewrite upd_eq; apply state_in_spec in E2; simpl in E2; intuition. }
  match type of H with bind ?x _ = _ => destruct x as [w1 [s1|e1|]] end; simpl in H; try discriminate.
  specialize (Ho w1 s1 eq_refl).
  pose proof (shutdown_children_si E ev cs w1 None) as K.
  destruct (shutdown_children (map (obj_of ev) cs) w1 None) as [w2 [[e|]|e|]]; try discriminate.
  inversion H; subst. simpl in K. rewrite (si_st_out _ _ _ _ _ K Hn). auto.
Qed.

(** Leaf code never raises in shutdown. *)
Definition leaves_do_not_raise {E} (ev : env E) (t : tree) : Prop :=
  forall n name cs w, In (T n KLeaf name cs) (subtrees t) -> snd (leaf_act ev OShutdown n w) <> Raise.

Definition shuts_down {E} (ev : env E) (n : nid) (k : kind) : Prop :=
  k = KLeaf -> forall w, snd (leaf_act ev OShutdown n w) = Ok SHUTDOWN.

Lemma do_shutdown_nonleaf : forall E (ev : env E) n k w, k <> KLeaf ->
  exists w', do_shutdown ev n k w = (w', Ok SHUTDOWN) /\ w_st w' = w_st w.
Proof. intros E ev n k w Hk. destruct k; try congruence; simpl; eauto. Qed.

Lemma shutdown_no_raise : forall E (ev : env E) t, leaves_do_not_raise ev t ->
  forall w, snd (call OShutdown (obj_of ev t) w) <> Raise.
Proof.
  intros E ev. induction t as [n k name cs IH] using tree_ind'. intros Hl w. rewrite Forall_forall in IH.
  simpl. unfold node_shutdown.
  assert (Hd : snd (do_shutdown ev n k w) <> Raise).
  { destruct k; simpl; try discriminate. apply (Hl n name cs). simpl; auto. }
  assert (Hcs : forall l w e, (forall c, In c l -> In c cs) ->
     snd (shutdown_children (map (obj_of ev) l) w e) <> Raise).
  { induction l as [|c r IHr]; simpl; intros w0 e Hi; [discriminate|].
    assert (Hc : snd (o_shutdown (obj_of ev c) w0) <> Raise).
    { apply IH; auto. intros n' name' cs' w1 Hin. apply (Hl n' name' cs'). simpl. right. apply in_flat_map. eauto. }
    destruct (o_shutdown (obj_of ev c) w0) as [w1 [s|e1|]]; simpl in *; auto. }
  match goal with |- snd (bind ?x _) <> _ => assert (Ho : snd x <> Raise) end.
  { destruct (w_st w n); simpl; try discriminate; destruct (do_shutdown ev n k w) as [w1 [s|e|]];
      simpl in *; try discriminate; auto; dif; simpl; discriminate. }
  match goal with |- snd (bind ?x _) <> _ => destruct x as [w1 [s|e|]] end; simpl in *; try discriminate; auto.
  pose proof (Hcs cs w1 None (fun c H => H)) as K.
  destruct (shutdown_children (map (obj_of ev) cs) w1 None) as [w2 [[e|]|e|]]; simpl in *; congruence.
Qed.

(** All nodes whose own shutdown code works are SHUTDOWN afterwards. *)
Theorem shutdown_tree : forall E (ev : env E) t, wf t -> leaves_do_not_raise ev t ->
  forall w w' r, call OShutdown (obj_of ev t) w = (w', r) ->
  forall n k name cs, In (T n k name cs) (subtrees t) -> shuts_down ev n k -> w_st w' n = SHUTDOWN.
Proof.
  intros E ev. induction t as [n k name cs IH] using tree_ind'. intros Hwf Hl w w' r H n' k' name' cs' Hin Hsd.
  rewrite Forall_forall in IH. pose proof (wf_fresh _ _ _ _ Hwf) as [Hn [Hnd Har]].
  simpl in H. unfold node_shutdown in H.
  (* own part *)
  match type of H with bind ?x _ = _ =>
    assert (Ho : k <> KLeaf \/ shuts_down ev n k -> exists w1, x = (w1, Ok SHUTDOWN) /\ w_st w1 n = SHUTDOWN) end.
  { intros Hk.
    assert (Hd : exists w1, do_shutdown ev n k w = (w1, Ok SHUTDOWN)).
    { destruct Hk as [Hk|Hk].
      - destruct (do_shutdown_nonleaf E ev n k w Hk) as [w1 [H1 _]]. eauto.
      - destruct k; simpl; eauto. specialize (Hk eq_refl w). destruct (leaf_act ev OShutdown n w) as [w1 r1].
        simpl in Hk. subst. eauto. }
    destruct Hd as [w1 Hd]. rewrite Hd.
    destruct (w_st w n) eqn:Es; try (eexists; split; [reflexivity|]; simpl; apply upd_eq).
    exists w. auto. }
  assert (Hfin : forall w1, (match shutdown_children (map (obj_of ev) cs) w1 None with
      | (w2, Ok None) => (w2, Ok (w_st w2 n)) | (w2, Ok (Some e)) => (w2, Err e)
      | (w2, Err e) => (w2, Err e) | (w2, Raise) => (w2, Raise) end) = (w', r) ->
      fst (shutdown_children (map (obj_of ev) cs) w1 None) = w').
  { intros w1 HH. destruct (shutdown_children (map (obj_of ev) cs) w1 None) as [w2 [[e|]|e|]]; inversion HH; auto. }
  simpl in Hin. destruct Hin as [Hin|Hin].
  - inversion Hin; subst. destruct (Ho (or_intror Hsd)) as [w1 [Hw1 Hs1]]. rewrite Hw1 in H. simpl in H.
    apply Hfin in H. rewrite <- H. rewrite (si_st_out _ _ _ _ _ (shutdown_children_si E ev cs' w1 None) Hn). auto.
  - assert (Hk : k <> KLeaf).
    { intros ->. simpl in Har. destruct cs; [destruct Hin|discriminate]. }
    destruct (Ho (or_introl Hk)) as [w1 [Hw1 Hs1]]. rewrite Hw1 in H. simpl in H. apply Hfin in H. rewrite <- H.
    clear H Hw1 Hs1 Ho Hfin w.
    assert (Hlc : forall c, In c cs -> leaves_do_not_raise ev c).
    { intros c Hc n0 name0 cs0 w0 Hin0. apply (Hl n0 name0 cs0). simpl. right. apply in_flat_map. eauto. }
    assert (Hwc : forall c, In c cs -> wf c) by (intros c Hc; eapply wf_child; eauto).
    apply in_flat_map in Hin. destruct Hin as [c [Hc Hin]].
    clear Hwf Hl Hn Har Hk. revert c Hc Hin. generalize (@None err). revert w1.
    induction cs as [|a rest IHr]; intros w1 e0 c Hc Hin; [destruct Hc|].
    simpl in Hnd. apply NoDup_app_inv in Hnd. destruct Hnd as [N1 [N2 N3]].
    simpl. pose proof (shutdown_no_raise E ev a (Hlc a (or_introl eq_refl)) w1) as Hnr. simpl in Hnr.
    destruct (o_shutdown (obj_of ev a) w1) as [w2 ra] eqn:Ea. simpl in Hnr.
    assert (Hgo : fst (match ra with Ok _ => shutdown_children (map (obj_of ev) rest) w2 e0
                 | Err e => shutdown_children (map (obj_of ev) rest) w2 (Some e) | Raise => (w2, Raise) end) =
              fst (shutdown_children (map (obj_of ev) rest) w2 (match ra with Err e => Some e | _ => e0 end))).
    { destruct ra; try congruence; reflexivity. }
    destruct Hc as [Hc|Hc].
    + subst a. 
      assert (Hs : w_st w2 n' = SHUTDOWN).
      { eapply (IH c (or_introl eq_refl)); eauto. apply Hwc; left; auto. apply Hlc; left; auto. }
      assert (Hnin : ~ In n' (flat_map ids rest)).
      { apply N3. apply subtrees_ids in Hin. apply Hin. simpl; auto. }
      destruct ra; try congruence;
        rewrite (si_st_out _ _ _ _ _ (shutdown_children_si E ev rest w2 _) Hnin); auto.
    + destruct ra; try congruence; (eapply IHr with (c := c); try assumption; intros x Hx;
        first [exact (Hlc x (or_intror Hx)) | exact (Hwc x (or_intror Hx)) | exact (IH x (or_intror Hx))]).
Qed.

Theorem shutdown_tree_ok : forall E (ev : env E) t, wf t ->
  (forall n k name cs, In (T n k name cs) (subtrees t) -> shuts_down ev n k) ->
  forall w, exists w', call OShutdown (obj_of ev t) w = (w', Ok SHUTDOWN) /\
    forall m, In m (ids t) -> w_st w' m = SHUTDOWN.
Proof.
  intros E ev t Hwf Hs w.
  assert (Hl : forall t, (forall n k name cs, In (T n k name cs) (subtrees t) -> shuts_down ev n k) ->
            leaves_do_not_raise ev t).
  { intros t0 H0 n name cs w0 Hin. rewrite (H0 _ _ _ _ Hin eq_refl). discriminate. }
  assert (Hr : snd (call OShutdown (obj_of ev t) w) = Ok SHUTDOWN).
  { revert Hwf Hs w. induction t as [n k name cs IH] using tree_ind'. intros Hwf Hs w.
    rewrite Forall_forall in IH. pose proof (wf_fresh _ _ _ _ Hwf) as [Hn [Hnd Har]].
    simpl. unfold node_shutdown.
    match goal with |- snd (bind ?x _) = _ => assert (Ho : exists w1, x = (w1, Ok SHUTDOWN) /\ w_st w1 n = SHUTDOWN) end.
    { assert (Hd : exists w1, do_shutdown ev n k w = (w1, Ok SHUTDOWN)).
      { assert (Hk : shuts_down ev n k) by (apply (Hs n k name cs); simpl; auto).
        destruct k; simpl; eauto. specialize (Hk eq_refl w). destruct (leaf_act ev OShutdown n w) as [w1 r1].
        simpl in Hk. subst. eauto. }
      destruct Hd as [w1 Hd]. rewrite Hd.
      destruct (w_st w n) eqn:Es; try (eexists; split; [reflexivity|]; simpl; apply upd_eq).
      exists w. auto. }
    destruct Ho as [w1 [Hw1 Hs1]]. rewrite Hw1. simpl.
    assert (Hc : forall l w, (forall c, In c l -> In c cs) ->
       snd (shutdown_children (map (obj_of ev) l) w None) = Ok None).
    { induction l as [|c r IHr]; simpl; intros w0 Hi; auto.
      assert (Hc : snd (o_shutdown (obj_of ev c) w0) = Ok SHUTDOWN).
      { apply IH; auto. eapply wf_child; eauto.
        intros n' k' name' cs' Hin. apply (Hs n' k' name' cs'). simpl. right. apply in_flat_map. eauto. }
      destruct (o_shutdown (obj_of ev c) w0) as [w2 r2]; simpl in *. subst. auto. }
    pose proof (Hc cs w1 (fun c H => H)) as Hc1.
    pose proof (shutdown_children_si E ev cs w1 None) as K.
    destruct (shutdown_children (map (obj_of ev) cs) w1 None) as [w2 r2]. simpl in *. subst r2. simpl.
    rewrite (si_st_out _ _ _ _ _ K Hn), Hs1. reflexivity. }
  destruct (call OShutdown (obj_of ev t) w) as [w' r] eqn:Ec. simpl in Hr. subst r. exists w'. split; auto.
  intros m Hm.
  assert (Hex : exists k name cs, In (T m k name cs) (subtrees t)).
  { clear - Hm. revert Hm. induction t as [n k name cs IH] using tree_ind'. intros Hm. rewrite Forall_forall in IH.
    simpl in Hm. destruct Hm as [Hm|Hm].
    - subst. exists k, name, cs. simpl; auto.
    - apply in_flat_map in Hm. destruct Hm as [c [Hc Hm]]. destruct (IH c Hc Hm) as [k' [name' [cs' Hin]]].
      exists k', name', cs'. simpl. right. apply in_flat_map. eauto. }
  destruct Hex as [k [name [cs Hin]]].
  eapply shutdown_tree; eauto.
Qed.

(** ** C06: failing leaves *)

Definition leaf_can_setup {E} (ev : env E) (n : nid) : Prop :=
  exists w w', leaf_act ev OSetup n w = (w', Ok IDLE).

Theorem setup_leaves : forall E (ev : env E) t w w' s,
  wf t -> call OSetup (obj_of ev t) w = (w', Ok s) ->
  forall n name cs, In (T n KLeaf name cs) (active w' t) -> leaf_can_setup ev n.
Proof.
  intros E ev. induction t as [n k name cs IH] using tree_ind'. intros w w' s Hwf H.
  rewrite Forall_forall in IH. pose proof (wf_fresh _ _ _ _ Hwf) as [Hn [Hnd Har]].
  simpl obj_of in H. rewrite call_make in H.
  destruct (node_setup_cases E n (do_op ev OSetup n k (map (obj_of ev) cs)) w) as [[_ [_ Heq]]|[_ Heq]];
    rewrite Heq in H; [discriminate|].
  unfold setup_live in H. cbn zeta in H.
  destruct (do_op ev OSetup n k (map (obj_of ev) cs) _) as [w3 [s3|e|]] eqn:Ed; try discriminate.
  destruct (state_in s3 [IDLE]) eqn:Es; inversion H; subst. apply state_in_spec in Es. simpl in Es.
  destruct Es as [Es|[]]. subst s. simpl in Ed. pose proof Ed as Ed'.
  apply (do_setup_post E ev n k cs _ w3 IDLE
    (fun w t => forall n name cs, In (T n KLeaf name cs) (active w t) -> leaf_can_setup ev n)) in Ed; auto.
  - destruct Ed as [_ Hp]. intros n' name' cs' Hin.
    assert (Hcase : T n' KLeaf name' cs' = T n k name cs \/
              (In (T n' KLeaf name' cs') (flat_map (active (set_st w3 n IDLE)) cs) /\ ~ off w3 n k)).
    { simpl in Hin. destruct Hin as [Hin|Hin]; [left; auto|right]. unfold off.
      destruct k; try (split; [auto|]; intros [HH _]; discriminate).
      destruct (a_exec (w_mem w3 n)) eqn:Ea; [|destruct Hin]. split; auto. intros [_ HH]. congruence. }
    destruct Hcase as [Hcase|[Hcase Hoff]].
    + inversion Hcase; subst. simpl in Ed'. eexists. exists w3. exact Ed'.
    + apply in_flat_map in Hcase. destruct Hcase as [c [Hc Hin']].
      destruct (Hp c Hc) as [Ho|Ha]; [contradiction|].
      rewrite (active_agree E c w3) in Hin'; [eauto|]. apply set_st_agree. eapply child_disj; eauto.
  - intros S0 t w0 w1 Hsi Hdj H0 n' name' cs' Hin. rewrite (active_agree _ _ _ _ (agree_si _ _ _ _ _ Hsi Hdj)) in Hin. eauto.
  - intros c w0 w1 s0 Hc Hcall. eapply IH; eauto. eapply wf_child; eauto.
Qed.

Lemma unconditional_active : forall E (w : world E) t, incl (unconditional t) (active w t).
Proof.
  intros E w. induction t as [n k name cs IH] using tree_ind'. rewrite Forall_forall in IH.
  intros s Hs. simpl in *. destruct Hs as [Hs|Hs]; [left; auto|right].
  assert (Hx : In s (flat_map unconditional cs) -> In s (flat_map (active w) cs)).
  { intros Hi. apply in_flat_map in Hi. destruct Hi as [c [Hc Hi]]. apply in_flat_map. exists c. split; auto.
    apply IH; auto. }
  destruct k; auto. destruct Hs.
Qed.
