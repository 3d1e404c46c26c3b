(** Proofs about the life cycle of nodes and trees: guards, results, frames,
    BROKEN, shutdown. *)
From Coq Require Import List String ZArith Bool Arith Lia.
From Verif Require Import Base ModelData ModelUtility ModelTree SpecTree ProofsTree.
Import ListNotations.
Local Open Scope nat_scope.

(** ** Calls of a made object *)

Lemma call_make : forall E (ev : env E) o n k name cs,
  call o (make_obj ev n k name cs) =
  match o with
  | OSetup => node_setup n (do_op ev OSetup n k cs)
  | OTick => node_tick n (do_op ev OTick n k cs)
  | OUntick => node_untick n (do_op ev OUntick n k cs)
  | OReset => node_reset n (do_op ev OReset n k cs)
  | OShutdown => node_shutdown n cs (do_op ev OShutdown n k cs)
  end.
Proof. intros; destruct o; reflexivity. Qed.

(** ** C01 *)
Lemma dead_dec : forall s, {dead s} + {live s}.
Proof. intros s. unfold live, dead. destruct s; (left; intuition congruence) || (right; intuition congruence). Defined.

Lemma refuse_dead : forall E (ev : env E) n k name cs o w,
  (dead (w_st w n) /\ (o = OTick \/ o = OUntick \/ o = OReset)) \/
  (w_st w n <> UNINITIALIZED /\ w_st w n <> SHUTDOWN /\ o = OSetup) ->
  call o (make_obj ev n k name cs) w = (w, Err EGuard).
Proof.
  intros E ev n k name cs o w H. rewrite call_make.
  destruct H as [[[Hd|[Hd|Hd]] [H|[H|H]]] | [H1 [H2 H]]]; subst o;
    unfold node_tick, node_untick, node_reset, node_setup; try rewrite Hd; auto.
  destruct (w_st w n); congruence.
Qed.

(** ** C02 *)

Lemma push_conns_frame : forall E n l (w : world E),
  let w' := fst (push_conns w n l) in
  w_st w' = w_st w /\ w_mem w' = w_mem w /\ w_outs w' = w_outs w /\ w_conns w' = w_conns w /\
  w_outg w' = w_outg w /\ w_ext w' = w_ext w /\
  (forall m key, (forall k, In k l -> ~ (k_tid k = m /\ k_tkey k = key)) ->
     dget key (w_ins w' m) = dget key (w_ins w m)).
Proof.
  induction l as [|k r IH]; intros w; simpl.
  - repeat split; auto.
  - assert (Hweak : forall (w1 : world E),
        w_st w1 = w_st w -> w_mem w1 = w_mem w -> w_outs w1 = w_outs w ->
        w_conns w1 = w_conns w -> w_outg w1 = w_outg w -> w_ext w1 = w_ext w ->
        (forall m key, ~ (k_tid k = m /\ k_tkey k = key) ->
           dget key (w_ins w1 m) = dget key (w_ins w m)) ->
        let w' := fst (push_conns w1 n r) in
        w_st w' = w_st w /\ w_mem w' = w_mem w /\ w_outs w' = w_outs w /\ w_conns w' = w_conns w /\
        w_outg w' = w_outg w /\ w_ext w' = w_ext w /\
        (forall m key, (forall k', k = k' \/ In k' r -> ~ (k_tid k' = m /\ k_tkey k' = key)) ->
           dget key (w_ins w' m) = dget key (w_ins w m))).
    { intros w1 A1 A2 A3 A4 A5 A6 A7. destruct (IH w1) as [B1 [B2 [B3 [B4 [B5 [B6 B7]]]]]].
      simpl in *. repeat split; try congruence.
      intros m key Hk. rewrite B7; auto. }
    assert (Hid : let w' := w in
        w_st w' = w_st w /\ w_mem w' = w_mem w /\ w_outs w' = w_outs w /\ w_conns w' = w_conns w /\
        w_outg w' = w_outg w /\ w_ext w' = w_ext w /\
        (forall m key, (forall k', k = k' \/ In k' r -> ~ (k_tid k' = m /\ k_tkey k' = key)) ->
           dget key (w_ins w' m) = dget key (w_ins w m))) by (repeat split; auto).
    destruct (dget (k_src k) (w_outs w n)) as [c|]; [|exact Hid].
    destruct (negb (c_upd c)); [apply Hweak; auto|].
    destruct (c_val c) as [v|]; [|apply Hweak; auto].
    destruct (w_conns w (k_tid k)); [|exact Hid].
    destruct (dget (k_tkey k) (w_ins w (k_tid k))) as [t|]; [|exact Hid].
    destruct (set_value t v) as [t' [|e|]]; [|exact Hid|exact Hid].
    apply Hweak; auto. intros m key Hk. simpl.
    unfold upd. destruct (Nat.eqb_spec m (k_tid k)); auto. subst m.
    assert (key <> k_tkey k) by intuition.
    clear - H. induction (w_ins w (k_tid k)) as [|[k1 v1] r1 IHr]; simpl.
    + destruct (String.eqb_spec key (k_tkey k)); congruence.
    + destruct (String.eqb_spec (k_tkey k) k1); simpl.
      * subst. destruct (String.eqb_spec key (k_tkey k)); congruence.
      * destruct (String.eqb key k1); auto.
Qed.

Lemma og_set_other : forall n key c l m key', m <> n ->
  og_get m key' (og_set n key c l) = og_get m key' l.
Proof.
  induction l as [|[[n1 k1] c1] r IH]; simpl; intros m key' Hm; auto.
  destruct (Nat.eqb_spec n n1); simpl.
  - subst. destruct (String.eqb key k1); simpl;
      destruct (Nat.eqb_spec m n1); simpl; try congruence; auto.
  - rewrite IH; auto.
Qed.

Lemma push_outgoing_frame : forall E n l (w : world E),
  let w' := fst (push_outgoing w n l) in
  w_st w' = w_st w /\ w_mem w' = w_mem w /\ w_outs w' = w_outs w /\ w_conns w' = w_conns w /\
  w_ins w' = w_ins w /\ w_ext w' = w_ext w /\
  (forall m key, m <> n -> og_get m key (w_outg w') = og_get m key (w_outg w)).
Proof.
  induction l as [|[key c] r IH]; intros w; simpl.
  - repeat split; auto.
  - destruct (negb (c_upd c)); auto.
    destruct (og_get n key (w_outg w)) as [t|]; auto.
    destruct (c_val c) as [v|]; auto.
    destruct (set_value t v) as [t' [|e|]]; simpl; try (repeat split; auto; fail).
    destruct (IH (set_outg w (og_set n key t' (w_outg w)))) as [B1 [B2 [B3 [B4 [B5 [B6 B7]]]]]].
    simpl in *. repeat split; auto. intros m key' Hm. rewrite B7; auto.
    apply og_set_other; auto.
Qed.

Lemma push_outputs_frame : forall E n (w : world E),
  let w' := fst (push_outputs w n) in
  w_st w' = w_st w /\ w_mem w' = w_mem w /\ w_outs w' = w_outs w /\ w_conns w' = w_conns w /\
  w_ext w' = w_ext w /\
  (forall m key, (forall l k, w_conns w n = Some l -> In k l -> ~ (k_tid k = m /\ k_tkey k = key)) ->
     dget key (w_ins w' m) = dget key (w_ins w m)) /\
  (forall m key, m <> n -> og_get m key (w_outg w') = og_get m key (w_outg w)).
Proof.
  intros E n w. unfold push_outputs. destruct (w_conns w n) as [l|] eqn:El.
  2:{ simpl. repeat split; auto. }
  pose proof (push_conns_frame E n l w) as [A1 [A2 [A3 [A4 [A5 [A6 A7]]]]]].
  destruct (push_conns w n l) as [w1 [u|e|]]; simpl in *.
  - pose proof (push_outgoing_frame E n (w_outs w1 n) w1) as [B1 [B2 [B3 [B4 [B5 [B6 B7]]]]]].
    simpl in *. repeat split; try congruence.
    + intros m key Hk. rewrite B5. apply A7. intros k Hin. eapply Hk; eauto.
    + intros m key Hm. rewrite B7; auto. congruence.
  - repeat split; try congruence. intros m key Hk. apply A7. eauto.
  - repeat split; try congruence. intros m key Hk. apply A7. eauto.
Qed.

Lemma node_result : forall E (ev : env E) n k name cs o w w' s,
  o <> OShutdown ->
  call o (make_obj ev n k name cs) w = (w', Ok s) ->
  op_states o s /\ w_st w' n = s.
Proof.
  intros E ev n k name cs o w w' s Ho. rewrite call_make. generalize (do_op ev o n k cs) as d.
  intros d. destruct o; try congruence; clear Ho.
  - unfold node_setup. intros H. destruct (w_st w n); try discriminate;
      match type of H with context [do_op ev ?o n k cs ?x] => destruct (do_op ev o n k cs x) as [w3 [s3|e|]] end;
      try discriminate; destruct (state_in s3 [IDLE]) eqn:Es; inversion H; subst; clear H;
      apply state_in_spec in Es; simpl in Es; split; try (simpl; intuition; fail);
      simpl; rewrite upd_eq; auto.
  - unfold node_tick. intros H.
    assert (Hx : (if negb (forallb (fun kc => has_value (snd kc)) (w_ins w n)) then (set_st w n BROKEN, Err EUnset) else
        let w1 := set_outs w n (map_io reset_updated (w_outs w n)) in
        match do_op ev OTick n k cs w1 with
        | (w2, Err e) => (set_st w2 n BROKEN, Err e)
        | (w2, Raise) => (w2, Raise)
        | (w2, Ok s) =>
            let w3 := set_st w2 n s in
            let w4 := set_ins w3 n (map_io reset_updated (w_ins w3 n)) in
            if state_in s [RUNNING; SUCCEEDED; FAILED; ASSIGNED; UNASSIGNED] then
              match push_outputs w4 n with
              | (w5, Err e) => (set_st w5 n BROKEN, Err e)
              | (w5, Raise) => (w5, Raise)
              | (w5, Ok _) => (w5, Ok (w_st w5 n))
              end
            else (w4, Err EState)
        end) = (w', Ok s)) by (destruct (w_st w n); try discriminate; exact H).
    clear H. destruct (negb _); [discriminate|]. cbn zeta in Hx.
    destruct (do_op ev OTick n k cs _) as [w2 [s2|e|]]; try discriminate.
    destruct (state_in s2 _) eqn:Es; [|discriminate].
    match type of Hx with context [push_outputs ?x n] =>
      pose proof (push_outputs_frame E n x) as [Hst _]; destruct (push_outputs x n) as [w5 [u|e|]] end;
      try discriminate.
    simpl in Hst. inversion Hx; subst; clear Hx. rewrite Hst. rewrite upd_eq.
    apply state_in_spec in Es. simpl in Es. split; auto. simpl. intuition.
  - unfold node_untick. intros H. destruct (w_st w n); try discriminate;
      match type of H with context [do_op ev ?o n k cs ?x] => destruct (do_op ev o n k cs x) as [w3 [s3|e|]] end;
      try discriminate; destruct (state_in s3 [IDLE; PAUSED]) eqn:Es; inversion H; subst; clear H;
      apply state_in_spec in Es; simpl in Es; split; try (simpl; intuition; fail);
      simpl; rewrite upd_eq; auto.
  - unfold node_reset. intros H. destruct (w_st w n); try discriminate;
      match type of H with context [do_op ev ?o n k cs ?x] => destruct (do_op ev o n k cs x) as [w3 [s3|e|]] end;
      try discriminate; destruct (state_in s3 [IDLE]) eqn:Es; inversion H; subst; clear H;
      apply state_in_spec in Es; simpl in Es; split; try (simpl; intuition; fail);
      simpl; rewrite upd_eq; auto.
Qed.

(** Unfolded wrappers for live nodes. *)
Definition tick_live {E} (n : nid) (d : act E) : act E := fun w =>
  if negb (forallb (fun kc => has_value (snd kc)) (w_ins w n))
  then (set_st w n BROKEN, Err EUnset)
  else
    match d (set_outs w n (map_io reset_updated (w_outs w n))) with
    | (w2, Err e) => (set_st w2 n BROKEN, Err e)
    | (w2, Raise) => (w2, Raise)
    | (w2, Ok s) =>
        let w4 := set_ins (set_st w2 n s) n (map_io reset_updated (w_ins (set_st w2 n s) n)) in
        if state_in s [RUNNING; SUCCEEDED; FAILED; ASSIGNED; UNASSIGNED] then
          match push_outputs w4 n with
          | (w5, Err e) => (set_st w5 n BROKEN, Err e)
          | (w5, Raise) => (w5, Raise)
          | (w5, Ok _) => (w5, Ok s)
          end
        else (w4, Err EState)
    end.

Lemma node_tick_cases : forall E n d (w : world E),
  (dead (w_st w n) /\ node_tick n d w = (w, Err EGuard)) \/
  (live (w_st w n) /\ node_tick n d w = tick_live n d w).
Proof.
  intros E n d w. unfold node_tick, tick_live, live, dead.
  destruct (w_st w n) eqn:Es; try (left; split; [tauto|reflexivity]);
    (right; split; [intuition congruence|]; destruct (negb _); [reflexivity|]; cbn zeta;
     destruct (d _) as [w2 [s|e|]]; try reflexivity; destruct (state_in s _); try reflexivity;
     match goal with |- context [push_outputs ?x n] =>
       pose proof (push_outputs_frame E n x) as [Hst _]; destruct (push_outputs x n) as [w5 [u|e|]] end;
     try reflexivity; simpl in Hst; rewrite Hst, upd_eq; reflexivity).
Qed.

Definition untick_live {E} (n : nid) (d : act E) : act E := fun w =>
  match d w with
  | (w1, Err e) => (set_st w1 n BROKEN, Err e)
  | (w1, Raise) => (w1, Raise)
  | (w1, Ok s) =>
      let w2 := set_st w1 n s in
      if state_in s [IDLE; PAUSED] then
        (set_outs w2 n (map_io reset_updated (w_outs w2 n)), Ok s)
      else (w2, Err EState)
  end.

Lemma node_untick_cases : forall E n d (w : world E),
  (dead (w_st w n) /\ node_untick n d w = (w, Err EGuard)) \/
  (live (w_st w n) /\ node_untick n d w = untick_live n d w).
Proof.
  intros E n d w. unfold node_untick, untick_live, live, dead.
  destruct (w_st w n); (left; split; [tauto|reflexivity]) || (right; split; [intuition congruence|reflexivity]).
Qed.

Definition reset_live {E} (n : nid) (d : act E) : act E := fun w =>
  let w1 := set_ins w n (map_io flag_updated (w_ins w n)) in
  let w2 := set_outs w1 n (map_io (fun c => reset_updated (reset_value c)) (w_outs w1 n)) in
  match d w2 with
  | (w3, Err e) => (set_st w3 n BROKEN, Err e)
  | (w3, Raise) => (w3, Raise)
  | (w3, Ok s) =>
      let w4 := set_st w3 n s in
      if state_in s [IDLE] then (w4, Ok s) else (w4, Err EState)
  end.

Lemma node_reset_cases : forall E n d (w : world E),
  (dead (w_st w n) /\ node_reset n d w = (w, Err EGuard)) \/
  (live (w_st w n) /\ node_reset n d w = reset_live n d w).
Proof.
  intros E n d w. unfold node_reset, reset_live, live, dead.
  destruct (w_st w n); (left; split; [tauto|reflexivity]) || (right; split; [intuition congruence|reflexivity]).
Qed.

Definition setup_live {E} (n : nid) (d : act E) : act E := fun w =>
  let w1 := set_ins w n (map_io (fun c => flag_updated (reset_value c)) (w_ins w n)) in
  let w2 := set_outs w1 n (map_io (fun c => reset_updated (reset_value c)) (w_outs w1 n)) in
  match d w2 with
  | (w3, Err e) => (set_st w3 n BROKEN, Err e)
  | (w3, Raise) => (w3, Raise)
  | (w3, Ok s) =>
      let w4 := set_st w3 n s in
      if state_in s [IDLE] then (w4, Ok s) else (w4, Err EState)
  end.

Lemma node_setup_cases : forall E n d (w : world E),
  (w_st w n <> UNINITIALIZED /\ w_st w n <> SHUTDOWN /\ node_setup n d w = (w, Err EGuard)) \/
  ((w_st w n = UNINITIALIZED \/ w_st w n = SHUTDOWN) /\ node_setup n d w = setup_live n d w).
Proof.
  intros E n d w. unfold node_setup, setup_live.
  destruct (w_st w n); (left; split; [congruence|]; split; [congruence|reflexivity]) ||
    (right; split; [tauto|reflexivity]).
Qed.

(** A failing implementation leaves the node BROKEN. *)
Lemma failure_breaks : forall E (ev : env E) n k name cs o w w' e,
  o <> OShutdown ->
  (o = OSetup -> w_st w n = UNINITIALIZED \/ w_st w n = SHUTDOWN) ->
  (o <> OSetup -> live (w_st w n)) ->
  call o (make_obj ev n k name cs) w = (w', Err e) ->
  w_st w' n = BROKEN \/ (e = EState /\ ~ op_states o (w_st w' n)).
Proof.
  intros E ev n k name cs o w w' e Ho Hs Hl. rewrite call_make.
  destruct o; try congruence; clear Ho.
  - destruct (node_setup_cases E n (do_op ev OSetup n k cs) w) as [[N1 [N2 _]]|[_ Heq]];
      [destruct (Hs eq_refl); congruence|].
    rewrite Heq. unfold setup_live. cbn zeta. destruct (do_op ev OSetup n k cs _) as [w3 [s3|e3|]]; intros H.
    + destruct (state_in s3 [IDLE]) eqn:Es; inversion H; subst. right. split; auto. simpl.
      rewrite upd_eq. destruct s3; simpl in *; congruence.
    + inversion H; subst. left. simpl. apply upd_eq.
    + discriminate.
  - destruct (node_tick_cases E n (do_op ev OTick n k cs) w) as [[N1 _]|[_ Heq]];
      [exfalso; apply Hl; congruence|].
    rewrite Heq. unfold tick_live. destruct (negb _).
    { intros H; inversion H; subst. left. simpl. apply upd_eq. }
    destruct (do_op ev OTick n k cs _) as [w3 [s3|e3|]]; intros H.
    + cbn zeta in H. destruct (state_in s3 _) eqn:Es.
      * destruct (push_outputs _ n) as [w5 [u|e5|]]; inversion H; subst.
        left. simpl. apply upd_eq.
      * inversion H; subst. right. split; auto. simpl. rewrite upd_eq.
        destruct s3; simpl in *; try discriminate; intuition discriminate.
    + inversion H; subst. left. simpl. apply upd_eq.
    + discriminate.
  - destruct (node_untick_cases E n (do_op ev OUntick n k cs) w) as [[N1 _]|[_ Heq]];
      [exfalso; apply Hl; congruence|].
    rewrite Heq. unfold untick_live. cbn zeta. destruct (do_op ev OUntick n k cs _) as [w3 [s3|e3|]]; intros H.
    + destruct (state_in s3 [IDLE; PAUSED]) eqn:Es; inversion H; subst. right. split; auto. simpl.
      rewrite upd_eq. destruct s3; simpl in *; try discriminate; intuition discriminate.
    + inversion H; subst. left. simpl. apply upd_eq.
    + discriminate.
  - destruct (node_reset_cases E n (do_op ev OReset n k cs) w) as [[N1 _]|[_ Heq]];
      [exfalso; apply Hl; congruence|].
    rewrite Heq. unfold reset_live. cbn zeta. destruct (do_op ev OReset n k cs _) as [w3 [s3|e3|]]; intros H.
    + destruct (state_in s3 [IDLE]) eqn:Es; inversion H; subst. right. split; auto. simpl.
      rewrite upd_eq. destruct s3; simpl in *; congruence.
    + inversion H; subst. left. simpl. apply upd_eq.
    + discriminate.
Qed.

(** ** Frames *)

Ltac dif := match goal with |- context [if ?b then _ else _] => destruct b eqn:? end.

Section Frame.
  Context {E : Type}.
  Variable S : list nid.

  Lemma si_refl : forall w : world E, stays_inside S w w.
  Proof. intros w. repeat split; auto. Qed.

  Lemma si_trans : forall a b c : world E, stays_inside S a b -> stays_inside S b c -> stays_inside S a c.
  Proof.
    intros a b c [A1 A2] [B1 B2]. split; [|congruence].
    intros m Hm. destruct (A1 m Hm) as [P1 [P2 [P3 [P4 P5]]]].
    destruct (B1 m Hm) as [Q1 [Q2 [Q3 [Q4 Q5]]]].
    split; [congruence|]. split; [congruence|]. split; [congruence|]. split.
    - intros key Hk. rewrite Q4; [apply P4; auto|].
      intros src l k Hs Hc Hin. apply (Hk src l k); auto. congruence.
    - intros key. rewrite Q5. apply P5.
  Qed.

  Lemma upd_out : forall A (f : nid -> A) n v m, In n S -> ~ In m S -> upd f n v m = f m.
  Proof. intros. apply upd_neq. congruence. Qed.

  Lemma si_mem : forall n (w : world E) a, In n S -> stays_inside S w (set_mem w n a).
  Proof. intros n w a Hn. split; auto. intros m Hm. simpl. rewrite upd_out; repeat split; auto. Qed.
  Lemma si_st : forall n (w : world E) a, In n S -> stays_inside S w (set_st w n a).
  Proof. intros n w a Hn. split; auto. intros m Hm. simpl. rewrite upd_out; repeat split; auto. Qed.
  Lemma si_outs : forall n (w : world E) a, In n S -> stays_inside S w (set_outs w n a).
  Proof. intros n w a Hn. split; auto. intros m Hm. simpl. rewrite upd_out; repeat split; auto. Qed.
  Lemma si_ins : forall n (w : world E) a, In n S -> stays_inside S w (set_ins w n a).
  Proof. intros n w a Hn. split; auto. intros m Hm. simpl. rewrite upd_out; repeat split; auto. Qed.
  Lemma si_ext : forall (w : world E) e, stays_inside S w (set_ext w e).
  Proof. intros. repeat split; auto. Qed.

  Lemma si_push : forall n (w : world E), In n S -> stays_inside S w (fst (push_outputs w n)).
  Proof.
    intros n w Hn. pose proof (push_outputs_frame E n w) as [A1 [A2 [A3 [A4 [A5 [A6 A7]]]]]].
    simpl in *. split; auto. intros m Hm. rewrite A1, A2, A3. repeat split; auto.
    - intros key Hk. apply A6. intros l k Hl Hin. eapply Hk; eauto.
    - intros key. apply A7. congruence.
  Qed.

  Ltac st := eauto using si_refl, si_trans, si_mem, si_st, si_outs, si_ins, si_ext, si_push.

  Variable n : nid.
  Hypothesis Hn : In n S.

  Lemma si_setup : forall d : act E, (forall w, stays_inside S w (fst (d w))) ->
    forall w, stays_inside S w (fst (node_setup n d w)).
  Proof.
    intros d Hd w. destruct (node_setup_cases E n d w) as [[_ [_ Heq]]|[_ Heq]]; rewrite Heq; [st|].
    unfold setup_live. cbn zeta.
    match goal with |- context [d ?x] => assert (H : stays_inside S w (fst (d x))) by
      (eapply si_trans; [|apply Hd]; eapply si_trans; [apply si_ins|apply si_outs]; auto);
      destruct (d x) as [w3 [s|e|]] end; simpl in *; st.
    dif; simpl; st.
  Qed.

  Lemma si_untick : forall d : act E, (forall w, stays_inside S w (fst (d w))) ->
    forall w, stays_inside S w (fst (node_untick n d w)).
  Proof.
    intros d Hd w. destruct (node_untick_cases E n d w) as [[_ Heq]|[_ Heq]]; rewrite Heq; [st|].
    unfold untick_live. cbn zeta. pose proof (Hd w) as H.
    destruct (d w) as [w3 [s|e|]]; simpl in *; st.
    dif; simpl; st.
  Qed.

  Lemma si_reset : forall d : act E, (forall w, stays_inside S w (fst (d w))) ->
    forall w, stays_inside S w (fst (node_reset n d w)).
  Proof.
    intros d Hd w. destruct (node_reset_cases E n d w) as [[_ Heq]|[_ Heq]]; rewrite Heq; [st|].
    unfold reset_live. cbn zeta.
    match goal with |- context [d ?x] => assert (H : stays_inside S w (fst (d x))) by
      (eapply si_trans; [|apply Hd]; eapply si_trans; [apply si_ins|apply si_outs]; auto);
      destruct (d x) as [w3 [s|e|]] end; simpl in *; st.
    dif; simpl; st.
  Qed.

  Lemma si_tick : forall d : act E, (forall w, stays_inside S w (fst (d w))) ->
    forall w, stays_inside S w (fst (node_tick n d w)).
  Proof.
    intros d Hd w. destruct (node_tick_cases E n d w) as [[_ Heq]|[_ Heq]]; rewrite Heq; [st|].
    unfold tick_live. destruct (negb _); [st|].
    match goal with |- context [d ?x] => assert (H : stays_inside S w (fst (d x))) by
      (eapply si_trans; [|apply Hd]; apply si_outs; auto);
      destruct (d x) as [w2 [s|e|]] end; simpl in *; st.
    match goal with |- context [push_outputs ?x n] => assert (H4 : stays_inside S w x) by
      (eapply si_trans; [exact H|]; eapply si_trans; [apply si_st|apply si_ins]; auto);
      assert (H5 : stays_inside S w (fst (push_outputs x n))) by
        (eapply si_trans; [exact H4|]; apply si_push; auto);
      destruct (push_outputs x n) as [w5 [u|e|]] end; simpl in *;
      dif; simpl; st.
  Qed.

  Lemma si_shutdown_children : forall cs : list (obj E), (forall c w, In c cs -> stays_inside S w (fst (o_shutdown c w))) ->
    forall w e, stays_inside S w (fst (shutdown_children cs w e)).
  Proof.
    induction cs as [|c r IH]; simpl; intros Hc w e; [st|].
    assert (Hr : forall c w, In c r -> stays_inside S w (fst (o_shutdown c w))) by (intros; apply Hc; auto).
    pose proof (Hc c w (or_introl eq_refl)) as H.
    destruct (o_shutdown c w) as [w' [s|e'|]]; simpl in *; st.
  Qed.

  Lemma si_shutdown : forall (cs : list (obj E)) (d : act E), (forall w, stays_inside S w (fst (d w))) ->
    (forall c w, In c cs -> stays_inside S w (fst (o_shutdown c w))) ->
    forall w, stays_inside S w (fst (node_shutdown n cs d w)).
  Proof.
    intros cs d Hd Hc w. unfold node_shutdown.
    match goal with |- stays_inside S w (fst (bind ?x _)) => assert (Ho : stays_inside S w (fst x)) end.
    { destruct (w_st w n); [..|simpl; st]; pose proof (Hd w) as H;
        destruct (d w) as [w1 [s|e|]]; simpl in *; st; dif; simpl; st. }
    match goal with |- stays_inside S w (fst (bind ?x _)) => destruct x as [w1 [s|e|]] end; simpl in *; auto.
    pose proof (si_shutdown_children cs Hc w1 None) as H.
    destruct (shutdown_children cs w1 None) as [w2 [[e|]|e|]]; simpl in *; st.
  Qed.
End Frame.

Lemma si_weaken : forall E S S' (w w' : world E), incl S S' -> stays_inside S w w' -> stays_inside S' w w'.
Proof.
  intros E S S' w w' Hi [A B]. split; auto. intros m Hm.
  assert (~ In m S) as Hm' by auto.
  destruct (A m Hm') as [P1 [P2 [P3 [P4 P5]]]]. repeat split; auto.
  intros key Hk. apply P4. intros src l k Hs. apply Hk. auto.
Qed.

Lemma si_call_make : forall E (ev : env E) S n k name cs,
  In n S -> (forall c o w, In c cs -> stays_inside S w (fst (call o c w))) ->
  forall o w, stays_inside S w (fst (call o (make_obj ev n k name cs) w)).
Proof.
  intros E ev S n k name cs Hn Hc o w. rewrite call_make.
  assert (Hd : forall o w, stays_inside S w (fst (do_op ev o n k cs w))).
  { intros o' w'. apply do_op_rel with (phase := True) (okop := fun _ => True); try solve [eauto using si_refl, si_trans, si_mem, si_outs, si_ext]. }
  destruct o.
  - apply si_setup; auto.
  - apply si_tick; auto.
  - apply si_untick; auto.
  - apply si_reset; auto.
  - apply si_shutdown; auto. intros c w' H. apply (Hc c OShutdown); auto.
Qed.

Lemma incl_ids : forall c n k name cs, In c cs -> incl (ids c) (ids (T n k name cs)).
Proof. intros c n k name cs Hc x Hx. simpl. right. apply in_flat_map. eauto. Qed.

Theorem frame_tree : forall E (ev : env E) t o w,
  stays_inside (ids t) w (fst (call o (obj_of ev t) w)).
Proof.
  intros E ev. induction t as [n k name cs IH] using tree_ind'. intros o w. simpl obj_of.
  apply si_call_make; [simpl; auto|].
  intros c o' w' Hc. apply in_map_iff in Hc. destruct Hc as [t [Ht Hin]]. subst c.
  rewrite Forall_forall in IH. eapply si_weaken; [|apply IH; auto]. apply incl_ids; auto.
Qed.

(** ** C03: BROKEN *)

Definition keeps_broken {E} (w w' : world E) : Prop :=
  forall m, w_st w m = BROKEN -> w_st w' m = BROKEN.

Lemma kb_node : forall E (ev : env E) n k name cs,
  (forall c o w, o <> OShutdown -> In c cs -> keeps_broken w (fst (call o c w))) ->
  forall o w, o <> OShutdown -> keeps_broken w (fst (call o (make_obj ev n k name cs) w)).
Proof.
  intros E ev n k name cs Hc o w Ho.
  assert (Hd : forall o w, keeps_broken w (fst (do_op ev o n k cs w))).
  { intros o' w'. apply do_op_rel with (phase := True) (okop := fun o => o <> OShutdown); unfold keeps_broken; auto; discriminate. }
  assert (Hset : forall (w0 w1 : world E) s, w_st w0 n <> BROKEN -> keeps_broken w0 w1 ->
            keeps_broken w0 (set_st w1 n s)).
  { intros w0 w1 s H0 H1 m Hm. simpl. unfold upd. destruct (Nat.eqb_spec m n); [congruence|]. auto. }
  rewrite call_make. destruct o; try congruence; clear Ho.
  - destruct (node_setup_cases E n (do_op ev OSetup n k cs) w) as [[_ [_ Heq]]|[Hs Heq]]; rewrite Heq.
    { intros m Hm; auto. }
    unfold setup_live. cbn zeta.
    match goal with |- context [do_op ev OSetup n k cs ?x] =>
      assert (H : keeps_broken w (fst (do_op ev OSetup n k cs x))) by
        (intros m Hm; apply Hd; auto);
      destruct (do_op ev OSetup n k cs x) as [w3 [s|e|]] end; simpl in *; auto.
    + dif; simpl; apply Hset; auto; destruct Hs; congruence.
    + apply Hset; auto; destruct Hs; congruence.
  - destruct (node_tick_cases E n (do_op ev OTick n k cs) w) as [[_ Heq]|[Hs Heq]]; rewrite Heq.
    { intros m Hm; auto. }
    assert (Hnb : w_st w n <> BROKEN) by (intro Hb; apply Hs; unfold dead; auto).
    unfold tick_live. destruct (negb _).
    { simpl. apply Hset; auto. intros m Hm; auto. }
    match goal with |- context [do_op ev OTick n k cs ?x] =>
      assert (H : keeps_broken w (fst (do_op ev OTick n k cs x))) by
        (intros m Hm; apply Hd; auto);
      destruct (do_op ev OTick n k cs x) as [w3 [s|e|]] end; simpl in *; auto.
    match goal with |- context [push_outputs ?x n] =>
      assert (H4 : keeps_broken w x) by (intros m Hm; simpl; apply (Hset w w3 s); auto);
      pose proof (push_outputs_frame E n x) as [Hp _]; 
      assert (H5 : keeps_broken w (fst (push_outputs x n))) by
        (intros m Hm; rewrite Hp; apply H4; auto);
      destruct (push_outputs x n) as [w5 [u|e|]] end; simpl in *; dif; simpl; auto.
  - destruct (node_untick_cases E n (do_op ev OUntick n k cs) w) as [[_ Heq]|[Hs Heq]]; rewrite Heq.
    { intros m Hm; auto. }
    assert (Hnb : w_st w n <> BROKEN) by (intro Hb; apply Hs; unfold dead; auto).
    unfold untick_live. cbn zeta. pose proof (Hd OUntick w) as H.
    destruct (do_op ev OUntick n k cs w) as [w3 [s|e|]]; simpl in *; auto.
    dif; simpl; auto. intros m Hm. simpl. apply (Hset w w3 s); auto.
  - destruct (node_reset_cases E n (do_op ev OReset n k cs) w) as [[_ Heq]|[Hs Heq]]; rewrite Heq.
    { intros m Hm; auto. }
    assert (Hnb : w_st w n <> BROKEN) by (intro Hb; apply Hs; unfold dead; auto).
    unfold reset_live. cbn zeta.
    match goal with |- context [do_op ev OReset n k cs ?x] =>
      assert (H : keeps_broken w (fst (do_op ev OReset n k cs x))) by
        (intros m Hm; apply Hd; auto);
      destruct (do_op ev OReset n k cs x) as [w3 [s|e|]] end; simpl in *; auto.
    dif; simpl; auto.
Qed.

Lemma kb_tree : forall E (ev : env E) t o w, o <> OShutdown ->
  keeps_broken w (fst (call o (obj_of ev t) w)).
Proof.
  intros E ev. induction t as [n k name cs IH] using tree_ind'. intros o w Ho. simpl obj_of.
  apply kb_node; auto.
  intros c o' w' Ho' Hc. apply in_map_iff in Hc. destruct Hc as [t [Ht Hin]]. subst c.
  rewrite Forall_forall in IH. apply IH; auto.
Qed.

Lemma kb_history : forall E (ev : env E) w l w',
  history ev w l w' -> Forall (fun x => snd (fst x) <> OShutdown) l -> keeps_broken w w'.
Proof.
  intros E ev w l w' H. induction H; intros HF m Hm; auto.
  - inversion HF; subst. apply IHhistory; auto. simpl in *.
    pose proof (kb_tree E ev t o w H3) as K. rewrite H in K. apply K; auto.
  - apply IHhistory; auto. rewrite H. auto.
Qed.

(** ** C09: inputs *)

Lemma no_tick_without_inputs : forall E (ev : env E) n k name cs w,
  live (w_st w n) -> ~ inputs_set w n ->
  call OTick (make_obj ev n k name cs) w = (set_st w n BROKEN, Err EUnset).
Proof.
  intros E ev n k name cs w Hl Hi. rewrite call_make.
  destruct (node_tick_cases E n (do_op ev OTick n k cs) w) as [[Hd _]|[_ Heq]]; [contradiction|].
  rewrite Heq. unfold tick_live.
  destruct (forallb (fun kc => has_value (snd kc)) (w_ins w n)) eqn:Ef; [|reflexivity].
  exfalso. apply Hi. intros key c Hin. rewrite forallb_forall in Ef. specialize (Ef _ Hin).
  simpl in Ef. unfold has_value in Ef. destruct (c_val c); congruence.
Qed.

Lemma inputs_set_forallb : forall E (w : world E) n,
  inputs_set w n -> forallb (fun kc => has_value (snd kc)) (w_ins w n) = true.
Proof.
  intros E w n H. apply forallb_forall. intros [key c] Hin. simpl.
  specialize (H _ _ Hin). unfold has_value. destruct (c_val c); congruence.
Qed.

(** ** C05: shutdown *)

Lemma shutdown_children_ran : forall E (cs : list (obj E)) w e0 w' r,
  shutdown_children cs w e0 = (w', r) ->
  exists l, ran w l w' /\
    match r with
    | Ok e1 => map fst l = map (fun c => (c, OShutdown)) cs /\
        Forall (fun x => snd x <> Raise) l /\
        e1 = fold_left (fun e x => match snd x with Err e' => Some e' | _ => e end) l e0
    | Err _ => False
    | Raise => exists l0 c, l = l0 ++ [(c, OShutdown, Raise)] /\ Forall (fun x => snd x <> Raise) l0 /\
        exists rest, cs = map (fun x => fst (fst x)) l0 ++ c :: rest /\
                     map fst l0 = map (fun c => (c, OShutdown)) (map (fun x => fst (fst x)) l0)
    end.
Proof.
  induction cs as [|c rest IH]; simpl; intros w e0 w' r H.
  - inversion H; subst. exists []. split; [constructor|]. simpl. auto.
  - destruct (o_shutdown c w) as [w1 [s|e|]] eqn:Ec.
    + destruct (IH _ _ _ _ H) as [l [Hr Hl]]. exists ((c, OShutdown, Ok s) :: l).
      split; [econstructor; eauto|]. destruct r as [e1|e1|]; auto.
      * destruct Hl as [A [B C]]. simpl. rewrite A. repeat split; auto. constructor; simpl; auto. discriminate.
      * destruct Hl as [l0 [c0 [A [B [rest' [C D]]]]]]. subst l.
        exists ((c, OShutdown, Ok s) :: l0), c0. split; auto. split; [constructor; simpl; auto; discriminate|].
        exists rest'. simpl. split; congruence.
    + destruct (IH _ _ _ _ H) as [l [Hr Hl]]. exists ((c, OShutdown, Err e) :: l).
      split; [econstructor; eauto|]. destruct r as [e1|e1|]; auto.
      * destruct Hl as [A [B C]]. simpl. rewrite A. repeat split; auto. constructor; simpl; auto. discriminate.
      * destruct Hl as [l0 [c0 [A [B [rest' [C D]]]]]]. subst l.
        exists ((c, OShutdown, Err e) :: l0), c0. split; auto. split; [constructor; simpl; auto; discriminate|].
        exists rest'. simpl. split; congruence.
    + inversion H; subst. exists [(c, OShutdown, Raise)]. split; [econstructor; [exact Ec|constructor]|].
      exists [], c. simpl. split; auto. split; auto. exists rest. auto.
Qed.

(** The last error reported in a list of calls. *)
Definition last_error {E} (l : list (obj E * op * res state)) : option err :=
  fold_left (fun e x => match snd x with Err e' => Some e' | _ => e end) l None.
