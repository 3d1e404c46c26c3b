(** Proofs about leaf nodes: operations of a leaf, and Wait. *)
From Coq Require Import String ZArith Bool SpecFloat Arith Lia List.
From Verif Require Import Base ModelData ModelUtility ModelTree ModelLeaf SpecLeaf.
Import ListNotations.
Local Open Scope string_scope.
Local Open Scope list_scope.

Definition ins_for (o : op) (m : iomap) : iomap :=
  match o with
  | OSetup => map_io (fun c => flag_updated (reset_value c)) m
  | OReset => map_io flag_updated m
  | _ => m
  end.
Definition refused (o : op) (st : state) : Prop :=
  match o with
  | OSetup => st <> UNINITIALIZED /\ st <> SHUTDOWN
  | OTick | OUntick | OReset => st = UNINITIALIZED \/ st = SHUTDOWN \/ st = BROKEN
  | OShutdown => st = SHUTDOWN
  end.
Definition expected (o : op) : list state :=
  match o with
  | OSetup | OReset => [IDLE]
  | OTick => [RUNNING; SUCCEEDED; FAILED; ASSIGNED; UNASSIGNED]
  | OUntick => [IDLE; PAUSED]
  | OShutdown => [SHUTDOWN]
  end.
Definition outcome (o : op) (st st' : state) (ws : list (string * value)) (r0 r : res state) : Prop :=
  (r = Raise /\ st' = st /\ (r0 = Raise \/ ws <> [])) \/
  (st' = BROKEN /\ exists e, r = Err e) \/
  exists s, r0 = Ok s /\ st' = s /\
    (state_in s (expected o) = true /\ (r = Ok s \/ o = OTick /\ r = Raise) \/
     state_in s (expected o) = false /\ exists e, r = Err e).

Section Leaf.
Context {X : Type}.
Variables (f : leafcode X) (n : nid) (name : string).
Notation W := (world X).

Lemma out_set_all_same : forall l (w w' : W) r, out_set_all w n l = (w', r) ->
  w_st w' = w_st w /\ w_ext w' = w_ext w /\ w_ins w' = w_ins w.
Proof.
  induction l as [|[k v] l IH]; intros w w' r H; cbn in H.
  - injection H as <- <-. auto.
  - unfold out_set in H. destruct (dget k (w_outs w n)) as [c|]; cbn in H; [|injection H as <- <-; auto].
    destruct (set_value c v) as [c' [?|?|]]; cbn in H; try (injection H as <- <-; auto; fail).
    apply IH in H. exact H.
Qed.
Lemma push_conns_same : forall l (w w' : W) r, push_conns w n l = (w', r) -> w_st w' = w_st w /\ w_ext w' = w_ext w /\ w_outs w' = w_outs w.
Proof.
  induction l as [|k l IH]; intros w w' r H; cbn in H.
  - injection H as <- <-. auto.
  - repeat match type of H with
           | context [match ?x with _ => _ end] => destruct x
           | (_, _) = (_, _) => injection H as <- <-
           end; auto; apply IH in H; exact H.
Qed.
Lemma push_outgoing_same : forall l (w w' : W) r, push_outgoing w n l = (w', r) -> w_st w' = w_st w /\ w_ext w' = w_ext w /\ w_outs w' = w_outs w.
Proof.
  induction l as [|[k c] l IH]; intros w w' r H; cbn in H.
  - injection H as <- <-. auto.
  - repeat match type of H with
           | context [match ?x with _ => _ end] => destruct x
           | (_, _) = (_, _) => injection H as <- <-
           end; auto; apply IH in H; exact H.
Qed.
Lemma push_outputs_same : forall (w w' : W) r, push_outputs w n = (w', r) -> w_st w' = w_st w /\ w_ext w' = w_ext w /\ w_outs w' = w_outs w.
Proof.
  intros w w' r H. unfold push_outputs in H. destruct (w_conns w n) as [l|]; [|injection H as <- <-; auto].
  destruct (push_conns w n l) as [w1 [?|?|]] eqn:E; apply push_conns_same in E; cbn in H; try (injection H as <- <-; exact E).
  apply push_outgoing_same in H. destruct H as (?&?&?), E as (?&?&?). repeat split; congruence.
Qed.
Lemma leaf_act_same : forall o (w w' : W) r, leaf_act (leaf_env f) o n w = (w', r) ->
  exists x' ws r0, f o (w_st w n) (w_ins w n) (w_ext w) = (x', ws, r0) /\ w_ext w' = x' /\ w_st w' = w_st w /\ w_ins w' = w_ins w /\
    (r = r0 \/ (r = Raise /\ ws <> []) \/ exists e, r = Err e).
Proof.
  intros o w w' r H. unfold leaf_act in H. cbn in H. destruct (f o (w_st w n) (w_ins w n) (w_ext w)) as [[x' ws] r0].
  destruct (out_set_all (set_ext w x') n ws) as [w1 [u|e|]] eqn:E;
    assert (NE : snd (out_set_all (set_ext w x') n ws) = Raise -> ws <> []) by (intros A ->; discriminate);
    rewrite E in NE; cbn in NE;
    apply out_set_all_same in E; destruct E as (E1 & E2 & E3);
    cbn in H; injection H as <- <-; exists x', ws, r0; cbn in *; eauto 10.
Qed.
(** A leaf that reports success has written its outputs. *)
Lemma leaf_act_ok : forall o (w w' : W) s, leaf_act (leaf_env f) o n w = (w', Ok s) ->
  exists x' ws, f o (w_st w n) (w_ins w n) (w_ext w) = (x', ws, Ok s) /\
    out_set_all (set_ext w x') n ws = (w', Ok tt).
Proof.
  intros o w w' s H. unfold leaf_act in H. cbn in H. destruct (f o (w_st w n) (w_ins w n) (w_ext w)) as [[x' ws] r0].
  destruct (out_set_all (set_ext w x') n ws) as [w1 [[]|e|]] eqn:E; cbn in H; try discriminate.
  injection H as <- <-. eauto.
Qed.

Lemma outcome_of : forall o st st' ws r0 r1 r,
  (r1 = r0 \/ (r1 = Raise /\ ws <> []) \/ exists e, r1 = Err e) ->
  st' = match r1 with Ok s => s | Err _ => BROKEN | Raise => st end ->
  match r1 with
  | Ok s => if state_in s (expected o) then r = Ok s else exists e, r = Err e
  | Err _ => exists e, r = Err e
  | Raise => r = Raise
  end -> outcome o st st' ws r0 r.
Proof.
  intros o st st' ws r0 r1 r R S H. destruct r1 as [s|e|]; subst st'.
  - right; right. destruct R as [<-|[[R _]|[? R]]]; try discriminate.
    exists s. destruct (state_in s (expected o)); auto 8.
  - right; left. auto.
  - left. split; [exact H|]. split; [reflexivity|]. destruct R as [<-|[[_ R]|[? R]]]; try discriminate; auto.
Qed.

Lemma upd_same : forall A (g : nid -> A) i a, upd g i a i = a.
Proof. intros. unfold upd. rewrite Nat.eqb_refl. reflexivity. Qed.

Lemma leaf_call : forall o (w w' : W) r, call o (the_leaf f n name) w = (w', r) ->
  (refused o (w_st w n) /\ w' = w /\ (r = Err EGuard \/ o = OShutdown /\ w_st w n = SHUTDOWN /\ r = Ok SHUTDOWN)) \/
  (o = OTick /\ (~ refused OTick (w_st w n) /\ forallb (fun kc => has_value (snd kc)) (w_ins w n) = false) /\
   w' = set_st w n BROKEN /\ r = Err EUnset) \/
  (~ refused o (w_st w n) /\ exists x' ws r0,
     f o (w_st w n) (ins_for o (w_ins w n)) (w_ext w) = (x', ws, r0) /\ w_ext w' = x' /\
     (o <> OTick -> w_ins w' n = ins_for o (w_ins w n)) /\
     (o = OTick -> forall s, r = Ok s ->
        exists w2, out_set_all (set_ext (set_outs w n (map_io reset_updated (w_outs w n))) x') n ws = (w2, Ok tt) /\
          w_outs w' n = w_outs w2 n) /\
     outcome o (w_st w n) (w_st w' n) ws r0 r /\
     (o = OTick -> forallb (fun kc => has_value (snd kc)) (w_ins w n) = true)).
Proof.
  intros o w w' r H. destruct o; cbn -[state_in] in H;
  assert (RR : forall A B (a a' : A) (b b' : B), (a, b) = (a', b') -> a' = a /\ b' = b) by (intros ? ? ? ? ? ? HH; inversion HH; auto).
  - (* setup *)
    unfold node_setup in H. destruct (w_st w n) eqn:S;
      try (injection H as <- <-; left; cbn; repeat split; auto; congruence);
      (right; right; split; [cbn; intuition congruence|]);
      (destruct (do_setup _ _ _ _ _) as [w3 r3] eqn:D; cbn -[state_in] in D; apply leaf_act_same in D;
       destruct D as (x' & ws & r0 & F & E1 & E2 & E3 & R); cbn -[map_io] in F; cbn in E2; rewrite upd_same in F;
       cbn; rewrite S in F; exists x', ws, r0; split; [exact F|];
       assert (SN : w_st w3 n = w_st w n) by (rewrite E2; reflexivity);
       destruct r3 as [s|e|]; [destruct (state_in s [IDLE]) eqn:SI| |]; apply RR in H; destruct H as [-> ->]; (split; [exact E1|]);
       (split; [intros _; cbn; rewrite E3; cbn; apply upd_same|]); (split; [discriminate|]);
       (split; [|discriminate]; eapply outcome_of; [exact R|cbn -[state_in]; rewrite ?upd_same; congruence|cbn -[state_in]; rewrite ?SI; eauto])).
  - (* tick *)
    unfold node_tick in H.
    assert (G : refused OTick (w_st w n) \/ ~ refused OTick (w_st w n)) by (cbn; destruct (w_st w n); intuition congruence).
    destruct G as [G|G].
    { left. split; [exact G|]. destruct G as [G|[G|G]]; rewrite G in H; injection H as <- <-; auto. }
    right.
    assert (H' : (if negb (forallb (fun kc : string * container => has_value (snd kc)) (w_ins w n))
      then (set_st w n BROKEN, Err EUnset)
      else
        let w1 := set_outs w n (map_io reset_updated (w_outs w n)) in
        match do_tick (leaf_env f) n KLeaf [] w1 with
        | (w2, Err e) => (set_st w2 n BROKEN, Err e)
        | (w2, Raise) => (w2, Raise)
        | (w2, Ok s) =>
            let w3 := set_st w2 n s in
            let w4 := set_ins w3 n (map_io reset_updated (w_ins w3 n)) in
            if state_in s [RUNNING; SUCCEEDED; FAILED; ASSIGNED; UNASSIGNED] then
              match push_outputs w4 n with
              | (w5, Err e) => (set_st w5 n BROKEN, Err e)
              | (w5, Raise) => (w5, Raise)
              | (w5, Ok _) => (w5, Ok (w_st w5 n))
              end
            else (w4, Err EState)
        end) = (w', r)).
    { cbn in G. destruct (w_st w n); try (exfalso; tauto); exact H. }
    clear H. rename H' into H. destruct (forallb _ (w_ins w n)) eqn:FA; cbn [negb] in H; [right|left; injection H as <- <-; auto]. split; [exact G|].
    cbn -[state_in] in H. destruct (leaf_act _ _ _ _) as [w2 r2] eqn:D. assert (D0 := D). apply leaf_act_same in D.
    destruct D as (x' & ws & r0 & F & E1 & E2 & E3 & R). cbn in F, E2. exists x', ws, r0. split; [exact F|].
    assert (SN : w_st w2 n = w_st w n) by (rewrite E2; reflexivity).
    assert (NT : OTick <> OTick -> w_ins w' n = ins_for OTick (w_ins w n)) by congruence.
    destruct r2 as [s|e|].
    + destruct (state_in s _) eqn:SI.
      * destruct (push_outputs _ n) as [w5 r5] eqn:PU. apply push_outputs_same in PU. destruct PU as (P1 & P2 & P3). cbn in P1, P2, P3.
        assert (S5 : w_st w5 n = s) by (rewrite P1; apply upd_same).
        destruct R as [<-|[[R _]|[? R]]]; try discriminate.
        destruct r5; apply RR in H; destruct H as [-> ->]; (split; [cbn; congruence|]); (split; [exact NT|]);
          (split; [intros _ s' Hs; try discriminate;
                   (apply leaf_act_ok in D0; destruct D0 as (x0 & ws0 & F0 & D0);
                    cbn in F0; rewrite F in F0; injection F0 as <- <-; exists w2; split; [exact D0|rewrite P3; reflexivity])|]);
          (split; [|reflexivity]); unfold outcome; cbn [expected]; cbn -[state_in];
          rewrite ?upd_same, ?S5; eauto 12.
      * apply RR in H; destruct H as [-> ->]. split; [exact E1|]. split; [exact NT|]. split; [discriminate|].
        split; [|reflexivity]. eapply outcome_of; [exact R|cbn; rewrite upd_same; reflexivity|cbn -[state_in]; rewrite SI; eauto].
    + apply RR in H; destruct H as [-> ->]. split; [exact E1|]. split; [exact NT|]. split; [discriminate|].
      split; [|reflexivity]. eapply outcome_of; [exact R|cbn; rewrite upd_same; reflexivity|cbn; eauto].
    + apply RR in H; destruct H as [-> ->]. split; [exact E1|]. split; [exact NT|]. split; [discriminate|].
      split; [|reflexivity]. eapply outcome_of; [exact R|cbn; auto|cbn; eauto].
  - (* untick *)
    unfold node_untick in H.
    assert (G : refused OUntick (w_st w n) \/ ~ refused OUntick (w_st w n)) by (cbn; destruct (w_st w n); intuition congruence).
    destruct G as [G|G].
    { left. split; [exact G|]. destruct G as [G|[G|G]]; rewrite G in H; injection H as <- <-; auto. }
    right; right. split; [exact G|]. cbn -[state_in] in H.
    destruct (leaf_act (leaf_env f) OUntick n w) as [w1 r1] eqn:D. apply leaf_act_same in D.
    destruct D as (x' & ws & r0 & F & E1 & E2 & E3 & R). exists x', ws, r0. split; [exact F|].
    assert (SN : w_st w1 n = w_st w n) by (rewrite E2; reflexivity).
    assert (H' : match r1 with
                 | Err e => (set_st w1 n BROKEN, Err e)
                 | Raise => (w1, Raise)
                 | Ok s => if state_in s [IDLE; PAUSED]
                     then (set_outs (set_st w1 n s) n (map_io reset_updated (w_outs (set_st w1 n s) n)), Ok s)
                     else (set_st w1 n s, Err EState)
                 end = (w', r)).
    { cbn in G. destruct (w_st w n); try (exfalso; tauto); destruct r1; exact H. }
    clear H. rename H' into H. destruct r1 as [s|e|]; [destruct (state_in s _) eqn:SI| |]; apply RR in H; destruct H as [-> ->]; (split; [exact E1|]);
      (split; [intros _; cbn; rewrite E3; cbn; rewrite ?upd_same; reflexivity|]); (split; [discriminate|]);
      (split; [|discriminate]; eapply outcome_of; [exact R|cbn -[state_in]; rewrite ?upd_same; congruence|cbn -[state_in]; rewrite ?SI; eauto]).
  - (* reset *)
    unfold node_reset in H.
    assert (G : refused OReset (w_st w n) \/ ~ refused OReset (w_st w n)) by (cbn; destruct (w_st w n); intuition congruence).
    destruct G as [G|G].
    { left. split; [exact G|]. destruct G as [G|[G|G]]; rewrite G in H; injection H as <- <-; auto. }
    right; right. split; [exact G|].
    match type of H with context [do_reset ?a ?b ?c ?d ?w2] => destruct (do_reset a b c d w2) as [w1 r1] eqn:D end.
    cbn -[state_in] in D. apply leaf_act_same in D.
    destruct D as (x' & ws & r0 & F & E1 & E2 & E3 & R). cbn -[map_io] in F, E2. rewrite upd_same in F. exists x', ws, r0. split; [exact F|].
    assert (SN : w_st w1 n = w_st w n) by (rewrite E2; reflexivity).
    assert (H' : match r1 with
                 | Err e => (set_st w1 n BROKEN, Err e)
                 | Raise => (w1, Raise)
                 | Ok s => if state_in s [IDLE] then (set_st w1 n s, Ok s) else (set_st w1 n s, Err EState)
                 end = (w', r)).
    { cbn in G. destruct (w_st w n); try (exfalso; tauto); destruct r1; exact H. }
    clear H. rename H' into H. destruct r1 as [s|e|]; [destruct (state_in s _) eqn:SI| |]; apply RR in H; destruct H as [-> ->]; (split; [exact E1|]);
      (split; [intros _; cbn; rewrite E3; cbn; rewrite ?upd_same; reflexivity|]); (split; [discriminate|]);
      (split; [|discriminate]; eapply outcome_of; [exact R|cbn -[state_in]; rewrite ?upd_same; congruence|cbn -[state_in]; rewrite ?SI; eauto]).
  - (* shutdown *)
    unfold node_shutdown in H.
    assert (G : refused OShutdown (w_st w n) \/ ~ refused OShutdown (w_st w n)) by (cbn; destruct (w_st w n); intuition congruence).
    destruct G as [G|G].
    { left. split; [exact G|]. cbn in G. rewrite G in H. cbn in H. injection H as <- <-. rewrite G. auto. }
    right; right. split; [exact G|]. cbn -[state_in] in H.
    destruct (leaf_act (leaf_env f) OShutdown n w) as [w1 r1] eqn:D. apply leaf_act_same in D.
    destruct D as (x' & ws & r0 & F & E1 & E2 & E3 & R). exists x', ws, r0. split; [exact F|].
    assert (SN : w_st w1 n = w_st w n) by (rewrite E2; reflexivity).
    assert (H' : bind (match r1 with
                 | Err e => (set_st w1 n BROKEN, Err EState)
                 | Raise => (w1, Raise)
                 | Ok s => if state_in s [SHUTDOWN] then (set_st w1 n s, Ok s) else (set_st w1 n s, Err EState)
                 end) (fun _ w1 => (w1, Ok (w_st w1 n))) = (w', r)).
    { cbn in G. destruct (w_st w n); try (exfalso; tauto); destruct r1; exact H. }
    clear H. rename H' into H. destruct r1 as [s|e|]; [destruct (state_in s _) eqn:SI| |]; cbn in H; rewrite ?upd_same in H;
      apply RR in H; destruct H as [-> ->]; (split; [exact E1|]);
      (split; [intros _; cbn; rewrite E3; cbn; rewrite ?upd_same; reflexivity|]); (split; [discriminate|]);
      (split; [|discriminate]; eapply outcome_of; [exact R|cbn -[state_in]; rewrite ?upd_same; congruence|cbn -[state_in]; rewrite ?SI; eauto]).
Qed.
End Leaf.
