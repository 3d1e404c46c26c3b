(** Proofs about MemorySequence and MemoryFallback (C12, C13). *)
From Coq Require Import List String ZArith Bool Arith Lia.
From Verif Require Import Base ModelData ModelUtility ModelTree SpecTree SpecControl ProofsTree ProofsLife
  ProofsWhole ProofsControl.
Import ListNotations.
Local Open Scope nat_scope.

Section Memory.
Context {E : Type}.
Notation W := (world E).
Notation callrec := (obj E * op * res state)%type.

Lemma ran_own_of : forall n (w : W) l w', ran w l w' -> ran_own n w l w'.
Proof. intros n w l w' H. induction H; [apply ro_nil|eapply ro_call; eauto]. Qed.

Lemma ran_own_app : forall n (w : W) l1 w1 l2 w2,
  ran_own n w l1 w1 -> ran_own n w1 l2 w2 -> ran_own n w (l1 ++ l2) w2.
Proof. intros n w l1 w1 l2 w2 H. induction H; simpl; auto; intros; [eapply ro_mem|eapply ro_call]; eauto. Qed.

Lemma ran_own_mem : forall n (w : W) a, ran_own n w [] (set_mem w n a).
Proof. intros. eapply ro_mem. apply ro_nil. Qed.

(** Calls on objects that are blind for [n] do not change it. *)
Lemma blind_ran : forall n (w : W) l w', ran w l w' ->
  Forall (fun x => blind n (fst (fst x))) l -> w_st w' n = w_st w n /\ w_mem w' n = w_mem w n.
Proof.
  intros n w l w' H. induction H; intros HF; auto. inversion HF; subst. simpl in *.
  destruct (IHran H4) as [A B]. destruct (H3 o w) as [A' B']. rewrite H in A', B'. simpl in *.
  split; congruence.
Qed.

Lemma each_in : forall o (cs : list (obj E)) l r x, each o cs l r -> In x l -> In (fst (fst x)) cs.
Proof.
  assert (Hc : forall o (cs : list (obj E)) l x, calls_on o cs l -> In x l -> In (fst (fst x)) cs).
  { intros o cs l x [Hm _] Hx. assert (Hi : In (fst x) (map (fun c => (c, o)) cs)).
    { rewrite <- Hm. apply in_map. auto. }
    apply in_map_iff in Hi. destruct Hi as [c [Hc Hin]]. rewrite <- Hc. auto. }
  intros o cs l r x H Hx. destruct H; subst; eauto.
  - apply in_app_or in Hx. apply in_or_app. destruct Hx as [Hx|[<-|[]]]; [left; eauto|right; left; auto].
  - apply in_app_or in Hx. apply in_or_app. destruct Hx as [Hx|[<-|[]]]; [left; eauto|right; left; auto].
Qed.

Lemma for_each_blind : forall n o (cs : list (obj E)) w w' r,
  Forall (blind n) cs -> for_each (call o) cs w = (w', r) ->
  w_st w' n = w_st w n /\ w_mem w' n = w_mem w n.
Proof.
  intros n o cs w w' r Hb H. destruct (for_each_each _ _ _ _ _ H) as [l [Hr He]].
  eapply blind_ran; eauto. apply Forall_forall. intros x Hx.
  rewrite Forall_forall in Hb. apply Hb. eapply each_in; eauto.
Qed.

Lemma reset_phase_own : forall n (fin : bool) (P : Prop) cs (w w0 w' : W) b (k : W -> W * res state) rest,
  (fin = true <-> P) -> (fin = true -> w0 = mem_lrc w n 0) ->
  bind (if fin then for_each o_reset cs w0 else (w, Ok tt)) (fun _ w1 => k w1) = (w', b) ->
  (fin = false -> k w = (w', b) -> exists l1, ran_own n w l1 w' /\ rest l1) ->
  (forall w1 u, fin = true -> for_each o_reset cs w0 = (w1, Ok u) -> k w1 = (w', b) ->
     exists l1, ran_own n w1 l1 w' /\ rest l1) ->
  exists l, ran_own n w l w' /\ reset_first P cs l b rest.
Proof.
  intros n fin P cs w w0 w' b k rest HP Hw0 H Hk1 Hk2.
  destruct (fin_dec fin P HP) as [[Hf Hp]|[Hf Hp]]; rewrite Hf in *; simpl in H.
  - specialize (Hw0 eq_refl).
    destruct (for_each o_reset cs w0) as [w1 r0] eqn:Ef.
    destruct (for_each_each OReset _ _ _ _ Ef) as [l0 [Hr0 He0]].
    apply (ran_own_of n) in Hr0.
    assert (Hr0' : ran_own n w l0 w1) by (eapply ro_mem; rewrite Hw0 in Hr0; exact Hr0).
    destruct r0 as [u|e|]; simpl in H.
    + destruct (Hk2 w1 u eq_refl eq_refl H) as [l1 [Hr1 Hq]]. exists (l0 ++ l1). split; [eapply ran_own_app; eauto|].
      exists l0, (Ok u). split; [left; auto|]. exists l1. auto.
    + inversion H; subst. exists l0. split; auto. exists l0, (Err e). split; [left; auto|]. auto.
    + inversion H; subst. exists l0. split; auto. exists l0, Raise. split; [left; auto|]. auto.
  - destruct (Hk1 eq_refl H) as [l1 [Hr1 Hq]]. exists l1. split; auto. exists [], (Ok tt). split; [right; auto|]. exists l1. auto.
Qed.

(** Where a run stands after the calls [l] of a tick that began at child [p]. *)
Definition stands (p : nat) (l : list callrec) : nat := p + (List.length l - 1).

Lemma memory_sequence_loop_plan : forall n (cs : list (obj E)) index w w' b,
  Forall (blind n) cs -> memory_sequence_loop n index cs w = (w', b) ->
  exists l, ran_own n w l w' /\ sequence_plan (skipn (a_lrc (w_mem w n) - index) cs) l b /\
    (b = Ok RUNNING -> a_lrc (w_mem w' n) = stands (Nat.max index (a_lrc (w_mem w n))) l).
Proof.
  intros n cs. induction cs as [|c rest IH]; intros index w w' b Hb H.
  - simpl in H. inversion H; subst. exists []. rewrite skipn_nil. split; [apply ro_nil|].
    split; [apply scan_all; simpl; auto|discriminate].
  - inversion Hb as [|? ? Hbc Hbr]; subst. cbn [memory_sequence_loop] in H.
    destruct (Nat.ltb index (a_lrc (w_mem w n))) eqn:El.
    + apply Nat.ltb_lt in El. destruct (IH (S index) w w' b Hbr H) as [l [Hr [Hp Hs]]].
      exists l. split; auto.
      replace (a_lrc (w_mem w n) - index) with (S (a_lrc (w_mem w n) - S index)) by lia. cbn [skipn].
      split; auto. intros Hb'. rewrite (Hs Hb'). unfold stands. lia.
    + apply Nat.ltb_ge in El. replace (a_lrc (w_mem w n) - index) with 0 by lia. simpl.
      replace (Nat.max index (a_lrc (w_mem w n))) with index by lia.
      destruct (o_tick c w) as [w1 [s|e|]] eqn:Ec; simpl in H.
      * destruct (Hbc OTick w) as [Hst Hmem]. simpl in Hst, Hmem. rewrite Ec in Hst, Hmem. simpl in Hst, Hmem.
        destruct (state_eqb_spec s SUCCEEDED) as [->|Hs]; simpl in H.
        -- destruct (IH _ _ _ _ Hbr H) as [l [Hr [Hp Hpos]]]. exists ((c, OTick, Ok SUCCEEDED) :: l).
           split; [eapply ro_call; [exact Ec|]; eauto|]. rewrite Hmem in Hp, Hpos.
           replace (a_lrc (w_mem w n) - S index) with 0 in Hp by lia. simpl in Hp.
           split; [apply scan_cons; auto|]. intros Hrun. rewrite (Hpos Hrun). unfold stands.
           destruct l as [|x l']; [|cbn [List.length]; lia].
           (* an empty call list cannot end RUNNING *)
           rewrite Hrun in Hp. exfalso. inversion Hp; destruct l; simpl in *; try discriminate; destruct l0; discriminate.
        -- destruct (state_eqb_spec s RUNNING) as [->|Hr]; simpl in H.
           ++ inversion H; subst. exists [(c, OTick, Ok RUNNING)].
              split; [eapply ro_call; [exact Ec|]; eauto; apply ran_own_mem|].
              split; [apply (scan_keep _ _ _ (c :: rest) [] c rest []); auto|].
              intros _. simpl. rewrite upd_eq. simpl. unfold stands. simpl. lia.
           ++ apply bind_then in H; [|exact w]. destruct H as [r2 [Hf ->]].
              destruct (for_each_each OUntick _ _ _ _ Hf) as [l2 [Hr2 He2]].
              exists ((c, OTick, Ok s) :: l2). split; [eapply ro_call; [exact Ec|]; eauto; apply ran_own_of; auto|].
              split; [apply (scan_abandon _ _ _ (c :: rest) [] c rest []); auto|].
              intros Hrun. destruct r2; simpl in Hrun; congruence.
      * inversion H; subst. exists [(c, OTick, Err e)]. split; [eapply ro_call; [exact Ec|]; apply ro_nil|].
        split; [apply (scan_fail _ _ _ (c :: rest) [] c rest []); auto; discriminate|discriminate].
      * inversion H; subst. exists [(c, OTick, Raise)]. split; [eapply ro_call; [exact Ec|]; apply ro_nil|].
        split; [apply (scan_fail _ _ _ (c :: rest) [] c rest []); auto; discriminate|discriminate].
Qed.

Lemma memory_fallback_loop_plan : forall n (cs : list (obj E)) index w w' b,
  Forall (blind n) cs -> memory_fallback_loop n index cs w = (w', b) ->
  exists l, ran_own n w l w' /\ fallback_plan (skipn (a_lrc (w_mem w n) - index) cs) l b /\
    (b = Ok RUNNING -> a_lrc (w_mem w' n) = stands (Nat.max index (a_lrc (w_mem w n))) l).
Proof.
  intros n cs. induction cs as [|c rest IH]; intros index w w' b Hb H.
  - simpl in H. inversion H; subst. exists []. rewrite skipn_nil. split; [apply ro_nil|].
    split; [apply scan_all; simpl; auto|discriminate].
  - inversion Hb as [|? ? Hbc Hbr]; subst. cbn [memory_fallback_loop] in H.
    destruct (Nat.ltb index (a_lrc (w_mem w n))) eqn:El.
    + apply Nat.ltb_lt in El. destruct (IH (S index) w w' b Hbr H) as [l [Hr [Hp Hs]]].
      exists l. split; auto.
      replace (a_lrc (w_mem w n) - index) with (S (a_lrc (w_mem w n) - S index)) by lia. cbn [skipn].
      split; auto. intros Hb'. rewrite (Hs Hb'). unfold stands. lia.
    + apply Nat.ltb_ge in El. replace (a_lrc (w_mem w n) - index) with 0 by lia. cbn [skipn].
      replace (Nat.max index (a_lrc (w_mem w n))) with index by lia.
      destruct (o_tick c w) as [w1 [s|e|]] eqn:Ec; cbn [bind] in H.
      * destruct (Hbc OTick w) as [Hst Hmem]. simpl in Hst, Hmem. rewrite Ec in Hst, Hmem. simpl in Hst, Hmem.
        rewrite state_in2 in H. destruct (state_eqb_spec s SUCCEEDED) as [->|Hs]; simpl in H.
        -- apply bind_then in H; [|exact w]. destruct H as [r2 [Hf ->]].
           destruct (for_each_each OUntick _ _ _ _ Hf) as [l2 [Hr2 He2]].
           exists ((c, OTick, Ok SUCCEEDED) :: l2). split; [eapply ro_call; [exact Ec|]; eauto; apply ran_own_of; auto|].
           split; [apply (scan_abandon _ _ _ (c :: rest) [] c rest []); auto; intros [A _]; congruence|].
           intros Hrun. destruct r2; simpl in Hrun; congruence.
        -- destruct (state_eqb_spec s RUNNING) as [->|Hr]; simpl in H.
           ++ inversion H; subst. exists [(c, OTick, Ok RUNNING)].
              split; [eapply ro_call; [exact Ec|]; eauto; apply ran_own_mem|].
              split; [apply (scan_keep _ _ _ (c :: rest) [] c rest []); auto; intros [_ A]; congruence|].
              intros _. simpl. rewrite upd_eq. simpl. unfold stands. simpl. lia.
           ++ destruct (IH _ _ _ _ Hbr H) as [l [Hl [Hp Hpos]]]. exists ((c, OTick, Ok s) :: l).
              split; [eapply ro_call; [exact Ec|]; eauto|]. rewrite Hmem in Hp, Hpos.
              replace (a_lrc (w_mem w n) - S index) with 0 in Hp by lia. simpl in Hp.
              split; [apply scan_cons; auto|]. intros Hrun. rewrite (Hpos Hrun). unfold stands.
              destruct l as [|x l']; [|cbn [List.length]; lia].
              rewrite Hrun in Hp. exfalso. inversion Hp; destruct l; simpl in *; try discriminate; destruct l0; discriminate.
      * inversion H; subst. exists [(c, OTick, Err e)]. split; [eapply ro_call; [exact Ec|]; apply ro_nil|].
        split; [apply (scan_fail _ _ _ (c :: rest) [] c rest []); auto; discriminate|discriminate].
      * inversion H; subst. exists [(c, OTick, Raise)]. split; [eapply ro_call; [exact Ec|]; apply ro_nil|].
        split; [apply (scan_fail _ _ _ (c :: rest) [] c rest []); auto; discriminate|discriminate].
Qed.

Definition plan_of (k : kind) : list (obj E) -> list callrec -> res state -> Prop :=
  match k with KMemorySequence => sequence_plan | _ => fallback_plan end.
Definition mem_kind (k : kind) : Prop := k = KMemorySequence \/ k = KMemoryFallback.

(** The child at which the next tick begins. *)
Definition start_at (w : W) (n : nid) : nat :=
  if finished (w_st w n) then 0 else a_lrc (w_mem w n).

Lemma memory_tick_spec : forall k (ev : env E) n name cs w w' r,
  mem_kind k -> live (w_st w n) -> inputs_set w n -> Forall (blind n) cs ->
  call OTick (make_obj ev n k name cs) w = (w', r) ->
  exists l b, ticks_own n w l b w' r /\
    reset_first (has_result (w_st w n)) cs l b (fun l1 => plan_of k (skipn (start_at w n) cs) l1 b /\
      (b = Ok RUNNING -> a_lrc (w_mem w' n) = stands (start_at w n) l1)).
Proof.
  intros k ev n name cs w w' r Hk Hl Hi Hb H. apply tick_api in H; auto. destruct H as [w2 [b [Hd He]]].
  assert (Hmem : w_mem w' n = w_mem w2 n) by (destruct He as [[_ [Hm _]] _]; apply Hm).
  assert (Hx : exists l, ran_own n (begin_tick n w) l w2 /\
     reset_first (has_result (w_st w n)) cs l b (fun l1 => plan_of k (skipn (start_at w n) cs) l1 b /\
       (b = Ok RUNNING -> a_lrc (w_mem w2 n) = stands (start_at w n) l1))).
  { assert (Hloop : exists loop, 
       (forall w1 b1 w3, loop 0 cs w1 = (w3, b1) -> exists l, ran_own n w1 l w3 /\
          plan_of k (skipn (a_lrc (w_mem w1 n)) cs) l b1 /\
          (b1 = Ok RUNNING -> a_lrc (w_mem w3 n) = stands (a_lrc (w_mem w1 n)) l)) /\
       (cs <> [] -> do_tick ev n k cs (begin_tick n w) =
          bind (if finished (w_st (begin_tick n w) n) then for_each o_reset cs (mem_lrc (begin_tick n w) n 0)
                else (begin_tick n w, Ok tt)) (fun _ w1 => loop 0 cs w1))).
    { destruct Hk; subst k; simpl.
      - exists (memory_sequence_loop n). split.
        + intros w1 b1 w3 H1. destruct (memory_sequence_loop_plan n cs 0 w1 w3 b1 Hb H1) as [l [A [B C]]].
          exists l. rewrite Nat.sub_0_r in B. simpl in C. auto.
        + intros Hne. unfold memory_sequence_tick. destruct cs; [congruence|reflexivity].
      - exists (memory_fallback_loop n). split.
        + intros w1 b1 w3 H1. destruct (memory_fallback_loop_plan n cs 0 w1 w3 b1 Hb H1) as [l [A [B C]]].
          exists l. rewrite Nat.sub_0_r in B. simpl in C. auto.
        + intros Hne. unfold memory_fallback_tick. destruct cs; [congruence|reflexivity]. }
    destruct Hloop as [loop [Hloop Hdo]].
    destruct cs as [|c cs'].
    - assert (Hb2 : w2 = begin_tick n w /\ b = match k with KMemorySequence => Ok SUCCEEDED | _ => Ok FAILED end).
      { destruct Hk; subst k; simpl in Hd; inversion Hd; auto. }
      destruct Hb2 as [-> ->]. exists []. split; [apply ro_nil|].
      assert (Hpl : plan_of k (skipn (start_at w n) []) []
                      match k with KMemorySequence => Ok SUCCEEDED | _ => Ok FAILED end).
      { rewrite skipn_nil. destruct Hk; subst k; apply scan_all; auto. }
      destruct (fin_dec _ _ (finished_spec (w_st w n))) as [[_ Hp]|[_ Hp]].
      + exists [], (Ok tt). split; [left; split; auto; constructor; split; auto|].
        exists []. split; auto. split; auto. destruct Hk; subst k; discriminate.
      + exists [], (Ok tt). split; [right; auto|]. exists []. split; auto. split; auto. destruct Hk; subst k; discriminate.
    - rewrite Hdo in Hd by discriminate. unfold start_at. change (w_st (begin_tick n w) n) with (w_st w n) in Hd.
      eapply reset_phase_own in Hd; eauto.
      + apply finished_spec.
      + intros Hf Hlp. rewrite Hf. apply Hloop in Hlp. exact Hlp.
      + intros w1 u Hf Hfe Hlp. rewrite Hf. apply Hloop in Hlp.
        destruct (for_each_blind n OReset _ _ _ _ Hb Hfe) as [_ Hm].
        rewrite Hm in Hlp. simpl in Hlp. rewrite upd_eq in Hlp. simpl in Hlp. exact Hlp. }
  destruct Hx as [l [Hr Hp]]. exists l, b. split; [exists w2; auto|]. rewrite Hmem. exact Hp.
Qed.

(** A result of [Ok] means that the outcome of the class-specific code was it. *)
Lemma end_tick_ok : forall n b (w2 w' : W) s, end_tick n b w2 w' (Ok s) -> b = Ok s /\ w_st w' n = s /\ op_states OTick s.
Proof.
  intros n b w2 w' s [_ H]. destruct b as [s'|e|].
  - destruct H as [[A [B C]]|[[A [B C]]|[A [B [[e [C _]]|C]]]]]; try discriminate. inversion C; subst. auto.
  - destruct H; discriminate.
  - discriminate.
Qed.

Lemma plan_last_running : forall k (cs : list (obj E)) l, mem_kind k -> plan_of k cs l (Ok RUNNING) ->
  exists a c rest l0, cs = a ++ c :: rest /\ l = l0 ++ [(c, OTick, Ok RUNNING)] /\
    map fst l0 = map (fun c => (c, OTick)) a /\
    (k = KMemorySequence -> Forall (fun x => snd x = Ok SUCCEEDED) l0).
Proof.
  intros k cs l Hk Hp. destruct Hk; subst k; simpl in Hp; remember (Ok RUNNING) as b eqn:Eb;
    destruct Hp as [l Hm HF|a c rest l b Hc Hm HF Hb|a c rest l s Hc Hm HF Hg Ha|a c rest l s l2 r2 Hc Hm HF Hg Ha He];
    try discriminate; try (exfalso; eapply Hb; exact Eb).
  - inversion Eb; subst s. exists a, c, rest, l. repeat split; auto. intros _.
    eapply Forall_impl; [|exact HF]. simpl. intros x [s [A B]]. subst. auto.
  - destruct r2; simpl in Eb; inversion Eb. exfalso. auto.
  - inversion Eb; subst s. exists a, c, rest, l. repeat split; auto. discriminate.
  - destruct r2; simpl in Eb; inversion Eb. congruence.
Qed.

(** After RUNNING the next tick continues with the child that was running. *)
Lemma memory_resume : forall k (ev : env E) n name cs w w1 w2 w3 r,
  mem_kind k -> Forall (blind n) cs ->
  live (w_st w n) -> inputs_set w n -> call OTick (make_obj ev n k name cs) w = (w1, Ok RUNNING) ->
  meanwhile n w1 w2 -> inputs_set w2 n -> call OTick (make_obj ev n k name cs) w2 = (w3, r) ->
  exists i c l1 l2 b, nth_error cs i = Some c /\
    ticks_own n w (l1 ++ [(c, OTick, Ok RUNNING)]) (Ok RUNNING) w1 (Ok RUNNING) /\
    ticks_own n w2 l2 b w3 r /\ plan_of k (skipn i cs) l2 b.
Proof.
  intros k ev n name cs w w1 w2 w3 r Hk Hb Hl Hi H1 [Hst Hmem] Hi2 H2.
  destruct (memory_tick_spec _ _ _ _ _ _ _ _ Hk Hl Hi Hb H1) as [l [b [Ht Hf]]].
  assert (Hb1 : b = Ok RUNNING /\ w_st w1 n = RUNNING).
  { destruct Ht as [w4 [_ He]]. destruct (end_tick_ok _ _ _ _ _ He) as [A [B _]]. auto. }
  destruct Hb1 as [-> Hrun].
  assert (Hl2 : live (w_st w2 n)) by (rewrite Hst, Hrun; intros [A|[A|A]]; discriminate).
  destruct (memory_tick_spec _ _ _ _ _ _ _ _ Hk Hl2 Hi2 Hb H2) as [l2 [b2 [Ht2 Hf2]]].
  destruct Hf as [l0 [r0 [_ Hr0]]]. destruct r0 as [u|e|]; try (destruct Hr0; discriminate).
  destruct Hr0 as [l1 [-> [Hp Hpos]]]. specialize (Hpos eq_refl).
  destruct (plan_last_running _ _ _ Hk Hp) as [a [c [rest [l3 [Hsk [-> [Hm3 _]]]]]]].
  exists (start_at w n + List.length a), c, (l0 ++ l3), l2, b2. split.
  - assert (Hn : nth_error (skipn (start_at w n) cs) (List.length a) = Some c).
    { rewrite Hsk. rewrite nth_error_app2 by lia. rewrite Nat.sub_diag. reflexivity. }
    rewrite <- Hn. clear. revert cs. generalize (start_at w n). induction n0; intros cs; auto.
    destruct cs; simpl; auto. destruct (List.length a); auto.
  - split; [rewrite <- app_assoc; exact Ht|]. split; auto.
    assert (Hs2 : start_at w2 n = start_at w n + List.length a).
    { unfold start_at at 1. rewrite Hst, Hrun. simpl. rewrite Hmem, Hpos. unfold stands.
      rewrite app_length. simpl. assert (Hlen : List.length l3 = List.length a).
      { rewrite <- (map_length fst l3), Hm3, map_length. reflexivity. } lia. }
    destruct Hf2 as [l4 [r4 [Hcase Hr4]]]. destruct Hcase as [[Hh _]|[_ [-> ->]]].
    + exfalso. rewrite Hst, Hrun in Hh. destruct Hh; discriminate.
    + destruct Hr4 as [l5 [-> [Hp5 _]]]. rewrite Hs2 in Hp5. simpl. exact Hp5.
Qed.

(** When memory is fresh, a tick begins at the first child without resets. *)
Lemma memory_fresh : forall k (ev : env E) n name cs w w' r,
  mem_kind k -> Forall (blind n) cs -> live (w_st w n) -> inputs_set w n ->
  ~ has_result (w_st w n) -> a_lrc (w_mem w n) = 0 ->
  call OTick (make_obj ev n k name cs) w = (w', r) ->
  exists l b, ticks_own n w l b w' r /\ plan_of k cs l b.
Proof.
  intros k ev n name cs w w' r Hk Hb Hl Hi Hn Hm H.
  destruct (memory_tick_spec _ _ _ _ _ _ _ _ Hk Hl Hi Hb H) as [l [b [Ht Hf]]].
  exists l, b. split; auto. destruct Hf as [l4 [r4 [Hcase Hr4]]]. destruct Hcase as [[Hh _]|[_ [-> ->]]]; [contradiction|].
  destruct Hr4 as [l5 [-> [Hp5 _]]]. unfold start_at in Hp5. rewrite Hm in Hp5.
  destruct (finished (w_st w n)); simpl in Hp5; exact Hp5.
Qed.

Lemma each_then_own : forall n o (cs : list (obj E)) s0 w w' r,
  Forall (blind n) cs -> each_then (call o) cs s0 w = (w', r) ->
  w_mem w' n = w_mem w n /\ (forall s, r = Ok s -> s = s0).
Proof.
  intros n o cs s0 w w' r Hb H. unfold each_then in H. apply bind_then in H; [|exact w]. destruct H as [r2 [Hf ->]].
  destruct (for_each_blind n o _ _ _ _ Hb Hf) as [_ A]. split; auto.
  intros s Hs. destruct r2; simpl in Hs; congruence.
Qed.

(** Setup, reset (and untick of MemorySequence) forget the position. *)
Lemma memory_forget : forall k (ev : env E) n name cs o w w' s,
  mem_kind k -> Forall (blind n) cs ->
  o = OSetup \/ o = OReset \/ (o = OUntick /\ k = KMemorySequence) ->
  call o (make_obj ev n k name cs) w = (w', Ok s) ->
  a_lrc (w_mem w' n) = 0 /\ w_st w' n = IDLE.
Proof.
  intros k ev n name cs o w w' s Hk Hb Ho H.
  assert (Hd : forall w1 w2 r, do_op ev o n k cs w1 = (w2, r) -> a_lrc (w_mem w2 n) = 0 /\ forall s', r = Ok s' -> s' = IDLE).
  { intros w1 w2 r Hd. destruct Ho as [->|[->|[-> ->]]].
    - destruct Hk; subst k; simpl in Hd; apply (each_then_own n OSetup) in Hd; auto;
        destruct Hd as [A B]; rewrite A; simpl; rewrite upd_eq; auto.
    - destruct Hk; subst k; simpl in Hd; apply (each_then_own n OReset) in Hd; auto;
        destruct Hd as [A B]; rewrite A; simpl; rewrite upd_eq; auto.
    - simpl in Hd; apply (each_then_own n OUntick) in Hd; auto;
        destruct Hd as [A B]; rewrite A; simpl; rewrite upd_eq; auto. }
  apply ok_api in H; [|tauto]. destruct H as [w2 [H1 [_ [H2 [H3 _]]]]].
  destruct (Hd _ _ _ H1) as [A B]. rewrite H2, H3, upd_eq. auto.
Qed.

Lemma memory_restart : forall k (ev : env E) n name cs o w w1 w2 w3 s r,
  mem_kind k -> Forall (blind n) cs ->
  o = OSetup \/ o = OReset \/ (o = OUntick /\ k = KMemorySequence) ->
  call o (make_obj ev n k name cs) w = (w1, Ok s) -> meanwhile n w1 w2 -> inputs_set w2 n ->
  call OTick (make_obj ev n k name cs) w2 = (w3, r) ->
  exists l b, ticks_own n w2 l b w3 r /\ plan_of k cs l b.
Proof.
  intros k ev n name cs o w w1 w2 w3 s r Hk Hb Ho H [Hst Hm] Hi H2.
  destruct (memory_forget _ _ _ _ _ _ _ _ _ Hk Hb Ho H) as [A B].
  eapply memory_fresh; eauto.
  - rewrite Hst, B. intros [X|[X|X]]; discriminate.
  - rewrite Hst, B. intros [X|X]; discriminate.
  - rewrite Hm. exact A.
Qed.

Lemma memory_after_result : forall k (ev : env E) n name cs w w' r,
  mem_kind k -> Forall (blind n) cs -> has_result (w_st w n) -> inputs_set w n ->
  call OTick (make_obj ev n k name cs) w = (w', r) ->
  exists l b, ticks_own n w l b w' r /\ reset_first True cs l b (fun l1 => plan_of k cs l1 b).
Proof.
  intros k ev n name cs w w' r Hk Hb Hh Hi H.
  assert (Hl : live (w_st w n)) by (intros [A|[A|A]]; destruct Hh; congruence).
  destruct (memory_tick_spec _ _ _ _ _ _ _ _ Hk Hl Hi Hb H) as [l [b [Ht Hf]]].
  exists l, b. split; auto. destruct Hf as [l4 [r4 [Hcase Hr4]]]. destruct Hcase as [[_ He]|[Hc _]]; [|contradiction].
  exists l4, r4. split; [left; auto|]. destruct r4; auto. destruct Hr4 as [l5 [-> [Hp5 _]]]. exists l5. split; auto.
  unfold start_at in Hp5. rewrite (proj2 (finished_spec _) Hh) in Hp5. exact Hp5.
Qed.

(** ** A run of MemorySequence that ends with SUCCEEDED *)



Lemma succ_calls_app : forall l1 l2 : list callrec, succ_calls (l1 ++ l2) = succ_calls l1 ++ succ_calls l2.
Proof.
  intros. unfold succ_calls. induction l1; simpl; auto. destruct a as [[c []] [[]| |]]; simpl; rewrite IHl1; auto.
Qed.

Lemma succ_all : forall a (l0 : list callrec), map fst l0 = map (fun c : obj E => (c, OTick)) a ->
  Forall (fun x => snd x = Ok SUCCEEDED) l0 -> succ_calls l0 = map (fun c => (c, OTick)) a.
Proof.
  intros a l0 H HF. rewrite <- H. unfold succ_calls. f_equal. revert a H.
  induction HF as [|x l Hx HF IH]; intros a H; auto. destruct a as [|c a']; [discriminate|].
  simpl in H. inversion H; subst. destruct x as [[c' o'] r']. simpl in *. inversion H1; subst.
  f_equal. eapply IH; eauto.
Qed.

Lemma reset_no_succ : forall (cs : list (obj E)) l r, each OReset cs l r -> succ_calls l = [].
Proof.
  intros cs l r He.
  assert (Hc : forall cs0 (l : list callrec), calls_on OReset cs0 l -> succ_calls l = []).
  { clear. intros cs0 l [Hm _]. revert cs0 Hm. induction l as [|[[c o'] x] r IH]; intros cs0 Hm; auto.
    destruct cs0; [discriminate|]. simpl in Hm. inversion Hm; subst. unfold succ_calls in *. simpl. eapply IH; eauto. }
  destruct He; eauto; rewrite succ_calls_app; erewrite Hc; eauto.
Qed.

Lemma sequence_run : forall (ev : env E) n name cs w0 run w r w',
  Forall (blind n) cs ->
  tick_run (make_obj ev n KMemorySequence name cs) w0 (run ++ [(w, r, w')]) ->
  live (w_st w0 n) -> r = Ok SUCCEEDED ->
  Forall (fun x => snd (fst x) = Ok RUNNING) run ->
  exists ls, Forall2 (tick_calls n) (run ++ [(w, r, w')]) ls /\
    succ_calls (List.concat ls) = map (fun c => (c, OTick)) (skipn (start_at w0 n) cs).
Proof.
  intros ev n name cs w0 run w r w' Hb Hrun. remember (run ++ [(w, r, w')]) as recs eqn:Er.
  revert run Er. induction Hrun as [w00|w00 wa ra wa' l [Hst Hmem] Hi Hc Hrun IH]; intros run Er Hl Hr HF.
  - destruct run; discriminate.
  - simpl in Hst, Hmem, Hi. rewrite <- Hst in Hl.
    destruct (memory_tick_spec KMemorySequence _ _ _ _ _ _ _ (or_introl eq_refl) Hl Hi Hb Hc) as [lc [b [Ht Hf]]].
    assert (Hok : exists s, ra = Ok s).
    { destruct run as [|x run']; simpl in Er; inversion Er as [[Ew El]].
      - exists SUCCEEDED. congruence.
      - pose proof (Forall_inv HF) as Hx. rewrite <- Ew in Hx. simpl in Hx. eauto. }
    destruct Hok as [sa ->].
    assert (Hw : w_st wa' n = sa /\ b = Ok sa).
    { destruct Ht as [w4 [_ He]]. destruct (end_tick_ok _ _ _ _ _ He) as [A [B _]]. auto. }
    destruct Hw as [Hw ->].
    destruct Hf as [l4 [r4 [Hcase Hr4]]].
    assert (Hx : r4 = Ok tt /\ succ_calls l4 = []).
    { destruct Hcase as [[_ He]|[_ [-> ->]]]; auto.
      split; [destruct r4 as [[]|e|]; auto; destruct Hr4; discriminate|]. eapply reset_no_succ; eauto. }
    destruct Hx as [-> Hl4]. destruct Hr4 as [l5 [-> [Hp Hpos]]].
    assert (Hsa : start_at wa n = start_at w00 n).
    { unfold start_at. rewrite Hmem, Hst. auto. }
    rewrite Hsa in *.
    destruct run as [|x run'].
    + simpl in Er. inversion Er; subst. rewrite H1 in *. exists [l4 ++ l5]. split.
      * constructor; [|constructor]. exists (Ok SUCCEEDED). exact Ht.
      * simpl. rewrite app_nil_r, succ_calls_app, Hl4. simpl.
        remember (Ok SUCCEEDED) as b eqn:Eb.
        destruct Hp as [l Hm Hg|a c rest l b Hc' Hm Hg Hb'|a c rest l s Hc' Hm Hg1 Hg Ha|a c rest l s l2 r2 Hc' Hm Hg1 Hg Ha He'].
        -- apply succ_all; auto. eapply Forall_impl; [|exact Hg]. simpl. intros x [s [A B]]. subst. auto.
        -- exfalso. eapply Hb'; exact Eb.
        -- exfalso. inversion Eb. auto.
        -- exfalso. destruct r2; simpl in Eb; inversion Eb. auto.
    + simpl in Er. inversion Er; subst x l. inversion HF as [|? ? Hx HF']; subst. simpl in Hx. inversion Hx as [Hx'].
      rewrite Hx' in *. specialize (Hpos eq_refl).
      destruct (IH run' eq_refl) as [ls [HF2 Hs]]; auto.
      { intros [A|[A|A]]; discriminate. }
      exists ((l4 ++ l5) :: ls). split.
      * simpl. constructor; auto. exists (Ok RUNNING). exact Ht.
      * simpl. rewrite succ_calls_app, succ_calls_app, Hl4, Hs. simpl.
        destruct (plan_last_running KMemorySequence _ _ (or_introl eq_refl) Hp) as [a [c [rest [l0 [Hsk [-> [Hm0 HS]]]]]]].
        rewrite succ_calls_app. change (succ_calls [(c, OTick, Ok RUNNING)]) with (@nil (obj E * op)). rewrite app_nil_r.
        rewrite (succ_all a l0); auto.
        assert (Hsw : start_at wa' n = a_lrc (w_mem wa' n)) by (unfold start_at; rewrite Hx'; reflexivity).
        rewrite Hsw, Hpos. unfold stands. rewrite app_length. simpl.
        assert (Hlen : List.length l0 = List.length a).
        { rewrite <- (map_length fst l0), Hm0, map_length. reflexivity. }
        replace (start_at w00 n + (List.length l0 + 1 - 1)) with (start_at w00 n + List.length a) by lia.
        rewrite <- map_app. f_equal.
        assert (Hsk2 : skipn (start_at w00 n + List.length a) cs = c :: rest).
        { assert (Hss : forall p q (l : list (obj E)), skipn (p + q) l = skipn q (skipn p l)).
          { clear. induction p; intros q l; auto. destruct l; simpl; auto. rewrite skipn_nil. auto. }
          rewrite Hss, Hsk. rewrite skipn_app, skipn_all, Nat.sub_diag. reflexivity. }
        rewrite Hsk2, Hsk. reflexivity.
Qed.

(** A run that starts over: after setup, reset, untick or a result. *)
Lemma sequence_run_fresh : forall (ev : env E) n name cs w0 run w w',
  Forall (blind n) cs ->
  (has_result (w_st w0 n) \/ exists o wb s,
     (o = OSetup \/ o = OReset \/ o = OUntick) /\
     call o (make_obj ev n KMemorySequence name cs) wb = (w0, Ok s)) ->
  tick_run (make_obj ev n KMemorySequence name cs) w0 (run ++ [(w, Ok SUCCEEDED, w')]) ->
  Forall (fun x => snd (fst x) = Ok RUNNING) run ->
  exists ls, Forall2 (tick_calls n) (run ++ [(w, Ok SUCCEEDED, w')]) ls /\
    succ_calls (List.concat ls) = map (fun c => (c, OTick)) cs.
Proof.
  intros ev n name cs w0 run w w' Hb Hs Hrun HF.
  assert (Hx : live (w_st w0 n) /\ start_at w0 n = 0).
  { destruct Hs as [Hr|[o [wb [s [Ho Hc]]]]].
    - unfold start_at. split; [destruct Hr as [->| ->]; intros [A|[A|A]]; discriminate|].
      apply finished_spec in Hr. rewrite Hr. auto.
    - assert (Hmk : mem_kind KMemorySequence) by (left; reflexivity).
      destruct (memory_forget KMemorySequence ev n name cs o wb w0 s Hmk Hb) as [A B]; [intuition|exact Hc|].
      unfold start_at. rewrite B. split; [intros [C|[C|C]]; discriminate|exact A]. }
  destruct Hx as [Hl Ha]. destruct (sequence_run ev n name cs w0 run w _ w' Hb Hrun Hl eq_refl HF) as [ls [A B]].
  rewrite Ha in B. exists ls. auto.
Qed.

End Memory.

(** Children in a tree with distinct ids are blind for their parent. *)
Lemma tree_blind : forall E (ev : env E) n k name cs, NoDup (ids (T n k name cs)) ->
  Forall (blind n) (map (obj_of ev) cs).
Proof.
  intros E ev n k name cs Hn. apply Forall_forall. intros c Hc. apply in_map_iff in Hc.
  destruct Hc as [t [<- Ht]]. intros o w. inversion Hn; subst.
  assert (~ In n (ids t)) by (eapply child_disj; eauto).
  pose proof (frame_tree E ev t o w) as Hf. split; [eapply si_st_out|eapply si_mem_out]; eauto.
Qed.
