(** Proofs about the decorators (C18-C23). *)
From Coq Require Import List String ZArith Bool Arith Lia.
From Verif Require Import Base ModelData ModelUtility ModelTree SpecTree SpecControl ProofsTree ProofsLife
  ProofsWhole ProofsControl ProofsMemory ProofsParallel.
Import ListNotations.
Local Open Scope nat_scope.

Local Opaque Nat.modulo.
Section Deco.
Context {E : Type}.
Notation W := (world E).
Notation callrec := (obj E * op * res state)%type.

Lemma op_states_spec : forall o s, o = OUntick \/ o = OReset ->
  op_states o s <-> state_in s (match o with OUntick => [IDLE; PAUSED] | _ => [IDLE] end) = true.
Proof. intros o s Ho. rewrite state_in_spec. destruct Ho; subst o; simpl; intuition. Qed.

(** Untick and reset of any node. *)
Lemma op_api : forall (ev : env E) n k name cs o w w' r,
  o = OUntick \/ o = OReset -> live (w_st w n) ->
  call o (make_obj ev n k name cs) w = (w', r) ->
  exists w2 b, do_op ev o n k cs (prepare o n w) = (w2, b) /\ end_op o n b w2 w' r.
Proof.
  intros ev n k name cs o w w' r Ho Hl H. rewrite call_make in H.
  assert (Hown : forall (w3 : W) s, only_own n w3 (set_st w3 n s)).
  { intros w3 s. repeat split; auto. intros m Hm. simpl. apply upd_neq; auto. }
  destruct Ho; subst o.
  - destruct (node_untick_cases E n (do_op ev OUntick n k cs) w) as [[Hd _]|[_ Heq]]; [contradiction|].
    rewrite Heq in H. unfold untick_live in H. unfold prepare.
    destruct (do_op ev OUntick n k cs w) as [w2 b] eqn:Ed. exists w2, b. split; auto. unfold end_op.
    pose proof (op_states_spec OUntick) as Hos.
    destruct b as [s|e|].
    + specialize (Hos s (or_introl eq_refl)). cbn iota in Hos.
      destruct (state_in s [IDLE; PAUSED]); inversion H; subst w' r.
      * split; [|simpl; rewrite upd_eq; split; auto; left; split; auto; apply Hos; auto].
        repeat split; auto; intros m Hm; simpl; apply upd_neq; auto.
      * split; auto. simpl. rewrite upd_eq. split; auto. right. split; auto. intros Hx. apply Hos in Hx. discriminate.
    + inversion H; subst. split; auto. simpl. rewrite upd_eq. auto.
    + inversion H; subst. split; auto. repeat split; auto.
  - destruct (node_reset_cases E n (do_op ev OReset n k cs) w) as [[Hd _]|[_ Heq]]; [contradiction|].
    rewrite Heq in H. unfold reset_live in H. unfold prepare.
    destruct (do_op ev OReset n k cs _) as [w2 b] eqn:Ed. exists w2, b. split; [reflexivity|]. unfold end_op.
    pose proof (op_states_spec OReset) as Hos.
    destruct b as [s|e|].
    + specialize (Hos s (or_intror eq_refl)). cbn iota in Hos.
      destruct (state_in s [IDLE]); inversion H; subst w' r; (split; [auto|]); simpl; rewrite upd_eq; split; auto.
      * left. split; auto. apply Hos; auto.
      * right. split; auto. intros Hx. apply Hos in Hx. discriminate.
    + inversion H; subst. split; auto. simpl. rewrite upd_eq. auto.
    + inversion H; subst. split; auto. repeat split; auto.
Qed.

Lemma does_intro : forall (ev : env E) n k name cs o w w' r (P : list callrec -> res state -> W -> Prop),
  o = OTick \/ o = OUntick \/ o = OReset -> inputs_set w n ->
  call o (make_obj ev n k name cs) w = (w', r) ->
  (forall w2 b, live (w_st w n) -> do_op ev o n k cs (prepare o n w) = (w2, b) ->
     exists l, ran_own n (prepare o n w) l w2 /\ P l b w2) ->
  exists l b, does o n w l b w' r /\
    ((dead (w_st w n) /\ l = [] /\ w' = w) \/
     (live (w_st w n) /\ exists w2, w_mem w' n = w_mem w2 n /\ P l b w2)).
Proof.
  intros ev n k name cs o w w' r P Ho Hi H HP.
  destruct (dead_dec (w_st w n)) as [Hd|Hl].
  - rewrite refuse_dead in H by (left; split; auto; tauto). inversion H; subst.
    exists [], (Err EGuard). split; [left; auto|]. auto.
  - assert (Hx : exists w2 b, do_op ev o n k cs (prepare o n w) = (w2, b) /\
       match o with OTick => end_tick n b w2 w' r | _ => end_op o n b w2 w' r end).
    { destruct Ho as [ -> | Ho].
      - apply tick_api in H; auto.
      - apply op_api in H; auto. destruct H as [w2 [b [A B]]]. exists w2, b. split; auto.
        destruct Ho; subst o; exact B. }
    destruct Hx as [w2 [b [Hd He]]]. destruct (HP w2 b Hl Hd) as [l [Hr Hp]].
    exists l, b. split; [right; split; auto; exists w2; auto|]. right. split; auto. exists w2. split; auto.
    destruct Ho as [ -> | [ -> | -> ]]; destruct He as [[_ [Hm _]] _]; apply Hm.
Qed.

(** ** C18 *)

Definition table (k : kind) (ris : bool) (s : state) : state :=
  match k with
  | KInverter => match s with SUCCEEDED => FAILED | FAILED => SUCCEEDED | _ => s end
  | KIgnoreFailure => match s with FAILED => SUCCEEDED | _ => s end
  | KIgnoreSuccess => match s with SUCCEEDED => FAILED | _ => s end
  | KIgnoreRunning => match s with RUNNING => if ris then SUCCEEDED else FAILED | _ => s end
  | _ => s
  end.

Definition table_kind (k : kind) : Prop :=
  k = KInverter \/ k = KIgnoreFailure \/ k = KIgnoreSuccess \/ k = KIgnoreRunning.

Lemma table_spec : forall k (ev : env E) n name c cs w w' r,
  table_kind k -> live (w_st w n) -> inputs_set w n -> blind n c ->
  call OTick (make_obj ev n k name (c :: cs)) w = (w', r) ->
  exists x, ticks_with n w [(c, OTick, x)] (res_map (table k (a_ris (w_mem w n))) x) w' r.
Proof.
  intros k ev n name c cs w w' r Hk Hl Hi Hb H. apply tick_api in H; auto. destruct H as [w2 [b [Hd He]]].
  destruct (Hb OTick (begin_tick n w)) as [_ Hm]. simpl in Hm.
  destruct (o_tick c (begin_tick n w)) as [w1 x] eqn:Ec. simpl in Hm.
  assert (Hx : w2 = w1 /\ b = res_map (table k (a_ris (w_mem w n))) x).
  { destruct Hk as [ -> | [ -> | [ -> | -> ]]]; unfold do_tick, map_tick in Hd; rewrite Ec in Hd;
      destruct x as [s|e|]; simpl in Hd; inversion Hd; subst; split; auto; simpl; rewrite ?Hm;
      destruct s; reflexivity. }
  destruct Hx as [-> ->]. exists x. exists w1. split; auto. apply ran_one. exact Ec.
Qed.

Lemma table_empty : forall k (ev : env E) n name w w' r,
  table_kind k -> live (w_st w n) -> inputs_set w n ->
  call OTick (make_obj ev n k name []) w = (w', r) ->
  ticks_with n w [] (Ok (match k with KInverter | KIgnoreFailure => SUCCEEDED | _ => FAILED end)) w' r.
Proof.
  intros k ev n name w w' r Hk Hl Hi H. apply tick_api in H; auto. destruct H as [w2 [b [Hd He]]].
  exists (begin_tick n w). split; [constructor|].
  destruct Hk as [ -> | [ -> | [ -> | -> ]]]; simpl in Hd; inversion Hd; subst; exact He.
Qed.

(** ** C21 *)

Definition restart_of (k : kind) (s : state) : Prop :=
  match k with
  | KRepeatAlways => s <> RUNNING
  | KRepeatUntilFail => s = SUCCEEDED
  | _ => s = FAILED
  end.
Definition loop_kind (k : kind) : Prop :=
  k = KRepeatAlways \/ k = KRepeatUntilFail \/ k = KUntilSuccess \/ k = KRepeatIfFail.

Lemma reset_running_spec : forall (c : obj E) w w' b, reset_running c w = (w', b) ->
  exists y, call OReset c w = (w', y) /\ b = res_map (fun _ => RUNNING) y.
Proof.
  intros c w w' b H. unfold reset_running in H. simpl. destruct (o_reset c w) as [w1 y].
  exists y. destruct y; simpl in H; inversion H; subst; auto.
Qed.

Lemma ran_two : forall (c : obj E) o1 o2 w w1 w2 x y,
  call o1 c w = (w1, x) -> call o2 c w1 = (w2, y) -> ran w [(c, o1, x); (c, o2, y)] w2.
Proof. intros. econstructor; eauto. apply ran_one. auto. Qed.

Lemma restart_loop : forall s0 (c : obj E) cs w w2 b, restart_on_tick s0 (c :: cs) w = (w2, b) ->
  exists l, ran w l w2 /\ loop_plan (fun s => s = s0) (fun s => s) c l b.
Proof.
  intros s0 c cs w w2 b H. simpl in H. destruct (o_tick c w) as [w1 [s|e|]] eqn:Ec; simpl in H.
  - destruct (state_eqb_spec s s0) as [->|Hs].
    + destruct (reset_running_spec _ _ _ _ H) as [y [Hy ->]].
      exists [(c, OTick, Ok s0); (c, OReset, y)]. split; [eapply ran_two; eauto|]. constructor; auto.
    + inversion H; subst. exists [(c, OTick, Ok s)]. split; [apply ran_one; auto|].
      apply (lp_out (fun s => s = s0) (fun s => s)); auto.
  - inversion H; subst. exists [(c, OTick, Err e)]. split; [apply ran_one; auto|]. constructor. discriminate.
  - inversion H; subst. exists [(c, OTick, Raise)]. split; [apply ran_one; auto|]. constructor. discriminate.
Qed.

Lemma loop_spec : forall k (ev : env E) n name c cs w w' r,
  loop_kind k -> live (w_st w n) -> inputs_set w n ->
  call OTick (make_obj ev n k name (c :: cs)) w = (w', r) ->
  exists l b, ticks_with n w l b w' r /\ loop_plan (restart_of k) (fun s => s) c l b.
Proof.
  intros k ev n name c cs w w' r Hk Hl Hi H. apply tick_api in H; auto. destruct H as [w2 [b [Hd He]]].
  assert (Hx : exists l, ran (begin_tick n w) l w2 /\ loop_plan (restart_of k) (fun s => s) c l b).
  { destruct Hk as [ -> | [ -> | [ -> | -> ]]]; unfold do_tick in Hd.
    - simpl in Hd. destruct (o_tick c (begin_tick n w)) as [w1 [s|e|]] eqn:Ec; simpl in Hd.
      + destruct (state_eqb_spec s RUNNING) as [->|Hs]; simpl in Hd.
        * inversion Hd; subst. exists [(c, OTick, Ok RUNNING)]. split; [apply ran_one; auto|].
          apply (lp_out (fun s => s <> RUNNING) (fun s => s)); auto.
        * destruct (reset_running_spec _ _ _ _ Hd) as [y [Hy ->]].
          exists [(c, OTick, Ok s); (c, OReset, y)]. split; [eapply ran_two; eauto|]. constructor; auto.
      + inversion Hd; subst. exists [(c, OTick, Err e)]. split; [apply ran_one; auto|]. constructor. discriminate.
      + inversion Hd; subst. exists [(c, OTick, Raise)]. split; [apply ran_one; auto|]. constructor. discriminate.
    - apply restart_loop in Hd. exact Hd.
    - apply restart_loop in Hd. exact Hd.
    - apply restart_loop in Hd. exact Hd. }
  destruct Hx as [l [Hr Hp]]. exists l, b. split; auto. exists w2. auto.
Qed.

Lemma loop_results : forall k (ev : env E) n name c cs w w' s,
  loop_kind k -> inputs_set w n ->
  call OTick (make_obj ev n k name (c :: cs)) w = (w', Ok s) ->
  match k with
  | KRepeatAlways => s = RUNNING
  | KRepeatUntilFail => s <> SUCCEEDED
  | _ => s <> FAILED
  end.
Proof.
  intros k ev n name c cs w w' s Hk Hi H.
  assert (Hl : live (w_st w n)).
  { intros Hd. rewrite refuse_dead in H by (left; split; auto). discriminate. }
  destruct (loop_spec _ _ _ _ _ _ _ _ _ Hk Hl Hi H) as [l [b [[w2 [_ He]] Hp]]].
  destruct (end_tick_ok _ _ _ _ _ He) as [-> _]. remember (Ok s) as b eqn:Eb.
  destruct Hp as [x Hx|s' Hs'|s' y Hs'].
  - exfalso. eapply Hx; eauto.
  - inversion Eb; subst s'. destruct Hk as [ -> | [ -> | [ -> | -> ]]]; simpl in Hs'; auto.
    destruct (state_eqb_spec s RUNNING); auto. exfalso. auto.
  - destruct y; simpl in Eb; inversion Eb. destruct Hk as [ -> | [ -> | [ -> | -> ]]]; congruence.
Qed.

(** ** C19, C20 *)

Lemma retry_spec : forall n (c : obj E) cs w w2 b, blind n c -> retry_tick n (c :: cs) w = (w2, b) ->
  exists l, ran_own n w l w2 /\
    loop_plan (fun s => s = FAILED /\ (a_count (w_mem w n) < a_limit (w_mem w n))%Z) (fun s => s) c l b /\
    snd (call OTick c w) = match l with (_, _, x) :: _ => x | [] => Raise end /\
    a_limit (w_mem w2 n) = a_limit (w_mem w n) /\
    a_count (w_mem w2 n) =
      match snd (call OTick c w) with
      | Ok FAILED => if Z.ltb (a_count (w_mem w n)) (a_limit (w_mem w n)) then (a_count (w_mem w n) + 1)%Z else 0%Z
      | _ => a_count (w_mem w n)
      end.
Proof.
  intros n c cs w w2 b Hb H. simpl in H. destruct (Hb OTick w) as [_ Hm]. simpl in Hm. simpl call.
  destruct (o_tick c w) as [w1 [s|e|]] eqn:Ec; simpl in H, Hm |- *.
  - rewrite Hm in H. destruct (state_eqb_spec s FAILED) as [->|Hs].
    + destruct (Z.ltb (a_count (w_mem w n)) (a_limit (w_mem w n))) eqn:El.
      * destruct (reset_running_spec _ _ _ _ H) as [y [Hy ->]]. apply Z.ltb_lt in El.
        destruct (Hb OReset (mem_count w1 n (a_count (w_mem w n) + 1))) as [_ Hm2]. rewrite Hy in Hm2.
        simpl in Hm2. rewrite upd_eq in Hm2. rewrite Hm2. simpl. rewrite Hm.
        exists [(c, OTick, Ok FAILED); (c, OReset, y)]. split; [|split; [constructor; auto|auto]].
        eapply ro_call; [exact Ec|]. eapply ro_mem. eapply ro_call; [exact Hy|]. apply ro_nil.
      * inversion H; subst. apply Z.ltb_ge in El. simpl. rewrite upd_eq. simpl. rewrite Hm.
        exists [(c, OTick, Ok FAILED)]. split; [|split; [apply (lp_out _ (fun s => s)); intros [_ A]; lia|auto]].
        eapply ro_call; [exact Ec|]. apply ran_own_mem.
    + inversion H; subst. rewrite Hm. exists [(c, OTick, Ok s)].
      split; [eapply ro_call; [exact Ec|apply ro_nil]|].
      split; [apply (lp_out _ (fun s => s)); intros [A _]; auto|]. split; auto. split; auto. destruct s; auto. congruence.
  - inversion H; subst. rewrite Hm. exists [(c, OTick, Err e)]. split; [eapply ro_call; [exact Ec|apply ro_nil]|].
    split; [constructor; discriminate|auto].
  - inversion H; subst. rewrite Hm. exists [(c, OTick, Raise)]. split; [eapply ro_call; [exact Ec|apply ro_nil]|].
    split; [constructor; discriminate|auto].
Qed.

Lemma repeat_spec : forall n (c : obj E) cs w w2 b, blind n c -> repeat_tick n (c :: cs) w = (w2, b) ->
  exists l, ran_own n w l w2 /\
    loop_plan (fun s => s = SUCCEEDED /\ (a_count (w_mem w n) < a_limit (w_mem w n))%Z) (fun s => s) c l b /\
    snd (call OTick c w) = match l with (_, _, x) :: _ => x | [] => Raise end /\
    a_limit (w_mem w2 n) = a_limit (w_mem w n) /\
    a_count (w_mem w2 n) =
      match snd (call OTick c w) with
      | Ok SUCCEEDED => if Z.ltb (a_count (w_mem w n)) (a_limit (w_mem w n)) then (a_count (w_mem w n) + 1)%Z
                        else a_count (w_mem w n)
      | _ => a_count (w_mem w n)
      end.
Proof.
  intros n c cs w w2 b Hb H. simpl in H. destruct (Hb OTick w) as [_ Hm]. simpl in Hm. simpl call.
  destruct (o_tick c w) as [w1 [s|e|]] eqn:Ec; simpl in H, Hm |- *.
  - rewrite Hm in H. destruct (state_eqb_spec s SUCCEEDED) as [->|Hs].
    + destruct (Z.ltb (a_count (w_mem w n)) (a_limit (w_mem w n))) eqn:El.
      * destruct (reset_running_spec _ _ _ _ H) as [y [Hy ->]]. apply Z.ltb_lt in El.
        destruct (Hb OReset (mem_count w1 n (a_count (w_mem w n) + 1))) as [_ Hm2]. rewrite Hy in Hm2.
        simpl in Hm2. rewrite upd_eq in Hm2. rewrite Hm2. simpl. rewrite Hm.
        exists [(c, OTick, Ok SUCCEEDED); (c, OReset, y)]. split; [|split; [constructor; auto|auto]].
        eapply ro_call; [exact Ec|]. eapply ro_mem. eapply ro_call; [exact Hy|]. apply ro_nil.
      * inversion H; subst. apply Z.ltb_ge in El. rewrite Hm.
        exists [(c, OTick, Ok SUCCEEDED)]. split; [|split; [apply (lp_out _ (fun s => s)); intros [_ A]; lia|auto]].
        eapply ro_call; [exact Ec|]. apply ro_nil.
    + inversion H; subst. rewrite Hm. exists [(c, OTick, Ok s)].
      split; [eapply ro_call; [exact Ec|apply ro_nil]|].
      split; [apply (lp_out _ (fun s => s)); intros [A _]; auto|]. split; auto. split; auto. destruct s; auto. congruence.
  - inversion H; subst. rewrite Hm. exists [(c, OTick, Err e)]. split; [eapply ro_call; [exact Ec|apply ro_nil]|].
    split; [constructor; discriminate|auto].
  - inversion H; subst. rewrite Hm. exists [(c, OTick, Raise)]. split; [eapply ro_call; [exact Ec|apply ro_nil]|].
    split; [constructor; discriminate|auto].
Qed.

(** Tick of Retry and Repeat at the API. *)
Lemma counting_tick : forall k (ev : env E) n name c cs w w' r,
  k = KRetry \/ k = KRepeat -> live (w_st w n) -> inputs_set w n -> blind n c ->
  call OTick (make_obj ev n k name (c :: cs)) w = (w', r) ->
  exists l b, ticks_own n w l b w' r /\
    loop_plan (fun s => s = (match k with KRetry => FAILED | _ => SUCCEEDED end) /\
                        (a_count (w_mem w n) < a_limit (w_mem w n))%Z) (fun s => s) c l b /\
    child_answer n c w = match l with (_, _, x) :: _ => x | [] => Raise end /\
    a_limit (w_mem w' n) = a_limit (w_mem w n) /\
    a_count (w_mem w' n) =
      match k, child_answer n c w with
      | KRetry, Ok FAILED => if Z.ltb (a_count (w_mem w n)) (a_limit (w_mem w n)) then (a_count (w_mem w n) + 1)%Z else 0%Z
      | KRepeat, Ok SUCCEEDED => if Z.ltb (a_count (w_mem w n)) (a_limit (w_mem w n)) then (a_count (w_mem w n) + 1)%Z
                                 else a_count (w_mem w n)
      | _, _ => a_count (w_mem w n)
      end.
Proof.
  intros k ev n name c cs w w' r Hk Hl Hi Hb H. apply tick_api in H; auto. destruct H as [w2 [b [Hd He]]].
  assert (Hm : w_mem w' n = w_mem w2 n) by (destruct He as [[_ [Hm _]] _]; apply Hm). rewrite Hm.
  destruct Hk; subst k; unfold do_tick in Hd.
  - destruct (retry_spec _ _ _ _ _ _ Hb Hd) as [l [H1 [H2 [H3 [H4 H5]]]]]. exists l, b.
    split; [exists w2; auto|]. auto.
  - destruct (repeat_spec _ _ _ _ _ _ Hb Hd) as [l [H1 [H2 [H3 [H4 H5]]]]]. exists l, b.
    split; [exists w2; auto|]. auto.
Qed.

Lemma each_paused : forall k (ev : env E) n name cs w w' r,
  k = KRetry \/ k = KRepeat -> Forall (blind n) cs ->
  call OUntick (make_obj ev n k name cs) w = (w', r) ->
  w_mem w' n = w_mem w n.
Proof.
  intros k ev n name cs w w' r Hk Hb H. destruct (dead_dec (w_st w n)) as [Hd|Hl].
  - rewrite refuse_dead in H by (left; split; auto). inversion H; auto.
  - apply op_api in H; auto. destruct H as [w2 [b [Hd [[_ [Hm _]] _]]]]. rewrite Hm.
    assert (Hx : each_then (call OUntick) cs PAUSED w = (w2, b)) by (destruct Hk; subst k; exact Hd).
    apply (each_then_own n OUntick) in Hx; auto. destruct Hx as [Hx _]. exact Hx.
Qed.

Lemma answers_app : forall n c s l1 l2, answers (E:=E) n c s (l1 ++ l2) = answers n c s l1 + answers n c s l2.
Proof. intros. unfold answers. rewrite filter_app, app_length. reflexivity. Qed.

Lemma retry_mod : forall f L, S f mod S L = (if Nat.eqb (f mod S L) L then 0 else S (f mod S L)).
Proof.
  intros f L. destruct (Nat.eqb_spec (f mod S L) L) as [He|He].
  - rewrite (Nat.div_mod f (S L)) by lia. rewrite He.
    replace (S (S L * (f / S L) + L)) with (0 + (f / S L + 1) * S L) by lia.
    rewrite Nat.mod_add by lia. apply Nat.mod_0_l. lia.
  - pose proof (Nat.mod_upper_bound f (S L) ltac:(lia)).
    rewrite (Nat.div_mod f (S L)) at 1 by lia.
    replace (S (S L * (f / S L) + f mod S L)) with (S (f mod S L) + (f / S L) * S L) by lia.
    rewrite Nat.mod_add by lia. apply Nat.mod_small. lia.
Qed.

Definition counted (k : kind) (limit : Z) (m : nat) : Z :=
  match k with
  | KRetry => Z.of_nat (m mod (S (Z.to_nat limit)))
  | _ => Z.of_nat (Nat.min m (Z.to_nat limit))
  end.

Lemma counting_state : forall k (ev : env E) n name c cs limit, k = KRetry \/ k = KRepeat ->
  Forall (blind n) (c :: cs) ->
  forall w0 pre m, op_run (make_obj ev n k name (c :: cs)) w0 pre ->
  Forall (fun x => fst (fst (fst x)) <> OReset /\ exists s, snd (fst x) = Ok s) pre ->
  live (w_st w0 n) -> a_limit (w_mem w0 n) = limit -> a_count (w_mem w0 n) = counted k limit m ->
  forall w o r w' post, op_run (make_obj ev n k name (c :: cs)) w0 (pre ++ (o, w, r, w') :: post) ->
  live (w_st w n) /\ a_limit (w_mem w n) = limit /\
  a_count (w_mem w n) = counted k limit (m + answers n c (match k with KRetry => FAILED | _ => SUCCEEDED end) pre).
Proof.
  intros k ev n name c cs limit Hk Hb w0 pre m Hrun. revert m.
  pose proof (Forall_inv Hb) as Hbc.
  induction Hrun as [w0|w0 o w r w' l [Hst Hmem] Ho Hi Hc Hrun IH]; intros m HF Hl Hlim Hcount wt ot rt wt' post Hfull.
  - simpl in Hfull. inversion Hfull as [|? ? ? ? ? ? [A B] _ _ _ _]; subst. simpl in A, B. rewrite A, B.
    unfold answers. simpl. rewrite Nat.add_0_r. auto.
  - simpl in Hst, Hmem, Hi. rewrite <- Hst in Hl. rewrite <- Hmem in Hlim, Hcount.
    assert (Hfull' : op_run (make_obj ev n k name (c :: cs)) w' (l ++ (ot, wt, rt, wt') :: post)).
    { simpl in Hfull. inversion Hfull; subst; auto. }
    pose proof (Forall_inv HF) as [Hno [s Hok]]. simpl in Hno, Hok. pose proof (Forall_inv_tail HF) as HF'. subst r.
    assert (Hdead : forall s, op_states OTick s -> live s) by (intros s0 Hs0 [A|[A|A]]; subst; simpl in Hs0; intuition discriminate).
    destruct o; try (exfalso; intuition congruence).
    + (* tick *)
      destruct (counting_tick _ _ _ _ _ _ _ _ _ Hk Hl Hi Hbc Hc) as [lc [b [Ht [Hp [Hans [Hlim' Hcnt]]]]]].
      assert (Hx : b = Ok s /\ w_st w' n = s /\ op_states OTick s).
      { destruct Ht as [w4 [_ He]]. apply end_tick_ok in He. exact He. }
      destruct Hx as [-> [Hst' Hos]].
      set (m' := m + answers n c (match k with KRetry => FAILED | _ => SUCCEEDED end) [(OTick, w, Ok s, w')]).
      assert (Hcnt' : a_count (w_mem w' n) = counted k limit m').
      { remember (Ok s) as bb eqn:Eb. unfold m', answers. simpl filter.
        destruct Hk; subst k; unfold counted in *.
        - pose proof (Nat.mod_upper_bound m (S (Z.to_nat limit)) ltac:(lia)) as Hub.
          destruct Hp as [x Hx|s' Hs'|s' y [Hs' Hlt]]; rewrite Hans in *.
          + exfalso. eapply Hx; eauto.
          + inversion Eb; subst s'.
            destruct (state_eqb_spec s FAILED) as [->|Hsf].
            * assert (Hge : ~ (a_count (w_mem w n) < a_limit (w_mem w n))%Z) by (intros A; apply Hs'; auto).
              simpl. rewrite Nat.add_1_r. rewrite retry_mod. rewrite Hcount, Hlim in Hge.
              assert (He : m mod S (Z.to_nat limit) = Z.to_nat limit) by lia. rewrite He, Nat.eqb_refl. simpl.
              rewrite Hcnt, Hcount, Hlim. replace (Z.ltb _ limit) with false; auto.
              symmetry. apply Z.ltb_ge. lia.
            * simpl List.length. rewrite Nat.add_0_r. rewrite Hcnt. destruct s; congruence.
          + subst s'. destruct y as [sy|ey|]; simpl in Eb; try discriminate. inversion Eb; subst s.
            simpl. rewrite Nat.add_1_r. rewrite retry_mod. rewrite Hcount, Hlim in Hlt.
            destruct (Nat.eqb_spec (m mod S (Z.to_nat limit)) (Z.to_nat limit)) as [He|He]; [lia|].
            rewrite Hcnt, Hcount, Hlim. replace (Z.ltb _ limit) with true; [lia|].
            symmetry. apply Z.ltb_lt. lia.
        - destruct Hp as [x Hx|s' Hs'|s' y [Hs' Hlt]]; rewrite Hans in *.
          + exfalso. eapply Hx; eauto.
          + inversion Eb; subst s'.
            destruct (state_eqb_spec s SUCCEEDED) as [->|Hsf].
            * assert (Hge : ~ (a_count (w_mem w n) < a_limit (w_mem w n))%Z) by (intros A; apply Hs'; auto).
              simpl List.length. rewrite Nat.add_1_r. rewrite Hcount, Hlim in Hge.
              rewrite Hcnt, Hcount, Hlim. replace (Z.ltb _ limit) with false; [lia|].
              symmetry. apply Z.ltb_ge. lia.
            * simpl List.length. rewrite Nat.add_0_r. rewrite Hcnt. destruct s; congruence.
          + subst s'. destruct y as [sy|ey|]; simpl in Eb; try discriminate. inversion Eb; subst s.
            simpl List.length. rewrite Nat.add_1_r. rewrite Hcount, Hlim in Hlt.
            rewrite Hcnt, Hcount, Hlim. replace (Z.ltb _ limit) with true; [lia|].
            symmetry. apply Z.ltb_lt. lia. }
      assert (Hl' : live (w_st w' n)) by (rewrite Hst'; apply Hdead; auto).
      assert (Hlim2 : a_limit (w_mem w' n) = limit) by congruence.
      destruct (IH m' HF' Hl' Hlim2 Hcnt' _ _ _ _ _ Hfull') as [H1 [H2 H3]]. split; [|split]; auto.
      rewrite H3. unfold m'. change ((OTick, w, Ok s, w') :: l) with ([(OTick, w, Ok s, w')] ++ l).
      rewrite answers_app, Nat.add_assoc. reflexivity.
    + (* untick *)
      pose proof (each_paused _ _ _ _ _ _ _ _ Hk Hb Hc) as Hmm.
      assert (Hl' : live (w_st w' n)).
      { pose proof Hc as Hc2. apply node_result in Hc2; [|discriminate]. destruct Hc2 as [Hos Hs]. rewrite Hs.
        destruct Hos as [E1|E1]; rewrite E1; intros [A|[A|A]]; discriminate. }
      assert (Hlim2 : a_limit (w_mem w' n) = limit) by congruence.
      assert (Hcnt2 : a_count (w_mem w' n) = counted k limit m) by congruence.
      exact (IH m HF' Hl' Hlim2 Hcnt2 _ _ _ _ _ Hfull').
Qed.

Lemma loop_plan_ext : forall (P Q : state -> Prop) out (c : obj E) l b, (forall s, P s <-> Q s) ->
  loop_plan P out c l b -> loop_plan Q out c l b.
Proof.
  intros P Q out c l b H Hp. destruct Hp as [x Hx|s Hs|s y Hs].
  - constructor; auto.
  - constructor. rewrite <- H. auto.
  - constructor. apply H. auto.
Qed.

Lemma counting_run : forall k (ev : env E) n name c cs limit, k = KRetry \/ k = KRepeat ->
  Forall (blind n) (c :: cs) ->
  forall w0 pre w r w' post, op_run (make_obj ev n k name (c :: cs)) w0 pre ->
  op_run (make_obj ev n k name (c :: cs)) w0 (pre ++ (OTick, w, r, w') :: post) ->
  Forall (fun x => fst (fst (fst x)) <> OReset /\ exists s, snd (fst x) = Ok s) pre ->
  live (w_st w0 n) -> a_limit (w_mem w0 n) = limit -> a_count (w_mem w0 n) = 0%Z -> inputs_set w n ->
  call OTick (make_obj ev n k name (c :: cs)) w = (w', r) ->
  exists l b, ticks_own n w l b w' r /\
    loop_plan (match k with
      | KRetry => fun s => s = FAILED /\ (S (answers n c FAILED pre)) mod (S (Z.to_nat limit)) <> 0
      | _ => fun s => s = SUCCEEDED /\ S (answers n c SUCCEEDED pre) <= Z.to_nat limit
      end) (fun s => s) c l b.
Proof.
  intros k ev n name c cs limit Hk Hb w0 pre w r w' post Hrun Hfull HF Hl Hlim Hc0 Hi Hc.
  assert (Hc1 : a_count (w_mem w0 n) = counted k limit 0).
  { rewrite Hc0. destruct Hk; subst k; unfold counted; [rewrite Nat.mod_0_l by lia|]; reflexivity. }
  destruct (counting_state k ev n name c cs limit Hk Hb w0 pre 0 Hrun HF Hl Hlim Hc1 _ _ _ _ _ Hfull) as [Hlw [Hlm Hcn]].
  destruct (counting_tick k ev n name c cs w w' r Hk Hlw Hi (Forall_inv Hb) Hc) as [l [b [Ht [Hp _]]]].
  exists l, b. split; auto. rewrite Hlm, Hcn in Hp. simpl in Hp.
  eapply loop_plan_ext; [|exact Hp]. intros s. destruct Hk; subst k; unfold counted.
  - pose proof (Nat.mod_upper_bound (answers n c FAILED pre) (S (Z.to_nat limit)) ltac:(lia)) as Hub.
    rewrite retry_mod. destruct (Nat.eqb_spec (answers n c FAILED pre mod S (Z.to_nat limit)) (Z.to_nat limit)); intuition; lia.
  - intuition; lia.
Qed.

(** Setup and reset start with a fresh count. *)
Lemma counting_start : forall k (ev : env E) n name cs o w w' s,
  k = KRetry \/ k = KRepeat \/ k = KRepeatNoAutoReset -> Forall (blind n) cs ->
  o = OSetup \/ (o = OReset /\ k <> KRepeatNoAutoReset) ->
  call o (make_obj ev n k name cs) w = (w', Ok s) ->
  w_st w' n = IDLE /\ a_count (w_mem w' n) = 0%Z /\
  (o = OReset -> a_limit (w_mem w' n) = a_limit (w_mem w n)) /\
  (o = OSetup -> forall c i,
     dget (match k with KRetry => "num_retries" | _ => "num_repeats" end)%string (w_ins w n) = Some c ->
     c_static c = true -> c_val c = Some (VInt i) -> a_limit (w_mem w' n) = i).
Proof.
  intros k ev n name cs o w w' s Hk Hb Ho H.
  assert (Hs : w_st w' n = IDLE).
  { assert (Hno : o <> OShutdown) by (destruct Ho as [->|[-> _]]; discriminate).
    destruct (node_result _ _ _ _ _ _ _ _ _ _ Hno H) as [A B].
    destruct Ho as [->|[-> _]]; simpl in A; congruence. }
  apply ok_api in H; [|tauto]. destruct H as [w2 [Hd [_ [_ [Hm _]]]]]. rewrite Hm.
  assert (Hf : forall f o w1 w3 r, (f = call (E:=E) o) -> first_or f cs IDLE w1 = (w3, r) -> w_mem w3 n = w_mem w1 n).
  { intros f o' w1 w3 r -> Hf. destruct cs as [|c0 cs0]; simpl in Hf; [inversion Hf; auto|].
    pose proof (Forall_inv Hb o' w1) as [_ Hx]. rewrite Hf in Hx. exact Hx. }
  split; auto. destruct Ho as [->|[-> Hne]].
  - assert (Hx : exists i, in_value_as as_int (prepare OSetup n w) n
        (match k with KRetry => "num_retries" | _ => "num_repeats" end)%string = Ok i /\
        a_count (w_mem w2 n) = 0%Z /\ a_limit (w_mem w2 n) = i).
    { cbn [do_op] in Hd. set (w1 := prepare OSetup n w) in *.
      assert (Hc : forall key, in_value_as as_int (mem_count w1 n 0%Z) n key = in_value_as as_int w1 n key) by reflexivity.
      destruct Hk as [ -> | [ -> | -> ]]; unfold do_setup, with_in in Hd; rewrite Hc in Hd;
        destruct (in_value_as as_int w1 n _) as [i|e|]; try discriminate; exists i; split; auto;
        rewrite (Hf _ OSetup _ _ _ eq_refl Hd); simpl; rewrite !upd_eq; auto. }
    destruct Hx as [i [Hi [H1 H2]]]. split; auto. split; [discriminate|]. intros _ c j Hdg Hst Hv.
    pose proof (setup_option w n _ c Z as_int (VInt j) j Hdg Hst Hv eq_refl) as Ho. congruence.
  - cbn [do_op] in Hd. assert (Hk' : k = KRetry \/ k = KRepeat) by tauto.
    assert (Hx : w_mem w2 n = w_mem (mem_count (prepare OReset n w) n 0%Z) n).
    { destruct Hk'; subst k; unfold do_reset in Hd; eapply (Hf _ OReset); eauto. }
    rewrite Hx. simpl. rewrite !upd_eq. simpl. split; auto. split; auto. discriminate.
Qed.

(** ** C22 *)

Lemma completions_app : forall l1 l2 : list callrec, completions (l1 ++ l2) = completions l1 + completions l2.
Proof. intros. unfold completions. rewrite filter_app, app_length. reflexivity. Qed.

Lemma each_no_tick : forall o (cs : list (obj E)) l r, o <> OTick -> each o cs l r -> completions l = 0.
Proof.
  intros o cs l r Ho He.
  assert (Hc : forall cs0 (l : list callrec), calls_on o cs0 l -> completions l = 0).
  { clear - Ho. intros cs0 l [Hm _]. revert cs0 Hm. induction l as [|[[c o'] x] r IH]; intros cs0 Hm; auto.
    destruct cs0; [discriminate|]. simpl in Hm. inversion Hm; subst. unfold completions in *. simpl.
    destruct o; try congruence; eapply IH; eauto. }
  destruct He; eauto.
  - rewrite completions_app, (Hc _ _ H0). unfold completions. simpl. destruct o; reflexivity || congruence.
  - rewrite completions_app, (Hc _ _ H0). unfold completions. simpl. destruct o; reflexivity || congruence.
Qed.

(** One operation of RepeatNoAutoReset: what happens to its count. *)
Lemma nar_op : forall (ev : env E) n name c cs o w w' r,
  Forall (blind n) (c :: cs) -> o = OTick \/ o = OUntick \/ o = OReset -> inputs_set w n ->
  (o = OTick -> in_value_as as_bool w n "reset" = Ok false) ->
  call o (make_obj ev n KRepeatNoAutoReset name (c :: cs)) w = (w', r) ->
  exists l b, does o n w l b w' r /\
    a_limit (w_mem w' n) = a_limit (w_mem w n) /\
    a_count (w_mem w' n) = (a_count (w_mem w n) + Z.of_nat (completions l))%Z /\
    ((a_count (w_mem w n) < a_limit (w_mem w n))%Z \/ completions l = 0) /\ completions l <= 1 /\
    (o = OTick -> live (w_st w n) -> (a_limit (w_mem w n) <= a_count (w_mem w n))%Z -> l = [] /\ b = Ok SUCCEEDED).
Proof.
  intros ev n name c cs o w w' r Hb Ho Hi Hin H. pose proof (Forall_inv Hb) as Hbc.
  destruct (does_intro ev n KRepeatNoAutoReset name (c :: cs) o w w' r
    (fun l b w2 => a_limit (w_mem w2 n) = a_limit (w_mem w n) /\
      a_count (w_mem w2 n) = (a_count (w_mem w n) + Z.of_nat (completions l))%Z /\
      ((a_count (w_mem w n) < a_limit (w_mem w n))%Z \/ completions l = 0) /\ completions l <= 1 /\
      (o = OTick -> (a_limit (w_mem w n) <= a_count (w_mem w n))%Z -> l = [] /\ b = Ok SUCCEEDED)) Ho Hi H)
    as [l [b [Hd Hc]]].
  - intros w2 b Hl Hd. destruct Ho as [ -> | [ -> | -> ]]; cbn [do_op] in Hd.
    + unfold do_tick, repeat_nar_tick in Hd. cbn [prepare] in *.
      change (in_value_as as_bool (begin_tick n w) n "reset") with (in_value_as as_bool w n "reset") in Hd.
      rewrite (Hin eq_refl) in Hd. change (w_mem (begin_tick n w) n) with (w_mem w n) in Hd.
      destruct (Z.ltb (a_count (w_mem w n)) (a_limit (w_mem w n))) eqn:El.
      * destruct (repeat_spec _ _ _ _ _ _ Hbc Hd) as [l [H1 [H2 [H3 [H4 H5]]]]]. exists l. split; auto.
        change (w_mem (begin_tick n w) n) with (w_mem w n) in *. rewrite El in H5. rewrite H3 in H5.
        pose proof El as El'. apply Z.ltb_lt in El. rewrite H4, H5. split; auto.
        assert (Hcm : completions l = match match l with (_, _, x) :: _ => x | [] => Raise end with Ok SUCCEEDED => 1 | _ => 0 end).
        { destruct H2 as [x Hx|s Hs|s y [Hs _]]; unfold completions; simpl.
          - destruct x as [[]|e|]; reflexivity.
          - destruct s; reflexivity.
          - subst s. reflexivity. }
        rewrite Hcm. destruct (match l with (_, _, x) :: _ => x | [] => Raise end) as [[]|e|]; repeat split; auto; try lia.
      * inversion Hd; subst. exists []. split; [apply ro_nil|]. apply Z.ltb_ge in El. simpl.
        repeat split; auto; unfold completions; simpl; lia.
    + unfold do_untick, prepare in *. unfold each_then in Hd. apply bind_then in Hd; [|exact w]. destruct Hd as [q [Hd ->]].
      destruct (for_each_blind n OUntick _ _ _ _ Hb Hd) as [_ Hm].
      destruct (for_each_each OUntick _ _ _ _ Hd) as [l [Hr He]]. exists l. split; [apply ran_own_of; auto|].
      assert (Hnt : OUntick <> OTick) by discriminate. rewrite (each_no_tick _ _ _ _ Hnt He), Hm. repeat split; auto; try lia; try congruence; intros; try congruence; try contradiction.
    + unfold do_reset in Hd. set (w1 := prepare OReset n w) in *. change (w_mem w1 n) with (w_mem w n) in Hd.
      destruct (Z.ltb (a_count (w_mem w n)) (a_limit (w_mem w n))) eqn:El.
      * cbn [first_or] in Hd. exists [(c, OReset, b)]. split; [eapply ro_call; [exact Hd|apply ro_nil]|].
        destruct (Hbc OReset w1) as [_ Hm]. simpl in Hm. rewrite Hd in Hm. simpl in Hm. rewrite Hm.
        unfold completions. simpl. repeat split; auto; try lia; try congruence; intros; try congruence; try contradiction.
      * inversion Hd; subst. exists []. split; [apply ro_nil|]. unfold completions; simpl. repeat split; auto; try lia; try congruence; intros; try congruence; try contradiction.
  - exists l, b. split; auto. destruct Hc as [[Hdd [-> ->]]|[Hl [w2 [Hm [H1 [H2 [H3 [H4 H5]]]]]]]].
    + unfold completions. simpl. repeat split; auto; try lia; intros; contradiction.
    + rewrite Hm. repeat split; auto; try (apply H5; auto).
Qed.


Lemma nar_run : forall (ev : env E) n name c cs w0 recs,
  Forall (blind n) (c :: cs) ->
  op_run (make_obj ev n KRepeatNoAutoReset name (c :: cs)) w0 recs ->
  Forall (fun x => match x with (o, w, _, _) => o = OTick -> in_value_as as_bool w n "reset" = Ok false end) recs ->
  (0 <= a_count (w_mem w0 n))%Z ->
  exists ls, Forall2 (did n) recs ls /\
    completions (List.concat ls) <= Z.to_nat (a_limit (w_mem w0 n) - a_count (w_mem w0 n)) /\
    forall pre w r w' post, recs = pre ++ (OTick, w, r, w') :: post -> live (w_st w n) ->
      exists lp lt lr b, ls = lp ++ lt :: lr /\ List.length lp = List.length pre /\ does OTick n w lt b w' r /\
        (completions (List.concat lp) = Z.to_nat (a_limit (w_mem w0 n) - a_count (w_mem w0 n)) ->
         lt = [] /\ b = Ok SUCCEEDED).
Proof.
  intros ev n name c cs w0 recs Hb Hrun. induction Hrun as [w0|w0 o w r w' l [Hst Hmem] Ho Hi Hc Hrun IH]; intros HF H0.
  - exists []. split; [constructor|]. split; [unfold completions; simpl; lia|]. intros [|? ?] ? ? ? ? H; discriminate.
  - simpl in Hst, Hmem, Hi. pose proof (Forall_inv HF) as Hx. simpl in Hx. pose proof (Forall_inv_tail HF) as HF'.
    destruct (nar_op _ _ _ _ _ _ _ _ _ Hb Ho Hi Hx Hc) as [lc [b [Hd [Hlim [Hcnt [Hor [Hle Hdone]]]]]]].
    rewrite <- Hmem in *.
    destruct (IH HF' ltac:(lia)) as [ls [H2 [Hcap Hrest]]]. rewrite Hlim, Hcnt in Hcap, Hrest.
    exists (lc :: ls). split; [constructor; auto; exists b; auto|]. split.
    + simpl. rewrite completions_app. destruct Hor; lia.
    + intros [|x pre'] wt rt wt' post Heq Hlive.
      * simpl in Heq. inversion Heq; subst. exists [], lc, ls, b. split; auto. split; auto. split; auto.
        unfold completions. simpl. intros Hz. apply Hdone; auto. lia.
      * simpl in Heq. inversion Heq; subst x l.
        destruct (Hrest pre' wt rt wt' post eq_refl Hlive) as [lp [lt [lr [b' [-> [Hlen [Hd' Himp]]]]]]].
        exists (lc :: lp), lt, lr, b'. split; auto. split; [simpl; congruence|]. split; auto.
        simpl. rewrite completions_app. intros Hz. apply Himp. destruct Hor; lia.
Qed.

(** ** C23 *)

Lemma optional_setup : forall (ev : env E) n name c w w' r,
  w_st w n = UNINITIALIZED \/ w_st w n = SHUTDOWN -> blind n c ->
  call OSetup (make_obj ev n KOptional name [c]) w = (w', r) ->
  match o_util c (mem_exec (prepare OSetup n w) n false) with
  | Err e => r = Err e /\ w_st w' n = BROKEN /\ only_own n (mem_exec (prepare OSetup n w) n false) w'
  | Raise => r = Raise
  | Ok u => r <> Raise \/ can_execute u = true
  end /\
  (forall u, o_util c (mem_exec (prepare OSetup n w) n false) = Ok u ->
    a_exec (w_mem w' n) = can_execute u /\
    (can_execute u = false -> r = Ok IDLE /\ only_own n (mem_exec (prepare OSetup n w) n false) w')).
Proof.
  intros ev n name c w w' r Hs Hb H. rewrite call_make in H.
  destruct (node_setup_cases E n (do_op ev OSetup n KOptional [c]) w) as [[A [B _]]|[_ Heq]]; [exfalso; tauto|].
  rewrite Heq in H. unfold setup_live in H. fold (prepare OSetup n w) in H. 
  change (set_outs
            (set_ins w n (map_io (fun c0 : container => flag_updated (reset_value c0)) (w_ins w n))) n
            (map_io (fun c0 : container => reset_updated (reset_value c0))
               (w_outs
                  (set_ins w n
                     (map_io (fun c0 : container => flag_updated (reset_value c0)) (w_ins w n))) n)))
    with (prepare OSetup n w) in H. set (w1 := prepare OSetup n w) in *. clearbody w1.
  cbn [do_op do_setup optional_setup_loop] in H.
  assert (Hown : forall (w3 : W) s, only_own n w3 (set_st w3 n s)).
  { intros w3 s. repeat split; auto. intros m Hm. simpl. apply upd_neq; auto. }
  destruct (o_util c (mem_exec w1 n false)) as [u|e|].
  - destruct (can_execute u) eqn:Eu.
    + split; [auto|]. intros u0 Hu0. inversion Hu0; subst u0. split; [|congruence].
      destruct (Hb OSetup (mem_exec (mem_exec w1 n false) n true)) as [_ Hm]. simpl call in Hm.
      destruct (o_setup c (mem_exec (mem_exec w1 n false) n true)) as [w3 x]. simpl in Hm. rewrite !upd_eq in Hm.
      assert (Hm' : w_mem w' n = w_mem w3 n).
      { destruct x as [s|e|]; simpl in H; [destruct (state_eqb s IDLE || false)| |]; inversion H; reflexivity. }
      rewrite Hm', Hm. simpl. auto.
    + simpl in H. inversion H; subst. split; [left; discriminate|]. intros u0 Hu0. inversion Hu0; subst u0.
      simpl. rewrite upd_eq. simpl. split; auto.
  - simpl in H. inversion H; subst. split; [|discriminate]. split; auto. split; [simpl; apply upd_eq|]. auto.
  - simpl in H. inversion H; subst. split; [auto|discriminate].
Qed.

Definition rest_state (o : op) : state := match o with OTick => SUCCEEDED | _ => IDLE end.

Lemma optional_op : forall (ev : env E) n name c cs o w w' r,
  Forall (blind n) (c :: cs) -> o = OTick \/ o = OUntick \/ o = OReset -> inputs_set w n ->
  call o (make_obj ev n KOptional name (c :: cs)) w = (w', r) ->
  w_mem w' n = w_mem w n /\
  exists l b, does o n w l b w' r /\
    (live (w_st w n) ->
      if a_exec (w_mem w n) then exists x, l = [(c, o, x)] /\ b = x
      else l = [] /\ b = Ok (rest_state o)).
Proof.
  intros ev n name c cs o w w' r Hb Ho Hi H.
  destruct (does_intro ev n KOptional name (c :: cs) o w w' r
    (fun l b w2 => w_mem w2 n = w_mem w n /\
       if a_exec (w_mem w n) then exists x, l = [(c, o, x)] /\ b = x
       else l = [] /\ b = Ok (rest_state o)) Ho Hi H) as [l [b [Hd Hc]]].
  - intros w2 b Hl Hd.
    assert (Hx : optional_do (call o) n (c :: cs) (rest_state o) (prepare o n w) = (w2, b)).
    { destruct Ho as [ -> | [ -> | -> ]]; exact Hd. }
    assert (Hm1 : w_mem (prepare o n w) n = w_mem w n) by (destruct Ho as [ -> | [ -> | -> ]]; reflexivity).
    unfold optional_do in Hx. rewrite Hm1 in Hx. destruct (a_exec (w_mem w n)).
    + exists [(c, o, b)]. split; [eapply ro_call; [exact Hx|apply ro_nil]|].
      pose proof (Forall_inv Hb o (prepare o n w)) as [_ Hm]. rewrite Hx in Hm. simpl in Hm. split; [congruence|]. eauto.
    + inversion Hx; subst. exists []. split; [apply ro_nil|]. auto.
  - destruct Hc as [[Hdd [-> ->]]|[Hl [w2 [Hm [H1 H2]]]]].
    + split; auto. exists [], b. split; auto. intros; contradiction.
    + split; [congruence|]. exists l, b. auto.
Qed.

Lemma optional_run : forall (ev : env E) n name c cs w0 recs,
  Forall (blind n) (c :: cs) -> op_run (make_obj ev n KOptional name (c :: cs)) w0 recs ->
  Forall (fun x => match x with (o, w, r, w') =>
    exists l b, does o n w l b w' r /\
      (live (w_st w n) -> if a_exec (w_mem w0 n) then exists x, l = [(c, o, x)] /\ b = x
                          else l = [] /\ b = Ok (rest_state o)) end) recs.
Proof.
  intros ev n name c cs w0 recs Hb Hrun. induction Hrun as [w0|w0 o w r w' l [Hst Hmem] Ho Hi Hc Hrun IH]; constructor.
  - simpl in Hmem, Hi. destruct (optional_op _ _ _ _ _ _ _ _ _ Hb Ho Hi Hc) as [_ Hx]. rewrite <- Hmem. exact Hx.
  - simpl in Hmem, Hi. destruct (optional_op _ _ _ _ _ _ _ _ _ Hb Ho Hi Hc) as [Hm _].
    rewrite Hm, Hmem in IH. exact IH.
Qed.

End Deco.
