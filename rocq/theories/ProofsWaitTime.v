(** Wait: what the exact result means in real time. *)
From Coq Require Import String ZArith Bool SpecFloat Arith Lia Reals List.
From Flocq Require Import Core BinarySingleNaN.
From Verif Require Import Base ModelData ModelUtility ModelTree ModelLeaf SpecLeaf ProofsLeaf ProofsWait ProofsSeconds.
Import ListNotations.
Local Open Scope string_scope.
Local Open Scope list_scope.

(** Each item of a history is a call made after the history before it. *)
Lemma hist_item : forall X f init out n name l (w : world X), history f init out n name l w ->
  forall l1 it l2, l = l1 ++ it :: l2 ->
  history f init out n name l1 (i_before it) /\ call (i_op it) (the_leaf f n name) (i_before it) = (i_after it, i_res it).
Proof.
  induction 1 as [w S I|l w w' H IH S O|l w o w' r H IH C]; intros l1 it l2 E.
  - destruct l1; discriminate.
  - exact (IH _ _ _ E).
  - destruct l2 as [|b l2] using rev_ind; [|clear IHl2].
    + apply app_inj_tail in E. destruct E as [<- <-]. cbn. auto.
    + rewrite app_comm_cons, app_assoc in E. apply app_inj_tail in E. destruct E as [E _]. exact (IH _ _ _ E).
Qed.

Section WaitTime.
Variables (n : nid) (name : string).
Notation hist := (history wait_leaf (fun _ => True) wait_out n name).

Lemma keep_inputs : forall l2 (l1 : list (item wait)), not_restarted l2 -> setup_inputs n (l1 ++ l2) = setup_inputs n l1.
Proof.
  induction l2 as [|it l2 IH] using rev_ind; intros l1 N; [now rewrite app_nil_r|].
  rewrite app_assoc, setup_inputs_snoc, IH; [|intros x I; apply N; apply in_or_app; auto].
  specialize (N it ltac:(apply in_or_app; right; left; reflexivity)). destruct (i_op it); try reflexivity. destruct (i_res it); [contradiction|reflexivity..].
Qed.
Lemma keep_first : forall l2 (l1 : list (item wait)) t, not_restarted l2 -> first_tick l1 = Some t -> first_tick (l1 ++ l2) = Some t.
Proof.
  induction l2 as [|it l2 IH] using rev_ind; intros l1 t N F; [now rewrite app_nil_r|].
  rewrite app_assoc, first_tick_snoc, (IH l1 t); [|intros x I; apply N; apply in_or_app; auto|exact F].
  specialize (N it ltac:(apply in_or_app; right; left; reflexivity)). destruct (i_op it), (i_res it); cbn; try contradiction; reflexivity.
Qed.

Lemma wait_stays : forall l1 it l2 w w' s, hist (l1 ++ it :: l2) w ->
  i_op it = OTick -> i_res it = Ok SUCCEEDED -> not_restarted l2 ->
  call OTick (the_leaf wait_leaf n name) w = (w', Ok s) ->
  (forall ins d, setup_inputs n l1 = Some ins -> io_value_as as_float ins "seconds_to_wait" = Ok d -> valid_binary prec emax d = true) ->
  let early := (wa_clock (w_ext (i_before it)) + wa_lag (w_ext (i_before it)))%Z in
  let late := (wa_clock (w_ext w) + wa_lag (w_ext w))%Z in
  (early <= late)%Z -> (forall t, first_tick (l1 ++ [it]) = Some t -> int64 (early - t) /\ int64 (late - t)) ->
  s = SUCCEEDED.
Proof.
  intros l1 it l2 w w' s H OP RS NR C VD early late LE I64. subst early late.
  destruct (hist_item _ _ _ _ _ _ _ _ H _ _ _ eq_refl) as [H1 C1]. rewrite OP, RS in C1.
  destruct (wait_tick _ _ _ _ _ _ H1 C1) as (ins & d & S & D & R). cbv zeta in R.
  destruct (wait_tick _ _ _ _ _ _ H C) as (ins2 & d2 & S2 & D2 & R2). cbv zeta in R2.
  assert (N1 : not_restarted (it :: l2)) by (intros x [<-|I]; [rewrite OP; exact I|exact (NR x I)]).
  rewrite (keep_inputs _ _ N1), S in S2. injection S2 as <-. rewrite D in D2. injection D2 as <-.
  assert (F : first_tick (l1 ++ [it]) = Some (match first_tick l1 with Some t => t | None => wa_clock (w_ext (i_before it)) end)).
  { rewrite first_tick_snoc, OP, RS. cbn. destruct (first_tick l1); reflexivity. }
  change (it :: l2) with ([it] ++ l2) in R2. rewrite app_assoc, (keep_first _ _ _ NR F) in R2.
  destruct (I64 _ F) as [A B]. revert A B R R2. generalize (match first_tick l1 with Some t => t | None => wa_clock (w_ext (i_before it)) end). intros t A B R R2.
  rewrite R2, (seconds_mono d _ _ _ t (VD _ _ S D) A B ltac:(lia)); [reflexivity|].
  destruct (SFleb d _); [reflexivity|discriminate].
Qed.

Lemma wait_time : forall l w w' s ins d, hist l w -> call OTick (the_leaf wait_leaf n name) w = (w', Ok s) ->
  setup_inputs n l = Some ins -> io_value_as as_float ins "seconds_to_wait" = Ok d ->
  valid_binary prec emax d = true -> is_finite_SF d = true ->
  let t0 := match first_tick l with Some t => t | None => wa_clock (w_ext w) end in
  let elapsed := (wa_clock (w_ext w) + wa_lag (w_ext w) - t0)%Z in
  (0 <= elapsed <= 2 ^ 53)%Z ->
  (s = SUCCEEDED \/ s = RUNNING) /\
  ((SF2R radix2 d <= IZR elapsed / 1000000000)%R -> s = SUCCEEDED) /\
  (s = SUCCEEDED -> forall e, valid_binary prec emax e = true -> is_finite_SF e = true ->
     (SF2R radix2 e < SF2R radix2 d)%R -> (SF2R radix2 e < IZR elapsed / 1000000000)%R).
Proof.
  intros l w w' s ins d H C S D V F t0 elapsed B.
  destruct (wait_tick _ _ _ _ _ _ H C) as (ins2 & d2 & S2 & D2 & R2). cbv zeta in R2. fold t0 in R2.
  rewrite S in S2. injection S2 as <-. rewrite D in D2. injection D2 as <-.
  split; [rewrite R2; destruct (SFleb _ _); auto|]. split.
  - intros L. rewrite R2, (seconds_enough d _ _ V F B L). reflexivity.
  - intros -> e Ve Fe L. destruct (SFleb d (seconds _ t0)) eqn:Q; [|discriminate]. exact (seconds_not_early d _ _ V F B Q e Ve Fe L).
Qed.
End WaitTime.
