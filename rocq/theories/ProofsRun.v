(** Histories of operations on one node: options read at setup stay in force. *)
From Coq Require Import List String ZArith Bool Arith Lia.
From Verif Require Import Base ModelData ModelUtility ModelTree SpecTree SpecControl ProofsTree ProofsLife
  ProofsWhole ProofsControl ProofsMemory ProofsParallel ProofsDeco.
Import ListNotations.
Local Open Scope nat_scope.

Section Run.
Context {E : Type}.
Notation W := (world E).

Lemma node_options : forall (ev : env E) n k name cs o w, o <> OSetup -> Forall (blind n) cs ->
  same_options (w_mem (fst (call o (make_obj ev n k name cs) w)) n) (w_mem w n).
Proof.
  intros ev n k name cs o w Ho Hb. rewrite Forall_forall in Hb.
  set (R := fun w w' : W => same_options (w_mem w' n) (w_mem w n)).
  assert (Rr : forall w, R w w) by (intros; apply so_refl).
  assert (Rt : forall a b c, R a b -> R b c -> R a c).
  { intros a b c H1 H2. eapply so_trans; [exact H2|exact H1]. }
  assert (Rs : forall w w' : W, w_mem w' = w_mem w -> R w w').
  { intros w1 w2 He. unfold R. rewrite He. apply so_refl. }
  assert (Rc : forall c o w, True -> In c cs -> R w (fst (call o c w))).
  { intros c o1 w1 _ Hc. unfold R. destruct (Hb c Hc o1 w1) as [_ ->]. apply so_refl. }
  assert (Hd : forall w, R w (fst (do_op ev o n k cs w))).
  { intros w1. apply (do_op_rel ev R) with (phase := False) (okop := fun _ => True); auto.
    intros w2 a [[]|Ha]. unfold R. simpl. rewrite upd_eq. exact Ha. }
  change (R w (fst (call o (make_obj ev n k name cs) w))). rewrite call_make.
  destruct o; try congruence.
  - destruct (memrel_wrap R Rt Rs n _ w Hd) as [_ [H _]]. exact H.
  - destruct (memrel_wrap R Rt Rs n _ w Hd) as [_ [_ [H _]]]. exact H.
  - destruct (memrel_wrap R Rt Rs n _ w Hd) as [_ [_ [_ H]]]. exact H.
  - apply (memrel_shutdown R Rt Rs); auto. intros c w1 Hc. apply (Rc c OShutdown w1 I Hc).
Qed.

Lemma run_in : forall (c : obj E) w0 recs o w r w', op_run c w0 recs -> In (o, w, r, w') recs ->
  inputs_set w (o_id c) /\ call o c w = (w', r) /\ (o = OTick \/ o = OUntick \/ o = OReset).
Proof.
  intros c w0 recs o1 w1 r1 w1' H. induction H as [|? ? ? ? ? ? ? ? ? ? ? IH]; intros Hin; [destruct Hin|].
  destruct Hin as [He|Hin]; auto. inversion He; subst. auto.
Qed.

Lemma run_options : forall (ev : env E) n k name cs w0 recs o w r w',
  Forall (blind n) cs -> op_run (make_obj ev n k name cs) w0 recs -> In (o, w, r, w') recs ->
  same_options (w_mem w n) (w_mem w0 n).
Proof.
  intros ev n k name cs w0 recs o1 w1 r1 w1' Hb H. revert o1 w1 r1 w1'.
  induction H as [w9|w0 o1 w1 r1 w1' l [_ Hm] Ho Hi Hc Hr IH]; intros o w r w' Hin; [destruct Hin|].
  simpl in Hm. destruct Hin as [He|Hin].
  - inversion He; subst. rewrite Hm. apply so_refl.
  - eapply so_trans; [eapply IH; eauto|]. rewrite <- Hm.
    assert (Hno : o1 <> OSetup) by (destruct Ho as [ -> | [ -> | -> ]]; discriminate).
    pose proof (node_options ev n k name cs o1 w1 Hno Hb) as Hx. rewrite Hc in Hx. exact Hx.
Qed.

Lemma parallel_run : forall (ev : env E) n name cs wb w0 s recs w r w' c i,
  Forall (blind n) cs -> independent cs ->
  dget "needed_successes" (w_ins wb n) = Some c -> c_static c = true -> c_val c = Some (VInt i) ->
  call OSetup (make_obj ev n KParallel name cs) wb = (w0, Ok s) ->
  op_run (make_obj ev n KParallel name cs) w0 recs -> In (OTick, w, r, w') recs -> live (w_st w n) ->
  (i <= Z.of_nat (List.length cs))%Z /\
  parallel_plan n cs i (Z.of_nat (List.length cs) - i) w w' r.
Proof.
  intros ev n name cs wb w0 s recs w r w' c i Hb Hind Hd Hs Hv Hset Hrun Hin Hl.
  destruct (run_in _ _ _ _ _ _ _ Hrun Hin) as [Hi [Hc _]]. simpl in Hi.
  destruct (run_options _ _ _ _ _ _ _ _ _ _ _ Hb Hrun Hin) as [_ [Hn _]].
  destruct (parallel_setup KParallel ev n name cs wb w0 s (or_introl eq_refl) Hb Hset) as [Hle [Hnd _]].
  rewrite (Hnd c i Hd Hs Hv) in *.
  pose proof (parallel_spec KParallel ev n name cs w w' r (or_introl eq_refl) Hl Hi Hb Hind Hc) as Hp.
  cbn iota in Hp. rewrite Hn in Hp. auto.
Qed.

Lemma tolerance_run : forall (ev : env E) n name cs wb w0 s recs w r w' c i d j,
  Forall (blind n) cs -> independent cs ->
  dget "needed_successes" (w_ins wb n) = Some c -> c_static c = true -> c_val c = Some (VInt i) ->
  dget "tolerate_failures" (w_ins wb n) = Some d -> c_static d = true -> c_val d = Some (VInt j) ->
  call OSetup (make_obj ev n KParallelTolerance name cs) wb = (w0, Ok s) ->
  op_run (make_obj ev n KParallelTolerance name cs) w0 recs -> In (OTick, w, r, w') recs -> live (w_st w n) ->
  (i <= Z.of_nat (List.length cs))%Z /\ parallel_plan n cs i j w w' r.
Proof.
  intros ev n name cs wb w0 s recs w r w' c i d j Hb Hind Hd Hs Hv Hd2 Hs2 Hv2 Hset Hrun Hin Hl.
  destruct (run_in _ _ _ _ _ _ _ Hrun Hin) as [Hi [Hc _]]. simpl in Hi.
  destruct (run_options _ _ _ _ _ _ _ _ _ _ _ Hb Hrun Hin) as [_ [Hn [Ht _]]].
  destruct (parallel_setup KParallelTolerance ev n name cs wb w0 s (or_intror eq_refl) Hb Hset) as [Hle [Hnd Htl]].
  rewrite (Hnd c i Hd Hs Hv) in *. rewrite (Htl d j eq_refl Hd2 Hs2 Hv2) in *.
  pose proof (parallel_spec KParallelTolerance ev n name cs w w' r (or_intror eq_refl) Hl Hi Hb Hind Hc) as Hp.
  cbn iota in Hp. rewrite Hn, Ht in Hp. auto.
Qed.

(** IgnoreRunning keeps its option. *)
Lemma ignore_running_setup : forall (ev : env E) n name cs w w' s c b,
  Forall (blind n) cs ->
  dget "running_is_success" (w_ins w n) = Some c -> c_static c = true -> c_val c = Some (VBool b) ->
  call OSetup (make_obj ev n KIgnoreRunning name cs) w = (w', Ok s) -> a_ris (w_mem w' n) = b.
Proof.
  intros ev n name cs w w' s c b Hb Hd Hs Hv H. apply ok_api in H; [|tauto].
  destruct H as [w2 [Hdo [_ [_ [Hm _]]]]]. rewrite Hm.
  pose proof (setup_option w n _ c bool as_bool (VBool b) b Hd Hs Hv eq_refl) as Ho.
  cbn [do_op do_setup] in Hdo. unfold with_in in Hdo. rewrite Ho in Hdo.
  destruct cs as [|c0 cs0]; simpl in Hdo.
  - inversion Hdo. simpl. rewrite upd_eq. reflexivity.
  - pose proof (Forall_inv Hb OSetup (mem_ris (prepare OSetup n w) n b)) as [_ Hx]. simpl call in Hx.
    rewrite Hdo in Hx. simpl in Hx. rewrite Hx, upd_eq. reflexivity.
Qed.

Lemma ignore_running_run : forall (ev : env E) n name c0 cs wb w0 s recs w r w' c b,
  Forall (blind n) (c0 :: cs) ->
  dget "running_is_success" (w_ins wb n) = Some c -> c_static c = true -> c_val c = Some (VBool b) ->
  call OSetup (make_obj ev n KIgnoreRunning name (c0 :: cs)) wb = (w0, Ok s) ->
  op_run (make_obj ev n KIgnoreRunning name (c0 :: cs)) w0 recs -> In (OTick, w, r, w') recs -> live (w_st w n) ->
  exists x, ticks_with n w [(c0, OTick, x)]
    (res_map (fun s => match s with RUNNING => if b then SUCCEEDED else FAILED | _ => s end) x) w' r.
Proof.
  intros ev n name c0 cs wb w0 s recs w r w' c b Hb Hd Hs Hv Hset Hrun Hin Hl.
  destruct (run_in _ _ _ _ _ _ _ Hrun Hin) as [Hi [Hc _]]. simpl in Hi.
  destruct (run_options _ _ _ _ _ _ _ _ _ _ _ Hb Hrun Hin) as [_ [_ [_ [Hr _]]]].
  rewrite (ignore_running_setup _ _ _ _ _ _ _ _ _ Hb Hd Hs Hv Hset) in Hr.
  destruct (table_spec KIgnoreRunning ev n name c0 cs w w' r) as [x Hx]; auto.
  { unfold table_kind; auto. } { exact (Forall_inv Hb). }
  exists x. rewrite Hr in Hx. exact Hx.
Qed.

(** Retry and Repeat from setup or reset. *)
Lemma run_app : forall (c : obj E) w0 h l, op_run c w0 (h ++ l) -> op_run c w0 h.
Proof.
  intros c w0 h l. revert w0. induction h as [|[[[o w] r] w'] h IH]; intros w0 H; [constructor|].
  simpl in H. inversion H; subst. constructor; auto.
Qed.
Lemma run_split : forall (c : obj E) h w0 o w r w' l, op_run c w0 (h ++ (o, w, r, w') :: l) -> op_run c w' l.
Proof.
  intros c. induction h as [|[[[o1 w1] r1] w1'] h IH]; intros w0 o w r w' l H; simpl in H; inversion H; subst; eauto.
Qed.

Lemma counting_from_start : forall k (ev : env E) n name c cs wb w0 s h pre w r w' d i,
  k = KRetry \/ k = KRepeat -> Forall (blind n) (c :: cs) ->
  dget (match k with KRetry => "num_retries" | _ => "num_repeats" end)%string (w_ins wb n) = Some d ->
  c_static d = true -> c_val d = Some (VInt i) ->
  call OSetup (make_obj ev n k name (c :: cs)) wb = (w0, Ok s) ->
  op_run (make_obj ev n k name (c :: cs)) w0 (h ++ pre ++ [(OTick, w, r, w')]) ->
  (h = [] \/ exists h' wr wr', h = h' ++ [(OReset, wr, Ok IDLE, wr')]) ->
  Forall (fun x => fst (fst (fst x)) <> OReset /\ exists s, snd (fst x) = Ok s) pre ->
  exists l b, ticks_own n w l b w' r /\
    loop_plan (match k with
      | KRetry => fun s => s = FAILED /\ (S (answers n c FAILED pre)) mod (S (Z.to_nat i)) <> 0
      | _ => fun s => s = SUCCEEDED /\ S (answers n c SUCCEEDED pre) <= Z.to_nat i
      end) (fun s => s) c l b.
Proof.
  intros k ev n name c cs wb w0 s h pre w r w' d i Hk Hb Hd Hs Hv Hset Hrun Hh HF.
  assert (Hk3 : k = KRetry \/ k = KRepeat \/ k = KRepeatNoAutoReset) by tauto.
  assert (Hne : k <> KRepeatNoAutoReset) by (destruct Hk; subst; discriminate).
  destruct (counting_start k ev n name (c :: cs) OSetup wb w0 s Hk3 Hb (or_introl eq_refl) Hset) as [Hst [Hc0 [_ Hl0]]].
  specialize (Hl0 eq_refl d i Hd Hs Hv).
  destruct (run_in _ _ _ OTick w r w' Hrun) as [Hi [Hc _]].
  { rewrite !in_app_iff. simpl. auto. }
  simpl in Hi.
  assert (Hlive : forall s, s = IDLE -> live s) by (intros s0 ->; intros [A|[A|A]]; discriminate).
  destruct Hh as [->|[h' [wr [wr' ->]]]].
  - simpl in Hrun. eapply counting_run; eauto. eapply run_app; eauto.
  - rewrite <- app_assoc in Hrun. simpl in Hrun.
    pose proof (run_split _ _ _ _ _ _ _ _ Hrun) as Hrun2.
    assert (Hinr : In (OReset, wr, Ok IDLE, wr') (h' ++ (OReset, wr, Ok IDLE, wr') :: pre ++ [(OTick, w, r, w')])).
    { rewrite in_app_iff. simpl. auto. }
    destruct (run_in _ _ _ _ _ _ _ Hrun Hinr) as [_ [Hcr _]].
    destruct (run_options _ _ _ _ _ _ _ _ _ _ _ Hb Hrun Hinr) as [Hlm _].
    destruct (counting_start k ev n name (c :: cs) OReset wr wr' IDLE Hk3 Hb (or_intror (conj eq_refl Hne)) Hcr) as [Hst' [Hc0' [Hl0' _]]].
    specialize (Hl0' eq_refl).
    eapply counting_run with (w0 := wr'); eauto; [eapply run_app; eauto|congruence].
Qed.

(** RepeatNoAutoReset from setup. *)
Lemma nar_from_setup : forall (ev : env E) n name c cs wb w0 s recs d i,
  Forall (blind n) (c :: cs) ->
  dget "num_repeats" (w_ins wb n) = Some d -> c_static d = true -> c_val d = Some (VInt i) ->
  call OSetup (make_obj ev n KRepeatNoAutoReset name (c :: cs)) wb = (w0, Ok s) ->
  op_run (make_obj ev n KRepeatNoAutoReset name (c :: cs)) w0 recs ->
  Forall (fun x => match x with (o, w, _, _) => o = OTick -> in_value_as as_bool w n "reset" = Ok false end) recs ->
  exists ls, Forall2 (did n) recs ls /\ completions (List.concat ls) <= Z.to_nat i /\
    forall pre w r w' post, recs = pre ++ (OTick, w, r, w') :: post -> live (w_st w n) ->
      exists lp lt lr b, ls = lp ++ lt :: lr /\ List.length lp = List.length pre /\ does OTick n w lt b w' r /\
        (completions (List.concat lp) = Z.to_nat i -> lt = [] /\ b = Ok SUCCEEDED).
Proof.
  intros ev n name c cs wb w0 s recs d i Hb Hd Hs Hv Hset Hrun HF.
  destruct (counting_start KRepeatNoAutoReset ev n name (c :: cs) OSetup wb w0 s (or_intror (or_intror eq_refl)) Hb
    (or_introl eq_refl) Hset) as [_ [Hc0 [_ Hlim]]].
  specialize (Hlim eq_refl d i Hd Hs Hv).
  destruct (nar_run ev n name c cs w0 recs Hb Hrun HF ltac:(lia)) as [ls [H1 [H2 H3]]].
  rewrite Hc0, Hlim, Z.sub_0_r in *. exists ls. auto.
Qed.

(** Optional from setup. *)
Lemma optional_from_setup : forall (ev : env E) n name c wb w0 r0 u recs,
  blind n c -> w_st wb n = UNINITIALIZED \/ w_st wb n = SHUTDOWN ->
  o_util c (mem_exec (prepare OSetup n wb) n false) = Ok u ->
  call OSetup (make_obj ev n KOptional name [c]) wb = (w0, r0) ->
  op_run (make_obj ev n KOptional name [c]) w0 recs ->
  (can_execute u = false -> r0 = Ok IDLE /\ only_own n (mem_exec (prepare OSetup n wb) n false) w0) /\
  Forall (fun x => match x with (o, w, r, w') =>
    exists l b, does o n w l b w' r /\
      (live (w_st w n) -> if can_execute u then exists x, l = [(c, o, x)] /\ b = x
                          else l = [] /\ b = Ok (match o with OTick => SUCCEEDED | _ => IDLE end)) end) recs.
Proof.
  intros ev n name c wb w0 r0 u recs Hb Hst Hu Hset Hrun.
  destruct (optional_setup ev n name c wb w0 r0 Hst Hb Hset) as [_ Hx].
  destruct (Hx u Hu) as [He Hno]. split; auto.
  rewrite <- He. apply (optional_run ev n name c []); auto.
Qed.

End Run.
