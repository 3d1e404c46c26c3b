(** Proofs about the parallel nodes and the switches (C14-C16). *)
From Coq Require Import List String ZArith Bool Arith Lia.
From Verif Require Import Base ModelData ModelUtility ModelTree SpecTree SpecControl ProofsTree ProofsLife
  ProofsWhole ProofsControl ProofsMemory.
Import ListNotations.
Local Open Scope nat_scope.

Section Parallel.
Context {E : Type}.
Notation W := (world E).
Notation callrec := (obj E * op * res state)%type.

Lemma finished_bool : forall s, finished s = state_eqb s SUCCEEDED || state_eqb s FAILED.
Proof. intros. unfold finished. apply state_in2. Qed.

(** Children in [todo] are not touched by calls on the ones in [done]. *)
Definition apart (o : op) (c : obj E) (rest : list (obj E)) : Prop :=
  forall w d, In d rest -> w_st (fst (call o c w)) (o_id d) = w_st w (o_id d).

Lemma independent_cons : forall c (cs : list (obj E)), independent (c :: cs) ->
  independent cs /\ (forall o, apart o c cs) /\ (forall o d w, In d cs -> w_st (fst (call o d w)) (o_id c) = w_st w (o_id c)).
Proof.
  intros c cs [Hn Hi]. inversion Hn; subst. split; [|split].
  - split; auto. intros. apply Hi; simpl; auto.
  - intros o w d Hd. apply Hi; simpl; auto. intros Heq. apply H1. rewrite Heq. apply in_map_iff. eauto.
  - intros o d w Hd. apply Hi; simpl; auto. intros Heq. apply H1. rewrite <- Heq. apply in_map_iff. eauto.
Qed.

(** A loop that calls [o] on the unfinished children. *)
Fixpoint unf_loop (o : op) (cs : list (obj E)) (w : W) : W * res unit :=
  match cs with
  | [] => (w, Ok tt)
  | c :: r => bind (if finished (w_st w (o_id c)) then (w, Ok tt)
                    else bind (call o c w) (fun _ w' => (w', Ok tt))) (fun _ w1 => unf_loop o r w1)
  end.

Lemma unfinished_same : forall (w w' : W) cs,
  (forall d, In d cs -> w_st w' (o_id d) = w_st w (o_id d)) -> unfinished w' cs = unfinished w cs.
Proof.
  intros w w' cs H. unfold unfinished. induction cs as [|c r IH]; simpl; auto.
  rewrite (H c) by (simpl; auto). rewrite IH; auto. intros d Hd. apply H. simpl. auto.
Qed.

Lemma count_same : forall (w w' : W) s cs,
  (forall d, In d cs -> w_st w' (o_id d) = w_st w (o_id d)) -> count_st w' s cs = count_st w s cs.
Proof.
  intros w w' s cs H. unfold count_st. do 2 f_equal. induction cs as [|c r IH]; simpl; auto.
  rewrite (H c) by (simpl; auto). rewrite IH; auto. intros d Hd. apply H. simpl. auto.
Qed.

Lemma for_each_unf : forall o (cs : list (obj E)) w, independent cs ->
  unf_loop o cs w = for_each (call o) (unfinished w cs) w.
Proof.
  intros o cs. induction cs as [|c r IH]; intros w Hi; simpl; auto.
  destruct (independent_cons c r Hi) as [Hr [Ha Hb]].
  rewrite finished_bool. unfold unfinished. simpl. fold (unfinished w r).
  destruct (state_eqb (w_st w (o_id c)) SUCCEEDED || state_eqb (w_st w (o_id c)) FAILED) eqn:Ef; simpl.
  - apply IH; auto.
  - destruct (call o c w) as [w1 [s|e|]] eqn:Ec; simpl; auto.
    rewrite IH by auto. f_equal. apply unfinished_same. intros d Hd.
    specialize (Ha o w d Hd). rewrite Ec in Ha. exact Ha.
Qed.

Lemma unf_loop_frame : forall o (cs : list (obj E)) w c,
  (forall d w, In d cs -> w_st (fst (call o d w)) c = w_st w c) ->
  w_st (fst (unf_loop o cs w)) c = w_st w c.
Proof.
  intros o cs. induction cs as [|d r IH]; intros w c H; simpl; auto.
  destruct (finished (w_st w (o_id d))); simpl.
  - apply IH. intros. apply H. simpl; auto.
  - specialize (H d w (or_introl eq_refl)) as H1. destruct (call o d w) as [w1 [s|e|]]; simpl in *; auto.
    rewrite IH; auto.
Qed.

Lemma count_cons : forall (w : W) s c cs,
  count_st w s (c :: cs) = ((if state_eqb (w_st w (o_id c)) s then 1 else 0) + count_st w s cs)%Z.
Proof. intros. unfold count_st. simpl. destruct (state_eqb _ s); simpl List.length; lia. Qed.

Lemma parallel_loop_spec : forall (cs : list (obj E)) a b w, independent cs ->
  parallel_loop cs a b w =
  match unf_loop OTick cs w with
  | (w2, Ok _) => (w2, Ok (a + count_st w2 SUCCEEDED cs, b + count_st w2 FAILED cs)%Z)
  | (w2, Err e) => (w2, Err e)
  | (w2, Raise) => (w2, Raise)
  end.
Proof.
  intros cs. induction cs as [|c r IH]; intros a b w Hi.
  - simpl. unfold count_st. simpl. rewrite !Z.add_0_r. reflexivity.
  - destruct (independent_cons c r Hi) as [Hr [Ha Hb]]. cbn [parallel_loop unf_loop].
    assert (Hx : (if negb (finished (w_st w (o_id c))) then bind (o_tick c w) (fun _ w' => (w', Ok tt)) else (w, Ok tt))
      = (if finished (w_st w (o_id c)) then (w, Ok tt) else bind (call OTick c w) (fun _ w' => (w', Ok tt)))).
    { destruct (finished (w_st w (o_id c))); reflexivity. }
    rewrite Hx. destruct (if finished (w_st w (o_id c)) then (w, Ok tt) else bind (call OTick c w) (fun _ w' => (w', Ok tt)))
      as [w1 [u|e|]]; cbn [bind]; auto.
    rewrite IH by auto.
    pose proof (unf_loop_frame OTick r w1 (o_id c) (fun d w Hd => Hb OTick d w Hd)) as Hf.
    destruct (unf_loop OTick r w1) as [w2 [u2|e|]]; auto. simpl in Hf.
    rewrite !count_cons, Hf. do 3 f_equal; [destruct (state_eqb (w_st w1 (o_id c)) SUCCEEDED)|destruct (state_eqb (w_st w1 (o_id c)) FAILED)]; lia.
Qed.

Lemma untick_unfinished_spec : forall (cs : list (obj E)) w,
  untick_unfinished cs w = unf_loop OUntick cs w.
Proof.
  induction cs as [|c r IH]; intros w; simpl; auto. destruct (finished (w_st w (o_id c))); simpl; auto.
  destruct (o_untick c w) as [w1 [s|e|]]; simpl; auto.
Qed.

Lemma calling_intro : forall o cs (w w1 : W) q (k : W -> Prop) stop,
  for_each (call o) cs w = (w1, q) ->
  (match q with Ok _ => k w1 | Err e => stop (Err e) w1 | Raise => stop Raise w1 end) ->
  calling o cs w k stop.
Proof.
  intros o cs w w1 q k stop H Hk. destruct (for_each_each _ _ _ _ _ H) as [l [Hr He]].
  exists l, q, w1. auto.
Qed.

Lemma parallel_spec : forall k (ev : env E) n name cs w w' r,
  k = KParallel \/ k = KParallelTolerance ->
  live (w_st w n) -> inputs_set w n -> Forall (blind n) cs -> independent cs ->
  call OTick (make_obj ev n k name cs) w = (w', r) ->
  parallel_plan n cs (a_needed (w_mem w n))
    (match k with KParallel => Z.of_nat (List.length cs) - a_needed (w_mem w n) | _ => a_tol (w_mem w n) end)%Z
    w w' r.
Proof.
  intros k ev n name cs w w' r Hk Hl Hi Hb Hind H. apply tick_api in H; auto. destruct H as [w2 [b [Hd He]]].
  set (tol := (match k with KParallel => Z.of_nat (List.length cs) - a_needed (w_mem w n) | _ => a_tol (w_mem w n) end)%Z).
  assert (Hwork : forall w1, w_mem w1 n = w_mem w n ->
    (bind (parallel_loop cs 0 0 w1) (fun sf w2 =>
      if Z.leb (a_needed (w_mem w2 n)) (fst sf) then bind (untick_unfinished cs w2) (fun _ w3 => (w3, Ok SUCCEEDED))
      else if Z.ltb (match k with KParallel => Z.of_nat (List.length cs) - a_needed (w_mem w2 n) | _ => a_tol (w_mem w2 n) end)%Z (snd sf)
      then bind (untick_unfinished cs w2) (fun _ w3 => (w3, Ok FAILED))
      else (w2, Ok RUNNING))) = (w2, b) ->
    calling OTick (unfinished w1 cs) w1
      (fun w2 => match (if Z.leb (a_needed (w_mem w n)) (count_st w2 SUCCEEDED cs) then Some SUCCEEDED
                        else if Z.ltb tol (count_st w2 FAILED cs) then Some FAILED else None) with
                 | None => end_tick n (Ok RUNNING) w2 w' r
                 | Some s => calling OUntick (unfinished w2 cs) w2 (fun w2 => end_tick n (Ok s) w2 w' r)
                               (fun b w2 => end_tick n b w2 w' r)
                 end) (fun b w2 => end_tick n b w2 w' r)).
  { intros w1 Hm1 Hx. rewrite parallel_loop_spec in Hx by auto. rewrite for_each_unf in Hx by auto.
    destruct (for_each (call OTick) (unfinished w1 cs) w1) as [w3 q] eqn:Ef.
    eapply calling_intro; [exact Ef|].
    assert (Hbu : Forall (blind n) (unfinished w1 cs)).
    { apply Forall_forall. intros c Hc. unfold unfinished in Hc. apply filter_In in Hc.
      rewrite Forall_forall in Hb. apply Hb. apply Hc. }
    destruct (for_each_blind n OTick _ _ _ _ Hbu Ef) as [_ Hm3].
    destruct q as [u|e|]; simpl in Hx; try (inversion Hx; subst; exact He).
    rewrite Hm3, Hm1 in Hx. fold tol in Hx. rewrite !untick_unfinished_spec, !for_each_unf in Hx by auto.
    assert (Hfin : forall s, bind (for_each (call OUntick) (unfinished w3 cs) w3) (fun _ w4 => (w4, Ok s)) = (w2, b) ->
      calling OUntick (unfinished w3 cs) w3 (fun w2 => end_tick n (Ok s) w2 w' r) (fun b w2 => end_tick n b w2 w' r)).
    { intros s Hy. destruct (for_each (call OUntick) (unfinished w3 cs) w3) as [w4 q4] eqn:E4.
      eapply calling_intro; [exact E4|]. destruct q4; simpl in Hy; inversion Hy; subst; exact He. }
    destruct (Z.leb (a_needed (w_mem w n)) (count_st w3 SUCCEEDED cs)); auto.
    destruct (Z.ltb tol (count_st w3 FAILED cs)); auto. inversion Hx; subst. exact He. }
  assert (Hd' : bind (reset_if_finished n cs (begin_tick n w)) (fun _ w1 =>
     (bind (parallel_loop cs 0 0 w1) (fun sf w2 =>
      if Z.leb (a_needed (w_mem w2 n)) (fst sf) then bind (untick_unfinished cs w2) (fun _ w3 => (w3, Ok SUCCEEDED))
      else if Z.ltb (match k with KParallel => Z.of_nat (List.length cs) - a_needed (w_mem w2 n) | _ => a_tol (w_mem w2 n) end)%Z (snd sf)
      then bind (untick_unfinished cs w2) (fun _ w3 => (w3, Ok FAILED))
      else (w2, Ok RUNNING)))) = (w2, b)).
  { destruct Hk; subst k; exact Hd. }
  clear Hd. unfold reset_if_finished in Hd'. change (w_st (begin_tick n w) n) with (w_st w n) in Hd'.
  unfold parallel_plan. split.
  - intros Hh. rewrite (proj2 (finished_spec _) Hh) in Hd'.
    destruct (for_each o_reset cs (begin_tick n w)) as [w1 q] eqn:Ef.
    apply (calling_intro OReset) with (w1 := w1) (q := q); [exact Ef|].
    destruct (for_each_blind n OReset _ _ _ _ Hb Ef) as [_ Hm].
    destruct q as [u|e|]; simpl in Hd'; try (inversion Hd'; subst; exact He).
    apply Hwork; auto.
  - intros Hh. destruct (finished (w_st w n)) eqn:Ef; [apply finished_spec in Ef; contradiction|].
    simpl in Hd'. apply Hwork; auto.
Qed.

(** Counting: when every child has a result. *)
Lemma counts_all : forall (w : W) cs, (forall c, In c cs -> has_result (w_st w (o_id c))) ->
  (count_st w SUCCEEDED cs + count_st w FAILED cs = Z.of_nat (List.length cs))%Z.
Proof.
  intros w cs H. induction cs as [|c r IH]; [reflexivity|].
  cbn [List.length]. rewrite Nat2Z.inj_succ, !count_cons. assert (Hr : forall d, In d r -> has_result (w_st w (o_id d))) by (intros; apply H; simpl; auto).
  specialize (IH Hr). destruct (H c (or_introl eq_refl)) as [Hc|Hc]; rewrite Hc; cbn [state_eqb]; lia.
Qed.

Lemma only_own_st : forall n (w w' : W), only_own n w w' -> forall m, m <> n -> w_st w' m = w_st w m.
Proof. intros n w w' [A _]. exact A. Qed.

Lemma parallel_running : forall n cs needed tol (w w' : W) s,
  ~ In n (map (fun c => o_id c) cs) ->
  parallel_plan n cs needed tol w w' (Ok s) -> s = RUNNING ->
  (count_st w' SUCCEEDED cs < needed /\ count_st w' FAILED cs <= tol)%Z.
Proof.
  intros n cs needed tol w w' s Hnin [H1 H2] ->.
  assert (Hst : forall b w2, end_tick n b w2 w' (Ok RUNNING) -> b = Ok RUNNING /\
            forall st, count_st w' st cs = count_st w2 st cs).
  { intros b w2 He. split; [eapply end_tick_ok; eauto|]. intros st. apply count_same.
    intros d Hd. destruct He as [Ho _]. apply (only_own_st _ _ _ Ho). intros Heq. apply Hnin. rewrite <- Heq. apply in_map_iff. eauto. }
  set (work := fun w1 => calling OTick (unfinished w1 cs) w1 _ _) in *.
  assert (Hw : forall w1, work w1 -> (count_st w' SUCCEEDED cs < needed /\ count_st w' FAILED cs <= tol)%Z).
  { intros w1 [l [q [w2 [_ [_ Hq]]]]]. destruct q as [u|e|].
    - destruct (Z.leb needed (count_st w2 SUCCEEDED cs)) eqn:E1.
      + destruct Hq as [l2 [q2 [w3 [_ [_ Hq2]]]]]. destruct q2; apply Hst in Hq2; destruct Hq2; discriminate.
      + destruct (Z.ltb tol (count_st w2 FAILED cs)) eqn:E2.
        * destruct Hq as [l2 [q2 [w3 [_ [_ Hq2]]]]]. destruct q2; apply Hst in Hq2; destruct Hq2; discriminate.
        * apply Hst in Hq. destruct Hq as [_ Hc]. rewrite !Hc. apply Z.leb_gt in E1. apply Z.ltb_ge in E2. auto.
    - apply Hst in Hq. destruct Hq; discriminate.
    - apply Hst in Hq. destruct Hq; discriminate. }
  destruct (finished (w_st w n)) eqn:Ef.
  - specialize (H1 (proj1 (finished_spec _) Ef)). destruct H1 as [l [q [w1 [_ [_ Hq]]]]].
    destruct q as [u|e|]; [eapply Hw; eauto| |]; apply Hst in Hq; destruct Hq; discriminate.
  - apply Hw with (w1 := begin_tick n w). apply H2. intros Hh. apply finished_spec in Hh. congruence.
Qed.

(** C14, C15: no RUNNING when every child has a result. *)
Lemma parallel_decided : forall k (ev : env E) n name cs w w' r,
  k = KParallel \/ (k = KParallelTolerance /\ (a_needed (w_mem w n) + a_tol (w_mem w n) <= Z.of_nat (List.length cs))%Z) ->
  ~ In n (map (fun c => o_id c) cs) ->
  live (w_st w n) -> inputs_set w n -> Forall (blind n) cs -> independent cs ->
  call OTick (make_obj ev n k name cs) w = (w', r) ->
  (forall c, In c cs -> has_result (w_st w' (o_id c))) -> r <> Ok RUNNING.
Proof.
  intros k ev n name cs w w' r Hk Hnin Hl Hi Hb Hind H Hall ->.
  assert (Hk' : k = KParallel \/ k = KParallelTolerance) by tauto.
  pose proof (parallel_spec _ _ _ _ _ _ _ _ Hk' Hl Hi Hb Hind H) as Hp.
  apply parallel_running in Hp; auto. pose proof (counts_all _ _ Hall).
  destruct Hk as [->|[-> Hle]]; lia.
Qed.

(** The options are the values of the inputs when the node was set up. *)
Lemma parallel_setup : forall k (ev : env E) n name cs w w' s,
  k = KParallel \/ k = KParallelTolerance -> Forall (blind n) cs ->
  call OSetup (make_obj ev n k name cs) w = (w', Ok s) ->
  (a_needed (w_mem w' n) <= Z.of_nat (List.length cs))%Z /\
  (forall c i, dget "needed_successes" (w_ins w n) = Some c -> c_static c = true -> c_val c = Some (VInt i) ->
    a_needed (w_mem w' n) = i) /\
  (forall c i, k = KParallelTolerance ->
    dget "tolerate_failures" (w_ins w n) = Some c -> c_static c = true -> c_val c = Some (VInt i) ->
    a_tol (w_mem w' n) = i).
Proof.
  intros k ev n name cs w w' s Hk Hb H. apply ok_api in H; auto. destruct H as [w2 [Hd [_ [_ [Hm _]]]]].
  rewrite Hm. cbn [do_op] in Hd. set (w1 := prepare OSetup n w) in *.
  assert (HA : exists i, in_value_as as_int w1 n "needed_successes" = Ok i /\ (i <= Z.of_nat (List.length cs))%Z /\
             a_needed (w_mem w2 n) = i /\
             (k = KParallelTolerance -> exists t, in_value_as as_int w1 n "tolerate_failures" = Ok t /\ a_tol (w_mem w2 n) = t)).
  { destruct Hk; subst k; unfold do_setup, with_in in Hd.
    - destruct (in_value_as as_int w1 n "needed_successes") as [i|e|]; try discriminate. exists i. split; auto.
      destruct (Z.ltb (Z.of_nat (List.length cs)) i) eqn:El; [discriminate|]. apply Z.ltb_ge in El. split; auto.
      apply (each_then_own n OSetup) in Hd; auto. destruct Hd as [Hx _]. rewrite Hx. simpl. rewrite upd_eq. simpl.
      split; auto. discriminate.
    - destruct (in_value_as as_int w1 n "needed_successes") as [i|e|]; try discriminate. exists i. split; auto.
      destruct (Z.ltb (Z.of_nat (List.length cs)) i) eqn:El; [discriminate|]. apply Z.ltb_ge in El. split; auto.
      change (in_value_as as_int (mem_needed w1 n i) n "tolerate_failures") with (in_value_as as_int w1 n "tolerate_failures") in Hd.
      destruct (in_value_as as_int w1 n "tolerate_failures") as [t|e|]; try discriminate.
      apply (each_then_own n OSetup) in Hd; auto. destruct Hd as [Hx _]. rewrite Hx. simpl. rewrite !upd_eq. simpl.
      split; auto. intros _. exists t. auto. }
  destruct HA as [i [Hi [Hle [Ha Ht]]]]. split; [lia|]. split.
  - intros c j Hd1 Hs Hv. pose proof (setup_option w n "needed_successes" c Z as_int (VInt j) j Hd1 Hs Hv eq_refl) as Ho.
    fold w1 in Ho. congruence.
  - intros c j Hkt Hd1 Hs Hv. destruct (Ht Hkt) as [t [Ht1 Ht2]].
    pose proof (setup_option w n "tolerate_failures" c Z as_int (VInt j) j Hd1 Hs Hv eq_refl) as Ho.
    fold w1 in Ho. congruence.
Qed.

(** ** Switches *)

Lemma switch_spec : forall n cs m nm (w w2 : W) b chosen,
  dget nm m = Some chosen ->
  switch_tick n cs m nm w = (w2, b) ->
  exists l, ran w l w2 /\ reset_first (has_result (w_st w n)) cs l b
    (fun l1 => switch_plan chosen (map snd (filter (fun kc => negb (String.eqb (fst kc) nm)) m)) l1 b).
Proof.
  intros n cs m nm w w2 b chosen Hm H. unfold switch_tick in H. rewrite Hm in H. unfold reset_if_finished in H.
  eapply reset_phase in H; eauto; [apply finished_spec|].
  intros w1 H1. change (@o_untick E) with (call (E:=E) OUntick) in H1.
  destruct (for_each (call OUntick) _ w1) as [w3 q] eqn:Ef.
  destruct (for_each_each _ _ _ _ _ Ef) as [l1 [Hr He]].
  destruct q as [u|e|]; simpl in H1.
  - exists (l1 ++ [(chosen, OTick, b)]). split; [eapply ran_app; eauto; apply ran_one; auto|].
    exists l1, (Ok u). split; auto. exists b. auto.
  - inversion H1; subst. exists l1. split; auto. exists l1, (Err e). auto.
  - inversion H1; subst. exists l1. split; auto. exists l1, Raise. auto.
Qed.

End Parallel.

Lemma dset_new : forall A k (v : A) l, ~ In k (map fst l) -> dset k v l = l ++ [(k, v)].
Proof.
  intros A k v l H. induction l as [|[k' v'] r IH]; simpl; auto. simpl in H.
  destruct (String.eqb_spec k k'); [exfalso; apply H; left; congruence|]. f_equal. apply IH. tauto.
Qed.

(** Without duplicate keys a dictionary display keeps all entries in order. *)
Lemma py_dict_nodup : forall A (l : list (string * A)), NoDup (map fst l) -> py_dict l = l.
Proof.
  intros A l H. unfold py_dict.
  assert (Hg : forall (l d : list (string * A)), NoDup (map fst (d ++ l)) ->
    fold_left (fun d kv => dset (fst kv) (snd kv) d) l d = d ++ l).
  { clear. induction l as [|[k v] r IH]; intros d Hn; simpl; [rewrite app_nil_r; reflexivity|].
    rewrite dset_new.
    - rewrite IH; rewrite <- app_assoc; auto.
    - rewrite map_app in Hn. simpl in Hn. apply NoDup_remove_2 in Hn. intros Hin. apply Hn. apply in_or_app. auto. }
  apply (Hg l []). exact H.
Qed.

Lemma dget_in : forall A (l : list (string * A)) k v, NoDup (map fst l) -> In (k, v) l -> dget k l = Some v.
Proof.
  intros A l k v Hn Hin. induction l as [|[k' v'] r IH]; [contradiction|]. simpl in *. inversion Hn; subst.
  destruct Hin as [Heq|Hin].
  - inversion Heq; subst. rewrite String.eqb_refl. reflexivity.
  - destruct (String.eqb_spec k k'); [|auto]. subst. exfalso. apply H1. apply in_map_iff. exists (k', v). auto.
Qed.

Lemma dget_none : forall A (l : list (string * A)) k, ~ In k (map fst l) -> dget k l = None.
Proof.
  intros A l k H. induction l as [|[k' v'] r IH]; auto. simpl in *.
  destruct (String.eqb_spec k k'); [exfalso; apply H; left; congruence|]. apply IH. tauto.
Qed.

Section Switch.
Context {E : Type}.
Notation W := (world E).


Lemma map_keys : forall (key : obj E -> string) cs,
  map fst (map (fun c => (key c, c)) cs) = map key cs.
Proof. intros. rewrite map_map. reflexivity. Qed.

Lemma others_spec : forall (key : obj E -> string) nm cs, NoDup (map key cs) ->
  map snd (filter (fun kc => negb (String.eqb (fst kc) nm)) (py_dict (map (fun c => (key c, c)) cs)))
  = others key nm cs.
Proof.
  intros key nm cs Hn. rewrite py_dict_nodup by (rewrite map_keys; auto). unfold others. clear Hn.
  induction cs as [|c r IH]; simpl; auto. destruct (negb (String.eqb (key c) nm)); simpl; rewrite IH; auto.
Qed.

Lemma switch_pick : forall n (key : obj E -> string) cs c (w w2 : W) b,
  NoDup (map key cs) -> In c cs ->
  switch_tick n cs (py_dict (map (fun c => (key c, c)) cs)) (key c) w = (w2, b) ->
  exists l, ran w l w2 /\ reset_first (has_result (w_st w n)) cs l b
    (fun l1 => switch_plan c (others key (key c) cs) l1 b).
Proof.
  intros n key cs c w w2 b Hn Hc H. rewrite <- (others_spec key (key c) cs Hn). eapply switch_spec; eauto.
  rewrite py_dict_nodup by (rewrite map_keys; auto). apply dget_in; [rewrite map_keys; auto|].
  apply in_map_iff. exists c. auto.
Qed.

Lemma dset_keys : forall A k (v : A) l x, In x (map fst (dset k v l)) -> x = k \/ In x (map fst l).
Proof.
  intros A k v l x. induction l as [|[k' v'] r IH]; simpl; [intuition|].
  destruct (String.eqb k k'); simpl; intuition.
Qed.

Lemma py_dict_keys : forall A (l : list (string * A)) x, In x (map fst (py_dict l)) -> In x (map fst l).
Proof.
  intros A l x. unfold py_dict.
  assert (Hg : forall (l d : list (string * A)), In x (map fst (fold_left (fun d kv => dset (fst kv) (snd kv) d) l d)) ->
     In x (map fst d) \/ In x (map (@fst string A) l)).
  { clear. induction l as [|[k v] r IH]; intros d H; simpl in *; auto.
    destruct (IH _ H) as [H1|H1]; [|auto]. apply dset_keys in H1. intuition. }
  intros H. destruct (Hg l [] H); auto. contradiction.
Qed.

Lemma switch_none : forall n (key : obj E -> string) cs nm (w : W),
  (forall c, In c cs -> key c <> nm) ->
  switch_tick n cs (py_dict (map (fun c => (key c, c)) cs)) nm w = (w, Ok FAILED).
Proof.
  intros n key cs nm w H. unfold switch_tick. rewrite dget_none; auto.
  intros Hin. apply py_dict_keys in Hin. rewrite map_keys in Hin. apply in_map_iff in Hin.
  destruct Hin as [c [Hc Hi]]. apply (H c Hi Hc).
Qed.

Lemma name_switch_spec : forall (ev : env E) n name cs w w' r s,
  live (w_st w n) -> inputs_set w n ->
  in_value_as as_str w n "name" = Ok s ->
  call OTick (make_obj ev n KNameSwitch name cs) w = (w', r) ->
  ((forall c, In c cs -> o_name c <> s) -> ticks_with n w [] (Ok FAILED) w' r) /\
  (forall c, NoDup (map (fun c => o_name c) cs) -> In c cs -> o_name c = s ->
     exists l b, ticks_with n w l b w' r /\ reset_first (has_result (w_st w n)) cs l b
       (fun l1 => switch_plan c (others (fun c => o_name c) s cs) l1 b)).
Proof.
  intros ev n name cs w w' r s Hl Hi Hin H. apply tick_api in H; auto. destruct H as [w2 [b [Hd He]]].
  simpl in Hd. unfold name_switch_tick in Hd.
  change (in_value_as as_str (begin_tick n w) n "name") with (in_value_as as_str w n "name") in Hd. rewrite Hin in Hd.
  split.
  - intros Hno. unfold name_map in Hd. rewrite (switch_none n (fun c => o_name c)) in Hd by auto. inversion Hd; subst.
    exists (begin_tick n w). split; [constructor|auto].
  - intros c Hn Hc <-. unfold name_map in Hd. apply (switch_pick n (fun c => o_name c)) in Hd; auto.
    destruct Hd as [l [Hr Hp]]. exists l, b. split; [exists w2; auto|exact Hp].
Qed.

Lemma enum_switch_spec : forall (ev : env E) n pd name cs w w' r v s,
  live (w_st w n) -> inputs_set w n ->
  in_value w n "case" = Ok v -> enum_lookup v pd = s ->
  call OTick (make_obj ev n (KEnumSwitch pd) name cs) w = (w', r) ->
  ((forall c, In c cs -> Some (after_last_dot (o_name c)) <> s) -> ticks_with n w [] (Ok FAILED) w' r) /\
  (forall c, NoDup (map (fun c => after_last_dot (o_name c)) cs) -> In c cs -> s = Some (after_last_dot (o_name c)) ->
     exists l b, ticks_with n w l b w' r /\ reset_first (has_result (w_st w n)) cs l b
       (fun l1 => switch_plan c (others (fun c => after_last_dot (o_name c)) (after_last_dot (o_name c)) cs) l1 b)).
Proof.
  intros ev n pd name cs w w' r v s Hl Hi Hin Hs H. apply tick_api in H; auto. destruct H as [w2 [b [Hd He]]].
  simpl in Hd. unfold enum_switch_tick in Hd.
  change (in_value (begin_tick n w) n "case") with (in_value w n "case") in Hd. rewrite Hin, Hs in Hd.
  split.
  - intros Hno. destruct s as [s|].
    + unfold enum_map in Hd. rewrite (switch_none n (fun c => after_last_dot (o_name c))) in Hd.
      * inversion Hd; subst. exists (begin_tick n w). split; [constructor|auto].
      * intros c Hc Heq. apply (Hno c Hc). congruence.
    + inversion Hd; subst. exists (begin_tick n w). split; [constructor|auto].
  - intros c Hn Hc ->. unfold enum_map in Hd. apply (switch_pick n (fun c => after_last_dot (o_name c))) in Hd; auto.
    destruct Hd as [l [Hr Hp]]. exists l, b. split; [exists w2; auto|exact Hp].
Qed.
End Switch.

(** Children in a tree with distinct ids are independent. *)
Lemma tree_independent : forall E (ev : env E) n k name cs, NoDup (ids (T n k name cs)) ->
  independent (map (obj_of ev) cs) /\ ~ In n (map (fun c => o_id c) (map (obj_of ev) cs)).
Proof.
  intros E ev n k name cs Hn. inversion Hn as [|? ? Hnin Hnd]; subst.
  assert (Hid : forall t, o_id (obj_of ev t) = t_id t) by (intros [? ? ? ?]; reflexivity).
  assert (Hself : forall t, In (t_id t) (ids t)) by (intros [? ? ? ?]; simpl; auto).
  split; [split|].
  - rewrite map_map. clear Hnin Hn. induction cs as [|c r IH]; simpl in *; [constructor|].
    apply NoDup_app_inv in Hnd. destruct Hnd as [H1 [H2 H3]]. constructor; auto.
    rewrite in_map_iff. intros [d [Hd1 Hd2]]. rewrite !Hid in Hd1.
    apply (H3 (t_id c)); auto. apply in_flat_map. exists d. split; auto. rewrite <- Hd1. auto.
  - intros c d o w Hc Hd Hne. apply in_map_iff in Hc. destruct Hc as [tc [<- Hc]].
    apply in_map_iff in Hd. destruct Hd as [td [<- Hd]]. rewrite !Hid in *.
    eapply si_st_out; [apply frame_tree|]. intros Hin. 
    clear Hn Hnin. induction cs as [|x r IH]; [contradiction|]. simpl in Hnd.
    apply NoDup_app_inv in Hnd. destruct Hnd as [H1 [H2 H3]].
    destruct Hc as [->|Hc]; destruct Hd as [->|Hd]; auto.
    + apply (H3 (t_id td)); auto. apply in_flat_map. eauto.
    + apply (H3 (t_id td)); auto. apply in_flat_map. eauto.
  - rewrite map_map, in_map_iff. intros [c [Hc1 Hc2]]. rewrite Hid in Hc1. apply Hnin. apply in_flat_map.
    exists c. split; auto. rewrite <- Hc1. auto.
Qed.
