(** Proofs about the timeout of action nodes. *)
From Coq Require Import String ZArith Bool SpecFloat Arith Lia List.
From Verif Require Import Base ModelData ModelUtility ModelTree ModelLeaf SpecLeaf ProofsLeaf ProofsWait ProofsService ProofsAction.
Import ListNotations.
Local Open Scope string_scope.
Local Open Scope list_scope.

Section Action.
Context {Goal Res : Type}.
Variable fields : list string.
Variable get_goal : iomap -> res Goal.
Variable set_result : Res -> list (string * value) * res state.
Variable get_type : iomap -> res unit.
Variable typed : bool.
Variables (n : nid) (name : string).
Notation leaf := (action_leaf fields get_goal set_result get_type typed).
Notation ac := (action Goal Res).

Lemma since_snoc : forall l (it : item ac), executing_since n (l ++ [it]) =
  match i_op it with
  | OTick => if accepted n (i_before it) then Some (ac_clock (w_ext (i_before it))) else executing_since n l
  | _ => executing_since n l
  end.
Proof. intros. unfold executing_since. rewrite fold_left_app. reflexivity. Qed.

Lemma last_latest : forall (x : ac) i g, last_is x i -> nth_error (ac_goals x) i = Some g -> latest (ac_goals x) = Some g.
Proof.
  intros y i g L G. unfold last_is in L. destruct (@exists_last _ (ac_goals y)) as (b & c & EB); [intros K; rewrite K in L; discriminate|].
  rewrite EB in *. rewrite app_length in L. cbn in L. replace i with (length b) in G by lia.
  rewrite nth_error_app2, Nat.sub_diag in G by lia. cbn in G. injection G as ->.
  unfold latest. rewrite rev_app_distr. reflexivity.
Qed.

Ltac break H := repeat match type of H with
  | context [match ?r with _ => _ end] => destruct r; try discriminate H
  end.

(** How a tick gets to wait for the result, or stays there. *)
Lemma go_waits : forall st ins (x x' : ac) ws r, pos x -> action_go set_result typed st ins x = (x', ws, r) ->
  ac_timeout x' = ac_timeout x /\
  (waits_result x' ->
    (waits_result x /\ ac_start x' = ac_start x) \/
    (ac_state x = Some AWaitAccept /\ ac_start x' = ac_clock x /\
     exists g, latest (ac_goals x) = Some g /\ f_reply (go_accept g) = Some (RMsg tt))).
Proof.
  intros st ins x x' ws r P H. unfold action_go, onok in H. unfold waits_result.
  destruct (if ac_client x then _ else _); [|injection H as <- <- <-; auto|injection H as <- <- <-; auto].
  assert (P' : pos (ac_with_client x true)) by exact P. 
  change (ac_state x) with (ac_state (ac_with_client x true)). change (ac_start x) with (ac_start (ac_with_client x true)).
  change (ac_goals x) with (ac_goals (ac_with_client x true)). change (ac_clock x) with (ac_clock (ac_with_client x true)).
  change (ac_timeout x) with (ac_timeout (ac_with_client x true)).
  clear P. set (y := ac_with_client x true) in *. cbv zeta in H. clearbody y. unfold pos in P'.
  destruct (ac_state y) as [[]|] eqn:S.
  - unfold action_send in H. break H; injection H as <- <- <-; cbn; (split; [reflexivity|]); rewrite ?S; discriminate.
  - unfold action_accept in H. destruct P' as (HN & i & R & L). destruct (last_some y i L) as [g G]. rewrite R, G in H.
    destruct (f_reply (go_accept g)) as [[|[]|]|] eqn:RP; [| | |destruct (f_cancelled (go_accept g))];
      injection H as <- <- <-; cbn; (split; [reflexivity|]); rewrite ?S; try discriminate.
    intros _. right. split; [reflexivity|]. split; [reflexivity|]. exists g. split; [exact (last_latest y i g L G)|exact RP].
  - unfold action_complete in H. destruct P' as (i & R & F & L). destruct (last_some y i L) as [g G]. rewrite R, F, G in H.
    destruct (f_reply (go_result g)) as [[|m|]|]; [| | |destruct (f_cancelled (go_result g)); [|destruct (SFltb _ _)]];
      try (injection H as <- <- <-; cbn; (split; [reflexivity|]); rewrite ?S; try discriminate; auto; fail).
    destruct (set_result m). injection H as <- <- <-. cbn. split; [reflexivity|discriminate].
  - unfold action_ask in H. destruct (ac_handle y); injection H as <- <- <-; cbn; (split; [reflexivity|]); rewrite ?S; discriminate.
  - unfold action_canceled in H. destruct P' as (i & g & R & L & G & AS). rewrite R, G in H.
    destruct (f_reply (go_cancel g)); [|destruct (f_cancelled (go_cancel g))]; injection H as <- <- <-; cbn; (split; [reflexivity|]); rewrite ?S; discriminate.
  - unfold action_finished in H. destruct (ac_goal y); injection H as <- <- <-; cbn; (split; [reflexivity|]); rewrite ?S; discriminate.
  - injection H as <- <- <-. split; [reflexivity|]. rewrite S. discriminate.
Qed.

Lemma leaf_waits : forall st ins (x x' : ac) ws r, pos x -> leaf OTick st ins x = (x', ws, r) ->
  ac_timeout x' = ac_timeout x /\
  (waits_result x' ->
    (waits_result x /\ ac_start x' = ac_start x) \/
    (ac_state x = Some AWaitAccept /\ ac_start x' = ac_clock x /\
     exists g, latest (ac_goals x) = Some g /\ f_reply (go_accept g) = Some (RMsg tt))).
Proof.
  intros st ins x x' ws r P H. unfold action_leaf in H.
  unfold onok at 1 in H. destruct (io_any_updated ins ("action_name" :: fields)) as [[|]|e|];
      [|exact (go_waits _ _ _ _ _ _ P H)|injection H as <- <- <-; auto|injection H as <- <- <-; auto].
  unfold onok in H. destruct (get_goal ins) as [g|e|]; [|injection H as <- <- <-; auto|injection H as <- <- <-; auto].
  assert (P' : pos (ac_with_goal x (Some g))) by exact P. cbv zeta in H. cbn [ac_state ac_with_goal] in H.
  unfold pos in P'. cbn in P'.
  assert (GC : forall z : ac, ac_state z = Some ARequestCancel -> ac_timeout z = ac_timeout x -> action_go set_result typed st ins z = (x', ws, r) ->
     ac_timeout x' = ac_timeout x /\ ~ waits_result x').
  { clear. intros z S T H. unfold action_go, onok in H. unfold waits_result.
    destruct (if ac_client z then _ else _); [|injection H as <- <- <-; split; congruence|injection H as <- <- <-; split; congruence].
    cbv zeta in H. cbn [ac_state ac_with_client] in H. rewrite S in H. unfold action_ask in H.
    destruct (ac_handle _); injection H as <- <- <-; cbn; split; congruence. }
  destruct (ac_state x) as [[]|] eqn:S;
    try (apply GC in H; [|reflexivity|reflexivity]; destruct H as [T NW]; split; [exact T|intros W; contradiction]);
    try (apply go_waits in H; [|unfold pos; cbn; rewrite S; exact P']; destruct H as [T W]; split; [exact T|]; intros K;
      destruct (W K) as [(W1 & W2)|(W1 & W2 & W3)]; [left|right]; unfold waits_result in *; cbn in *; rewrite S in *; auto).
  injection H as <- <- <-. split; [reflexivity|]. unfold waits_result. cbn. congruence.
Qed.

Definition time_inv (l : list (item ac)) (w : world ac) : Prop :=
  (w_st w n = UNINITIALIZED \/ w_st w n = SHUTDOWN \/ w_st w n = BROKEN \/
   exists ins, setup_inputs n l = Some ins /\ io_value_as as_float ins "timeout_seconds" = Ok (ac_timeout (w_ext w))) /\
  (waits_result (w_ext w) -> executing_since n l = Some (ac_start (w_ext w))).

Lemma untick_time : forall (x x' : ac) r, pos x -> action_untick x = (x', r) ->
  ac_timeout x' = ac_timeout x /\ ~ waits_result x'.
Proof.
  intros x x' r P H. unfold waits_result. destruct (untick_pos _ _ _ P H) as (_ & [(_ & S & _)|(_ & -> & S)]); (split; [|congruence]).
  - unfold action_untick in H. destruct (ac_state x) as [[]|]; try (injection H as <- <-; reflexivity).
    destruct (action_ask x) as [x1 [?|?|]] eqn:A; injection H as <- <-; unfold action_ask in A; destruct (ac_handle x); injection A as <-; reflexivity.
  - reflexivity.
Qed.
Lemma reset_time : forall (x x' : ac) r, pos x -> action_reset x = (x', r) -> ac_timeout x' = ac_timeout x /\ ~ waits_result x'.
Proof.
  intros x x' r P H. unfold action_reset in H. destruct (action_untick x) as [x1 r1] eqn:U. apply untick_time in U; [|exact P].
  destruct r1; injection H as <- <-; exact U.
Qed.

Lemma hist_time : forall l w, history leaf action_init action_out n name l w -> time_inv l w.
Proof.
  induction 1 as [w S (I1 & I2 & _)|l w w' H IH S O|l w o w' r H IH C].
  - split; [auto|]. unfold waits_result. congruence.
  - destruct O as (O1 & _ & _ & _ & _ & _ & _ & O2 & O3 & _). destruct IH as [A B]. split.
    + rewrite S, O3. exact A.
    + unfold waits_result. rewrite O1, O2. exact B.
  - assert (P := hist_pos fields get_goal set_result get_type typed n name action_out (fun _ _ K => K) _ _ H).
    destruct IH as [A B]. unfold time_inv. rewrite since_snoc, setup_inputs_snoc. cbn [i_op i_before i_res i_after].
    apply leaf_call in C. destruct C as [(RF & -> & R)|[(-> & (_ & FA) & -> & R)|(NR & x' & ws & r0 & F & E & I & _ & O & FA)]].
    + split.
      * destruct R as [-> |(-> & _ & ->)]; [destruct o|]; exact A.
      * destruct o; try exact B. unfold accepted. rewrite (refused_executes n w RF). exact B.
    + split.
      * cbn. rewrite upd_same. auto.
      * cbn [w_ext set_st]. unfold accepted, executes. rewrite FA, andb_false_r. exact B.
    + rewrite E. destruct o.
      * (* setup *)
        specialize (I ltac:(discriminate)). unfold action_leaf, onok in F.
        assert (NB : w_st w n = UNINITIALIZED \/ w_st w n = SHUTDOWN) by (cbn in NR; destruct (w_st w n); auto; exfalso; apply NR; split; discriminate).
        destruct (io_value_as as_float _ _) as [t| |] eqn:V; [destruct (get_type _) as [[]|?|]| |]; injection F as <- <- <-;
          (split; [|try exact B; cbn; unfold waits_result; cbn; discriminate]);
          destruct O as [(-> & O & _)|[(O & _)|(s & Q & O & PP)]]; try discriminate Q;
          try (rewrite O; destruct NB; auto; fail).
        injection Q as <-. destruct PP as [(_ & [->|[PP _]])|(PP & _)]; try discriminate.
        do 3 right. rewrite I. cbn. eauto.
      * (* tick *)
        cbn [ins_for] in F. destruct (leaf_waits _ _ _ _ _ _ P F) as [T W]. split.
        -- destruct A as [A|[A|[A|(ins & A1 & A2)]]]; try (exfalso; apply NR; cbn; auto; fail).
           rewrite T. do 3 right. exists ins. auto.
        -- intros K. destruct (W K) as [(W1 & W2)|(W1 & W2 & g & W3 & W4)].
           ++ unfold accepted. unfold waits_result in W1. rewrite W1, andb_false_r. rewrite W2. exact (B W1).
           ++ unfold accepted. rewrite (ran_executes n w NR (FA eq_refl)), W1, W3, W4. cbn. rewrite W2. reflexivity.
      * unfold action_leaf in F. destruct (action_untick (w_ext w)) as [x1 r1] eqn:U. injection F as <- <- <-.
        apply untick_time in U; [|exact P]. destruct U as [T NW]. split; [|contradiction].
        destruct A as [A|[A|[A|A]]]; try (exfalso; apply NR; cbn; auto; fail). rewrite T. auto.
      * unfold action_leaf in F. destruct (action_reset (w_ext w)) as [x1 r1] eqn:U. injection F as <- <- <-.
        apply reset_time in U; [|exact P]. destruct U as [T NW]. split; [|contradiction].
        destruct A as [A|[A|[A|A]]]; try (exfalso; apply NR; cbn; auto; fail). rewrite T. auto.
      * unfold action_leaf in F. destruct (action_reset (w_ext w)) as [x1 r1] eqn:U. injection F as <- <- <-.
        apply reset_time in U; [|exact P]. destruct U as [T NW]. split; [|contradiction].
        destruct O as [(-> & O & _)|[(O & _)|(s & Q & O & PP)]]; auto.
        -- rewrite O, T. destruct A as [A|[A|[A|A]]]; auto.
        -- destruct r1; try discriminate Q. cbn in Q. injection Q as <-. auto.
Qed.

(** A tick while the node waits for the result. *)
Lemma action_timeout : forall l w w' s g, history leaf action_init action_out n name l w ->
  call OTick (the_leaf leaf n name) w = (w', Ok s) -> is_updated (w_ins w n) ("action_name" :: fields) = false ->
  waits_result (w_ext w) -> latest (ac_goals (w_ext w)) = Some g -> pending (go_result g) ->
  exists ins d t, setup_inputs n l = Some ins /\ io_value_as as_float ins "timeout_seconds" = Ok d /\
    executing_since n l = Some t /\ s = RUNNING /\
    if SFltb d (seconds (ac_clock (w_ext w)) t)
    then given_up (w_ext w') /\ exists g', latest (ac_goals (w_ext w')) = Some g' /\ f_cancelled (go_result g') = true
    else waits_result (w_ext w') /\ ac_goals (w_ext w') = ac_goals (w_ext w).
Proof.
  intros l w w' s g H C U WR LG (PR & PC).
  assert (P := hist_pos fields get_goal set_result get_type typed n name action_out (fun _ _ K => K) _ _ H).
  destruct (hist_time _ _ H) as [A B]. specialize (B WR).
  apply leaf_call in C. destruct C as [(RF & _ & [R|(R & _)])|[(_ & _ & _ & R)|(NR & x' & ws & r0 & F & E & _ & _ & O & _)]]; try discriminate.
  destruct O as [(R & _)|[(_ & e & R)|(s' & Q & O & [(_ & [R|(_ & R)])|(PP & e & R)])]]; try discriminate.
  injection R as ->. subst r0. cbn [ins_for] in F. unfold action_leaf in F. unfold onok at 1 in F. unfold is_updated in U.
  destruct (io_any_updated (w_ins w n) ("action_name" :: fields)) as [[|]|e|]; try discriminate.
  destruct A as [A|[A|[A|(ins & A1 & A2)]]]; try (exfalso; apply NR; cbn; auto; fail).
  exists ins, (ac_timeout (w_ext w)), (ac_start (w_ext w)). do 3 (split; [assumption|]).
  rewrite E. unfold action_go, onok in F. destruct (if ac_client (w_ext w) then _ else _); try discriminate.
  cbv zeta in F. unfold waits_result in WR. cbn [ac_state ac_with_client] in F. rewrite WR in F.
  unfold pos in P. rewrite WR in P. destruct P as (i & PH & PF & PL). destruct (last_some _ _ PL) as [g0 G].
  assert (g0 = g) by (pose proof (last_latest _ _ _ PL G); congruence). subst g0.
  unfold action_complete in F. cbn [ac_handle ac_fut ac_goals ac_timeout ac_clock ac_start ac_with_client] in F. rewrite PH, PF, G, PR, PC in F.
  destruct (SFltb _ _); injection F as <- <- <-; (split; [reflexivity|]).
  - split; [reflexivity|]. cbn. exists (mkGoal (go_goal g) (go_accept g) (cancel (go_result g)) (go_asked g) (go_cancel g)). split.
    + apply (last_latest (ac_with_goals (w_ext w) (nth_upd (ac_goals (w_ext w)) i (fun g => mkGoal (go_goal g) (go_accept g) (cancel (go_result g)) (go_asked g) (go_cancel g)))) i).
      * unfold last_is. cbn. rewrite nth_upd_length. exact PL.
      * cbn. rewrite nth_upd_nth, Nat.eqb_refl, G. reflexivity.
    + cbn. unfold cancel. rewrite PR. reflexivity.
  - split; [exact WR|reflexivity].
Qed.

(** The tick after the timeout. *)
Lemma action_cancels : forall l w w' s, history leaf action_init action_out n name l w ->
  call OTick (the_leaf leaf n name) w = (w', Ok s) -> given_up (w_ext w) ->
  s = RUNNING /\ exists g, latest (ac_goals (w_ext w')) = Some g /\ go_asked g = true.
Proof.
  intros l w w' s H C GU.
  assert (P := hist_pos fields get_goal set_result get_type typed n name action_out (fun _ _ K => K) _ _ H).
  apply leaf_call in C. destruct C as [(RF & _ & [R|(R & _)])|[(_ & _ & _ & R)|(NR & x' & ws & r0 & F & E & _ & _ & O & _)]]; try discriminate.
  destruct O as [(R & _)|[(_ & e & R)|(s' & Q & O & [(_ & [R|(_ & R)])|(PP & e & R)])]]; try discriminate.
  injection R as ->. subst r0. cbn [ins_for] in F. rewrite E. clear E O.
  assert (GO : forall z : ac, pos z -> ac_state z = Some ARequestCancel -> action_go set_result typed (w_st w n) (w_ins w n) z = (x', ws, Ok s') ->
    s' = RUNNING /\ exists g, latest (ac_goals x') = Some g /\ go_asked g = true).
  { clear. intros z P S H. unfold action_go, onok in H. destruct (if ac_client z then _ else _); try discriminate.
    cbv zeta in H. cbn [ac_state ac_with_client] in H. rewrite S in H. unfold pos in P. rewrite S in P.
    unfold action_ask in H. cbn [ac_handle ac_with_client] in H. destruct (ac_handle z) as [i|]; try discriminate. injection H as <- <- <-.
    split; [reflexivity|]. specialize (P i eq_refl). destruct (last_some _ _ P) as [g G].
    eexists. split; [eapply last_latest with (i := i)|].
    - unfold last_is. cbn. rewrite nth_upd_length. exact P.
    - cbn. rewrite nth_upd_nth, Nat.eqb_refl, G. reflexivity.
    - reflexivity. }
  unfold action_leaf in F. unfold onok at 1 in F. destruct (io_any_updated _ _) as [[|]|e|]; try discriminate.
  - unfold onok in F. destruct (get_goal _) as [g|e|]; try discriminate. cbv zeta in F. unfold given_up in GU. cbn [ac_state ac_with_goal] in F. rewrite GU in F.
    eapply GO; [| |exact F]; [|reflexivity]. unfold pos in *. cbn. rewrite GU in P. exact P.
  - eapply GO; [exact P|exact GU|exact F].
Qed.
(** The tick that finds the goal accepted. *)
Lemma action_accepted : forall l w w' s, history leaf action_init action_out n name l w ->
  call OTick (the_leaf leaf n name) w = (w', Ok s) -> is_updated (w_ins w n) ("action_name" :: fields) = false ->
  accepted n w = true ->
  s = RUNNING /\ waits_result (w_ext w') /\
  executing_since n (l ++ [mkItem w OTick w' (Ok s)]) = Some (ac_clock (w_ext w)).
Proof.
  intros l w w' s H C U AC. rewrite since_snoc. cbn [i_op i_before]. rewrite AC.
  assert (P := hist_pos fields get_goal set_result get_type typed n name action_out (fun _ _ K => K) _ _ H).
  unfold accepted in AC. apply andb_true_iff in AC. destruct AC as [_ AC].
  apply leaf_call in C. destruct C as [(RF & _ & [R|(R & _)])|[(_ & _ & _ & R)|(NR & x' & ws & r0 & F & E & _ & _ & O & _)]]; try discriminate.
  destruct O as [(R & _)|[(_ & e & R)|(s' & Q & O & [(_ & [R|(_ & R)])|(PP & e & R)])]]; try discriminate.
  injection R as ->. subst r0. cbn [ins_for] in F. unfold action_leaf in F. unfold onok at 1 in F. unfold is_updated in U.
  destruct (io_any_updated (w_ins w n) ("action_name" :: fields)) as [[|]|e|]; try discriminate.
  rewrite E. unfold action_go, onok in F. destruct (if ac_client (w_ext w) then _ else _); try discriminate.
  cbv zeta in F. cbn [ac_state ac_with_client] in F. destruct (ac_state (w_ext w)) as [[]|] eqn:S; try discriminate.
  unfold pos in P. rewrite S in P. destruct P as (PH & i & PR & PL). destruct (last_some _ _ PL) as [g G].
  rewrite (last_latest _ _ _ PL G) in AC. unfold action_accept in F. cbn [ac_req ac_goals ac_with_client] in F. rewrite PR, G in F.
  destruct (f_reply (go_accept g)) as [[|[]|]|]; try discriminate. injection F as <- <- <-. repeat split; reflexivity.
Qed.
(** The timeout does not count before that. *)
Lemma action_unanswered : forall l w w' s g, history leaf action_init action_out n name l w ->
  call OTick (the_leaf leaf n name) w = (w', Ok s) -> is_updated (w_ins w n) ("action_name" :: fields) = false ->
  unanswered (w_ext w) -> latest (ac_goals (w_ext w)) = Some g -> pending (go_accept g) ->
  s = RUNNING /\ unanswered (w_ext w') /\ ac_goals (w_ext w') = ac_goals (w_ext w).
Proof.
  intros l w w' s g H C U UA LG (PA & PC).
  assert (P := hist_pos fields get_goal set_result get_type typed n name action_out (fun _ _ K => K) _ _ H).
  apply leaf_call in C. destruct C as [(RF & _ & [R|(R & _)])|[(_ & _ & _ & R)|(NR & x' & ws & r0 & F & E & _ & _ & O & _)]]; try discriminate.
  destruct O as [(R & _)|[(_ & e & R)|(s' & Q & O & [(_ & [R|(_ & R)])|(PP & e & R)])]]; try discriminate.
  injection R as ->. subst r0. cbn [ins_for] in F. unfold action_leaf in F. unfold onok at 1 in F. unfold is_updated in U.
  destruct (io_any_updated (w_ins w n) ("action_name" :: fields)) as [[|]|e|]; try discriminate.
  rewrite E. unfold action_go, onok in F. destruct (if ac_client (w_ext w) then _ else _); try discriminate.
  cbv zeta in F. unfold unanswered in *. cbn [ac_state ac_with_client] in F. rewrite UA in F.
  unfold pos in P. rewrite UA in P. destruct P as (PH & i & PR & PL). destruct (last_some _ _ PL) as [g0 G].
  assert (g0 = g) by (pose proof (last_latest _ _ _ PL G); congruence). subst g0.
  unfold action_accept in F. cbn [ac_req ac_goals ac_with_client] in F. rewrite PR, G, PA, PC in F. injection F as <- <- <-. auto.
Qed.
End Action.
