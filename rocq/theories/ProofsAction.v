(** Proofs about action nodes. *)
From Coq Require Import String ZArith Bool SpecFloat Arith Lia List.
From Verif Require Import Base ModelData ModelUtility ModelTree ModelLeaf SpecLeaf ProofsLeaf ProofsWait ProofsService.
Import ListNotations.
Local Open Scope string_scope.
Local Open Scope list_scope.

Section Action.
Context {Goal Res : Type}.
Variable fields : list string.
Variable get_goal : iomap -> res Goal.
Variable set_result : Res -> list (string * value) * res state.
Variable get_type : iomap -> res unit.
Variable typed : bool.
Variables (n : nid) (name : string).
Notation leaf := (action_leaf fields get_goal set_result get_type typed).
Notation ac := (action Goal Res).

(** *** The goals that are sent *)

Lemma wanted_snoc : forall l (it : item ac), wanted fields get_goal n (l ++ [it]) =
  match i_op it with
  | OTick => if executes n (i_before it) && is_updated (w_ins (i_before it) n) ("action_name" :: fields)
             then match get_goal (w_ins (i_before it) n) with Ok g => Some g | _ => wanted fields get_goal n l end
             else wanted fields get_goal n l
  | _ => wanted fields get_goal n l
  end.
Proof. intros. unfold wanted. rewrite fold_left_app. reflexivity. Qed.

Definition sends (x x' : ac) : Prop :=
  (map go_goal (ac_goals x') = map go_goal (ac_goals x) /\ (ac_goal x' = ac_goal x)) \/
  (map go_goal (ac_goals x') = map go_goal (ac_goals x) ++ [ac_goal x] /\ ac_goal x' = None).

Lemma map_nth_upd : forall A B (h : A -> B) g (l : list A) i, (forall a, h (g a) = h a) -> map h (nth_upd l i g) = map h l.
Proof. induction l as [|a l IH]; intros [|i] H; cbn; try reflexivity; [rewrite H; reflexivity|]. rewrite IH; auto. Qed.

Ltac break H := repeat match type of H with
  | context [match ?r with _ => _ end] => destruct r; try discriminate H
  end.

Lemma go_sends : forall st ins (x x' : ac) ws r, action_go set_result typed st ins x = (x', ws, r) -> sends x x'.
Proof.
  intros st ins x x' ws r H. unfold action_go, onok in H.
  destruct (if ac_client x then _ else _); [|injection H as <- <- <-; left; auto|injection H as <- <- <-; left; auto].
  destruct (ac_state (ac_with_client x true)) as [[]|] eqn:S; cbn in S.
  - unfold action_send in H. cbn in H. destruct (ac_goal x) eqn:G; [|destruct typed];
      injection H as <- <- <-; cbn; unfold sends; cbn; rewrite ?map_app, ?G; cbn; auto.
  - unfold action_accept in H. cbn in H. break H; injection H as <- <- <-; left; auto.
  - unfold action_complete in H. cbn in H.
    repeat match type of H with
    | context [match ?r with _ => _ end] => destruct r; try discriminate H
    end; injection H as <- <- <-; left; cbn; rewrite ?map_nth_upd by reflexivity; auto.
  - unfold action_ask in H. cbn in H. destruct (ac_handle x); injection H as <- <- <-; left; cbn;
      rewrite ?map_nth_upd by reflexivity; auto.
  - unfold action_canceled in H. cbn in H. break H; injection H as <- <- <-; left; auto.
  - unfold action_finished in H. cbn in H. destruct (ac_goal x) eqn:G; injection H as <- <- <-; left; cbn; auto.
  - injection H as <- <- <-. left. auto.
Qed.

Lemma untick_goals : forall (x x' : ac) r, action_untick x = (x', r) ->
  map go_goal (ac_goals x') = map go_goal (ac_goals x) /\ ac_goal x' = ac_goal x.
Proof.
  intros x x' r H. unfold action_untick, action_ask in H. destruct (ac_state x) as [[]|];
    try (injection H as <- <-; cbn; auto; fail).
  destruct (ac_handle x); injection H as <- <-; cbn; rewrite ?map_nth_upd by reflexivity; auto.
Qed.
Lemma reset_goals : forall (x x' : ac) r, action_reset x = (x', r) ->
  map go_goal (ac_goals x') = map go_goal (ac_goals x) /\ ac_goal x' = ac_goal x.
Proof.
  intros x x' r H. unfold action_reset in H. destruct (action_untick x) as [x1 [?|?|]] eqn:U; apply untick_goals in U;
    injection H as <- <-; exact U.
Qed.

Lemma leaf_sends : forall o st ins (x x' : ac) ws r, leaf o st ins x = (x', ws, r) ->
  match o with
  | OTick =>
      exists y, sends y x' /\ ac_goals y = ac_goals x /\
        (ac_goal y = ac_goal x /\ (is_updated ins ("action_name" :: fields) = false \/ forall g, get_goal ins <> Ok g) \/
         exists g, get_goal ins = Ok g /\ ac_goal y = Some g /\ is_updated ins ("action_name" :: fields) = true)
  | _ => map go_goal (ac_goals x') = map go_goal (ac_goals x) /\ ac_goal x' = ac_goal x
  end.
Proof.
  intros o st ins x x' ws r H. destruct o; unfold action_leaf in H.
  - unfold onok in H. break H; injection H as <- <- <-; cbn; auto.
  - unfold onok at 1 in H. unfold is_updated.
    destruct (io_any_updated ins ("action_name" :: fields)) as [[|]|e|].
    + unfold onok in H. destruct (get_goal ins) as [g|e|] eqn:G.
      * exists (ac_with_goal x (Some g)). split; [|split; [reflexivity|right; exists g; auto]].
        destruct (ac_state (ac_with_goal x (Some g))) as [[]|]; try (apply go_sends in H; exact H). injection H as <- <- <-; left; auto.
      * exists x. injection H as <- <- <-. split; [left; auto|]. split; [reflexivity|]. left. split; [reflexivity|]. right. congruence.
      * exists x. injection H as <- <- <-. split; [left; auto|]. split; [reflexivity|]. left. split; [reflexivity|]. right. congruence.
    + exists x. apply go_sends in H. auto 8.
    + exists x. injection H as <- <- <-. split; [left; auto|]. auto.
    + exists x. injection H as <- <- <-. split; [left; auto|]. auto.
  - destruct (action_untick x) as [x1 r1] eqn:U. apply untick_goals in U. injection H as <- <- <-. exact U.
  - destruct (action_reset x) as [x1 r1] eqn:U. apply reset_goals in U. injection H as <- <- <-. exact U.
  - destruct (action_reset x) as [x1 r1] eqn:U. apply reset_goals in U. injection H as <- <- <-. exact U.
Qed.

Lemma refused_executes : forall (w : world ac), refused OTick (w_st w n) -> executes n w = false.
Proof. intros w [R|[R|R]]; unfold executes; rewrite R; reflexivity. Qed.
Lemma ran_executes : forall (w : world ac), ~ refused OTick (w_st w n) ->
  forallb (fun kc => has_value (snd kc)) (w_ins w n) = true -> executes n w = true.
Proof.
  intros w R F. unfold executes. rewrite F. cbn in R. destruct (w_st w n); cbn; try reflexivity; exfalso; apply R; auto.
Qed.

Lemma wanted_inv : forall l w, history leaf action_init action_out n name l w ->
  ac_goal (w_ext w) = None \/ ac_goal (w_ext w) = wanted fields get_goal n l.
Proof.
  induction 1 as [w S (_ & _ & I)|l w w' H IH S O|l w o w' r H IH C].
  - auto.
  - destruct O as (_ & _ & O & _). rewrite O. exact IH.
  - rewrite wanted_snoc. cbn [i_op i_before].
    apply leaf_call in C. destruct C as [(RF & -> & R)|[(-> & (_ & FA) & -> & R)|(NR & x' & ws & r0 & F & E & _ & _ & _ & FA)]].
    + destruct o; try exact IH. rewrite (refused_executes w RF). exact IH.
    + unfold executes. rewrite FA, andb_false_r. exact IH.
    + apply leaf_sends in F. rewrite E. destruct o; try (destruct F as [_ ->]; exact IH).
      rewrite (ran_executes w NR (FA eq_refl)). cbn [ins_for andb] in *.
      destruct F as (y & SD & _ & Y). destruct SD as [[_ ->]|[_ ->]]; [|auto].
      destruct Y as [(-> & [->|N])|(g & -> & -> & ->)]; auto.
      destruct (is_updated _ _); [|exact IH]. destruct (get_goal (w_ins w n)) eqn:G; [exfalso; exact (N _ eq_refl)|exact IH|exact IH].
Qed.

Lemma action_sent : forall l w o w' r, history leaf action_init action_out n name l w ->
  call o (the_leaf leaf n name) w = (w', r) ->
  map go_goal (ac_goals (w_ext w')) = map go_goal (ac_goals (w_ext w)) \/
  o = OTick /\ exists g, map go_goal (ac_goals (w_ext w')) = map go_goal (ac_goals (w_ext w)) ++ [g] /\
    (g = None \/ g = wanted fields get_goal n (l ++ [mkItem w o w' r])).
Proof.
  intros l w o w' r H C. assert (WI := wanted_inv _ _ H). rewrite wanted_snoc. cbn [i_op i_before].
  apply leaf_call in C. destruct C as [(RF & -> & R)|[(-> & (_ & FA) & -> & R)|(NR & x' & ws & r0 & F & E & _ & _ & _ & FA)]].
  - auto.
  - left. reflexivity.
  - apply leaf_sends in F. rewrite E. destruct o; try (destruct F as [-> _]; auto; fail).
    rewrite (ran_executes w NR (FA eq_refl)). cbn [ins_for andb] in *.
    destruct F as (y & SD & YG & Y). rewrite <- YG. destruct SD as [[-> _]|[-> _]]; [auto|]. right. split; [reflexivity|].
    eexists. split; [reflexivity|].
    destruct Y as [(-> & [->|N])|(g & -> & -> & ->)]; auto.
    destruct (is_updated _ _); [|exact WI]. destruct (get_goal (w_ins w n)) eqn:G; [exfalso; exact (N _ eq_refl)|exact WI|exact WI].
Qed.

(** *** Which goal the node looks at *)

Definition last_is (x : ac) (i : nat) : Prop := S i = length (ac_goals x).
Definition pos (x : ac) : Prop :=
  match ac_state x with
  | None => ac_goals x = []
  | Some AWaitAccept => ac_handle x = None /\ exists i, ac_req x = Some i /\ last_is x i
  | Some AWaitComplete => exists i, ac_handle x = Some i /\ ac_fut x = Some i /\ last_is x i
  | Some ARequestCancel => forall i, ac_handle x = Some i -> last_is x i
  | Some AWaitCancel => exists i g, ac_cancel x = Some i /\ last_is x i /\ nth_error (ac_goals x) i = Some g /\ go_asked g = true
  | Some _ => ac_handle x = None
  end.

Lemma last_some : forall (x : ac) i, last_is x i -> exists g, nth_error (ac_goals x) i = Some g.
Proof.
  intros x i L. unfold last_is in L. destruct (nth_error (ac_goals x) i) eqn:E; [eauto|]. apply nth_error_None in E. lia.
Qed.
Lemma ask_pos : forall (x x' : ac) r, (forall i, ac_handle x = Some i -> last_is x i) -> action_ask x = (x', r) ->
  r = Ok RUNNING /\ pos x' /\ ac_state x' = Some AWaitCancel \/ x' = x /\ r = Err EConfig /\ ac_handle x = None.
Proof.
  intros x x' r L H. unfold action_ask in H. destruct (ac_handle x) as [i|] eqn:A; injection H as <- <-; [left|right; auto].
  split; [reflexivity|]. split; [|reflexivity]. unfold pos. cbn. specialize (L i eq_refl). destruct (last_some x i L) as [g G].
  exists i, (mkGoal (go_goal g) (go_accept g) (go_result g) true new_future). split; [reflexivity|].
  unfold last_is. cbn. rewrite nth_upd_length. split; [exact L|]. rewrite nth_upd_nth, Nat.eqb_refl, G. auto.
Qed.

Lemma go_pos : forall st ins (x x' : ac) ws r, pos x -> action_go set_result typed st ins x = (x', ws, r) -> pos x'.
Proof.
  intros st ins x x' ws r P H. unfold action_go, onok in H.
  destruct (if ac_client x then _ else _); [|injection H as <- <- <-; exact P|injection H as <- <- <-; exact P].
  assert (P' : pos (ac_with_client x true)) by exact P. clear P. set (y := ac_with_client x true) in *. cbv zeta in H. clearbody y. unfold pos in P'.
  destruct (ac_state y) as [[]|] eqn:S.
  - unfold action_send in H. destruct (negb (ac_client y)).
    + injection H as <- <- <-. unfold pos. rewrite S. exact P'.
    + destruct (ac_goal y); [|destruct typed]; injection H as <- <- <-; unfold pos; cbn; rewrite ?S; auto;
        (split; [exact P'|]); eexists; (split; [reflexivity|]); unfold last_is; cbn; rewrite app_length; cbn; lia.
  - unfold action_accept in H. destruct P' as (HN & i & R & L). destruct (last_some y i L) as [g G]. rewrite R, G in H.
    assert (K : pos y) by (unfold pos; rewrite S; eauto).
    destruct (f_reply (go_accept g)) as [[|[]|]|]; [| | |destruct (f_cancelled (go_accept g))];
      injection H as <- <- <-; try exact K; unfold pos; cbn; auto. exists i. auto.
  - unfold action_complete in H. destruct P' as (i & R & F & L). destruct (last_some y i L) as [g G]. rewrite R, F, G in H.
    assert (K : pos y) by (unfold pos; rewrite S; eauto).
    destruct (f_reply (go_result g)) as [[|m|]|]; [| | |destruct (f_cancelled (go_result g)); [|destruct (SFltb _ _)]];
      try (injection H as <- <- <-; try exact K; unfold pos; cbn; auto; fail).
    + destruct (set_result m). injection H as <- <- <-. unfold pos. cbn. auto.
    + injection H as <- <- <-. unfold pos. cbn. unfold last_is. cbn. rewrite nth_upd_length. intros j E. congruence.
  - destruct (action_ask y) as [y1 r1] eqn:A. injection H as <- <- <-.
    destruct (ask_pos _ _ _ P' A) as [(_ & K & _)|(-> & _)]; [exact K|]. unfold pos. rewrite S. exact P'.
  - unfold action_canceled in H. destruct P' as (i & g & R & L & G & AS). rewrite R, G in H.
    destruct (f_reply (go_cancel g)); [|destruct (f_cancelled (go_cancel g))]; injection H as <- <- <-; unfold pos; cbn; auto.
    rewrite S. eauto 8.
  - unfold action_finished in H. destruct (ac_goal y); injection H as <- <- <-; unfold pos; cbn; rewrite ?S; auto.
  - injection H as <- <- <-. unfold pos. rewrite S. exact P'.
Qed.

Lemma untick_pos : forall (x x' : ac) r, pos x -> action_untick x = (x', r) ->
  pos x' /\ (r = Ok IDLE /\ ac_state x' = Some AIdle /\ ac_state x <> None \/
             r = Raise /\ x' = x /\ ac_state x = None).
Proof.
  intros x x' r P H. assert (P0 := P). unfold pos in P. unfold action_untick in H. destruct (ac_state x) as [[]|] eqn:S;
    try (injection H as <- <-; split; [reflexivity|left; repeat split; discriminate]).
  - destruct P as (i & A & B & L). unfold action_ask in H. rewrite A in H. injection H as <- <-.
    split; [reflexivity|left; repeat split; discriminate].
  - injection H as <- <-. auto.
Qed.
Lemma reset_pos : forall (x x' : ac) r, pos x -> action_reset x = (x', r) ->
  pos x' /\ (r = Ok IDLE /\ ac_state x' = Some AIdle /\ ac_state x <> None \/
             r = Raise /\ x' = x /\ ac_state x = None).
Proof.
  intros x x' r P H. unfold action_reset in H. destruct (action_untick x) as [x1 r1] eqn:U.
  destruct (untick_pos _ _ _ P U) as (K & [(-> & A & B)|(-> & A & B)]); injection H as <- <-; (split; [exact K|]); auto.
Qed.

Lemma leaf_pos : forall o st ins (x x' : ac) ws r, pos x -> leaf o st ins x = (x', ws, r) -> pos x'.
Proof.
  intros o st ins x x' ws r P H. destruct o; unfold action_leaf in H.
  - unfold onok in H. break H; injection H as <- <- <-; auto. reflexivity.
  - unfold onok at 1 in H. destruct (io_any_updated ins ("action_name" :: fields)) as [[|]|e|];
      [|exact (go_pos _ _ _ _ _ _ P H)|injection H as <- <- <-; exact P|injection H as <- <- <-; exact P].
    unfold onok in H. destruct (get_goal ins) as [g|e|]; [|injection H as <- <- <-; exact P|injection H as <- <- <-; exact P].
    assert (P' : pos (ac_with_goal x (Some g))) by exact P. cbv zeta in H. cbn [ac_state ac_with_goal] in H.
    assert (PC : (forall i, ac_handle x = Some i -> last_is x i) -> pos (ac_to (ac_with_goal x (Some g)) ARequestCancel)) by (intros K; exact K).
    unfold pos in P'. cbn in P'.
    destruct (ac_state x) as [[]|] eqn:S; try (eapply go_pos; [|exact H]; exact P);
      try (eapply go_pos; [|exact H]; apply PC; intros j E).
    + destruct P' as (K & _). congruence.
    + destruct P' as (i & K & _ & L). assert (i = j) by congruence. subst j. exact L.
    + exact (P' j E).
    + injection H as <- <- <-. exact P.
  - destruct (action_untick x) as [x1 r1] eqn:U. apply untick_pos in U; [|exact P]. injection H as <- <- <-. apply U.
  - destruct (action_reset x) as [x1 r1] eqn:U. apply reset_pos in U; [|exact P]. injection H as <- <- <-. apply U.
  - destruct (action_reset x) as [x1 r1] eqn:U. apply reset_pos in U; [|exact P]. injection H as <- <- <-. apply U.
Qed.

Lemma out_pos : forall x x' : ac, action_out x x' -> pos x -> pos x'.
Proof.
  intros x x' (O1 & O2 & O3 & O4 & O5 & O6 & O7 & _ & _ & O8) P. unfold pos in *.
  assert (LL : length (ac_goals x') = length (ac_goals x)) by (clear - O8; induction O8; cbn; auto).
  unfold last_is in *. rewrite O1, O4, O5, O6, O7, LL. destruct (ac_state x) as [[]|]; try exact P.
  - destruct P as (i & g & A & B & C & D). destruct (Forall2_nth_l _ _ _ _ _ _ _ O8 C) as (g' & G & _ & AS & _).
    exists i, g'. repeat split; auto. congruence.
  - rewrite P in LL. destruct (ac_goals x'); [reflexivity|discriminate].
Qed.

Lemma hist_pos : forall out : ac -> ac -> Prop, (forall x x', out x x' -> action_out x x') -> forall l w, history leaf action_init out n name l w -> pos (w_ext w).
Proof.
  intros out OUT. induction 1 as [w S (I1 & I2 & _)|l w w' H IH S O|l w o w' r H IH C].
  - unfold pos. rewrite I1. exact I2.
  - exact (out_pos _ _ (OUT _ _ O) IH).
  - apply leaf_call in C. destruct C as [(RF & -> & R)|[(-> & (_ & FA) & -> & R)|(NR & x' & ws & r0 & F & E & _)]]; try exact IH.
    rewrite E. exact (leaf_pos _ _ _ _ _ _ _ IH F).
Qed.

(** *** Goals in flight *)

Definition current (x : ac) (i : nat) : Prop :=
  match ac_state x with
  | Some AWaitAccept => ac_req x = Some i
  | Some AWaitComplete | Some ARequestCancel => ac_handle x = Some i
  | _ => False
  end.
Definition watched (x : ac) (i : nat) : Prop :=
  match ac_state x with
  | Some AWaitAccept => ac_req x = Some i
  | Some AWaitComplete => ac_fut x = Some i
  | _ => False
  end.
Definition fl (x : ac) : Prop :=
  (forall i g, nth_error (ac_goals x) i = Some g ->
     f_cancelled (go_accept g) = false /\ (watched x i -> f_cancelled (go_result g) = false)) /\
  (forall i g, nth_error (ac_goals x) i = Some g -> in_flight g -> current x i).

Lemma fl_same : forall x x' : ac, fl x -> ac_goals x' = ac_goals x -> (forall i, watched x' i -> watched x i) ->
  (forall i g, nth_error (ac_goals x) i = Some g -> in_flight g -> current x i -> current x' i) -> fl x'.
Proof.
  intros x x' [A B] G W C. split; intros i g E; rewrite G in E.
  - destruct (A i g E) as [A1 A2]. split; [exact A1|]. intros K. apply A2. apply W. exact K.
  - intros K. apply (C i g E K). exact (B i g E K).
Qed.
(** Asking to cancel the goal. *)
Lemma ask_fl : forall (x x' : ac) r, fl x -> (forall i, current x i -> ac_handle x = Some i) -> action_ask x = (x', r) ->
  (ac_handle x <> None -> fl x') /\ (forall i g, nth_error (ac_goals x') i = Some g -> in_flight g -> ac_handle x = None).
Proof.
  intros x x' r [A B] C H. unfold action_ask in H. destruct (ac_handle x) as [j|] eqn:HJ; injection H as <- <-.
  - assert (N : forall i g, nth_error (nth_upd (ac_goals x) j (fun g => mkGoal (go_goal g) (go_accept g) (go_result g) true new_future)) i = Some g ->
       in_flight g -> False).
    { intros i g E K. rewrite nth_upd_nth in E. destruct (j =? i)%nat eqn:J.
      - destruct (nth_error (ac_goals x) i); [|discriminate]. injection E as <-. destruct K as (_ & _ & K). discriminate.
      - apply Nat.eqb_neq in J. assert (CU := B i g E K). apply C in CU. congruence. }
    split.
    + intros _. split; cbn.
      * intros i g E. split; [|intros []]. rewrite nth_upd_nth in E. destruct (j =? i)%nat eqn:J.
        -- destruct (nth_error (ac_goals x) i) as [g0|] eqn:E0; [|discriminate]. injection E as <-. exact (proj1 (A i g0 E0)).
        -- exact (proj1 (A i g E)).
      * intros i g E K. exfalso. exact (N i g E K).
    + intros i g E K. exfalso. exact (N i g E K).
  - split; [congruence|auto].
Qed.

Lemma go_fl : forall st ins (x x' : ac) ws r, pos x -> fl x -> (ac_state x = Some ARequestCancel -> ac_handle x <> None) ->
  action_go set_result typed st ins x = (x', ws, r) -> fl x'.
Proof.
  intros st ins x x' ws r P F HN H. unfold action_go, onok in H.
  destruct (if ac_client x then _ else _); [|injection H as <- <- <-; exact F|injection H as <- <- <-; exact F].
  assert (P' : pos (ac_with_client x true)) by exact P. assert (F' : fl (ac_with_client x true)) by exact F.
  assert (HN' : ac_state (ac_with_client x true) = Some ARequestCancel -> ac_handle (ac_with_client x true) <> None) by exact HN.
  clear P F HN. set (y := ac_with_client x true) in *. cbv zeta in H. clearbody y. clear x. unfold pos in P'.
  destruct (ac_state y) as [[]|] eqn:S.
  - (* send *)
    unfold action_send in H. destruct (negb (ac_client y)); [injection H as <- <- <-; exact F'|].
    assert (NF : forall i g, nth_error (ac_goals y) i = Some g -> ~ in_flight g).
    { intros i g E K. assert (C := proj2 F' i g E K). unfold current in C. rewrite S in C. exact C. }
    assert (NEW : forall q, fl (ac_to (ac_with_goal (ac_with_goals (ac_futs y (Some (List.length (ac_goals y))) (ac_handle y) (ac_fut y) (ac_cancel y))
              (ac_goals y ++ [mkGoal q new_future new_future false new_future])) None) AWaitAccept)).
    { intros q. split; cbn.
      - intros i g E. destruct (Nat.lt_ge_cases i (length (ac_goals y))) as [L|L].
        + rewrite nth_error_app1 in E by exact L. split; [exact (proj1 (proj1 F' i g E))|]. unfold watched. cbn. intros K. injection K as K. lia.
        + rewrite nth_error_app2 in E by exact L. destruct (i - length (ac_goals y)) as [|k]; [|destruct k; discriminate].
          cbn in E. injection E as <-. auto.
      - intros i g E K. destruct (Nat.lt_ge_cases i (length (ac_goals y))) as [L|L].
        + rewrite nth_error_app1 in E by exact L. exfalso. exact (NF i g E K).
        + rewrite nth_error_app2 in E by exact L. destruct (i - length (ac_goals y)) as [|k] eqn:D; [|destruct k; discriminate].
          unfold current. cbn. f_equal. lia. }
    destruct (ac_goal y); [|destruct typed]; injection H as <- <- <-; try apply NEW. exact F'.
  - (* accept *)
    unfold action_accept in H. destruct P' as (HE & i & R & L). destruct (last_some y i L) as [g G]. rewrite R, G in H.
    assert (CU : forall j, current y j -> j = i) by (intros j; unfold current; rewrite S; congruence).
    assert (WA : watched y i) by (unfold watched; rewrite S; exact R).
    destruct (proj1 F' i g G) as [FC FR].
    destruct (f_reply (go_accept g)) as [[|[]|]|] eqn:RP; [| | |rewrite FC in H]; injection H as <- <- <-; try exact F'.
    + apply (fl_same y); cbn; auto.
      * intros j [].
      * intros j g' E K C. apply CU in C. subst j. rewrite G in E. injection E as <-. destruct K as ([K|K] & _); congruence.
    + apply (fl_same y); cbn; auto.
      * intros j. unfold watched. cbn. intros K. injection K as <-. exact WA.
      * intros j g' E K C. apply CU in C. subst j. reflexivity.
  - (* complete *)
    unfold action_complete in H. destruct P' as (i & R & FU & L). destruct (last_some y i L) as [g G]. rewrite R, FU, G in H.
    assert (CU : forall j, current y j -> j = i) by (intros j; unfold current; rewrite S; congruence).
    destruct (proj1 F' i g G) as [FC FR]. specialize (FR ltac:(unfold watched; rewrite S; exact FU)).
    assert (DONE : f_reply (go_result g) <> None -> fl (ac_to (ac_futs y (ac_req y) None None (ac_cancel y)) AFinished)).
    { intros RN. apply (fl_same y); cbn; auto.
      - intros j [].
      - intros j g' E (_ & K & _) C. apply CU in C. subst j. congruence. }
    destruct (f_reply (go_result g)) as [[|m|]|] eqn:RP; [| | |rewrite FR in H; destruct (SFltb _ _)].
    + injection H as <- <- <-. apply DONE. discriminate.
    + destruct (set_result m). injection H as <- <- <-. apply DONE. discriminate.
    + injection H as <- <- <-. exact F'.
    + injection H as <- <- <-. split; cbn.
      * intros j g' E. rewrite nth_upd_nth in E. split; [|intros []]. destruct (i =? j)%nat.
        -- destruct (nth_error (ac_goals y) j) as [g0|] eqn:E0; [|discriminate]. injection E as <-. exact (proj1 (proj1 F' j g0 E0)).
        -- exact (proj1 (proj1 F' j g' E)).
      * intros j g' E K. unfold current. cbn. rewrite nth_upd_nth in E. destruct (i =? j)%nat eqn:J.
        -- apply Nat.eqb_eq in J. congruence.
        -- apply (proj2 F' j g' E) in K. apply CU in K. congruence.
    + injection H as <- <- <-. exact F'.
  - (* ask *)
    destruct (action_ask y) as [y1 r1] eqn:A. injection H as <- <- <-.
    apply ask_fl in A; [|exact F'|intros j; unfold current; rewrite S; auto]. apply A. apply HN'. reflexivity.
  - (* canceled *)
    unfold action_canceled in H. destruct P' as (i & g & R & L & G & AS). rewrite R, G in H.
    assert (DONE : fl (ac_to (ac_futs y (ac_req y) None None None) AFinished)).
    { apply (fl_same y); cbn; auto.
      - intros j [].
      - intros j g' E K C. unfold current in C. rewrite S in C. destruct C. }
    destruct (f_reply (go_cancel g)); [|destruct (f_cancelled (go_cancel g))]; injection H as <- <- <-; auto.
  - unfold action_finished in H. destruct (ac_goal y); injection H as <- <- <-; [|exact F'].
    apply (fl_same y); cbn; auto.
    + intros j [].
    + intros j g' E K C. unfold current in C. rewrite S in C. destruct C.
  - injection H as <- <- <-. exact F'.
Qed.

Lemma untick_fl : forall (x x' : ac) r, pos x -> fl x -> ~ unanswered x /\ ~ given_up x -> action_untick x = (x', r) ->
  fl x' /\ (r = Ok IDLE -> forall g, In g (ac_goals x') -> ~ in_flight g).
Proof.
  intros x x' r P F [U1 U2] H. unfold unanswered, given_up in *. unfold pos in P. unfold action_untick in H.
  assert (Q : fl x' /\ (r = Ok IDLE -> ac_state x' = Some AIdle)).
  { destruct (ac_state x) as [[]|] eqn:S; try congruence;
    try (injection H as <- <-; split; [|reflexivity]; apply (fl_same x); cbn; auto;
         [intros j []|intros j g' E K C; unfold current in C; rewrite S in C; destruct C]).
    - destruct P as (i & A & B & L). destruct (action_ask x) as [x1 r1] eqn:AK.
      assert (RO : r1 = Ok RUNNING /\ ac_state x1 = Some AWaitCancel) by (unfold action_ask in AK; rewrite A in AK; injection AK as <- <-; auto).
      destruct RO as [-> S1].
      apply ask_fl in AK; [|exact F|intros j; unfold current; rewrite S; auto]. destruct AK as [AK _].
      specialize (AK ltac:(congruence)). injection H as <- <-. split; [|reflexivity]. apply (fl_same x1); cbn; auto.
      + intros j [].
      + intros j g' E K C. unfold current in C. rewrite S1 in C. destruct C.
    - injection H as <- <-. split; [exact F|discriminate]. }
  destruct Q as [Q1 Q2]. split; [exact Q1|]. intros R g I K. apply In_nth_error in I. destruct I as [i I].
  apply (proj2 Q1 i g I) in K. unfold current in K. rewrite (Q2 R) in K. exact K.
Qed.
Lemma reset_fl : forall (x x' : ac) r, pos x -> fl x -> ~ unanswered x /\ ~ given_up x -> action_reset x = (x', r) ->
  fl x' /\ (r = Ok IDLE -> forall g, In g (ac_goals x') -> ~ in_flight g).
Proof.
  intros x x' r P F U H. unfold action_reset in H. destruct (action_untick x) as [x1 r1] eqn:E.
  assert (E0 := E). apply untick_fl in E; auto. apply untick_pos in E0; [|exact P]. destruct E0 as (_ & [(-> & _)|(-> & _)]); injection H as <- <-.
  - destruct E as [E1 E2]. split; [exact E1|]. intros _. exact (E2 eq_refl).
  - exact E.
Qed.

Lemma in_flight_on : forall g g' : agoal Goal Res, go_asked g' = go_asked g -> fut_on (go_accept g) (go_accept g') ->
  fut_on (go_result g) (go_result g') -> in_flight g' -> in_flight g.
Proof.
  intros g g' A [B1 B2] [C1 C2] (D1 & D2 & D3). unfold in_flight. split; [|split].
  - destruct (f_reply (go_accept g)) as [q|] eqn:E; [|auto]. right. rewrite (B1 q eq_refl) in D1. destruct D1; congruence.
  - destruct (f_reply (go_result g)) as [q|] eqn:E; [|reflexivity]. rewrite (C1 q eq_refl) in D2. discriminate.
  - congruence.
Qed.

Lemma go_state : forall st ins (x x' : ac) ws s, action_go set_result typed st ins x = (x', ws, Ok s) ->
  s = UNINITIALIZED \/ s = SHUTDOWN -> s <> st -> ac_state x' = Some AFinished.
Proof.
  intros st ins x x' ws s H N1 N2. assert (N : s <> RUNNING /\ s <> FAILED) by (destruct N1; split; congruence). destruct N as [NA NB].
  unfold action_go, onok in H. destruct (if ac_client x then _ else _); try discriminate.
  set (y := ac_with_client x true) in *. cbv zeta in H. clearbody y. clear x.
  destruct (ac_state y) as [[]|] eqn:S.
  - unfold action_send in H. break H; injection H as <- <- <-; congruence.
  - unfold action_accept in H. break H; injection H as <- <- <-; congruence.
  - unfold action_complete in H. destruct (ac_handle y), (ac_fut y) as [i|]; try discriminate. destruct (nth_error (ac_goals y) i) as [g|]; try discriminate.
    destruct (f_reply (go_result g)) as [[|m|]|]; [| | |destruct (f_cancelled (go_result g)); [|destruct (SFltb _ _)]]; try discriminate H;
      try (injection H as <- <- <-; congruence).
    destruct (set_result m) as [ws0 r0] eqn:SR. injection H as <- <- ->. reflexivity.
  - unfold action_ask in H. destruct (ac_handle y); try discriminate H. injection H as <- <- <-. congruence.
  - unfold action_canceled in H. destruct (ac_cancel y) as [i|]; try discriminate. destruct (nth_error (ac_goals y) i) as [g|]; try discriminate.
    destruct (f_reply (go_cancel g)) eqn:RP; [destruct (ac_goal y)|destruct (f_cancelled (go_cancel g)) eqn:FC]; injection H as <- <- <-; congruence.
  - unfold action_finished in H. destruct (ac_goal y); injection H as <- <- <-; congruence.
  - discriminate H.
Qed.
Lemma go_given_up : forall st ins (x x' : ac) ws r, pos x -> (ac_state x = Some ARequestCancel -> ac_handle x <> None) ->
  action_go set_result typed st ins x = (x', ws, r) -> ac_state x' = Some ARequestCancel -> ac_handle x' <> None.
Proof.
  intros st ins x x' ws r P HN H SX. unfold action_go, onok in H.
  destruct (if ac_client x then _ else _); try (injection H as <- <- <-; exact (HN SX)).
  assert (P' : pos (ac_with_client x true)) by exact P. assert (HN' : ac_state (ac_with_client x true) = Some ARequestCancel -> ac_handle (ac_with_client x true) <> None) by exact HN.
  clear P HN. set (y := ac_with_client x true) in *. cbv zeta in H. clearbody y. clear x. unfold pos in P'.
  destruct (ac_state y) as [[]|] eqn:S.
  - unfold action_send in H. break H; injection H as <- <- <-; cbn in *; congruence.
  - unfold action_accept in H. break H; injection H as <- <- <-; cbn in *; congruence.
  - unfold action_complete in H. destruct P' as (i & R & FU & L). destruct (last_some y i L) as [g G]. rewrite R, FU, G in H.
    destruct (f_reply (go_result g)) as [[|m|]|]; [| | |destruct (f_cancelled (go_result g)); [|destruct (SFltb _ _)]];
      try (injection H as <- <- <-; cbn in *; congruence).
    destruct (set_result m) as [ws0 r0] eqn:SR. injection H as <- <- <-. cbn in *. congruence.
  - destruct (action_ask y) as [y1 r1] eqn:A. injection H as <- <- <-.
    destruct (ask_pos _ _ _ P' A) as [(_ & _ & K)|(-> & _)]; [congruence|auto].
  - unfold action_canceled in H. break H; injection H as <- <- <-; cbn in *; congruence.
  - unfold action_finished in H. destruct (ac_goal y); injection H as <- <- <-; cbn in *; congruence.
  - injection H as <- <- <-. congruence.
Qed.

Lemma leaf_tick_fl : forall st ins (x x' : ac) ws r, pos x -> fl x -> (ac_state x = Some ARequestCancel -> ac_handle x <> None) ->
  (is_updated ins ("action_name" :: fields) = true -> ~ unanswered x) -> leaf OTick st ins x = (x', ws, r) ->
  fl x' /\ (forall s, r = Ok s -> s = UNINITIALIZED \/ s = SHUTDOWN -> s <> st -> ac_state x' = Some AFinished) /\
  (ac_state x' = Some ARequestCancel -> ac_handle x' <> None).
Proof.
  intros st ins x x' ws r P F HN CA L. unfold action_leaf in L. unfold onok at 1 in L. unfold is_updated in CA.
  assert (GO : forall y, pos y -> fl y -> (ac_state y = Some ARequestCancel -> ac_handle y <> None) ->
    action_go set_result typed st ins y = (x', ws, r) ->
    fl x' /\ (forall s, r = Ok s -> s = UNINITIALIZED \/ s = SHUTDOWN -> s <> st -> ac_state x' = Some AFinished) /\
    (ac_state x' = Some ARequestCancel -> ac_handle x' <> None)).
  { intros y PY FY HY Q. split; [exact (go_fl _ _ _ _ _ _ PY FY HY Q)|]. split; [|exact (go_given_up _ _ _ _ _ _ PY HY Q)].
    intros s ->. exact (go_state _ _ _ _ _ _ Q). }
  destruct (io_any_updated ins ("action_name" :: fields)) as [[|]|e|];
    try (injection L as <- <- <-; split; [exact F|]; split; [discriminate|exact HN]); [|exact (GO x P F HN L)].
  unfold onok in L. destruct (get_goal ins) as [g|e|]; try (injection L as <- <- <-; split; [exact F|]; split; [discriminate|exact HN]).
  cbv zeta in L. cbn [ac_state ac_with_goal] in L. specialize (CA eq_refl). unfold unanswered in CA.
  assert (P0 := P). unfold pos in P0.
  destruct (ac_state x) as [[]|] eqn:S.
  - apply (GO (ac_with_goal x (Some g))); auto. cbn. congruence.
  - congruence.
  - destruct P0 as (i & A & B & LI). apply (GO (ac_to (ac_with_goal x (Some g)) ARequestCancel)); auto.
    + unfold pos. cbn. intros j E. assert (i = j) by congruence. subst j. exact LI.
    + apply (fl_same x); cbn; auto. { intros j []. } intros j g' _ _ K. unfold current in *. rewrite S in K. exact K.
    + cbn. congruence.
  - apply (GO (ac_to (ac_with_goal x (Some g)) ARequestCancel)); auto.
    apply (fl_same x); cbn; auto. { intros j []. } intros j g' _ _ K. unfold current in *. rewrite S in K. exact K.
  - apply (GO (ac_with_goal x (Some g))); auto. cbn. congruence.
  - apply (GO (ac_with_goal x (Some g))); auto. cbn. congruence.
  - injection L as <- <- <-. split; [exact F|]. split; [discriminate|]. cbn. congruence.
Qed.

Lemma hist_fl : forall l w, history leaf action_init action_out_kept n name l w -> careful fields n l ->
  fl (w_ext w) /\ (w_st w n = UNINITIALIZED \/ w_st w n = SHUTDOWN -> forall i, ~ current (w_ext w) i) /\
  (ac_state (w_ext w) = Some ARequestCancel -> ac_handle (w_ext w) <> None).
Proof.
  assert (OUT : forall x x' : ac, action_out_kept x x' -> action_out x x') by (intros x x' [A _]; exact A).
  induction 1 as [w S (I1 & I2 & I3)|l w w' H IH S O|l w o w' r H IH C]; intros CA.
  - split; [|split].
    + split; intros i g E; rewrite I2 in E; destruct i; discriminate.
    + intros _ i. unfold current. rewrite I1. auto.
    + congruence.
  - destruct (IH CA) as (F & D & HN). destruct O as [(O1 & O2 & O3 & O4 & O5 & O6 & O7 & _ & _ & O8) O9].
    assert (CW : forall i, (current (w_ext w') i <-> current (w_ext w) i) /\ (watched (w_ext w') i <-> watched (w_ext w) i)).
    { intros i. unfold current, watched. rewrite O1, O4, O5, O6. tauto. }
    split; [|split].
    + split.
      * intros i g E. destruct (Forall2_nth _ _ _ _ _ _ _ O9 E) as (g0 & E0 & K1 & K2). rewrite K1, K2.
        destruct (proj1 F i g0 E0) as [F1 F2]. split; [exact F1|]. intros K. apply F2. apply CW. exact K.
      * intros i g E K. destruct (Forall2_nth _ _ _ _ _ _ _ O8 E) as (g0 & E0 & _ & K1 & K2 & K3 & _). apply CW.
        apply (proj2 F i g0 E0). exact (in_flight_on _ _ K1 K2 K3 K).
    + intros S' i K. rewrite S in S'. apply (D S' i). apply CW. exact K.
    + rewrite O1, O5. exact HN.
  - assert (CA1 : careful fields n l) by (intros it I; apply CA; apply in_or_app; auto).
    assert (CA2 := CA (mkItem w o w' r) ltac:(apply in_or_app; right; left; reflexivity)). cbn [i_before i_op] in CA2. cbv zeta in CA2.
    destruct (IH CA1) as (F & D & HN). assert (P := hist_pos _ OUT _ _ H). assert (C0 := C).
    apply leaf_call in C. destruct C as [(RF & -> & R)|[(-> & (_ & FA) & -> & R)|(NR & x' & ws & r0 & L & E & _ & _ & OC & _)]].
    + auto.
    + split; [exact F|]. split; [|exact HN]. cbn. rewrite upd_same. intros [K|K]; discriminate.
    + assert (PP := leaf_pos _ _ _ _ _ _ _ P L). rewrite E in *. clear C0.
      destruct o.
      * (* setup: nothing is in flight *)
        assert (ND : forall i, ~ current (w_ext w) i).
        { cbn in NR. apply D. destruct (w_st w n); auto; exfalso; apply NR; split; discriminate. }
        unfold action_leaf in L. unfold onok in L. destruct (io_value_as _ _ _); [destruct (get_type _)| |]; injection L as <- <- <-;
          try (split; [exact F|]; split; [intros _; exact ND|exact HN]).
        split; [|split].
        -- apply (fl_same (w_ext w)); cbn; auto. { intros i []. } intros i g _ _ K. exfalso. exact (ND i K).
        -- intros _ i [].
        -- discriminate.
      * (* tick *)
        cbn [ins_for] in L.
        assert (FL := leaf_tick_fl _ _ _ _ _ _ P F HN CA2 L). split; [apply FL|]. split; [|apply FL].
        intros NU i. assert (NW : w_st w n <> UNINITIALIZED /\ w_st w n <> SHUTDOWN) by (cbn in NR; split; intros K; apply NR; auto).
        destruct NW as [NW1 NW2]. destruct OC as [(_ & S1 & _)|[(S1 & _)|(s & Q & S1 & PS)]]; [destruct NU; congruence|destruct NU; congruence|].
        subst r0. rewrite S1 in NU. intros K. destruct FL as (_ & FL & _). unfold current in K. rewrite (FL s eq_refl NU ltac:(destruct NU; congruence)) in K. exact K.
      * (* untick *)
        unfold action_leaf in L. destruct (action_untick (w_ext w)) as [x1 r1] eqn:U. injection L as <- <- <-.
        assert (U0 := U). apply untick_fl in U; auto. apply untick_pos in U0; [|exact P]. destruct U as [U1 U2].
        split; [exact U1|]. destruct U0 as (_ & [(-> & S1 & _)|(-> & -> & S1)]).
        -- split; [|congruence]. intros _ i. unfold current. rewrite S1. auto.
        -- split; [|exact HN]. intros _ i. unfold current. rewrite S1. auto.
      * (* reset *)
        unfold action_leaf in L. destruct (action_reset (w_ext w)) as [x1 r1] eqn:U. injection L as <- <- <-.
        assert (U0 := U). apply reset_fl in U; auto. apply reset_pos in U0; [|exact P]. destruct U as [U1 U2].
        split; [exact U1|]. destruct U0 as (_ & [(-> & S1 & _)|(-> & -> & S1)]).
        -- split; [|congruence]. intros _ i. unfold current. rewrite S1. auto.
        -- split; [|exact HN]. intros _ i. unfold current. rewrite S1. auto.
      * (* shutdown *)
        unfold action_leaf in L. destruct (action_reset (w_ext w)) as [x1 r1] eqn:U. injection L as <- <- <-.
        assert (U0 := U). apply reset_fl in U; auto. apply reset_pos in U0; [|exact P]. destruct U as [U1 U2].
        split; [exact U1|]. destruct U0 as (_ & [(-> & S1 & _)|(-> & -> & S1)]).
        -- split; [|congruence]. intros _ i. unfold current. rewrite S1. auto.
        -- split; [|exact HN]. intros _ i. unfold current. rewrite S1. auto.
Qed.

Lemma action_one : forall l w i j g h, history leaf action_init action_out_kept n name l w -> careful fields n l ->
  nth_error (ac_goals (w_ext w)) i = Some g -> in_flight g -> nth_error (ac_goals (w_ext w)) j = Some h -> in_flight h -> i = j.
Proof.
  intros l w i j g h H C A B A' B'. destruct (hist_fl _ _ H C) as ((_ & F) & _). apply (F _ _ A) in B. apply (F _ _ A') in B'.
  unfold current in *. destruct (ac_state (w_ext w)) as [[]|]; try contradiction; congruence.
Qed.

Lemma action_quiet : forall l w o w' s, history leaf action_init action_out_kept n name l w ->
  o = OUntick \/ o = OReset \/ o = OShutdown -> call o (the_leaf leaf n name) w = (w', Ok s) ->
  careful fields n (l ++ [mkItem w o w' (Ok s)]) -> forall g, In g (ac_goals (w_ext w')) -> ~ in_flight g.
Proof.
  intros l w o w' s H OO C CA g I K.
  assert (OUT : forall x x' : ac, action_out_kept x x' -> action_out x x') by (intros x x' [A _]; exact A).
  assert (CA1 : careful fields n l) by (intros it J; apply CA; apply in_or_app; auto).
  assert (CA2 := CA (mkItem w o w' (Ok s)) ltac:(apply in_or_app; right; left; reflexivity)). cbn [i_before i_op] in CA2. cbv zeta in CA2.
  assert (F := hist_fl _ _ H CA1). assert (P := hist_pos _ OUT _ _ H). destruct F as (F & D & HN).
  apply leaf_call in C. destruct C as [(RF & -> & [R|(-> & ST & _)])|[(-> & _ & _ & R)|(NR & x' & ws & r0 & L & E & _ & _ & OC & _)]]; try discriminate.
  - apply In_nth_error in I. destruct I as [i I]. apply (proj2 F i g I) in K. exact (D (or_intror ST) i K).
  - rewrite E in I.
    assert (U : ~ unanswered (w_ext w) /\ ~ given_up (w_ext w)) by (destruct OO as [->|[->| ->]]; exact CA2).
    destruct OC as [(R & _)|[(_ & e & R)|(s' & Q & _ & [(_ & [R|(_ & R)])|(_ & e & R)])]]; try discriminate. subst r0.
    destruct OO as [->|[->| ->]]; unfold action_leaf in L.
    + destruct (action_untick (w_ext w)) as [x1 r1] eqn:U1. injection L as <- <- ->. assert (U0 := U1). apply untick_fl in U1; auto.
      apply untick_pos in U0; [|exact P]. destruct U0 as (_ & [(Q & _)|(Q & _)]); [|discriminate]. exact (proj2 U1 Q g I K).
    + destruct (action_reset (w_ext w)) as [x1 r1] eqn:U1. injection L as <- <- ->. assert (U0 := U1). apply reset_fl in U1; auto.
      apply reset_pos in U0; [|exact P]. destruct U0 as (_ & [(Q & _)|(Q & _)]); [|discriminate]. exact (proj2 U1 Q g I K).
    + destruct (action_reset (w_ext w)) as [x1 r1] eqn:U1. injection L as <- <- Q0. assert (U0 := U1). apply reset_fl in U1; auto.
      apply reset_pos in U0; [|exact P]. destruct U0 as (_ & [(Q & _)|(Q & _)]); [|subst r1; discriminate]. exact (proj2 U1 Q g I K).
Qed.

(** *** The result *)
Lemma go_answers : forall st ins (x x' : ac) ws s, pos x -> action_go set_result typed st ins x = (x', ws, Ok s) -> s <> RUNNING -> s <> st ->
  exists g, latest (ac_goals x) = Some g /\
    ((exists m, f_reply (go_result g) = Some (RMsg m) /\ set_result m = (ws, Ok s)) \/
     s = FAILED /\ ws = [] /\
       (f_reply (go_accept g) = Some RNone \/ f_reply (go_accept g) = None /\ f_cancelled (go_accept g) = true \/
        f_reply (go_result g) = Some RNone \/ f_reply (go_result g) = None /\ f_cancelled (go_result g) = true \/
        go_asked g = true /\ (f_reply (go_cancel g) <> None \/ f_cancelled (go_cancel g) = true))).
Proof.
  intros st ins x x' ws s P H N1 N2. unfold action_go, onok in H.
  destruct (if ac_client x then _ else _); try discriminate.
  assert (P' : pos (ac_with_client x true)) by exact P. change (ac_goals x) with (ac_goals (ac_with_client x true)).
  clear P. set (y := ac_with_client x true) in *. cbv zeta in H. clearbody y. clear x. unfold pos in P'.
  assert (LAST : forall i g, last_is y i -> nth_error (ac_goals y) i = Some g -> latest (ac_goals y) = Some g).
  { intros i g L G. unfold last_is in L. destruct (@exists_last _ (ac_goals y)) as (b & c & EB); [intros K; rewrite K in L; discriminate|].
    rewrite EB in *. rewrite app_length in L. cbn in L. replace i with (length b) in G by lia.
    rewrite nth_error_app2, Nat.sub_diag in G by lia. cbn in G. injection G as ->.
    unfold latest. rewrite rev_app_distr. reflexivity. }
  destruct (ac_state y) as [[]|] eqn:S.
  - unfold action_send in H. break H; injection H as <- <- <-; congruence.
  - unfold action_accept in H. destruct P' as (HE & i & R & L). destruct (last_some y i L) as [g G]. rewrite R, G in H.
    exists g. split; [exact (LAST i g L G)|]. right.
    destruct (f_reply (go_accept g)) as [[|[]|]|] eqn:RP; [| | |destruct (f_cancelled (go_accept g)) eqn:FC]; try discriminate H;
      injection H as <- <- <-; try congruence; auto 10.
  - unfold action_complete in H. destruct P' as (i & R & FU & L). destruct (last_some y i L) as [g G]. rewrite R, FU, G in H.
    exists g. split; [exact (LAST i g L G)|].
    destruct (f_reply (go_result g)) as [[|m|]|] eqn:RP; [| | |destruct (f_cancelled (go_result g)) eqn:FC; [|destruct (SFltb _ _)]]; try discriminate H.
    + injection H as <- <- <-. right. auto 10.
    + destruct (set_result m) as [ws0 r0] eqn:SR. injection H as <- <- ->. left. eauto.
    + injection H as <- <- <-. right. auto 10.
    + injection H as <- <- <-. congruence.
    + injection H as <- <- <-. congruence.
  - unfold action_ask in H. destruct (ac_handle y); try discriminate H. injection H as <- <- <-. congruence.
  - unfold action_canceled in H. destruct P' as (i & g & R & L & G & AS). rewrite R, G in H.
    exists g. split; [exact (LAST i g L G)|]. right.
    destruct (f_reply (go_cancel g)) eqn:RP; [destruct (ac_goal y)|destruct (f_cancelled (go_cancel g)) eqn:FC]; injection H as <- <- <-; try congruence.
    + split; [reflexivity|]. split; [reflexivity|]. do 4 right. split; [exact AS|]. left. congruence.
    + auto 12.
  - unfold action_finished in H. destruct (ac_goal y); injection H as <- <- <-; congruence.
  - discriminate H.
Qed.

Lemma action_answer : forall l w w' s, history leaf action_init action_out n name l w ->
  call OTick (the_leaf leaf n name) w = (w', Ok s) -> is_updated (w_ins w n) ("action_name" :: fields) = false ->
  s <> RUNNING -> s <> w_st w n ->
  exists g, latest (ac_goals (w_ext w)) = Some g /\
    ((exists m, f_reply (go_result g) = Some (RMsg m) /\ snd (set_result m) = Ok s) \/
     s = FAILED /\
       (f_reply (go_accept g) = Some RNone \/ f_reply (go_accept g) = None /\ f_cancelled (go_accept g) = true \/
        f_reply (go_result g) = Some RNone \/ f_reply (go_result g) = None /\ f_cancelled (go_result g) = true \/
        go_asked g = true /\ (f_reply (go_cancel g) <> None \/ f_cancelled (go_cancel g) = true))).
Proof.
  intros l w w' s H C U N1 N2. assert (P := hist_pos action_out (fun _ _ K => K) _ _ H). apply leaf_call in C.
  destruct C as [(RF & _ & [R|(R & _)])|[(_ & _ & _ & R)|(NR & x' & ws & r0 & F & E & _ & _ & O & _)]]; try discriminate.
  destruct O as [(R & _)|[(_ & e & R)|(s' & Q & O & [(_ & [R|(_ & R)])|(PP & e & R)])]]; try discriminate.
  injection R as ->. subst r0. cbn [ins_for] in F. unfold action_leaf in F. unfold onok at 1 in F. unfold is_updated in U.
  destruct (io_any_updated (w_ins w n) ("action_name" :: fields)) as [[|]|e|]; try discriminate.
  apply go_answers in F; [|exact P|exact N1|exact N2]. destruct F as (g & G & [(m & A & B)|(A & _ & B)]); exists g; (split; [exact G|]).
  - left. exists m. rewrite B. auto.
  - right. auto.
Qed.
End Action.
