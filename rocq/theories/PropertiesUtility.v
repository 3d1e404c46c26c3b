(** Properties C28, C29, C61: utility bounds. *)
From Coq Require Import List String ZArith QArith Bool Permutation Lia Lqa.
From Verif Require Import Base ModelData ModelUtility ModelTree SpecTree SpecUtility ProofsTree ProofsUtility Demo.
Import ListNotations.
Local Open Scope Q_scope.

(** ** C28 Utility bounds of Sequence and Fallback *)

(** Children with bounds [bs] that can all execute: the bounds of the Sequence
    enclose the cost of every way to succeed and to fail, and no tighter bounds
    do (when every child has some possible cost; an empty Sequence cannot fail). *)
Theorem C28_sequence : forall E (ev : env E) n k name (cs : list (obj E)) w bs,
  k = KSequence \/ k = KMemorySequence ->
  Forall2 (fun c b => o_util c w = Ok b) cs bs -> Forall (fun b => can_execute b = true) bs ->
  exists b, o_util (make_obj ev n k name cs) w = Ok b /\ can_execute b = true /\
    (forall q, sequence_succeeds bs q -> success_cost b q) /\
    (forall q, sequence_fails bs q -> failure_cost b q) /\
    (Forall consistent bs -> tightest (has_ls b) (ls b) (has_us b) (us b) (sequence_succeeds bs)) /\
    (Forall consistent bs -> bs <> [] -> tightest (has_lf b) (lf b) (has_uf b) (uf b) (sequence_fails bs)).
Proof.
  intros E ev n k name cs w bs Hk Hu HF. destruct (sequence_bounds bs HF) as [b [H1 H2]]. exists b. split; [|exact H2].
  destruct Hk; subst k; simpl; unfold do_util; rewrite (utils_map E w cs bs Hu); exact H1.
Qed.
Print Assumptions C28_sequence.

Theorem C28_fallback : forall E (ev : env E) n k name (cs : list (obj E)) w bs,
  k = KFallback \/ k = KMemoryFallback ->
  Forall2 (fun c b => o_util c w = Ok b) cs bs -> Forall (fun b => can_execute b = true) bs ->
  exists b, o_util (make_obj ev n k name cs) w = Ok b /\ can_execute b = true /\
    (forall q, fallback_succeeds bs q -> success_cost b q) /\
    (forall q, fallback_fails bs q -> failure_cost b q) /\
    (Forall consistent bs -> bs <> [] -> tightest (has_ls b) (ls b) (has_us b) (us b) (fallback_succeeds bs)) /\
    (Forall consistent bs -> tightest (has_lf b) (lf b) (has_uf b) (uf b) (fallback_fails bs)).
Proof.
  intros E ev n k name cs w bs Hk Hu HF. destruct (fallback_bounds bs HF) as [b [H1 H2]]. exists b. split; [|exact H2].
  destruct Hk; subst k; simpl; unfold do_util; rewrite (utils_map E w cs bs Hu); exact H1.
Qed.
Print Assumptions C28_fallback.

(** A child that cannot execute makes the whole node unable to execute, and no
    bound is claimed. *)
Theorem C28_blocked : forall E (ev : env E) n k name (cs : list (obj E)) w bs,
  k = KSequence \/ k = KMemorySequence \/ k = KFallback \/ k = KMemoryFallback ->
  Forall2 (fun c b => o_util c w = Ok b) cs bs -> (exists b, In b bs /\ can_execute b = false) ->
  exists b, o_util (make_obj ev n k name cs) w = Ok b /\ can_execute b = false /\
    has_ls b = false /\ has_us b = false /\ has_lf b = false /\ has_uf b = false.
Proof.
  intros E ev n k name cs w bs Hk Hu [b0 [Hin Hb0]]. exists bounds0. split; [|simpl; auto 10].
  assert (Hs : sequence_scan (map Ok bs) = Ok None /\ fallback_scan (map Ok bs) = Ok None).
  { clear Hu Hk. induction bs as [|b bs IH]; [destruct Hin|]. simpl. destruct (can_execute b) eqn:Eb; [|auto].
    destruct Hin as [->|Hin]; [congruence|]. destruct (IH Hin) as [-> ->]. auto. }
  destruct Hs as [H1 H2]. destruct bs as [|b bs]; [destruct Hin|].
  destruct Hk as [-> |[-> |[-> | -> ]]]; simpl; unfold do_util; rewrite (utils_map E w cs _ Hu);
    unfold utility_sequence, utility_fallback; first [rewrite H1|rewrite H2]; reflexivity.
Qed.
Print Assumptions C28_blocked.

(** The same for whole trees of Sequences and Fallbacks, at any depth. *)
Theorem C28_tree : forall E (ev : env E) (w : world E) t,
  let leaf := fun n => ev_util ev n (w_ins w n) (w_ext w) in
  executable leaf t ->
  exists b, o_util (obj_of ev t) w = Ok b /\ can_execute b = true /\
    forall q, (costs leaf t true q -> success_cost b q) /\ (costs leaf t false q -> failure_cost b q).
Proof. intros E ev w t. exact (whole_sound ev w t). Qed.
Print Assumptions C28_tree.

(** Demo: a Sequence of two leaves with costs [1,2] / [3,4] and [10,20] / [30,40]. *)
Definition ub1 : bounds := mkBounds true true 1 true 2 true 3 true 4.
Definition ub2 : bounds := mkBounds true true 10 true 20 true 30 true 40.
Definition uenv : env unit := mkEnv unit (fun _ _ _ _ e => (e, [], Ok IDLE))
  (fun n _ _ => Ok (if Nat.eqb n 1 then ub1 else ub2)) (fun e => (e, 0%Z)).
Definition uworld : world unit :=
  mkW (all_st UNINITIALIZED) (fun _ => attrs0) (fun _ => []) (fun _ => []) (fun _ => Some []) [] tt.
Local Arguments T n%nat_scope k name%string_scope cs.
Definition uleaf (n : nid) : tree := T n KLeaf ""%string [].
Local Arguments uleaf n%nat_scope.

Example C28_hypotheses :
  Forall2 (fun c b => o_util c uworld = Ok b) [obj_of uenv (uleaf 1); obj_of uenv (uleaf 2)] [ub1; ub2] /\
  Forall (fun b => can_execute b = true) [ub1; ub2] /\ Forall consistent [ub1; ub2].
Proof.
  split; [|split].
  - constructor; [reflexivity|]. constructor; [reflexivity|constructor].
  - constructor; [reflexivity|]. constructor; [reflexivity|constructor].
  - constructor; [|constructor; [|constructor]]; split; simpl; intros; lra.
Qed.

Example C28_bounds : exists b, o_util (obj_of uenv (T 0 KSequence ""%string [uleaf 1; uleaf 2])) uworld = Ok b /\
  (ls b == 11 /\ us b == 22 /\ lf b == 3 /\ uf b == 42).
Proof. eexists. split; [reflexivity|]. vm_compute. auto. Qed.

Example C28_tree_case :
  let leaf := fun n => ev_util uenv n (w_ins uworld n) (w_ext uworld) in
  let t := T 0 KFallback ""%string [T 3 KSequence ""%string [uleaf 1; uleaf 2]; uleaf 4] in
  executable leaf t /\ costs leaf t true (42 + 15).
Proof.
  simpl. split.
  - repeat split; eexists; split; reflexivity.
  - right. exists 42, 15. split; [|split; [left; exists ub2; split; [reflexivity|split; simpl; intros; lra]|reflexivity]].
    right. exists 2, 40. split; [exists ub1; split; [reflexivity|split; simpl; intros; lra]|].
    split; [|reflexivity]. left. exists ub2. split; [reflexivity|split; simpl; intros; lra].
Qed.

(** ** C29 Utility bounds of Parallel *)

(** [k] is the effective needed_successes.  Each bound is sound, and attained,
    when every child has that bound.  [_partial]: children without a bound are
    not covered, see [C29_unbounded_refuted]. *)
Theorem C29_parallel_partial : forall E (ev : env E) n kd name (cs : list (obj E)) w bs k,
  kd = KParallel \/ kd = KParallelTolerance ->
  Forall2 (fun c b => o_util c w = Ok b) cs bs -> Forall (fun b => can_execute b = true) bs ->
  a_needed (w_mem w n) = k -> (0 <= k <= Z.of_nat (List.length cs))%Z ->
  exists b, o_util (make_obj ev n kd name cs) w = Ok b /\ can_execute b = true /\
    let f := (1 + (Z.of_nat (List.length cs) - k))%Z in
    (Forall (fun c => has_ls c = true) bs ->
       has_ls b = true /\ (forall q, chosen success_cost k bs q -> ls b <= q) /\
       (Forall consistent bs -> exists q, chosen success_cost k bs q /\ q == ls b)) /\
    (Forall (fun c => has_us c = true) bs ->
       has_us b = true /\ (forall q, chosen success_cost k bs q -> q <= us b) /\
       (Forall consistent bs -> exists q, chosen success_cost k bs q /\ q == us b)) /\
    (Forall (fun c => has_lf c = true) bs ->
       has_lf b = true /\ (forall q, chosen failure_cost f bs q -> lf b <= q) /\
       (Forall consistent bs -> (1 <= k)%Z -> exists q, chosen failure_cost f bs q /\ q == lf b)) /\
    (Forall (fun c => has_uf c = true) bs ->
       has_uf b = true /\ (forall q, chosen failure_cost f bs q -> q <= uf b) /\
       (Forall consistent bs -> (1 <= k)%Z -> exists q, chosen failure_cost f bs q /\ q == uf b)).
Proof.
  intros E ev n kd name cs w bs k Hk Hu HF Hn Hr.
  assert (Hl : List.length cs = List.length bs) by (clear -Hu; induction Hu; simpl; auto).
  rewrite Hl in *. destruct (parallel_bounds k bs Hr HF) as [b [H1 H2]]. exists b. split; [|exact H2].
  destruct Hk; subst kd; simpl; unfold do_util; rewrite (utils_map E w cs bs Hu), Hn; exact H1.
Qed.
Print Assumptions C29_parallel_partial.

(** Children without a bound.  Lower bounds are sound whatever flags the children set, if no cost
    is negative.  A Parallel that needs all its children has sound bounds for success, one that
    needs a single child sound bounds for failure. *)
Theorem C29_open_partial : forall E (ev : env E) n kd name (cs : list (obj E)) w bs k b,
  kd = KParallel \/ kd = KParallelTolerance ->
  Forall2 (fun c b => o_util c w = Ok b) cs bs -> Forall (fun b => can_execute b = true) bs ->
  a_needed (w_mem w n) = k -> (0 <= k <= Z.of_nat (List.length cs))%Z ->
  o_util (make_obj ev n kd name cs) w = Ok b ->
  let f := (1 + (Z.of_nat (List.length cs) - k))%Z in
  (Forall blank bs ->
    (has_ls b = true -> forall q, chosen_pos success_cost k bs q -> ls b <= q) /\
    (has_lf b = true -> forall q, chosen_pos failure_cost f bs q -> lf b <= q)) /\
  (k = Z.of_nat (List.length cs) -> forall q, chosen success_cost k bs q -> success_cost b q) /\
  (k = 1%Z -> forall q, chosen failure_cost f bs q -> failure_cost b q).
Proof.
  intros E ev n kd name cs w bs k b Hk Hu HF Hn Hr HU.
  assert (Hl : List.length cs = List.length bs) by (clear -Hu; induction Hu; simpl; auto).
  rewrite Hl in *. apply parallel_open; auto.
  destruct Hk; subst kd; simpl in HU; unfold do_util in HU; rewrite (utils_map E w cs bs Hu), Hn in HU; exact HU.
Qed.
Print Assumptions C29_open_partial.

(** More successes needed than children, or a child whose calculation fails:
    an error, no bounds. *)
Theorem C29_error : forall E (ev : env E) n kd name (cs : list (obj E)) w,
  kd = KParallel \/ kd = KParallelTolerance ->
  (forall c, In c cs -> o_util c w <> Raise) ->
  (Z.of_nat (List.length cs) < a_needed (w_mem w n))%Z \/ (exists c e, In c cs /\ o_util c w = Err e) ->
  exists e, o_util (make_obj ev n kd name cs) w = Err e.
Proof.
  intros E ev n kd name cs w Hk Hnr H. exists EUtility.
  assert (Hg : utility_parallel (a_needed (w_mem w n)) (map (fun c => o_util c w) cs) = Err EUtility).
  { unfold utility_parallel. rewrite map_length. destruct (Z.ltb (Z.of_nat (List.length cs)) (a_needed (w_mem w n))) eqn:El; auto.
    apply Z.ltb_ge in El. destruct H as [H|[c [e [Hin He]]]]; [lia|].
    assert (Hr : existsb is_raise (map (fun c => o_util c w) cs) = false).
    { destruct (existsb is_raise (map (fun c => o_util c w) cs)) eqn:Ex; auto. apply existsb_exists in Ex. destruct Ex as [r [Hr Hr2]].
      apply in_map_iff in Hr. destruct Hr as [c' [<- Hc']]. specialize (Hnr c' Hc'). destruct (o_util c' w); try discriminate. congruence. }
    rewrite Hr. assert (Hx : existsb is_err (map (fun c => o_util c w) cs) = true).
    { apply existsb_exists. exists (Err e). split; auto. rewrite <- He. apply in_map_iff. exists c; auto. }
    rewrite Hx. reflexivity. }
  destruct Hk; subst kd; simpl; exact Hg.
Qed.
Print Assumptions C29_error.

(** A Parallel that needs one of two children; the first child has no upper bound
    for success.  The node claims the upper bound 20 of the other child, but the
    first child may succeed alone at cost 100. *)
Definition ub_open : bounds := mkBounds true true 1 false 0 true 3 true 4.
Definition uenv_open : env unit := mkEnv unit (fun _ _ _ _ e => (e, [], Ok IDLE))
  (fun n _ _ => Ok (if Nat.eqb n 1 then ub_open else ub2)) (fun e => (e, 0%Z)).
Theorem C29_unbounded_refuted :
  exists (w : world unit) b,
    o_util (obj_of uenv_open (T 0 KParallel ""%string [uleaf 1; uleaf 2])) w = Ok b /\
    a_needed (w_mem w 0%nat) = 1%Z /\ has_us b = true /\ us b == 20 /\ chosen success_cost 1 [ub_open; ub2] 100.
Proof.
  exists (mem_needed uworld 0%nat 1%Z). eexists. split; [reflexivity|]. split; [reflexivity|]. split; [reflexivity|].
  split; [reflexivity|]. exists [ub_open], [ub2], [100]. split; [reflexivity|]. split; [reflexivity|]. split; [|reflexivity].
  constructor; [|constructor]. split; simpl; intros; [lra|discriminate].
Qed.
Print Assumptions C29_unbounded_refuted.

Definition ub_blank : bounds := mkBounds true false 0 false 0 false 0 false 0.
Example C29_open_example :
  Forall blank [ub_blank; ub2] /\ Forall (fun b => can_execute b = true) [ub_blank; ub2] /\
  chosen_pos success_cost 1 [ub_blank; ub2] 15 /\ chosen success_cost 2 [ub_blank; ub2] 22.
Proof.
  split; [repeat constructor; discriminate|]. split; [repeat constructor|]. split.
  - exists [ub2], [ub_blank], [15]. split; [apply perm_swap|]. split; [reflexivity|]. split; [|split; [|reflexivity]].
    + constructor; [|constructor]. split; simpl; intros; lra.
    + constructor; [lra|constructor].
  - exists [ub_blank; ub2], [], [7; 15]. split; [reflexivity|]. split; [reflexivity|]. split; [|reflexivity].
    constructor; [|constructor; [|constructor]]; split; simpl; intros; try discriminate; lra.
Qed.
Example C29_hypotheses :
  let w := mem_needed uworld 0%nat 1%Z in
  Forall2 (fun c b => o_util c w = Ok b) [obj_of uenv (uleaf 1); obj_of uenv (uleaf 2)] [ub1; ub2] /\
  a_needed (w_mem w 0%nat) = 1%Z /\ chosen success_cost 1 [ub1; ub2] 15 /\ chosen failure_cost 2 [ub1; ub2] 33.
Proof.
  simpl. split; [|split; [reflexivity|split]].
  - constructor; [reflexivity|]. constructor; [reflexivity|constructor].
  - exists [ub2], [ub1], [15]. split; [apply perm_swap|]. split; [reflexivity|]. split; [|reflexivity].
    constructor; [|constructor]. split; simpl; intros; lra.
  - exists [ub1; ub2], [], [3; 30]. split; [reflexivity|]. split; [reflexivity|]. split; [|reflexivity].
    constructor; [|constructor; [|constructor]]; split; simpl; intros; lra.
Qed.

(** ** C61 Utility bounds of decorators and switches *)

(** A decorator claims the bounds of its child, and the bounds 0 without a
    child.  This is sound for decorators that do not change the result.
    [_partial]: for the others it is not, see the refutations. *)
Theorem C61_decorator_partial : forall E (ev : env E) n k name (cs : list (obj E)) w,
  In k [KInverter; KIgnoreFailure; KIgnoreSuccess; KIgnoreRunning; KRetry; KRepeat; KRepeatIfFail; KRepeatNoAutoReset;
        KRepeatUntilFail; KRepeatAlways; KUntilSuccess; KThrottle; KThrottleSuccess; KIterateList; KWatch] ->
  o_util (make_obj ev n k name cs) w =
    match cs with [] => Ok bounds_free | c :: _ => o_util c w end.
Proof.
  intros E ev n k name cs w Hk. simpl in Hk.
  repeat (destruct Hk as [<-|Hk]; [destruct cs; reflexivity|]). destruct Hk.
Qed.
Print Assumptions C61_decorator_partial.

(** The bounds of an Optional are sound; tight if its child can execute, and none otherwise;
    it can always execute. *)
Theorem C61_optional : forall E (ev : env E) n name (c : obj E) w b, o_util c w = Ok b ->
  exists b', o_util (make_obj ev n KOptional name [c]) w = Ok b' /\ can_execute b' = true /\
    (forall q, optional_ends b true q -> success_cost b' q) /\ (forall q, optional_ends b false q -> failure_cost b' q) /\
    (can_execute b = true -> consistent b ->
       tightest (has_ls b') (ls b') (has_us b') (us b') (optional_ends b true) /\
       tightest (has_lf b') (lf b') (has_uf b') (uf b') (optional_ends b false)) /\
    (can_execute b = false -> has_ls b' = false /\ has_us b' = false /\ has_lf b' = false /\ has_uf b' = false).
Proof. intros E ev n name c w b. exact (optional_bounds E ev n name c w b). Qed.
Print Assumptions C61_optional.

(** The bounds of a Watch are sound and tight while its input does not change. *)
Theorem C61_watch_partial : forall E (ev : env E) n name (c : obj E) w b, o_util c w = Ok b ->
  exists b', o_util (make_obj ev n KWatch name [c]) w = Ok b' /\ can_execute b' = can_execute b /\
    (forall q, decorated KWatch b true q -> success_cost b' q) /\ (forall q, decorated KWatch b false q -> failure_cost b' q) /\
    (consistent b ->
       tightest (has_ls b') (ls b') (has_us b') (us b') (decorated KWatch b true) /\
       tightest (has_lf b') (lf b') (has_uf b') (uf b') (decorated KWatch b false)).
Proof. intros E ev n name c w b. exact (watch_bounds E ev n name c w b). Qed.
Print Assumptions C61_watch_partial.

(** The lower bounds are sound for decorators that repeat their child until it succeeds or
    fails, if no run costs less than nothing.  The upper bounds are not (refuted below). *)
Theorem C61_repeating_partial : forall E (ev : env E) n k name (c : obj E) w b, o_util c w = Ok b ->
  In k [KRetry; KRepeat; KUntilSuccess; KRepeatIfFail; KRepeatUntilFail] ->
  exists b', o_util (make_obj ev n k name [c]) w = Ok b' /\ can_execute b' = can_execute b /\
    (has_ls b' = true -> forall q, decorated_pos k b true q -> ls b' <= q) /\
    (has_lf b' = true -> forall q, decorated_pos k b false q -> lf b' <= q).
Proof. intros E ev n k name c w b. exact (repeating_bounds E ev n k name c w b). Qed.
Print Assumptions C61_repeating_partial.
Example C61_ways : optional_ends ub1 true 2 /\ decorated KWatch ub1 false 3 /\
  decorated_pos KRetry ub1 true (3 + 4 + 1) /\ decorated_pos KRepeat ub1 false (1 + 2 + 3) /\
  optional_ends bounds0 true 0.
Proof.
  assert (W : forall (o : bool) (q : Q), (if o then 1 <= q /\ q <= 2 else 3 <= q /\ q <= 4) -> run_costs ub1 o q)
    by (intros [] q H; split; simpl; intros; lra).
  split; [exists [true], [2]|split; [exists [false], [3]|split; [exists [false; false; true], [3; 4; 1]|
    split; [exists [true; true; false], [1; 2; 3]|split; reflexivity]]]].
  1,2: split; [reflexivity|split; [repeat (apply Forall2_cons; [apply W; lra|]); apply Forall2_nil|cbn; lra]].
  - split; [exists 2%nat; reflexivity|]. split; [repeat (apply Forall2_cons; [apply W; lra|]); apply Forall2_nil|]. split; [repeat (apply Forall_cons; [lra|]); apply Forall_nil|cbn; lra].
  - split; [exists 2%nat; reflexivity|]. split; [repeat (apply Forall2_cons; [apply W; lra|]); apply Forall2_nil|]. split; [repeat (apply Forall_cons; [lra|]); apply Forall_nil|cbn; lra].
Qed.

(** Inverter succeeds when its child fails, so at the child's failure cost: 3 to 4
    here; the claimed success bounds are 1 to 2. *)
Theorem C61_inverter_refuted : exists b q,
  o_util (obj_of uenv (T 0 KInverter ""%string [uleaf 1])) uworld = Ok b /\
  decorated KInverter ub1 true q /\ ~ success_cost b q.
Proof.
  eexists. exists 4. split; [reflexivity|]. split.
  { exists [false], [4]. split; [reflexivity|]. split; [repeat constructor; simpl; intros; lra|cbn; lra]. }
  intros [_ H]. specialize (H eq_refl). simpl in H. lra.
Qed.
Print Assumptions C61_inverter_refuted.

(** IgnoreFailure succeeds as well when its child fails. *)
Theorem C61_ignore_failure_refuted : exists b q,
  o_util (obj_of uenv (T 0 KIgnoreFailure ""%string [uleaf 1])) uworld = Ok b /\
  decorated KIgnoreFailure ub1 true q /\ ~ success_cost b q.
Proof.
  eexists. exists 4. split; [reflexivity|]. split.
  { exists [false], [4]. split; [split; [reflexivity|exists false; reflexivity]|]. split; [repeat constructor; simpl; intros; lra|cbn; lra]. }
  intros [_ H]. specialize (H eq_refl). simpl in H. lra.
Qed.
Print Assumptions C61_ignore_failure_refuted.

(** Retry fails after several failures of its child: two failures cost 6 at
    least, the claimed upper bound is 4. *)
Theorem C61_retry_refuted : exists b q,
  o_util (obj_of uenv (T 0 KRetry ""%string [uleaf 1])) uworld = Ok b /\
  decorated_pos KRetry ub1 false q /\ ~ failure_cost b q.
Proof.
  eexists. exists (3 + 3). split; [reflexivity|]. split.
  { exists [false; false], [3; 3]. split; [exists 1%nat; reflexivity|]. split; [repeat constructor; simpl; intros; lra|].
    split; [repeat constructor; lra|cbn; lra]. }
  intros [_ H]. specialize (H eq_refl). simpl in H. lra.
Qed.
Print Assumptions C61_retry_refuted.

(** NameSwitch executes one child and fails when that child fails, but claims the
    bounds of a Fallback, which fails after all of them. *)
Theorem C61_name_switch_refuted : exists b q,
  o_util (obj_of uenv (T 0 KNameSwitch ""%string [uleaf 1; uleaf 2])) uworld = Ok b /\
  failure_cost ub1 q /\ ~ failure_cost b q.
Proof.
  eexists. exists 3. split; [reflexivity|]. split; [split; simpl; intros; lra|].
  intros [H _]. specialize (H eq_refl). vm_compute in H. apply H. reflexivity.
Qed.
Print Assumptions C61_name_switch_refuted.

(** EnumSwitch claims to cost nothing. *)
Theorem C61_enum_switch_refuted : exists b q,
  o_util (obj_of uenv (T 0 (KEnumSwitch []) ""%string [uleaf 1; uleaf 2])) uworld = Ok b /\
  success_cost ub1 q /\ ~ success_cost b q.
Proof.
  eexists. exists 2. split; [reflexivity|]. split; [split; simpl; intros; lra|].
  intros [_ H]. specialize (H eq_refl). vm_compute in H. apply H. reflexivity.
Qed.
Print Assumptions C61_enum_switch_refuted.
