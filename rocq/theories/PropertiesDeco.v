(** Properties C18-C23: decorators. *)
From Coq Require Import List String ZArith Bool.
From Verif Require Import Base ModelData ModelUtility ModelTree SpecTree SpecControl ProofsTree ProofsLife
  ProofsWhole ProofsControl ProofsMemory ProofsParallel ProofsDeco ProofsRun Demo.
Import ListNotations.
Local Open Scope string_scope.

(** ** C18 Decorator result tables *)
Theorem C18_inverter : forall E (ev : env E) n name c cs w w' r,
  live (w_st w n) -> inputs_set w n -> blind n c ->
  call OTick (make_obj ev n KInverter name (c :: cs)) w = (w', r) ->
  exists x, ticks_with n w [(c, OTick, x)]
    (res_map (fun s => match s with SUCCEEDED => FAILED | FAILED => SUCCEEDED | _ => s end) x) w' r.
Proof. intros E ev n name c cs w w' r. apply (table_spec KInverter). unfold table_kind; auto. Qed.
Print Assumptions C18_inverter.

Theorem C18_ignore_failure : forall E (ev : env E) n name c cs w w' r,
  live (w_st w n) -> inputs_set w n -> blind n c ->
  call OTick (make_obj ev n KIgnoreFailure name (c :: cs)) w = (w', r) ->
  exists x, ticks_with n w [(c, OTick, x)]
    (res_map (fun s => match s with FAILED => SUCCEEDED | _ => s end) x) w' r.
Proof. intros E ev n name c cs w w' r. apply (table_spec KIgnoreFailure). unfold table_kind; auto. Qed.
Print Assumptions C18_ignore_failure.

Theorem C18_ignore_success : forall E (ev : env E) n name c cs w w' r,
  live (w_st w n) -> inputs_set w n -> blind n c ->
  call OTick (make_obj ev n KIgnoreSuccess name (c :: cs)) w = (w', r) ->
  exists x, ticks_with n w [(c, OTick, x)]
    (res_map (fun s => match s with SUCCEEDED => FAILED | _ => s end) x) w' r.
Proof. intros E ev n name c cs w w' r. apply (table_spec KIgnoreSuccess). unfold table_kind; auto. Qed.
Print Assumptions C18_ignore_success.

(** In every history after a setup with running_is_success = [b]. *)
Theorem C18_ignore_running : forall E (ev : env E) n name c0 cs wb w0 s recs w r w' c b,
  Forall (blind n) (c0 :: cs) ->
  dget "running_is_success" (w_ins wb n) = Some c -> c_static c = true -> c_val c = Some (VBool b) ->
  call OSetup (make_obj ev n KIgnoreRunning name (c0 :: cs)) wb = (w0, Ok s) ->
  op_run (make_obj ev n KIgnoreRunning name (c0 :: cs)) w0 recs -> In (OTick, w, r, w') recs -> live (w_st w n) ->
  exists x, ticks_with n w [(c0, OTick, x)]
    (res_map (fun s => match s with RUNNING => if b then SUCCEEDED else FAILED | _ => s end) x) w' r.
Proof. intros E. exact (@ignore_running_run E). Qed.
Print Assumptions C18_ignore_running.

(** Without a child. *)
Theorem C18_no_child : forall E (ev : env E) k n name w w' r,
  k = KInverter \/ k = KIgnoreFailure \/ k = KIgnoreSuccess \/ k = KIgnoreRunning ->
  live (w_st w n) -> inputs_set w n ->
  call OTick (make_obj ev n k name []) w = (w', r) ->
  ticks_with n w [] (Ok (match k with KInverter | KIgnoreFailure => SUCCEEDED | _ => FAILED end)) w' r.
Proof. intros E ev k n name w w' r. exact (table_empty k ev n name w w' r). Qed.
Print Assumptions C18_no_child.

Definition deco k := T 0 k "deco" [leaf 1].
Lemma deco_blind : forall k, Forall (blind 0) (map (obj_of denv) (t_children (deco k))).
Proof.
  intros k. apply (tree_blind dE denv 0 k "deco" (t_children (deco k))).
  simpl. repeat constructor; simpl; intuition discriminate.
Qed.

Example C18_example : let w := dworld (all_st IDLE) (says [(1, Ok FAILED)]) in
  live (w_st w 0) /\ inputs_set w 0 /\ Forall (blind 0) (map (obj_of denv) (t_children (deco KInverter))) /\
  map (fun k => snd (call OTick (obj_of denv (deco k)) w)) [KInverter; KIgnoreFailure; KIgnoreSuccess]
  = [Ok SUCCEEDED; Ok SUCCEEDED; Ok FAILED].
Proof.
  split; [intros [H|[H|H]]; discriminate|]. split; [intros k c []|]. split; [apply deco_blind|].
  vm_compute. reflexivity.
Qed.

Definition optw (key : string) (t : ctype) (v : value) :=
  set_ins (dworld (all_st UNINITIALIZED) (says [])) 0 [(key, static_in t v)].
Example C18_running_example :
  map (fun b => snd (play (obj_of denv (deco KIgnoreRunning)) (optw "running_is_success" TBool (VBool b))
        [(OSetup, says []); (OTick, says [(1, Ok RUNNING)])])) [true; false]
  = [[Ok IDLE; Ok SUCCEEDED]; [Ok IDLE; Ok FAILED]].
Proof. vm_compute. reflexivity. Qed.

(** ** C19 Retry gives up after the configured number of retries *)

(** A history that begins with a setup with num_retries = [i].  [h] is empty or
    ends with a reset; [pre] is what happened since then (ticks and unticks, all
    Ok).  The next tick ticks the child.  If the child FAILED and this is not
    failure number i+1, 2(i+1), ... since then, the child is reset and the outcome
    is RUNNING; in any other case the outcome is the child's. *)
Theorem C19_retry : forall E (ev : env E) n name c cs wb w0 s h pre w r w' d i,
  Forall (blind n) (c :: cs) ->
  dget "num_retries" (w_ins wb n) = Some d -> c_static d = true -> c_val d = Some (VInt i) ->
  call OSetup (make_obj ev n KRetry name (c :: cs)) wb = (w0, Ok s) ->
  op_run (make_obj ev n KRetry name (c :: cs)) w0 (h ++ pre ++ [(OTick, w, r, w')])%list ->
  (h = [] \/ exists h' wr wr', h = (h' ++ [(OReset, wr, Ok IDLE, wr')])%list) ->
  Forall (fun x => fst (fst (fst x)) <> OReset /\ exists s, snd (fst x) = Ok s) pre ->
  exists l b, ticks_own n w l b w' r /\
    loop_plan (fun s => s = FAILED /\ (S (answers n c FAILED pre)) mod (S (Z.to_nat i)) <> 0)
      (fun s => s) c l b.
Proof.
  intros E ev n name c cs wb w0 s h pre w r w' d i.
  exact (counting_from_start KRetry ev n name c cs wb w0 s h pre w r w' d i (or_introl eq_refl)).
Qed.
Print Assumptions C19_retry.

Example C19_example :
  snd (play (obj_of denv (deco KRetry)) (optw "num_retries" (TInt 0 10) (VInt 2))
     ((OSetup, says []) :: repeat (OTick, says [(1, Ok FAILED)]) 4 ++ [(OReset, says [])] ++
      repeat (OTick, says [(1, Ok FAILED)]) 3)%list)
  = [Ok IDLE; Ok RUNNING; Ok RUNNING; Ok FAILED; Ok RUNNING; Ok IDLE; Ok RUNNING; Ok RUNNING; Ok FAILED].
Proof. vm_compute. reflexivity. Qed.

(** ** C20 Repeat repeats the configured number of times *)
Theorem C20_repeat : forall E (ev : env E) n name c cs wb w0 s h pre w r w' d i,
  Forall (blind n) (c :: cs) ->
  dget "num_repeats" (w_ins wb n) = Some d -> c_static d = true -> c_val d = Some (VInt i) ->
  call OSetup (make_obj ev n KRepeat name (c :: cs)) wb = (w0, Ok s) ->
  op_run (make_obj ev n KRepeat name (c :: cs)) w0 (h ++ pre ++ [(OTick, w, r, w')])%list ->
  (h = [] \/ exists h' wr wr', h = (h' ++ [(OReset, wr, Ok IDLE, wr')])%list) ->
  Forall (fun x => fst (fst (fst x)) <> OReset /\ exists s, snd (fst x) = Ok s) pre ->
  exists l b, ticks_own n w l b w' r /\
    loop_plan (fun s => s = SUCCEEDED /\ S (answers n c SUCCEEDED pre) <= Z.to_nat i)
      (fun s => s) c l b.
Proof.
  intros E ev n name c cs wb w0 s h pre w r w' d i.
  exact (counting_from_start KRepeat ev n name c cs wb w0 s h pre w r w' d i (or_intror eq_refl)).
Qed.
Print Assumptions C20_repeat.

Example C20_example :
  snd (play (obj_of denv (deco KRepeat)) (optw "num_repeats" (TInt 0 10) (VInt 2))
     ((OSetup, says []) :: repeat (OTick, says []) 4))
  = [Ok IDLE; Ok RUNNING; Ok RUNNING; Ok SUCCEEDED; Ok SUCCEEDED].
Proof. vm_compute. reflexivity. Qed.

(** The histories the two theorems quantify over exist. *)
Example C19_history : exists wb w0 s pre w r w',
  call OSetup (obj_of denv (deco KRetry)) wb = (w0, Ok s) /\
  (exists d, dget "num_retries" (w_ins wb 0) = Some d /\ c_static d = true /\ c_val d = Some (VInt 1)) /\
  op_run (obj_of denv (deco KRetry)) w0 ([] ++ pre ++ [(OTick, w, r, w')])%list /\
  Forall (fun x => fst (fst (fst x)) <> OReset /\ exists s, snd (fst x) = Ok s) pre /\
  r = Ok FAILED /\ answers 0 (obj_of denv (leaf 1)) FAILED pre = 1.
Proof.
  pose (c := obj_of denv (deco KRetry)).
  pose (wb := optw "num_retries" (TInt 0 10) (VInt 1)).
  pose (w0 := fst (call OSetup c wb)).
  pose (wa := set_ext w0 (says [(1, Ok FAILED)])). pose (wa' := fst (call OTick c wa)).
  pose (wt := wa'). pose (wt' := fst (call OTick c wt)).
  exists wb, w0, IDLE, [(OTick, wa, Ok RUNNING, wa')], wt, (Ok FAILED), wt'.
  split; [apply call_is; vm_compute; reflexivity|].
  split; [eexists; repeat split; reflexivity|].
  split.
  - simpl app. apply or_call; [split; reflexivity|auto| |apply call_is; vm_compute; reflexivity|].
    + intros k c0. vm_compute. intros [H|[]]. inversion H. discriminate.
    + apply or_call; [split; reflexivity|auto| |apply call_is; vm_compute; reflexivity|constructor].
      intros k c0. vm_compute. intros [H|[]]. inversion H. discriminate.
  - split; [repeat constructor; simpl; try discriminate; eauto|]. split; [reflexivity|vm_compute; reflexivity].
Qed.

(** ** C21 Looping decorators never finish with the wrong result *)
Theorem C21_repeat_always : forall E (ev : env E) n name c cs w w' r,
  live (w_st w n) -> inputs_set w n ->
  call OTick (make_obj ev n KRepeatAlways name (c :: cs)) w = (w', r) ->
  (forall s, r = Ok s -> s = RUNNING) /\
  exists l b, ticks_with n w l b w' r /\ loop_plan (fun s => s <> RUNNING) (fun s => s) c l b.
Proof.
  intros E ev n name c cs w w' r Hl Hi H. split.
  - intros s ->. exact (loop_results KRepeatAlways ev n name c cs w w' s (or_introl eq_refl) Hi H).
  - exact (loop_spec KRepeatAlways ev n name c cs w w' r (or_introl eq_refl) Hl Hi H).
Qed.
Print Assumptions C21_repeat_always.

Theorem C21_repeat_until_fail : forall E (ev : env E) n name c cs w w' r,
  live (w_st w n) -> inputs_set w n ->
  call OTick (make_obj ev n KRepeatUntilFail name (c :: cs)) w = (w', r) ->
  r <> Ok SUCCEEDED /\
  exists l b, ticks_with n w l b w' r /\ loop_plan (fun s => s = SUCCEEDED) (fun s => s) c l b.
Proof.
  intros E ev n name c cs w w' r Hl Hi H. split.
  - intros ->. exact (loop_results KRepeatUntilFail ev n name c cs w w' SUCCEEDED (or_intror (or_introl eq_refl)) Hi H eq_refl).
  - exact (loop_spec KRepeatUntilFail ev n name c cs w w' r (or_intror (or_introl eq_refl)) Hl Hi H).
Qed.
Print Assumptions C21_repeat_until_fail.

Theorem C21_until_success : forall E (ev : env E) k n name c cs w w' r,
  k = KUntilSuccess \/ k = KRepeatIfFail ->
  live (w_st w n) -> inputs_set w n ->
  call OTick (make_obj ev n k name (c :: cs)) w = (w', r) ->
  r <> Ok FAILED /\
  exists l b, ticks_with n w l b w' r /\ loop_plan (fun s => s = FAILED) (fun s => s) c l b.
Proof.
  intros E ev k n name c cs w w' r Hk Hl Hi H.
  assert (Hlk : loop_kind k) by (unfold loop_kind; tauto). split.
  - intros ->. pose proof (loop_results k ev n name c cs w w' FAILED Hlk Hi H) as Hx. destruct Hk; subst k; auto.
  - pose proof (loop_spec k ev n name c cs w w' r Hlk Hl Hi H) as Hx. destruct Hk; subst k; exact Hx.
Qed.
Print Assumptions C21_until_success.

Example C21_example :
  map (fun k => snd (play (obj_of denv (deco k)) (dworld (all_st UNINITIALIZED) (says []))
     [(OSetup, says []); (OTick, says [(1, Ok FAILED)]); (OTick, says [(1, Ok SUCCEEDED)])]))
    [KRepeatAlways; KRepeatUntilFail; KUntilSuccess; KRepeatIfFail]
  = [[Ok IDLE; Ok RUNNING; Ok RUNNING]; [Ok IDLE; Ok FAILED; Ok RUNNING];
     [Ok IDLE; Ok RUNNING; Ok SUCCEEDED]; [Ok IDLE; Ok RUNNING; Ok SUCCEEDED]].
Proof. vm_compute. reflexivity. Qed.

(** ** C22 RepeatNoAutoReset ticks its child a bounded number of times *)

(** [ls] lists the calls made by each operation of the history. *)
Theorem C22_bounded : forall E (ev : env E) n name c cs wb w0 s recs d i,
  Forall (blind n) (c :: cs) ->
  dget "num_repeats" (w_ins wb n) = Some d -> c_static d = true -> c_val d = Some (VInt i) ->
  call OSetup (make_obj ev n KRepeatNoAutoReset name (c :: cs)) wb = (w0, Ok s) ->
  op_run (make_obj ev n KRepeatNoAutoReset name (c :: cs)) w0 recs ->
  Forall (fun x => match x with (o, w, _, _) => o = OTick -> in_value_as as_bool w n "reset" = Ok false end) recs ->
  exists ls, Forall2 (did n) recs ls /\ completions (List.concat ls) <= Z.to_nat i /\
    forall pre w r w' post, recs = (pre ++ (OTick, w, r, w') :: post)%list -> live (w_st w n) ->
      exists lp lt lr b, ls = (lp ++ lt :: lr)%list /\ List.length lp = List.length pre /\ does OTick n w lt b w' r /\
        (completions (List.concat lp) = Z.to_nat i -> lt = [] /\ b = Ok SUCCEEDED).
Proof. intros E. exact (@nar_from_setup E). Qed.
Print Assumptions C22_bounded.

Definition narw := set_ins (dworld (all_st UNINITIALIZED) (says [])) 0
  [("num_repeats", static_in (TInt 0 10) (VInt 1)); ("reset", static_in TBool (VBool false))].
Example C22_example : exists w,
  play (obj_of denv (deco KRepeatNoAutoReset)) narw
     [(OSetup, says []); (OTick, says []); (OTick, says [(1, Ok FAILED)]); (OReset, says []); (OTick, says [(1, Ok FAILED)])]
  = (w, [Ok IDLE; Ok RUNNING; Ok SUCCEEDED; Ok IDLE; Ok SUCCEEDED]) /\ w_st w 1 = IDLE /\
  in_value_as as_bool w 0 "reset" = Ok false.
Proof. eexists. split; [vm_compute; reflexivity|]. split; reflexivity. Qed.

(** ** C23 Optional never touches a child that cannot execute *)
Theorem C23_optional : forall E (ev : env E) n name c wb w0 r0 u recs,
  blind n c -> w_st wb n = UNINITIALIZED \/ w_st wb n = SHUTDOWN ->
  o_util c (mem_exec (prepare OSetup n wb) n false) = Ok u ->
  call OSetup (make_obj ev n KOptional name [c]) wb = (w0, r0) ->
  op_run (make_obj ev n KOptional name [c]) w0 recs ->
  (can_execute u = false -> r0 = Ok IDLE /\ only_own n (mem_exec (prepare OSetup n wb) n false) w0) /\
  Forall (fun x => match x with (o, w, r, w') =>
    exists l b, does o n w l b w' r /\
      (live (w_st w n) -> if can_execute u then exists x, l = [(c, o, x)] /\ b = x
                          else l = [] /\ b = Ok (match o with OTick => SUCCEEDED | _ => IDLE end)) end) recs.
Proof. intros E. exact (@optional_from_setup E). Qed.
Print Assumptions C23_optional.

Definition no_exec : env dE := mkEnv dE (ev_leaf denv) (fun _ _ _ => Ok bounds0) (fun e => (e, 0%Z)).
Example C23_example : exists w,
  play (obj_of no_exec (deco KOptional)) (dworld (all_st UNINITIALIZED) (says []))
    [(OSetup, says []); (OTick, says [(1, Ok FAILED)])] = (w, [Ok IDLE; Ok SUCCEEDED]) /\ w_st w 1 = UNINITIALIZED.
Proof. eexists. split; [vm_compute; reflexivity|reflexivity]. Qed.
Example C23_example_exec : exists w,
  play (obj_of denv (deco KOptional)) (dworld (all_st UNINITIALIZED) (says []))
    [(OSetup, says []); (OTick, says [(1, Ok FAILED)])] = (w, [Ok IDLE; Ok FAILED]) /\ w_st w 1 = FAILED.
Proof. eexists. split; [vm_compute; reflexivity|reflexivity]. Qed.
