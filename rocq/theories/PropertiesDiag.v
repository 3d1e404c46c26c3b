(** Property C88: diagnostics. *)
From Coq Require Import Bool Arith Lia Relations List.
From Verif Require Import Base ModelData ModelEdit ModelDiag SpecEdit SpecDiag DemoEdit ProofsEdit ProofsEditOps ProofsEditMove ProofsEditCycle
  ProofsEditWire ProofsEditHist ProofsEditLast ProofsDiag PropertiesEdit.
Import ListNotations.

(** ** C88 Diagnostics report what happens and do not change it *)

(** [exec pub path r d]: the operation [r] with the diagnostics [d]; its second component
    says whether it answers or raises. *)

(** Switched off, or without publisher: no message, the same answer. *)
Theorem C88_off : forall pub path r flag, pub = false \/ (forall i, flag i = false) ->
  exists d, exec pub path r (fresh flag) = (d, answers r) /\ dm_log d = [].
Proof. intros pub path r flag H. destruct (exec_off path pub r (fresh flag) H) as (d & E & _ & L). exists d. auto. Qed.
Print Assumptions C88_off.

(** Switched on from the beginning, and perhaps off later: the same answer, and the messages
    are the first ones of those about the operation. *)
Theorem C88_on : forall path r a, exists d n, exec true path r (fresh (on_until a)) = (d, answers r) /\
  dm_log d = firstn n (messages path r) /\ n <= a /\ (0 < a -> 0 < n) /\ (answers r = true -> n = min a (length (messages path r))).
Proof.
  intros path r a. destruct (exec_until path a r (fresh (on_until a)) eq_refl) as (d & ms & rest & E & (_ & _ & L) & Em & Er & Nm). cbn in L.
  exists d, (min a (length ms)). split; [exact E|]. rewrite Nat.sub_0_r in L. split; [|split; [lia|split; [destruct ms; [congruence|cbn; lia]|intros A; rewrite Em, (Er A), app_nil_r; reflexivity]]].
  rewrite L, Em, firstn_app. replace (min a (length ms) - length ms) with 0 by lia. cbn [firstn]. rewrite app_nil_r.
  destruct (Nat.le_ge_cases a (length ms)) as [X|X]; [rewrite Nat.min_l by exact X; reflexivity|].
  rewrite Nat.min_r by exact X. rewrite !firstn_all2; auto.
Qed.
Print Assumptions C88_on.

(** Switched on during an operation that would have answered: it raises KeyError, whatever
    the operation and the moment.  In a tick this ends the thread (see C49). *)
Theorem C88_switched_on_refuted : forall path r a, answers r = true -> 0 < a < length (messages path r) ->
  snd (exec true path r (fresh (on_from a))) = false.
Proof. intros path r a H R. exact (proj2 (exec_from path a r (fresh (on_from a)) eq_refl H) R). Qed.
Print Assumptions C88_switched_on_refuted.

(** Switched on before or after it: the same answer. *)
Theorem C88_between : forall path r a, answers r = true -> a = 0 \/ length (messages path r) <= a ->
  snd (exec true path r (fresh (on_from a))) = true.
Proof.
  intros path r a H R. destruct (proj1 (exec_from path a r (fresh (on_from a)) eq_refl H)) as (d & -> & _); [cbn; lia|reflexivity].
Qed.
Print Assumptions C88_between.

(** A sequence 1 with the children 2 and 3 is ticked. *)
Definition demo_run : run := Run 1 KTick [Run 2 KTick [] true; Run 3 KTick [] true] true.
Example C88_example : answers demo_run = true /\ length (messages (fun n => [n]) demo_run) = 6 /\
  map (fun m => (d_node m, d_state m)) (dm_log (fst (exec true (fun n => [n]) demo_run (fresh (on_until 10))))) =
    [(1, DPreTick); (2, DPreTick); (2, DPost KTick); (3, DPreTick); (3, DPost KTick); (1, DPost KTick)] /\
  map (fun m => (d_node m, d_state m)) (dm_log (fst (exec true (fun n => [n]) demo_run (fresh (on_until 3))))) =
    [(1, DPreTick); (2, DPreTick); (2, DPost KTick)] /\
  exec true (fun n => [n]) demo_run (fresh (on_from 1)) = (fst (exec true (fun n => [n]) demo_run (fresh (on_from 1))), false) /\
  map (fun m => (d_node m, d_state m)) (dm_log (fst (exec true (fun n => [n]) demo_run (fresh (on_from 1))))) =
    [(2, DPreTick); (2, DPost KTick); (3, DPreTick); (3, DPost KTick)].
Proof. vm_compute. auto 10. Qed.

(** The states PRE_SETUP, PRE_UNTICK, PRE_RESET and PRE_SHUTDOWN are prepared, but the
    message at the beginning of these operations has no state. *)
Theorem C88_state_refuted : forall path n k inner ends a, k <> KTick -> 0 < a ->
  exists rest, dm_log (fst (exec true path (Run n k inner ends) (fresh (on_until a)))) = mkD n (path n) DNothing :: rest.
Proof.
  intros path n k inner ends a Hk Ha. destruct (C88_on path (Run n k inner ends) a) as (d & m & E & L & _ & Pm & _). rewrite E. cbn [fst].
  rewrite L. specialize (Pm Ha). destruct m; [lia|]. cbn. destruct k; try congruence; eauto.
Qed.
Print Assumptions C88_state_refuted.

(** The path in a message leads from the root to the node. *)
Theorem C88_path : forall pub g n o, history sane_call pub g -> acyclic g -> nget n (g_nodes g) = Some o ->
  exists fuel l, path_of fuel (g_heap g) o = Some l /\ leads g l n.
Proof.
  intros pub g n o H A E. pose proof (history_HW _ _ H) as W. pose proof (nget_reg _ _ _ _ _ W E) as R. destruct (hw_id _ _ _ W _ _ E) as [<- _].
  destruct (acyclic_grounded g (HW_linked _ W) A (n_id (g_heap g o))) as [fuel U].
  destruct (path_leads g W fuel o [] R U) as (l & El & Ld). rewrite app_nil_r in El. exists fuel, l. auto.
Qed.
Print Assumptions C88_path.

(** The first operation on a node below itself, which can be built (C41), never ends once
    diagnostics are switched on. *)
Theorem C88_path_refuted : exists g n o, history sane_call true g /\ nget n (g_nodes g) = Some o /\
  forall fuel, path_of fuel (g_heap g) o = None.
Proof.
  destruct (nget 1 (g_nodes (session loop_edits (empty_mgr true)))) as [o|] eqn:E; [|vm_compute in E; discriminate].
  exists (session loop_edits (empty_mgr true)), 1, o. split; [exact loop_history|]. split; [exact E|]. intros fuel.
  destruct (path_of fuel _ o) as [l|] eqn:El; [|reflexivity]. exfalso.
  pose proof (history_HW _ _ loop_history) as W. pose proof (nget_reg _ _ _ _ _ W E) as R. destruct (hw_id _ _ _ W _ _ E) as [Id _].
  pose proof (path_ends _ W fuel o [] l R El) as U. rewrite Id in U.
  apply (grounded_acyclic _ 1 (HW_linked _ W)); [exists fuel; exact U|]. apply t_step. vm_compute. auto.
Qed.
Print Assumptions C88_path_refuted.

Example C88_path_example : exists o, nget 5 (g_nodes demo) = Some o /\ path_of 10 (g_heap demo) o = Some [1; 4; 5].
Proof. destruct (nget 5 (g_nodes demo)) as [o|] eqn:E; [|vm_compute in E; discriminate]. exists o. split; [reflexivity|]. vm_compute in E. injection E as <-. vm_compute. reflexivity. Qed.
