(** Property C111: EnumSwitch nodes, from the message to the child that is ticked. *)
From Coq Require Import String ZArith Bool SpecFloat List.
From Verif Require Import Base ModelData ModelEdit ModelUtility ModelTree SpecTree SpecControl ModelDataLeaf ModelParam.
From Verif Require ProofsTimed ProofsDataLeaf.
From Verif Require Import ModelEnumSwitch SpecEnumSwitch ProofsEnumSwitch PropertiesControl Demo.
Import ListNotations.
Local Open Scope string_scope.

(** ** C111 *)

(** The node can be made exactly for messages that have constants, all of one builtin type. *)
Theorem C111_created : forall known base cs, dget "case" (f_ins base) = None ->
  ((exists cfg, switch_config known base cs = Some cfg) <-> exists b, constants_of b cs).
Proof.
  intros known base cs D. split.
  - intros [cfg H]. apply (config_of known base cs cfg D) in H. destruct H as (b & C & _). eauto.
  - intros [b C]. eexists. apply (config_of known base cs _ D). eauto.
Qed.
Print Assumptions C111_created.

(** It then has one more input, [case], which can be wired; everything else is as it was. *)
Theorem C111_input : forall known base cs cfg, dget "case" (f_ins base) = None ->
  switch_config known base cs = Some cfg ->
  (exists c, dget "case" (f_ins cfg) = Some c /\ c_static c = false) /\
  (forall k, k <> "case" -> dget k (f_ins cfg) = dget k (f_ins base)) /\
  f_outs cfg = f_outs base /\ f_max cfg = f_max base.
Proof.
  intros known base cs cfg D H. apply (config_of known base cs cfg D) in H. destruct H as (b & C & ->). cbn [f_ins f_outs f_max].
  split; [exists (case_input b); split; [apply ProofsTimed.dget_dset_eq|reflexivity]|].
  split; auto. intros k N. apply ProofsDataLeaf.dget_dset_ne. exact N.
Qed.
Print Assumptions C111_input.

(** The input takes each constant of the message that fits, and holds it. *)
Theorem C111_accepts_partial : forall known base cs cfg c f v, dget "case" (f_ins base) = None ->
  switch_config known base cs = Some cfg -> dget "case" (f_ins cfg) = Some c ->
  In (f, v) cs -> fits v ->
  exists c', set_value (reset_value c) v = (c', Ok tt) /\ c_val c' = Some v /\ c_upd c' = true.
Proof.
  intros known base cs cfg c f v D H Hc I F. apply (config_of known base cs cfg D) in H. destruct H as (b & [_ C] & ->).
  cbn [f_ins] in Hc. rewrite ProofsTimed.dget_dset_eq in Hc. injection Hc as <-.
  apply case_takes; auto. rewrite Forall_forall in C. exact (C (f, v) I).
Qed.
Print Assumptions C111_accepts_partial.

(** Integers of 64 bits without sign do not all fit: the child of such a constant can never be
    chosen, because the input refuses the constant, whatever it held before. *)
Theorem C111_large_refuted : forall known base cs cfg c f z, dget "case" (f_ins base) = None ->
  switch_config known base cs = Some cfg -> dget "case" (f_ins cfg) = Some c ->
  In (f, VInt z) cs -> (2 ^ 63 <= z)%Z ->
  forall c', c_ty c' = c_ty c -> set_value c' (VInt z) = (c', Err EData).
Proof.
  intros known base cs cfg c f z D H Hc I L c' T. apply (config_of known base cs cfg D) in H. destruct H as (b & [_ C] & ->).
  cbn [f_ins] in Hc. rewrite ProofsTimed.dget_dset_eq in Hc. injection Hc as <-.
  rewrite Forall_forall in C. pose proof (C (f, VInt z) I) as O. inversion O; subst. apply case_refuses; auto.
Qed.
Print Assumptions C111_large_refuted.

(** With a constant on the input that no constant of another name equals, a tick ticks the child
    with the name of the constant, after the children that are not chosen were unticked; if there
    is no such child it fails. *)
Theorem C111_dispatch : forall E (ev : env E) n cs name ch w w' r f v,
  In (f, v) cs -> fits v -> (forall g u, In (g, u) cs -> py_eq u v = true -> g = f) ->
  live (w_st w n) -> inputs_set w n -> in_value w n "case" = Ok v ->
  call OTick (make_obj ev n (KEnumSwitch (pchild_dict cs)) name ch) w = (w', r) ->
  ((forall c, In c ch -> after_last_dot (o_name c) <> f) -> ticks_with n w [] (Ok FAILED) w' r) /\
  (forall c, NoDup (map (fun c => after_last_dot (o_name c)) ch) -> In c ch -> after_last_dot (o_name c) = f ->
     exists l b, ticks_with n w l b w' r /\ reset_first (has_result (w_st w n)) ch l b
       (fun l1 => switch_plan c (others (fun c => after_last_dot (o_name c)) f ch) l1 b)).
Proof.
  intros E ev n cs name ch w w' r f v I F U L N V H.
  destruct (C16_enum_switch_partial E ev n (pchild_dict cs) name ch w w' r v (Some f) L N V) as [A B]; auto.
  { apply dict_split; auto. apply py_eq_refl_fit. exact F. }
  split; [intros Q; apply A; intros c Hc X; injection X; apply Q; auto|].
  intros c ND Hc <-. apply B; auto.
Qed.
Print Assumptions C111_dispatch.

(** The constants of NodeState, the default message, are texts. *)
Definition states : list (string * value) :=
  [("BROKEN", VStr "BROKEN"); ("FAILED", VStr "FAILED"); ("IDLE", VStr "IDLE")].
Definition switch_base : config := mkCfg [("ros_message_type", mkC (TRosType RComponent 0) true true true None false)] [] None.
Definition state_switch := T 0 (KEnumSwitch (pchild_dict states)) "sw" [T 1 KLeaf "NodeState.IDLE" []; T 2 KLeaf "FAILED" []].
Example C111_example :
  (exists cfg c c' w w', switch_config (fun _ => true) switch_base states = Some cfg /\
     dget "case" (f_ins cfg) = Some c /\ set_value (reset_value c) (VStr "IDLE") = (c', Ok tt) /\
     in_value w 0 "case" = Ok (VStr "IDLE") /\ w_ins w 0 = [("case", c')] /\ live (w_st w 0) /\ inputs_set w 0 /\
     call OTick (obj_of denv state_switch) w = (w', Ok RUNNING) /\ w_st w' 1 = RUNNING) /\
  (forall g u, In (g, u) states -> py_eq u (VStr "IDLE") = true -> g = "IDLE") /\
  fits (VStr "IDLE") /\
  switch_config (fun _ => true) switch_base [("A", VInt 1); ("B", VStr "x")] = None /\
  switch_config (fun _ => true) switch_base [] = None /\
  exists cfg, switch_config (fun _ => true) switch_base [("A", VInt 1); ("ALL", VInt (2 ^ 64 - 1))] = Some cfg.
Proof.
  split.
  { do 3 eexists. exists (set_ins (dworld (all_st IDLE) (says [(1, Ok RUNNING)])) 0
      [("case", mkC (TStr INT_FLOAT_MAX None) true true false (Some (VStr "IDLE")) true)]). eexists.
    split; [vm_compute; reflexivity|]. split; [vm_compute; reflexivity|]. split; [vm_compute; reflexivity|].
    split; [reflexivity|]. split; [vm_compute; reflexivity|]. split; [intros [H|[H|H]]; discriminate|].
    split; [intros k c [H|[]]; inversion H; discriminate|]. split; [vm_compute; reflexivity|]. reflexivity. }
  split; [intros g u H P; repeat (destruct H as [H|H]; [injection H as <- <-; vm_compute in P; congruence|]); destruct H|].
  split; [apply ft_str; vm_compute; discriminate|]. split; [vm_compute; reflexivity|]. split; [vm_compute; reflexivity|].
  eexists. vm_compute. reflexivity.
Qed.
