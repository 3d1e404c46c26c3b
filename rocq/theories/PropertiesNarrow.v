(** C116: what a configuration may make of the inputs that a class declares. *)
From Coq Require Import String Ascii ZArith Bool SpecFloat Arith List.
From Verif Require Import Base ModelData ModelUtility ModelTree ModelLeaf ModelDataLeaf SpecData SpecLeaf SpecDataLeaf SpecNarrow.
From Verif Require Import ProofsData ProofsDataLeaf ProofsDataRefs DemoDataLeaf PropertiesData.
Import ListNotations.
Local Open Scope string_scope.
Local Open Scope list_scope.

(** ** C116 *)

(** The inputs of a node are those of its class, and none takes a value that the class
    excludes. *)
Theorem C116_types_partial : forall known ins outs msg i o, proper msg -> node_of_msg known ins outs msg = Ok (i, o) ->
  map fst i = map fst ins /\
  forall k s, dget k i = Some s -> exists d, dget k ins = Some d /\ (plain_type d -> type_within d s).
Proof.
  intros known ins outs msg i o P N. destruct (node_types known _ _ _ _ _ P N) as (K & _ & A & _). split; [exact K|].
  intros k s D. destruct (A _ _ D) as (d & D1 & H). exists d. split; [exact D1|]. destruct d as [c|R r ? ? ? ?]; cbn.
  - destruct H as (c' & -> & [-> | C]); intros [O B] v V; [exact V|]. exact (proj1 (C31_types_partial _ _ _ C O B V)).
  - destruct H as (? & ? & ? & ? & -> & _). auto.
Qed.
Print Assumptions C116_types_partial.

(** An input that the class wants fixed may be made one that is wired only: Constant with a
    value that comes by a wiring. *)
Definition wired_constant : list (string * slot * text) :=
  [("constant_type", SPlain (mkC (TGeneric all_types) false true true None false), TValue (int_desc 0 10));
   ("constant_value", SRef RefItem "constant_type" true true false None, TNoJson)].
Theorem C116_loosened_refuted : exists msg i o d s, proper msg /\ node_of_msg no_msgs constant_ins constant_outs msg = Ok (i, o) /\
  dget "constant_value" constant_ins = Some d /\ dget "constant_value" i = Some s /\
  may_be_wired d = false /\ may_be_wired s = true /\ ~ within d s /\
  exists t, slot_type s = Some t /\ t = TInt 0 10.
Proof.
  exists wired_constant. eexists. eexists. eexists. eexists. split; [is_proper|]. split; [vm_compute; reflexivity|].
  split; [reflexivity|]. split; [reflexivity|]. split; [reflexivity|]. split; [reflexivity|].
  split; [|eexists; split; reflexivity]. intros (_ & W & _). discriminate (W eq_refl).
Qed.
Print Assumptions C116_loosened_refuted.

(** The other way round, a configuration that is narrower than the class is refused:
    Passthrough with an input that must be fixed. *)
Definition fixed_pass (wired : bool) : list (string * slot * text) :=
  [("passthrough_type", SPlain (mkC (TGeneric all_types) false true true None false), TValue (int_desc 0 10));
   ("in", SRef RefItem "passthrough_type" wired true true None, TValue (VInt 7))].
Theorem C116_narrow_refuted : exists msg given, proper msg /\
  inputs_of_msg no_msgs msg = Ok given /\
  (forall k s, dget k given = Some s -> exists d, dget k pass_ins = Some d /\ within d s) /\
  node_of_msg no_msgs pass_ins pass_outs msg = Err EConfig.
Proof.
  exists (fixed_pass false). eexists. split; [is_proper|]. split; [vm_compute; reflexivity|]. split; [|vm_compute; reflexivity].
  intros k s D. cbn [dget] in D. destruct (String.eqb k "passthrough_type") eqn:E1; [|destruct (String.eqb k "in") eqn:E2; [|discriminate]].
  - apply String.eqb_eq in E1. subst k. injection D as <-. eexists. split; [reflexivity|]. split; [cbn; auto|]. split; cbn; auto.
  - apply String.eqb_eq in E2. subst k. injection D as <-. eexists. split; [reflexivity|]. split; [cbn; auto|]. split; cbn; auto.
Qed.
Print Assumptions C116_narrow_refuted.

(** What the check does keep: what the class allows, the configuration has to allow. *)
Theorem C116_kept : forall d s, slot_compat d s = true ->
  (may_be_wired d = true -> may_be_wired s = true) /\ (may_be_fixed d = true -> may_be_fixed s = true).
Proof.
  intros [c|K r dyn sta st i] [c'|K' r' dyn' sta' st' i'] H; cbn in *; try discriminate.
  - unfold is_compatible in H. apply andb_true_iff in H. destruct H as [H _]. apply andb_true_iff in H. destruct H as [A B].
    destruct (c_dyn c), (c_dyn c'), (c_sta c), (c_sta c'); cbn in *; try discriminate; auto.
  - apply andb_true_iff in H. destruct H as [H _]. apply andb_true_iff in H. destruct H as [H B]. apply andb_true_iff in H. destruct H as [_ A].
    destruct dyn, dyn', sta, sta'; cbn in *; try discriminate; auto.
Qed.
Print Assumptions C116_kept.

(** The same message with the flags of the class is accepted, with the value and the type given. *)
Example C116_example : proper (fixed_pass true) /\ exists i o c,
  node_of_msg no_msgs pass_ins pass_outs (fixed_pass true) = Ok (i, o) /\
  dget "in" i = Some (SRef RefItem "passthrough_type" true true true (Some c)) /\ c_ty c = TInt 0 10 /\ c_val c = Some (VInt 7).
Proof. split; [is_proper|]. eexists. eexists. eexists. split; [vm_compute; reflexivity|]. repeat split. Qed.
(** A shorter format string than the class asks for. *)
Definition short_msg : list (string * slot * text) :=
  [("format_string", SPlain (mkC (TStr 10 None) true true true None false), TValue (VStr "a {x}"))].
Example C116_types_example : proper short_msg /\ (exists d, dget "format_string" format_ins = Some d /\ plain_type d) /\
  exists i o c, node_of_msg no_msgs format_ins format_outs short_msg = Ok (i, o) /\ dget "format_string" i = Some (SPlain c) /\
    c_ty c = TStr 10 None /\ c_val c = Some (VStr "a {x}").
Proof.
  split; [is_proper|]. split; [eexists; split; [reflexivity|split; cbn; auto]|].
  eexists. eexists. eexists. split; [vm_compute; reflexivity|]. repeat split.
Qed.
