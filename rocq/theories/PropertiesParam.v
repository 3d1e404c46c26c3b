(** C93: the leaves that read a ROS parameter and the ROS clock.
    C94: the constants of a message as outputs. *)
From Coq Require Import String ZArith Bool SpecFloat Arith List.
From Verif Require Import Base ModelData ModelEdit ModelUtility ModelTree ModelLeaf ModelDataLeaf SpecData SpecLeaf SpecDataLeaf.
From Verif Require Import ModelParam SpecParam ProofsParam Demo DemoLeaf DemoDataLeaf.
Import ListNotations.
Local Open Scope string_scope.
Local Open Scope list_scope.

(** ** C93 *)

(** A tick of RosParam fails if the parameter is not declared.  If it is declared and has a
    value, the value is written to the output, or refused if it is not of the chosen type;
    if it has no value the default is written. *)
Theorem C93_param : forall known n name (w w' : world params) r,
  ticks known param_ins param_outs param_leaf n name w w' r ->
  exists s, value_at (w_ins w n) "param_name" (VStr s) /\
    match dget s (w_ext w) with
    | None => r = Ok FAILED /\ nothing_written n w w'
    | Some None => exists v, value_at (w_ins w n) "default_value" v /\ r = Ok SUCCEEDED /\ written n "param" v w w'
    | Some (Some v) => exists c, dget "param" (w_outs w n) = Some c /\
        (admits (c_ty c) v -> r = Ok SUCCEEDED /\ written n "param" v w w') /\
        (~ admits (c_ty c) v -> refuses n "param" w w' r)
    end.
Proof. exact param_ticks. Qed.
Print Assumptions C93_param.

(** There is no type with which a parameter that is a text, or a list with a text in it, can
    be read: all nodes refuse it. *)
Theorem C93_text_refuted : forall known n name (w w' : world params) r s v,
  ticks known param_ins param_outs param_leaf n name w w' r ->
  value_at (w_ins w n) "param_name" (VStr s) -> dget s (w_ext w) = Some (Some v) -> textual v ->
  refuses n "param" w w' r.
Proof. exact param_text. Qed.
Print Assumptions C93_text_refuted.

Definition param_msg : list (string * slot * text) :=
  [plain_in "param_name" any_str (VStr "speed"); ty_in "param_type" param_types (int_desc 0 10);
   ("default_value", ref RefItem "param_type", TValue (VInt 7))].
Lemma param_proper : proper param_msg.
Proof.
  split; [vm_compute; repeat (apply NoDup_cons; [cbn; intuition discriminate|]); apply NoDup_nil|].
  intros k s v H. repeat (destruct H as [H|H]; [injection H as <- <- <-; cbn; auto|]). destruct H.
Qed.
Ltac shows msg x vals := refine (demo_shown _ _ _ _ msg x vals _ _ _ _ _ _); [first [exact param_proper|is_proper]|starts|vm_compute; reflexivity|vm_compute; reflexivity].
Definition param_shown (r : res state) (x : params) : Prop := exists w w',
  ticks no_msgs param_ins param_outs param_leaf 0 "n" w w' r /\
  map (fun kc => (fst kc, c_val (snd kc))) (w_ins w 0) =
    [("param_name", Some (VStr "speed")); ("param_type", Some (int_desc 0 10)); ("default_value", Some (VInt 7))].
(** A parameter with a value, without one, of another type, out of range, and not declared. *)
Example C93_example :
  param_shown (Ok SUCCEEDED) [("other", None); ("speed", Some (VInt 5))] /\
  param_shown (Ok SUCCEEDED) [("speed", None)] /\
  param_shown Raise [("speed", Some (VStr "fast"))] /\
  param_shown (Err EConfig) [("speed", Some (VInt 11))] /\
  param_shown (Ok FAILED) [("other", Some (VInt 1))].
Proof.
  repeat match goal with |- _ /\ _ => split end; unfold param_shown.
  - shows param_msg [("other", None); ("speed", Some (VInt 5))] (@nil (string * value)).
  - shows param_msg [("speed", @None value)] (@nil (string * value)).
  - shows param_msg [("speed", Some (VStr "fast"))] (@nil (string * value)).
  - shows param_msg [("speed", Some (VInt 11))] (@nil (string * value)).
  - shows param_msg [("other", Some (VInt 1))] (@nil (string * value)).
Qed.

(** A tick of GetTimeNow writes the time of the tick. *)
Theorem C93_time : forall known n name (w w' : world nat) r, ticks known [] time_outs time_leaf n name w w' r ->
  r = Ok SUCCEEDED /\ written n "current_time" (VMsg "builtin_interfaces/msg/Time" (w_ext w)) w w'.
Proof. exact time_ticks. Qed.
Print Assumptions C93_time.
Example C93_time_example : exists w w', ticks no_msgs [] time_outs time_leaf 0 "n" w w' (Ok SUCCEEDED) /\
  map (fun kc => (fst kc, c_val (snd kc))) (w_ins w 0) = [].
Proof. shows (@nil (string * slot * text)) 5 (@nil (string * value)). Qed.

(** ** C94 *)

(** A message without constants: the node has no further outputs.  Missing: messages with
    constants, for which there is no node at all. *)
Theorem C94_partial : forall known base, exists cfg, enum_config known base [] = Some cfg /\ f_outs cfg = f_outs base.
Proof. exact enum_empty. Qed.
Print Assumptions C94_partial.
(** A node for a message with a constant cannot be created. *)
Theorem C94_refuted : forall known base cs, cs <> [] -> enum_config known base cs = None.
Proof. exact enum_none. Qed.
Print Assumptions C94_refuted.
Example C94_example : let base := mkCfg [("ros_message_type", mkC (TRosType RComponent 0) true true true None false)] [] (Some 0) in
  enum_config no_msgs base [("DEBUG", VInt 1); ("INFO", VInt 2)] = None /\ enum_config no_msgs base [] = Some base.
Proof. split; reflexivity. Qed.
