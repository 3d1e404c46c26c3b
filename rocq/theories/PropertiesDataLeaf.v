(** C75-C80: references between inputs, and the leaf nodes that compute with data. *)
From Coq Require Import String Ascii ZArith Bool SpecFloat Arith Lia List.
From Verif Require Import Base ModelData ModelUtility ModelTree ModelLeaf ModelDataLeaf SpecData SpecLeaf SpecDataLeaf.
From Verif Require Import ProofsData ProofsDataLeaf ProofsDataRefs ProofsDataClass ProofsDataMore ProofsDataFile Demo DemoLeaf DemoDataLeaf.
Import ListNotations.
Local Open Scope string_scope.
Local Open Scope list_scope.

(** ** C75: an input or output that refers to a type input has the type named there. *)

Theorem C75_outputs : forall known ins outs msg i o k s K r, proper msg -> node_of_msg known ins outs msg = Ok (i, o) ->
  dget k o = Some s -> refers s K r ->
  exists d t u, dget r i = Some d /\ selects known d t /\ slot_type s = Some u /\ of_kind K t u.
Proof.
  intros known ins outs msg i o k s K r P N D (dyn & sta & static & inner & ->).
  destruct (node_types known _ _ _ _ _ P N) as (_ & _ & _ & B). destruct (B _ _ D) as ([c|K' r' ? ? ? ?] & _ & H).
  - destruct H as (c' & [=] & _).
  - destruct H as (c & [= -> -> -> -> -> ->] & _ & t & S & E & _). apply sel_selects in S. destruct S as (d & D1 & S).
    exists d, t. eexists. split; [exact D1|]. split; [exact S|]. split; [reflexivity|]. rewrite E. apply ref_type_kind.
Qed.
Theorem C75_inputs_partial : forall known ins outs msg i o k s K r d t, proper msg -> node_of_msg known ins outs msg = Ok (i, o) ->
  dget k i = Some s -> refers s K r -> dget r i = Some d -> selects known d t -> (mentions msg k -> mentions msg r) ->
  exists u, slot_type s = Some u /\ of_kind K t u.
Proof.
  intros known ins outs msg i o k s K r d t P N D (dyn & sta & static & inner & ->) D1 S M.
  destruct (node_types known _ _ _ _ _ P N) as (_ & _ & A & _). destruct (A _ _ D) as ([c|K' r' ? ? ? ?] & _ & H).
  - destruct H as (c' & [=] & _).
  - destruct H as (? & ? & ? & ? & [= -> -> -> -> -> ->] & H1 & H2).
    assert (SL : sel known i r' t) by (apply sel_selects; eauto).
    destruct x2 as [c|]; [|destruct (H2 M t SL eq_refl)]. destruct (H1 c eq_refl) as (t' & S' & E & _).
    apply sel_selects in S'. destruct S' as (d' & D' & S'). rewrite D1 in D'. injection D' as <-. rewrite (selects_fun _ _ _ _ S S').
    eexists. split; [reflexivity|]. rewrite E. apply ref_type_kind.
Qed.
Theorem C75_sound : forall known ins outs msg i o k s K r u, proper msg -> node_of_msg known ins outs msg = Ok (i, o) ->
  dget k i = Some s -> refers s K r -> slot_type s = Some u ->
  exists d t, dget r i = Some d /\ selects known d t /\ of_kind K t u.
Proof.
  intros known ins outs msg i o k s K r u P N D (dyn & sta & static & inner & ->) SU.
  destruct (node_types known _ _ _ _ _ P N) as (_ & _ & A & _). destruct (A _ _ D) as ([c|K' r' ? ? ? ?] & _ & H).
  - destruct H as (c' & [=] & _).
  - destruct H as (? & ? & ? & ? & [= -> -> -> -> -> ->] & H1 & H2). destruct x2 as [c|]; [|discriminate]. cbn in SU. injection SU as <-.
    destruct (H1 c eq_refl) as (t & S & E & _). apply sel_selects in S. destruct S as (d & D1 & S).
    exists d, t. split; [exact D1|]. split; [exact S|]. rewrite E. apply ref_type_kind.
Qed.
Print Assumptions C75_outputs.
Print Assumptions C75_inputs_partial.
Print Assumptions C75_sound.

Definition constant_msg : list (string * slot * text) :=
  [ty_in "constant_type" all_types (int_desc 0 10); fixed_in "constant_value" RefItem "constant_type" (VInt 7)].
(** A list of a class whose type input has no default: the message only mentions the list. *)
Definition isin_msg : list (string * slot * text) :=
  [ty_in "compare_type" all_types (int_desc 0 10); wired_in "in" RefItem "compare_type"; wired_in "list" RefList "compare_type"].
Example C75_example : proper constant_msg /\ exists i o s, node_of_msg no_msgs constant_ins constant_outs constant_msg = Ok (i, o) /\
  dget "constant_value" i = Some s /\ refers s RefItem "constant_type" /\ slot_type s = Some (TInt 0 10).
Proof.
  split; [is_proper|]. eexists. eexists. eexists. split; [vm_compute; reflexivity|]. split; [reflexivity|]. split; [repeat eexists|]. reflexivity.
Qed.

(** A message that gives a referring input but not its type input: the input has no type,
    although the default of the type input names one (GenericType: the first valid type). *)
Theorem C75_refuted : exists known ins outs msg i o k s K r d t, proper msg /\ node_of_msg known ins outs msg = Ok (i, o) /\
  dget k i = Some s /\ refers s K r /\ dget r i = Some d /\ selects known d t /\ slot_type s = None.
Proof.
  exists no_msgs, constant_ins, constant_outs, [fixed_in "constant_value" RefItem "constant_type" (VBool true)].
  eexists. eexists. exists "constant_value". eexists. exists RefItem, "constant_type". eexists. exists TBool.
  split; [is_proper|]. split; [vm_compute; reflexivity|]. split; [reflexivity|]. split; [repeat eexists|]. split; [reflexivity|]. split; [|reflexivity].
  eexists. eexists. split; [reflexivity|]. split; [reflexivity|]. apply names_bool. reflexivity.
Qed.
Print Assumptions C75_refuted.

(** ** C76: what each data leaf computes. *)
Section C76.
Context {X : Type}.
Variables (known : string -> bool) (n : nid) (name : string).
Notation leaf g := (tick_only (fun _ : X => g)).
Theorem C76_constant : forall (w w' : world X) r, ticks known constant_ins constant_outs (leaf constant_tick) n name w w' r ->
  exists v, value_at (w_ins w n) "constant_value" v /\ r = Ok SUCCEEDED /\ written n "constant" v w w'.
Proof. exact (constant_ticks known n name). Qed.
Theorem C76_io : forall (w w' : world X) r, ticks known io_ins io_outs (leaf pass_tick) n name w w' r ->
  exists v, value_at (w_ins w n) "in" v /\ r = Ok SUCCEEDED /\ written n "out" v w w'.
Proof. exact (io_ticks known n name). Qed.
Theorem C76_passthrough : forall (w w' : world X) r, ticks known pass_ins pass_outs (leaf pass_tick) n name w w' r ->
  exists v, value_at (w_ins w n) "in" v /\ r = Ok SUCCEEDED /\ written n "out" v w w'.
Proof. exact (pass_ticks known n name). Qed.
Theorem C76_compare : forall (w w' : world X) r, ticks known compare_ins [] (leaf compare_tick) n name w w' r ->
  exists a b, value_at (w_ins w n) "a" a /\ value_at (w_ins w n) "b" b /\ r = Ok (success_if (py_eq a b)).
Proof. exact (compare_ticks known n name). Qed.
Theorem C76_compare_new : forall (w w' : world X) r, ticks known compare_ins [] (leaf compare_new_tick) n name w w' r ->
  exists a b, value_at (w_ins w n) "a" a /\ value_at (w_ins w n) "b" b /\
    r = Ok (if is_updated (w_ins w n) ["a"; "b"] then success_if (py_eq a b) else RUNNING).
Proof. exact (compare_new_ticks known n name). Qed.
Theorem C76_less : forall (w w' : world X) r, ticks known less_ins [] (leaf less_tick) n name w w' r ->
  exists a b, value_at (w_ins w n) "a" a /\ value_at (w_ins w n) "b" b /\
    (forall x y, is_int a x -> is_int b y -> r = Ok (success_if (Z.ltb x y))) /\
    (forall x y, a = VFloat x -> b = VFloat y -> r = Ok (success_if (SFltb x y))).
Proof. exact (less_ticks known n name). Qed.
Theorem C76_length : forall (w w' : world X) r, ticks known length_ins length_outs (leaf length_tick) n name w w' r ->
  exists l, value_at (w_ins w n) "list" (VList l) /\ r = Ok SUCCEEDED /\ written n "length" (VInt (Z.of_nat (length l))) w w'.
Proof. exact (length_ticks known n name). Qed.
Theorem C76_insert : forall (w w' : world X) r, ticks known insert_ins insert_outs (leaf insert_tick) n name w w' r ->
  exists l iv i v, value_at (w_ins w n) "list" (VList l) /\ value_at (w_ins w n) "index" iv /\ is_int iv i /\ value_at (w_ins w n) "element" v /\
    ((Z.of_nat (length l) < INT_FLOAT_MAX)%Z -> exists l', inserted l i v l' /\ r = Ok SUCCEEDED /\ written n "list" (VList l') w w').
Proof. exact (insert_ticks known n name). Qed.
Theorem C76_isin : forall (w w' : world X) r, ticks known isin_ins [] (leaf isin_tick) n name w w' r ->
  exists l v, value_at (w_ins w n) "list" (VList l) /\ value_at (w_ins w n) "in" v /\
    (r = Ok SUCCEEDED <-> exists x, In x l /\ py_eq x v = true) /\ (r = Ok FAILED <-> ~ exists x, In x l /\ py_eq x v = true).
Proof. exact (isin_ticks known n name). Qed.
Theorem C76_append : forall (w w' : world X) r, ticks known append_ins append_outs (leaf append_tick) n name w w' r ->
  exists l v, value_at (w_ins w n) "list" (VList l) /\ value_at (w_ins w n) "value" v /\
    ((Z.of_nat (length l) < INT_FLOAT_MAX)%Z -> r = Ok SUCCEEDED /\ written n "new_list" (VList (l ++ [v])) w w').
Proof. exact (append_ticks known n name). Qed.
Theorem C76_setdict : forall (w w' : world X) r, ticks known setdict_ins setdict_outs (leaf setdict_tick) n name w w' r ->
  exists d k v, value_at (w_ins w n) "object" (VDict d) /\ value_at (w_ins w n) "attr_name" (VStr k) /\ value_at (w_ins w n) "attr_value" v /\
    ((Z.of_nat (length d) < INT_FLOAT_MAX)%Z -> exists d', updated_dict d k v d' /\ r = Ok SUCCEEDED /\ written n "new_object" (VDict d') w w').
Proof. exact (setdict_ticks known n name). Qed.
Theorem C76_concat : forall (w w' : world X) r, ticks known concat_ins concat_outs (leaf concat_tick) n name w w' r ->
  exists a b, value_at (w_ins w n) "a" (VStr a) /\ value_at (w_ins w n) "b" (VStr b) /\
    ((zlen (a ++ b)%string <= INT_FLOAT_MAX)%Z -> r = Ok SUCCEEDED /\ written n "formatted_string" (VStr (a ++ b)%string) w w').
Proof. exact (concat_ticks known n name). Qed.
(** [fmt]: Python's formatting, which may fail.  The dictionary only holds integers. *)
Theorem C76_format : forall fmt (w w' : world X) r, ticks known format_ins format_outs (leaf (format_tick fmt)) n name w w' r ->
  exists s d, value_at (w_ins w n) "format_string" (VStr s) /\ value_at (w_ins w n) "dict" (VDict d) /\
    (forall k x, In (k, x) d -> exists z, is_int x z) /\
    (fmt s d = None -> r = Ok FAILED) /\
    (forall q, fmt s d = Some q -> (zlen q <= INT_FLOAT_MAX)%Z -> r = Ok SUCCEEDED /\ written n "formatted_string" (VStr q) w w').
Proof. exact (format_ticks known n name). Qed.
Theorem C76_extension : forall (w w' : world X) r, ticks known ext_ins ext_outs (leaf ext_tick) n name w w' r ->
  exists p f e, value_at (w_ins w n) "path" (VStr p) /\ split_path p f e /\ r = Ok SUCCEEDED /\
    written n "filename" (VStr f) w w' /\ written n "extension" (VStr e) w w'.
Proof. exact (ext_ticks X known n name). Qed.
End C76.
Print Assumptions C76_constant.
Print Assumptions C76_io.
Print Assumptions C76_passthrough.
Print Assumptions C76_compare.
Print Assumptions C76_compare_new.
Print Assumptions C76_less.
Print Assumptions C76_length.
Print Assumptions C76_insert.
Print Assumptions C76_isin.
Print Assumptions C76_append.
Print Assumptions C76_setdict.
Print Assumptions C76_concat.
Print Assumptions C76_format.
Print Assumptions C76_extension.

Notation demo_leaf g := (tick_only (fun _ : unit => g)).
Ltac shows msg x vals := refine (demo_shown _ _ _ _ msg x vals _ _ _ _ _ _); [is_proper|starts|vm_compute; reflexivity|vm_compute; reflexivity].
Example C76_constant_example : exists w w', ticks no_msgs constant_ins constant_outs (demo_leaf constant_tick) 0 "n" w w' (Ok SUCCEEDED) /\
  map (fun kc => (fst kc, c_val (snd kc))) (w_ins w 0) = [("constant_type", Some (int_desc 0 10)); ("constant_value", Some (VInt 7))].
Proof. shows constant_msg tt (@nil (string * value)). Qed.
Example C76_isin_example : exists w w', ticks no_msgs isin_ins [] (demo_leaf isin_tick) 0 "n" w w' (Ok FAILED) /\
  map (fun kc => (fst kc, c_val (snd kc))) (w_ins w 0) =
    [("compare_type", Some (int_desc 0 10)); ("list", Some (VList [VInt 1; VInt 2])); ("in", Some (VInt 3))].
Proof.
  shows isin_msg tt [("in", VInt 3); ("list", VList [VInt 1; VInt 2])].
Qed.
Definition insert_msg : list (string * slot * text) :=
  [ty_in "element_type" all_types (int_desc 0 10); plain_in "index" (TInt 0 UINT64_MAX) (VInt 1);
   wired_in "list" RefList "element_type"; wired_in "element" RefItem "element_type"].
Example C76_insert_example : exists w w', ticks no_msgs insert_ins insert_outs (demo_leaf insert_tick) 0 "n" w w' (Ok SUCCEEDED) /\
  map (fun kc => (fst kc, c_val (snd kc))) (w_ins w 0) =
    [("element_type", Some (int_desc 0 10)); ("index", Some (VInt 1)); ("list", Some (VList [VInt 5; VInt 6])); ("element", Some (VInt 9))].
Proof. shows insert_msg tt [("list", VList [VInt 5; VInt 6]); ("element", VInt 9)]. Qed.
Example C76_extension_example : exists w w', ticks no_msgs ext_ins ext_outs (demo_leaf ext_tick) 0 "n" w w' (Ok SUCCEEDED) /\
  map (fun kc => (fst kc, c_val (snd kc))) (w_ins w 0) = [("path", Some (VStr "/a.b/c.yaml"))].
Proof. shows [plain_in "path" any_str (VStr "/a.b/c.yaml")] tt (@nil (string * value)). Qed.

(** ** C77: arithmetic. *)
Section C77.
Context {X : Type}.
Variables (lib : mathlib) (known : string -> bool) (n : nid) (name : string).
Notation leaf g := (tick_only (fun _ : X => g)).
Notation binary := (leaf (operation_tick lib)).
Notation unary := (leaf (unary_tick lib)).
Theorem C77_int : forall (w w' : world X) r s x y z, ticks known operation_ins operation_outs binary n name w w' r ->
  value_at (w_ins w n) "operator" (VStr s) -> value_at (w_ins w n) "a" (VInt x) -> value_at (w_ins w n) "b" (VInt y) ->
  int_result s x y z -> stores_result n (VInt z) z w w' r.
Proof. exact (operation_int lib known n name). Qed.
Theorem C77_undefined : forall (w w' : world X) r s x y, ticks known operation_ins operation_outs binary n name w w' r ->
  value_at (w_ins w n) "operator" (VStr s) -> value_at (w_ins w n) "a" (VInt x) -> value_at (w_ins w n) "b" (VInt y) ->
  undefined s y -> r = Raise /\ w_st w' n = w_st w n.
Proof. exact (operation_undefined lib known n name). Qed.
Theorem C77_bool : forall (w w' : world X) r s x y, ticks known operation_ins operation_outs binary n name w w' r ->
  value_at (w_ins w n) "operator" (VStr s) -> value_at (w_ins w n) "a" (VBool x) -> value_at (w_ins w n) "b" (VBool y) ->
  (forall c, dget "result" (w_outs w n) = Some c -> c_ty c = TBool) ->
  (In s ["and"; "&"] -> r = Ok SUCCEEDED /\ written n "result" (VBool (x && y)) w w') /\
  (In s ["or"; "|"] -> r = Ok SUCCEEDED /\ written n "result" (VBool (x || y)) w w') /\
  (In s ["xor"; "^"] -> r = Ok SUCCEEDED /\ written n "result" (VBool (xorb x y)) w w') /\
  (~ In s ["and"; "&"; "or"; "|"; "xor"; "^"] -> forall st, r <> Ok st).
Proof. exact (operation_bool lib known n name). Qed.
Theorem C77_float : forall (w w' : world X) r s x y z, ticks known operation_ins operation_outs binary n name w w' r ->
  value_at (w_ins w n) "operator" (VStr s) -> value_at (w_ins w n) "a" (VFloat x) -> value_at (w_ins w n) "b" (VFloat y) ->
  float_result lib s x y z -> stores_float n (VFloat z) z w w' r.
Proof. exact (operation_float lib known n name). Qed.
Theorem C77_float_undefined : forall (w w' : world X) r s x y, ticks known operation_ins operation_outs binary n name w w' r ->
  value_at (w_ins w n) "operator" (VStr s) -> value_at (w_ins w n) "a" (VFloat x) -> value_at (w_ins w n) "b" (VFloat y) ->
  (forall z, ~ float_result lib s x y z) -> r = Raise /\ w_st w' n = w_st w n.
Proof. exact (operation_float_undefined lib known n name). Qed.
Theorem C77_unary : forall (w w' : world X) r s x z, ticks known unary_ins unary_outs unary n name w w' r ->
  value_at (w_ins w n) "operator" (VStr s) -> value_at (w_ins w n) "in" (VInt x) -> int_unary s x z -> stores_result n (VInt z) z w w' r.
Proof. exact (unary_int lib known n name). Qed.
Theorem C77_not : forall (w w' : world X) r x, ticks known unary_ins unary_outs unary n name w w' r ->
  value_at (w_ins w n) "operator" (VStr "not") -> value_at (w_ins w n) "in" (VInt x) ->
  stores_result n (VBool (Z.eqb x 0)) (if Z.eqb x 0 then 1 else 0)%Z w w' r.
Proof. exact (unary_not lib known n name). Qed.
Theorem C77_unary_undefined : forall (w w' : world X) r x, ticks known unary_ins unary_outs unary n name w w' r ->
  value_at (w_ins w n) "operator" (VStr "factorial") -> value_at (w_ins w n) "in" (VInt x) -> (x < 0)%Z -> r = Raise /\ w_st w' n = w_st w n.
Proof. exact (unary_negative lib known n name). Qed.
Theorem C77_unary_float : forall (w w' : world X) r s x v f, ticks known unary_ins unary_outs unary n name w w' r ->
  value_at (w_ins w n) "operator" (VStr s) -> value_at (w_ins w n) "in" (VFloat x) ->
  float_unary lib s x v -> is_float v f -> stores_float n v f w w' r.
Proof. exact (unary_float lib known n name). Qed.
Theorem C77_unary_float_undefined : forall (w w' : world X) r s x, ticks known unary_ins unary_outs unary n name w w' r ->
  value_at (w_ins w n) "operator" (VStr s) -> value_at (w_ins w n) "in" (VFloat x) ->
  (forall v, ~ float_unary lib s x v) -> r = Raise /\ w_st w' n = w_st w n.
Proof. exact (unary_float_undefined lib known n name). Qed.
Theorem C77_unary_bool : forall (w w' : world X) r s x, ticks known unary_ins unary_outs unary n name w w' r ->
  value_at (w_ins w n) "operator" (VStr s) -> value_at (w_ins w n) "in" (VBool x) ->
  (forall c, dget "result" (w_outs w n) = Some c -> c_ty c = TBool) ->
  (s = "not" -> r = Ok SUCCEEDED /\ written n "result" (VBool (negb x)) w w') /\ (s <> "not" -> forall st, r <> Ok st).
Proof. exact (unary_bool lib known n name). Qed.
(** The operators are offered for integers, but can never succeed on them: the result is a
    double, which the output of type int refuses. *)
Theorem C77_division_refuted : forall (w w' : world X) r s x y st, ticks known operation_ins operation_outs binary n name w w' r ->
  value_at (w_ins w n) "operator" (VStr s) -> value_at (w_ins w n) "a" (VInt x) -> value_at (w_ins w n) "b" (VInt y) ->
  real_result s y -> r <> Ok st.
Proof. exact (operation_division lib known n name). Qed.
Theorem C77_real_refuted : forall (w w' : world X) r s x st, ticks known unary_ins unary_outs unary n name w w' r ->
  value_at (w_ins w n) "operator" (VStr s) -> value_at (w_ins w n) "in" (VInt x) -> In s real_functions -> r <> Ok st.
Proof. exact (unary_real lib known n name). Qed.
End C77.
Print Assumptions C77_int.
Print Assumptions C77_undefined.
Print Assumptions C77_bool.
Print Assumptions C77_float.
Print Assumptions C77_float_undefined.
Print Assumptions C77_unary_undefined.
Print Assumptions C77_unary_float.
Print Assumptions C77_unary_float_undefined.
Print Assumptions C77_unary_bool.
Print Assumptions C77_unary.
Print Assumptions C77_not.
Print Assumptions C77_division_refuted.
Print Assumptions C77_real_refuted.

Definition op_type : ctype := TStr INT_FLOAT_MAX (Some (map fst binops)).
Definition un_type : ctype := TStr INT_FLOAT_MAX (Some (map fst unops)).
Definition op_msg (d : value) (s : string) : list (string * slot * text) :=
  [ty_in "operand_type" number_types d; plain_in "operator" op_type (VStr s);
   wired_in "a" RefItem "operand_type"; wired_in "b" RefItem "operand_type"].
Definition un_msg (d : value) (s : string) : list (string * slot * text) :=
  [ty_in "operand_type" number_types d; plain_in "operator" un_type (VStr s); wired_in "in" RefItem "operand_type"].
Definition no_lib : mathlib := mkMath (fun _ _ => None) (fun _ _ => None) (fun _ _ _ => None) (fun _ _ => None).
Example C77_example : exists w w', ticks no_msgs operation_ins operation_outs (demo_leaf (operation_tick no_lib)) 0 "n" w w' (Ok SUCCEEDED) /\
  map (fun kc => (fst kc, c_val (snd kc))) (w_ins w 0) =
    [("operand_type", Some (int_desc (-9) 9)); ("operator", Some (VStr "//")); ("a", Some (VInt (-7))); ("b", Some (VInt 2))].
Proof. shows (op_msg (int_desc (-9) 9) "//") tt [("a", VInt (-7)); ("b", VInt 2)]. Qed.
Example C77_int_result_example : int_result "//" (-7) 2 (-4).
Proof. apply (ir_floordiv _ _ _ _ 1); [cbn; auto|reflexivity|lia]. Qed.
(** Out of range; undefined; a division. *)
Example C77_range_example : exists w w', ticks no_msgs operation_ins operation_outs (demo_leaf (operation_tick no_lib)) 0 "n" w w' (Err EConfig) /\
  map (fun kc => (fst kc, c_val (snd kc))) (w_ins w 0) =
    [("operand_type", Some (int_desc (-9) 9)); ("operator", Some (VStr "+")); ("a", Some (VInt 7)); ("b", Some (VInt 7))].
Proof. shows (op_msg (int_desc (-9) 9) "+") tt [("a", VInt 7); ("b", VInt 7)]. Qed.
Example C77_undefined_example : exists w w', ticks no_msgs operation_ins operation_outs (demo_leaf (operation_tick no_lib)) 0 "n" w w' Raise /\
  map (fun kc => (fst kc, c_val (snd kc))) (w_ins w 0) =
    [("operand_type", Some (int_desc (-9) 9)); ("operator", Some (VStr "%")); ("a", Some (VInt 7)); ("b", Some (VInt 0))].
Proof. shows (op_msg (int_desc (-9) 9) "%") tt [("a", VInt 7); ("b", VInt 0)]. Qed.
Definition quot_lib : mathlib := mkMath (fun _ _ => Some (S754_zero false)) (fun _ _ => None) (fun _ _ _ => None) (fun _ _ => Some (S754_zero false)).
Example C77_division_example : exists w w', ticks no_msgs operation_ins operation_outs (demo_leaf (operation_tick quot_lib)) 0 "n" w w' (Err EConfig) /\
  map (fun kc => (fst kc, c_val (snd kc))) (w_ins w 0) =
    [("operand_type", Some (int_desc (-9) 9)); ("operator", Some (VStr "/")); ("a", Some (VInt 0)); ("b", Some (VInt 2))].
Proof. shows (op_msg (int_desc (-9) 9) "/") tt [("a", VInt 0); ("b", VInt 2)]. Qed.
Example C77_bool_example : exists w w', ticks no_msgs operation_ins operation_outs (demo_leaf (operation_tick no_lib)) 0 "n" w w' (Ok SUCCEEDED) /\
  map (fun kc => (fst kc, c_val (snd kc))) (w_ins w 0) =
    [("operand_type", Some bool_desc); ("operator", Some (VStr "and")); ("a", Some (VBool true)); ("b", Some (VBool false))].
Proof. shows (op_msg bool_desc "and") tt [("a", VBool true); ("b", VBool false)]. Qed.
Example C77_unary_example : exists w w', ticks no_msgs unary_ins unary_outs (demo_leaf (unary_tick no_lib)) 0 "n" w w' (Ok SUCCEEDED) /\
  map (fun kc => (fst kc, c_val (snd kc))) (w_ins w 0) =
    [("operand_type", Some (int_desc (-9) 9)); ("operator", Some (VStr "inv")); ("in", Some (VInt 4))].
Proof. shows (un_msg (int_desc (-9) 9) "inv") tt [("in", VInt 4)]. Qed.
Example C77_real_example : exists w w', ticks no_msgs unary_ins unary_outs (demo_leaf (unary_tick quot_lib)) 0 "n" w w' (Err EConfig) /\
  map (fun kc => (fst kc, c_val (snd kc))) (w_ins w 0) =
    [("operand_type", Some (int_desc (-9) 9)); ("operator", Some (VStr "sqrt")); ("in", Some (VInt 4))].
Proof. shows (un_msg (int_desc (-9) 9) "sqrt") tt [("in", VInt 4)]. Qed.

(** Doubles: 1.5 + 2.5; 3.0 * 3.5; 1.0 & 1.0; an integer to a negative power (of which the
    library gives nothing here); the floor of -1.5; factorials; a negated
    bool. *)
Definition dbl (z : Z) (e : Z) : spec_float := binary_normalize prec emax z e false.
Definition float_desc : value :=
  VDict [("type_identifier", VInt 3); ("min_value", VFloat (dbl (-9) 0)); ("max_value", VFloat (dbl 9 0))].
Definition op_shown (d : value) (s : string) (a b : value) (r : res state) : Prop := exists w w',
  ticks no_msgs operation_ins operation_outs (demo_leaf (operation_tick no_lib)) 0 "n" w w' r /\
  map (fun kc => (fst kc, c_val (snd kc))) (w_ins w 0) = [("operand_type", Some d); ("operator", Some (VStr s)); ("a", Some a); ("b", Some b)].
Definition un_shown (d : value) (s : string) (a : value) (r : res state) : Prop := exists w w',
  ticks no_msgs unary_ins unary_outs (demo_leaf (unary_tick no_lib)) 0 "n" w w' r /\
  map (fun kc => (fst kc, c_val (snd kc))) (w_ins w 0) = [("operand_type", Some d); ("operator", Some (VStr s)); ("in", Some a)].
Example C77_float_example :
  op_shown float_desc "+" (VFloat (dbl 3 (-1))) (VFloat (dbl 5 (-1))) (Ok SUCCEEDED) /\
  op_shown float_desc "*" (VFloat (dbl 3 0)) (VFloat (dbl 7 (-1))) (Err EConfig) /\
  op_shown float_desc "&" (VFloat (dbl 1 0)) (VFloat (dbl 1 0)) Raise /\
  op_shown (int_desc (-9) 9) "**" (VInt 2) (VInt (-1)) Raise /\
  un_shown float_desc "floor" (VFloat (dbl (-3) (-1))) (Ok SUCCEEDED) /\
  un_shown float_desc "factorial" (VFloat (dbl 3 0)) Raise /\
  un_shown (int_desc (-9) 9) "factorial" (VInt 3) (Ok SUCCEEDED) /\
  un_shown (int_desc (-9) 9) "factorial" (VInt (-3)) Raise /\
  un_shown bool_desc "not" (VBool false) (Ok SUCCEEDED).
Proof.
  repeat split.
  - shows (op_msg float_desc "+") tt [("a", VFloat (dbl 3 (-1))); ("b", VFloat (dbl 5 (-1)))].
  - shows (op_msg float_desc "*") tt [("a", VFloat (dbl 3 0)); ("b", VFloat (dbl 7 (-1)))].
  - shows (op_msg float_desc "&") tt [("a", VFloat (dbl 1 0)); ("b", VFloat (dbl 1 0))].
  - shows (op_msg (int_desc (-9) 9) "**") tt [("a", VInt 2); ("b", VInt (-1))].
  - shows (un_msg float_desc "floor") tt [("in", VFloat (dbl (-3) (-1)))].
  - shows (un_msg float_desc "factorial") tt [("in", VFloat (dbl 3 0))].
  - shows (un_msg (int_desc (-9) 9) "factorial") tt [("in", VInt 3)].
  - shows (un_msg (int_desc (-9) 9) "factorial") tt [("in", VInt (-3))].
  - shows (un_msg bool_desc "not") tt [("in", VBool false)].
Qed.
Example C77_float_result_example : float_result no_lib "+" (dbl 3 (-1)) (dbl 5 (-1)) (dbl 4 0) /\
  float_unary no_lib "floor" (dbl (-3) (-1)) (VInt (-2)) /\ is_float (VInt (-2)) (dbl (-2) 0) /\ is_factorial 3 6.
Proof.
  split; [replace (dbl 4 0) with (SFadd prec emax (dbl 3 (-1)) (dbl 5 (-1))) by (vm_compute; reflexivity); constructor; cbn; auto|].
  split; [|split; [eapply float_int; [constructor|vm_compute; reflexivity]|]].
  - apply fu_floor. vm_compute dbl. exists (- 6755399441055744)%Z, (2 ^ (- (-52)))%Z. split; [apply fraction_part_neg; reflexivity|]. vm_compute. split; [discriminate|reflexivity].
  - apply (factorial_next 2 2); [discriminate|]. apply (factorial_next 1 1); [discriminate|]. apply (factorial_next 0 1); [discriminate|]. constructor.
Qed.

(** ** C78: YamlList and YamlDict. *)
Theorem C78_cache : forall is_list n name l1 it l2 w s,
  history (yaml_leaf is_list) (fun _ : yaml => True) yaml_out n name (l1 ++ it :: l2) w -> i_op it = OTick -> i_res it = Ok s -> typed n (i_before it) ->
  (forall j, In j l2 -> keeps_file n j) ->
  forall j, In j l2 -> i_op j = OTick -> (forall t, i_res j = Ok t -> t = s) /\ ya_reads (w_ext (i_after j)) = ya_reads (w_ext (i_before j)).
Proof. exact yaml_cache. Qed.
Theorem C78_again : forall is_list n name l1 it l2 j w s s',
  history (yaml_leaf is_list) (fun _ : yaml => True) yaml_out n name (l1 ++ it :: l2 ++ [j]) w -> i_op it = OReset \/ i_op it = OSetup -> i_res it = Ok s ->
  (forall k, In k l2 -> i_op k <> OTick) -> i_op j = OTick -> i_res j = Ok s' ->
  exists p, ya_reads (w_ext (i_after j)) = ya_reads (w_ext (i_before j)) ++ [p].
Proof. exact yaml_again. Qed.
Theorem C78_read : forall (is_list : bool) n name known (w w' : world yaml) r p,
  ticks known yaml_ins (if is_list then yaml_list_outs else yaml_dict_outs) (yaml_leaf is_list) n name w w' r -> typed n w ->
  ya_reads (w_ext w') = ya_reads (w_ext w) ++ [p] ->
  value_at (w_ins w n) "file_path" (VStr p) /\
  match ya_files (w_ext w) p with
  | LData v =>
      (good_content is_list v -> forall c, dget "content" (w_outs w n) = Some c -> admits (c_ty c) v ->
        r = Ok SUCCEEDED /\ written n "content" v w w' /\ written n "load_success" (VBool true) w w') /\
      (~ good_content is_list v -> r = Ok FAILED /\ written n "load_success" (VBool false) w w')
  | LError m => (zlen m <= INT_FLOAT_MAX)%Z ->
      r = Ok FAILED /\ written n "load_success" (VBool false) w w' /\ written n "load_error_msg" (VStr m) w w'
  | LRaise => r = Raise
  end.
Proof. exact yaml_ticks. Qed.
Print Assumptions C78_cache.
Print Assumptions C78_again.
Print Assumptions C78_read.
Definition yaml_msg : list (string * slot * text) :=
  [plain_in "file_path" (TPath INT_FLOAT_MAX None) (VStr "file:///f.yaml"); ty_in "element_type" [BBool; BInt; BFloat; BStr; BList; BDict] (int_desc 0 10)].
Definition yaml_start (v : value) : yaml := mkYaml None (TList (TInt 0 10) false INT_FLOAT_MAX false) (fun _ => LData v) [].
Definition yaml_demo (v : value) : option (world yaml) := demo no_msgs yaml_ins yaml_list_outs (yaml_leaf true) yaml_msg (yaml_start v) [].
Example C78_example : exists w w', ticks no_msgs yaml_ins yaml_list_outs (yaml_leaf true) 0 "n" w w' (Ok SUCCEEDED) /\
  map (fun kc => (fst kc, c_val (snd kc))) (w_ins w 0) = [("file_path", Some (VStr "file:///f.yaml")); ("element_type", Some (int_desc 0 10))].
Proof. shows yaml_msg (yaml_start (VList [VInt 1])) (@nil (string * value)). Qed.

(** A tick that reads, and one that does not. *)
Definition yaml_hist : list (item yaml) * world yaml :=
  match yaml_demo (VList [VInt 1]) with
  | Some w => play (yaml_leaf true) 0 "n" [Do OSetup; Do OTick; Ros (fun x => mkYaml (ya_cache x) (ya_ty x) (fun _ => LRaise) (ya_reads x)); Do OTick]
      [] (new_world (w_ins w 0) (w_outs w 0) (yaml_start (VList [VInt 1])))
  | None => ([], new_world [] [] (yaml_start (VList [])))
  end.
Example C78_again_example : let h := match yaml_demo (VList [VInt 1]) with
    | Some w => fst (play (yaml_leaf true) 0 "n" [Do OSetup; Do OTick; Do OReset; Do OTick] [] (new_world (w_ins w 0) (w_outs w 0) (yaml_start (VList [VInt 1]))))
    | None => []
    end in
  map (fun it => (i_op it, i_res it, ya_reads (w_ext (i_after it)))) h =
    [(OSetup, Ok IDLE, []); (OTick, Ok SUCCEEDED, ["file:///f.yaml"]); (OReset, Ok IDLE, ["file:///f.yaml"]); (OTick, Ok SUCCEEDED, ["file:///f.yaml"; "file:///f.yaml"])].
Proof. vm_compute. reflexivity. Qed.
Example C78_cache_example : history (yaml_leaf true) (fun _ : yaml => True) yaml_out 0 "n" (fst yaml_hist) (snd yaml_hist) /\
  map (fun it => (i_op it, i_res it, ya_reads (w_ext (i_after it)))) (fst yaml_hist) =
    [(OSetup, Ok IDLE, []); (OTick, Ok SUCCEEDED, ["file:///f.yaml"]); (OTick, Ok SUCCEEDED, ["file:///f.yaml"])].
Proof.
  split; [|vm_compute; reflexivity]. unfold yaml_hist. destruct (yaml_demo (VList [VInt 1])) as [w|].
  - apply play_history; [repeat split|exact I|]. cbn [fair]. repeat split.
  - apply h_new; [reflexivity|exact I].
Qed.
(** The content is refused, but load_success has been set to true. *)
Theorem C78_refuted : exists (w w' : world yaml) e c, ticks no_msgs yaml_ins yaml_list_outs (yaml_leaf true) 0 "n" w w' (Err e) /\ typed 0 w /\
  dget "load_success" (w_outs w' 0) = Some c /\ c_val c = Some (VBool true).
Proof.
  destruct (yaml_demo (VList [VInt 99])) as [w|] eqn:D; [|vm_compute in D; discriminate].
  exists w, (fst (call OTick (the_leaf (yaml_leaf true) 0 "n") w)).
  assert (R : match yaml_demo (VList [VInt 99]) with
    | Some w => executes 0 w = true /\ w_conns w 0 = Some [] /\ w_outg w = [] /\
        snd (call OTick (the_leaf (yaml_leaf true) 0 "n") w) = Err EConfig /\
        option_map c_ty (dget "content" (w_outs w 0)) = Some (TList (TInt 0 10) false INT_FLOAT_MAX false) /\
        option_map c_val (dget "load_success" (w_outs (fst (call OTick (the_leaf (yaml_leaf true) 0 "n") w)) 0)) = Some (Some (VBool true)) /\
        ya_ty (w_ext w) = TList (TInt 0 10) false INT_FLOAT_MAX false
    | None => False end).
  { vm_compute. repeat split. }
  rewrite D in R. destruct R as (R1 & R2 & R3 & R4 & R5 & R6 & R7).
  exists EConfig. destruct (dget "load_success" (w_outs (fst (call OTick (the_leaf (yaml_leaf true) 0 "n") w)) 0)) as [c|]; [|discriminate].
  exists c. split; [|split; [|split; [reflexivity|cbn [option_map] in R6; congruence]]].
  - rewrite <- R4. refine (demo_ticks _ _ _ _ yaml_msg _ [] w _ _ D R1 R2 R3); [is_proper|starts].
  - intros c0 D0. rewrite D0 in R5. cbn [option_map] in R5. injection R5 as R5. rewrite R5, R7. reflexivity.
Qed.
Print Assumptions C78_refuted.

(** ** C79: RandomInt.  [w_ext w]: the generator; [randrange a b] is at least [a] and less than [b]. *)
Theorem C79_random : forall known n name (w w' : world (Z -> Z -> Z)) r,
  (forall a b, (a < b)%Z -> (a <= w_ext w a b < b)%Z) ->
  ticks known random_ins random_outs (tick_only random_tick) n name w w' r ->
  exists av bv a b, value_at (w_ins w n) "min" av /\ is_int av a /\ value_at (w_ins w n) "max" bv /\ is_int bv b /\
    ((a < b)%Z -> exists z, (a <= z <= b)%Z /\ r = Ok SUCCEEDED /\ written n "random_number" (VInt z) w w') /\
    ((b <= a)%Z -> r = Err EConfig /\ w_st w' n = BROKEN).
Proof. exact random_ticks. Qed.
Print Assumptions C79_random.
Definition random_msg (a b : Z) : list (string * slot * text) := [plain_in "min" any_int (VInt a); plain_in "max" any_int (VInt b)].
Example C79_example : exists w w', ticks no_msgs random_ins random_outs (tick_only random_tick) 0 "n" w w' (Ok SUCCEEDED) /\
  map (fun kc => (fst kc, c_val (snd kc))) (w_ins w 0) = [("min", Some (VInt 3)); ("max", Some (VInt 8))].
Proof. shows (random_msg 3 8) (fun a b : Z => a) (@nil (string * value)). Qed.
(** A range with one number is refused. *)
Theorem C79_refuted : exists w w', ticks no_msgs random_ins random_outs (tick_only random_tick) 0 "n" w w' (Err EConfig) /\
  map (fun kc => (fst kc, c_val (snd kc))) (w_ins w 0) = [("min", Some (VInt 3)); ("max", Some (VInt 3))].
Proof. shows (random_msg 3 3) (fun a b : Z => a) (@nil (string * value)). Qed.
Print Assumptions C79_refuted.

(** ** C80: three classes can never do their work. *)
Theorem C80_setattr_refuted : forall X known n name rs (w w' : world X) r st,
  ticks known setattr_ins setattr_outs (tick_only (fun _ => setattr_tick rs)) n name w w' r -> r <> Ok st.
Proof. intros X. exact (setattr_never (X := X)). Qed.
Theorem C80_format_list_refuted : forall X known n name (w w' : world X) r,
  ticks known format_list_ins format_list_outs (tick_only (fun _ => format_list_tick)) n name w w' r -> r = Ok FAILED.
Proof. intros X. exact (format_list_never (X := X)). Qed.
Theorem C80_convert_refuted : forall known n name conv (w : world (option (value -> option value))),
  built known convert_ins convert_outs (convert_leaf conv) n name w ->
  In (w_st w n) [UNINITIALIZED; BROKEN; SHUTDOWN] /\
  (forall w' r st, call OSetup (the_leaf (convert_leaf conv) n name) w = (w', r) -> r <> Ok st) /\
  (forall w' r st, call OTick (the_leaf (convert_leaf conv) n name) w = (w', r) -> r <> Ok st).
Proof. exact convert_never. Qed.
Print Assumptions C80_setattr_refuted.
Print Assumptions C80_format_list_refuted.
Print Assumptions C80_convert_refuted.

(** ** C76: besides their ticks these nodes do nothing *)

(** Operations other than ticks that the state of a node admits succeed, leave the node IDLE, or
    SHUTDOWN, and do not touch what the node remembers. *)
Theorem C76_life : forall X (f : X -> iomap -> list (string * value) * res state) n name op (w : world X),
  match op, w_st w n with
  | OSetup, (UNINITIALIZED | SHUTDOWN) => True
  | (OUntick | OReset), (UNINITIALIZED | SHUTDOWN | BROKEN) => False
  | (OUntick | OReset | OShutdown), _ => True
  | _, _ => False
  end ->
  exists w', call op (the_leaf (tick_only f) n name) w = (w', Ok (match op with OShutdown => SHUTDOWN | _ => IDLE end)) /\
    w_st w' n = match op with OShutdown => SHUTDOWN | _ => IDLE end /\ w_ext w' = w_ext w.
Proof.
  intros X f n name op w R.
  destruct op; try contradiction; cbn -[state_in]; [unfold node_setup|unfold node_untick|unfold node_reset|unfold node_shutdown].
  all: destruct (w_st w n) eqn:S; try contradiction.
  all: unfold bind; cbn; eexists; (split; [unfold upd; rewrite ?S, ?Nat.eqb_refl; reflexivity|]).
  all: cbn; unfold upd; rewrite ?Nat.eqb_refl; auto.
Qed.
Print Assumptions C76_life.
Example C76_life_example : forall w : world unit, w_st w 0 = UNINITIALIZED ->
  exists w' w'', call OSetup (the_leaf (tick_only (fun _ => constant_tick)) 0 "n") w = (w', Ok IDLE) /\
    call OShutdown (the_leaf (tick_only (fun _ => constant_tick)) 0 "n") w' = (w'', Ok SHUTDOWN).
Proof.
  intros w S. destruct (C76_life _ (fun _ => constant_tick) 0 "n" OSetup w) as (w' & A & B & _); [rewrite S; exact I|].
  destruct (C76_life _ (fun _ => constant_tick) 0 "n" OShutdown w') as (w'' & C & _); [destruct (w_st w' 0); exact I|]. eauto.
Qed.
