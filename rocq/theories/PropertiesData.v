(** Properties C30-C36: data containers and data flow. *)
From Coq Require Import List String Ascii ZArith Bool.
From Coq.Floats Require Import SpecFloat.
From Verif Require Import Base ModelData ModelUtility ModelTree SpecTree SpecData SpecFlow ProofsTree ProofsLife
  ProofsWhole ProofsData ProofsFlow Demo.
Import ListNotations.
Local Open Scope string_scope.

(** ** C30 Containers only hold values of their declared type *)

(** After any operations a container is empty, holds what it held before, or holds
    a value that meets the constraints of its type, where NaN counts as neither
    below the minimum nor above the maximum. *)
Theorem C30_container : forall ops c,
  c_val (cops_run ops c) = None \/ c_val (cops_run ops c) = c_val c \/
  exists v, c_val (cops_run ops c) = Some v /\ admits (c_ty c) v.
Proof. exact cops_admit. Qed.
Print Assumptions C30_container.

(** Without NaN among the offered values and the bounds, the constraints are met in
    the full sense. *)
Theorem C30_container_strict : forall ops c, bounds_no_nan (c_ty c) -> Forall cop_no_nan ops ->
  c_val (cops_run ops c) = None \/ c_val (cops_run ops c) = c_val c \/
  exists v, c_val (cops_run ops c) = Some v /\ satisfies (c_ty c) v.
Proof. exact cops_hold. Qed.
Print Assumptions C30_container_strict.

(** The same for every input of every node, over every sequence of calls on every
    tree: data flow cannot put a value into an input that its type excludes. *)
Theorem C30_inputs : forall E (ev : env E) w l w' m key c',
  runs ev w l w' -> input w' m key = Some c' ->
  exists c, input w m key = Some c /\ c_ty c' = c_ty c /\
    (c_val c' = None \/ c_val c' = c_val c \/ exists v, c_val c' = Some v /\ admits (c_ty c') v).
Proof.
  intros E ev w l w' m key c' H Hi. pose proof (typed_runs E ev w l w' H m key) as Ht. rewrite Hi in Ht.
  destruct (input w m key) as [c|]; [|contradiction]. exists c. destruct Ht as [H1 H2]. rewrite H1. auto.
Qed.
Print Assumptions C30_inputs.

(** A refused value changes nothing. *)
Theorem C30_refused : forall c v c' r, set_value c v = (c', r) -> (forall u, r <> Ok u) -> c' = c.
Proof.
  intros c v c' r H Hr. destruct (set_value_cases c v) as [[e H1]|[H1|[[v' [_ [_ [_ H1]]]]|[v' [_ [_ H1]]]]]];
    rewrite H in H1; inversion H1; subst; auto; exfalso; eapply Hr; reflexivity.
Qed.
Print Assumptions C30_refused.

(** An accepted value is stored (in the form the container gives it), unless the
    container holds a value that Python considers equal.  GenericType is excluded,
    see [C30_generic_refuted]. *)
Theorem C30_stored_partial : forall c v c' u, (forall l, c_ty c <> TGeneric l) ->
  set_value c v = (c', Ok u) ->
  exists x y, c_val c' = Some x /\ check (c_ty c) v = Ok y /\ (x = y \/ py_eq x y = true).
Proof.
  intros c v c' u Hg H. destruct (set_value_cases c v) as [[e H1]|[H1|[[v' [_ [_ [[l Hl] _]]]]|[v' [Hc [_ H1]]]]]];
    try (rewrite H in H1; discriminate); [exfalso; eapply Hg; eauto|].
  rewrite H in H1. inversion H1; subst; simpl. unfold changed. destruct (c_val c) as [x|] eqn:E; [|eauto 10].
  destruct (py_eq x v') eqn:Ep; simpl; eauto 10.
Qed.
Print Assumptions C30_stored_partial.

(** Every value that meets the constraints is accepted, unless the container is
    static and assigned already. *)
Theorem C30_accepts : forall c v, bytes_plain (c_ty c) -> ~ locked c -> satisfies (c_ty c) v ->
  exists c' u, set_value c v = (c', Ok u).
Proof.
  intros c v Hb Hl Hs. destruct (check_complete _ _ Hb Hs) as [v' [Hc _]].
  unfold set_value. rewrite Hc. unfold base_set.
  destruct (c_static c && c_upd c) eqn:E; [exfalso; apply Hl, andb_true_iff; auto|]. destruct (c_ty c); eauto.
Qed.
Print Assumptions C30_accepts.

(** An integer container from 0 to 10, offered 5, 11, "x" and True. *)
Example C30_ex :
  let c := mkC (TInt 0 10) true false false None false in
  let run vs := c_val (cops_run (map CSet vs) c) in
  run [VInt 5] = Some (VInt 5) /\ run [VInt 5; VInt 11] = Some (VInt 5) /\ run [VInt 5; VStr "x"] = Some (VInt 5) /\
  run [VInt 5; VBool true] = Some (VBool true).
Proof. vm_compute. auto. Qed.
Example C30_ex_nested :
  let c := mkC (TDict (TList (TStr 3 None) false 2 true) false 1 false) true false false None false in
  let ok v := match snd (set_value c v) with Ok _ => true | _ => false end in
  ok (VDict [("a", VList [VStr "xyz"; VStr ""])]) = true /\
  ok (VDict [("a", VList [VStr "xyz"])]) = false /\ ok (VDict [("a", VList [VStr "wxyz"; VStr ""])]) = false /\
  ok (VDict [("a", VList [VStr ""; VStr ""]); ("b", VList [VStr ""; VStr ""])]) = false.
Proof. vm_compute. auto. Qed.

(** NaN is accepted by every float container, although it is not between the bounds. *)
Theorem C30_nan_refuted : exists c v c', set_value c v = (c', Ok tt) /\ c_val c' = Some v /\ ~ satisfies (c_ty c') v /\
  bounds_no_nan (c_ty c).
Proof.
  exists (mkC (TFloat (S754_zero false) (S754_zero false)) true false false None false), (VFloat S754_nan). eexists.
  split; [vm_compute; reflexivity|]. split; [reflexivity|]. split; [|simpl; split; discriminate].
  intros [f [Hf [H1 _]]]. inversion Hf; subst; [discriminate|]. inversion H.
Qed.
Print Assumptions C30_nan_refuted.

(** A GenericType container reports success although it refused the value, because
    it was static and assigned already. *)
Theorem C30_generic_refuted : exists c0 v c v', construct (TGeneric [BInt; BBool]) false true None None = Some c0 /\
  set_value c0 v = (c, Ok tt) /\ c_val c = Some v /\
  set_value c v' = (c, Ok tt) /\ py_eq v v' = false.
Proof.
  eexists. exists (VDict (generic_map BBool)). eexists. exists (VDict (generic_map BInt)).
  split; [vm_compute; reflexivity|]. split; [vm_compute; reflexivity|]. repeat split; vm_compute; reflexivity.
Qed.
Print Assumptions C30_generic_refuted.

(** A bytes container with a list of allowed values refuses the allowed values too. *)
Theorem C30_bytes_options_refuted : forall ml s l c,
  c_ty c = TBytes ml (Some l) -> exists e, set_value c (VBytes s) = (c, Err e).
Proof. intros ml s l c H. unfold set_value. rewrite H. cbn [check]. destruct (Z.leb (zlen s) ml); eauto. Qed.
Print Assumptions C30_bytes_options_refuted.

(** ** C31 Accepted wirings cannot fail at run time because of the data type *)

(** A type that is accepted for another one has no value that the other excludes. *)
Theorem C31_types_partial : forall a b v, ty_compat a b = true -> no_options a -> bounds_no_nan a ->
  satisfies b v -> satisfies a v /\ exists v', check a v = Ok v'.
Proof.
  intros a b v H Ho Hn Hs. pose proof (ty_compat_sound a b v H Ho Hn Hs) as Ha. split; auto.
  destruct (check_complete a v) as [v' [Hv _]]; eauto. clear -Ho. induction a; simpl in *; auto.
Qed.
Print Assumptions C31_types_partial.

(** An accepted wiring to an input that is not static: the input accepts every
    value the output can hold.  Missing: lists of lists, allowed values (see the
    refutations below) and NaN bounds. *)
Theorem C31_wiring_partial : forall t s v, wf_container t -> wf_container s ->
  shallow (c_ty t) (negb (c_static t)) -> shallow (c_ty s) (negb (c_static s)) ->
  no_options (c_ty t) -> bounds_no_nan (c_ty t) ->
  accepted t s -> satisfies (c_ty s) v -> ~ locked t ->
  exists t' u, set_value t v = (t', Ok u).
Proof.
  intros t s v Wt Ws St Ss Ho Hn Ha Hs Hl.
  destruct (runtime_shallow t Wt St) as [T1 _]. destruct (runtime_shallow s Ws Ss) as [S1 _].
  unfold accepted, is_compatible in Ha. rewrite T1, S1 in Ha. apply andb_true_iff in Ha. destruct Ha as [_ Ha].
  destruct (with_element_facts (c_ty t) (c_static t)) as [_ [_ [F1 [F2 F3]]]].
  destruct (with_element_facts (c_ty s) (c_static s)) as [_ [_ [G1 _]]].
  apply C30_accepts; auto.
  - clear -Ho. induction (c_ty t); simpl in *; auto.
  - apply F1. eapply ty_compat_sound; [exact Ha|apply F2; auto|apply F3; auto|apply G1; auto].
Qed.
Print Assumptions C31_wiring_partial.

Example C31_ex :
  let t := mkC (TList (TInt 0 10) false 3 false) true false false None false in
  let s := mkC (TList (TInt 2 7) false 2 true) true false false None false in
  wf_container t /\ wf_container s /\ shallow (c_ty t) true /\ shallow (c_ty s) true /\ accepted t s /\ ~ accepted s t /\
  satisfies (c_ty s) (VList [VInt 2; VInt 7]).
Proof.
  cbv zeta. split; [repeat split; auto; discriminate|]. split; [repeat split; auto; discriminate|].
  split; [repeat split; auto|]. split; [repeat split; auto|]. split; [reflexivity|]. split; [intros H; discriminate H|].
  exists [VInt 2; VInt 7]. split; auto. split; [split; simpl; auto; discriminate|].
  intros x [<-|[<-|[]]]; eexists; (split; [constructor|split; discriminate]).
Qed.

(** A source that may send "a" or "b" is accepted for a target that only takes "a". *)
Theorem C31_options_refuted : exists t s v, wf_container t /\ wf_container s /\ accepted t s /\
  satisfies (c_ty s) v /\ ~ locked t /\ exists e, set_value t v = (t, Err e).
Proof.
  exists (mkC (TStr 5 (Some ["a"])) true false false None false),
         (mkC (TStr 5 (Some ["a"; "b"])) true false false None false), (VStr "b").
  split; [repeat split; auto; discriminate|]. split; [repeat split; auto; discriminate|]. split; [reflexivity|].
  split; [exists "b"; split; auto; split; [discriminate|intros l Hl; inversion Hl; simpl; auto]|].
  split; [intros [H _]; discriminate|]. eexists. vm_compute. reflexivity.
Qed.
Print Assumptions C31_options_refuted.

(** A source of lists of lists of integers is accepted for a target that takes
    lists of integers. *)
Theorem C31_nested_refuted : exists t s v, wf_container t /\ wf_container s /\ accepted t s /\
  satisfies (c_ty s) v /\ ~ locked t /\ set_value t v = (t, Raise).
Proof.
  exists (mkC (TList (TInt 0 9) false 5 false) true false false None false),
         (mkC (TList (TList (TInt 0 9) false 5 false) false 5 false) true false false None false), (VList [VList []]).
  split; [repeat split; auto; discriminate|]. split; [repeat split; auto; discriminate|]. split; [vm_compute; reflexivity|].
  split.
  { exists [VList []]. split; auto. split; [split; [simpl; discriminate|discriminate]|]. intros x [<-|[]].
    exists []. split; auto. split; [split; [simpl; discriminate|discriminate]|]. intros y []. }
  split; [intros [H _]; discriminate|]. vm_compute. reflexivity.
Qed.
Print Assumptions C31_nested_refuted.

(** ** C32 Type descriptions round-trip through messages *)

(** For containers of builtin and ROS types and lists and dictionaries of these
    (missing: deeper nesting, see [C32_nested_refuted]). *)
Theorem C32_round_trip_partial : forall c, wf_container c -> shallow (c_ty c) (c_dyn c) ->
  (element_static (c_ty c) = None \/ element_static (c_ty c) = Some (c_sta c)) ->
  exists c', from_msg (serialize_type c) = Some c' /\ c_ty c' = c_ty c /\
    c_dyn c' = c_dyn c /\ c_sta c' = c_sta c /\ c_static c' = c_static c.
Proof. exact round_trip. Qed.
Print Assumptions C32_round_trip_partial.

(** Every container that can be constructed is well-formed. *)
Theorem C32_constructed : forall t dyn sta st v c, construct t dyn sta st v = Some c ->
  c_ty c = t /\ c_dyn c = dyn /\ c_sta c = sta /\ wf_container c.
Proof. exact construct_flags. Qed.
Print Assumptions C32_constructed.

Example C32_ex : exists c, construct (TDict (TStr 3 (Some ["a"; "bc"])) false 2 true) true false None None = Some c /\
  shallow (c_ty c) (c_dyn c) /\ element_static (c_ty c) = Some (c_sta c).
Proof. eexists. split; [reflexivity|]. split; [|reflexivity]. repeat split; auto; discriminate. Qed.

(** Lists of lists lose a level. *)
Theorem C32_nested_refuted : exists c c' v, wf_container c /\
  from_msg (serialize_type c) = Some c' /\ satisfies (c_ty c) v /\ ~ satisfies (c_ty c') v.
Proof.
  exists (mkC (TList (TList (TInt 0 9) false 5 false) false 5 false) true false false None false). eexists. exists (VList [VList []]).
  split; [repeat split; auto; discriminate|]. split; [vm_compute; reflexivity|]. split.
  - exists [VList []]. split; auto. split; [split; [simpl; discriminate|discriminate]|]. intros x [<-|[]].
    exists []. split; auto. split; [split; [simpl; discriminate|discriminate]|]. intros y [].
  - intros [l [Hl [_ Hx]]]. inversion Hl; subst. destruct (Hx (VList []) (or_introl eq_refl)) as [z [Hz _]]. inversion Hz.
Qed.
Print Assumptions C32_nested_refuted.

(** A string container without any allowed value becomes one that allows all. *)
Theorem C32_empty_options_refuted : exists c c', wf_container c /\
  from_msg (serialize_type c) = Some c' /\ (forall v, ~ satisfies (c_ty c) v) /\ satisfies (c_ty c') (VStr "x").
Proof.
  exists (mkC (TStr 5 (Some [])) true false false None false). eexists.
  split; [repeat split; auto; discriminate|]. split; [vm_compute; reflexivity|]. split.
  - intros v [s [_ [_ H]]]. destruct (H [] eq_refl).
  - exists "x". split; auto. split; discriminate.
Qed.
Print Assumptions C32_empty_options_refuted.

(** ** C33 A new input value is seen as updated by the next tick *)

(** The last accepted write decides the flag: it is set exactly when this write
    changed the value.  Missing: changes by earlier writes, see
    [C33_twice_refuted]. *)
Theorem C33_last_write_partial : forall c ops v c2 u, c_static c = false ->
  set_value (cops_run ops c) v = (c2, Ok u) ->
  exists y, check (c_ty c) v = Ok y /\
    (c_upd c2 = true /\ c_val c2 = Some y /\ (forall x, c_val (cops_run ops c) = Some x -> py_eq x y = false) \/
     c_upd c2 = false /\ c_val c2 = c_val (cops_run ops c) /\
       exists x, c_val (cops_run ops c) = Some x /\ py_eq x y = true).
Proof.
  intros c ops v c2 u Hs H.
  assert (Hst : c_static (cops_run ops c) = false).
  { clear H. revert c Hs. induction ops as [|o ops IH]; intros c Hs; simpl; auto. apply IH.
    destruct o; simpl; auto. rewrite (proj1 (set_value_static c v0)). auto. }
  rewrite <- (cops_keep_ty ops c). set (c1 := cops_run ops c) in *. clearbody c1.
  destruct (set_value_cases c1 v) as [[e H1]|[H1|[[v' [_ [Hl _]]]|[v' [Hc [_ H1]]]]]]; try (rewrite H in H1; discriminate).
  - rewrite Hst in Hl. discriminate.
  - rewrite H in H1. inversion H1; subst; simpl. exists v'. split; auto. unfold changed.
    destruct (c_val c1) as [x|] eqn:E; [destruct (py_eq x v') eqn:Ep|]; simpl.
    + right. eauto.
    + left. split; auto. split; auto. intros x' Hx. congruence.
    + left. split; auto. split; auto. discriminate.
Qed.
Print Assumptions C33_last_write_partial.

(** The code of a leaf node that is ticked sees its inputs with these flags. *)
Theorem C33_seen : forall E (ev : env E) n name w w' s,
  call OTick (make_obj ev n KLeaf name []) w = (w', Ok s) ->
  exists e' ws r, ev_leaf ev OTick n (w_st w n) (w_ins w n) (w_ext w) = (e', ws, r) /\ r = Ok s.
Proof.
  intros E ev n name w w' s H. change (node_tick n (leaf_act ev OTick n) w = (w', Ok s)) in H.
  destruct (node_tick_cases E n (leaf_act ev OTick n) w) as [[_ Heq]|[_ Heq]]; rewrite Heq in H; [discriminate|].
  unfold tick_live in H. destruct (negb _) in H; [discriminate|].
  destruct (leaf_act ev OTick n _) as [w2 [s2|e|]] eqn:El in H; try discriminate. cbn zeta in H.
  unfold leaf_act in El. cbn [set_outs w_st w_ins w_ext] in El.
  destruct (ev_leaf ev OTick n (w_st w n) (w_ins w n) (w_ext w)) as [[e' ws] r]. exists e', ws, r. split; auto.
  destruct (out_set_all _ n ws) as [w3 [u|e|]] in El; simpl in El; inversion El; subst.
  destruct (state_in s2 _) in H; [|discriminate].
  match type of H with context [push_outputs ?x n] => pose proof (push_outputs_frame E n x) as [Hst _] end.
  destruct (push_outputs _ n) as [w5 [u'|e|]] in H, Hst; try discriminate.
  injection H as H1 H2. congruence.
Qed.
Print Assumptions C33_seen.

Example C33_ex : c_upd (fst (set_value (mkC (TInt 0 9) true false false (Some (VInt 1)) false) (VInt 2))) = true.
Proof. reflexivity. Qed.

(** Writing the new value twice clears the flag again: the node is ticked with a
    new value that is not flagged. *)
Theorem C33_twice_refuted : exists c v c1 c2, c_static c = false /\ c_upd c = false /\
  set_value c v = (c1, Ok tt) /\ set_value c1 v = (c2, Ok tt) /\
  c_val c2 <> c_val c /\ c_upd c2 = false.
Proof.
  exists (mkC (TInt 0 9) true false false (Some (VInt 1)) false), (VInt 2). eexists. eexists.
  split; [reflexivity|]. split; [reflexivity|]. split; [vm_compute; reflexivity|]. split; [vm_compute; reflexivity|].
  split; [discriminate|reflexivity].
Qed.
Print Assumptions C33_twice_refuted.

(** ** C34 Static inputs cannot be wired *)

(** An input that is static is not accepted as the target of any output. *)
Theorem C34_not_wired : forall t s, wf_container t -> c_static t = true -> is_output s -> ~ accepted t s.
Proof. intros t s Hw Ht Hs H. unfold accepted in H. rewrite static_not_accepted in H; auto. discriminate. Qed.
Print Assumptions C34_not_wired.

(** So, when no wiring ends in a static input, no calls on any trees change the
    value of a static input. *)
Theorem C34_kept : forall E (ev : env E) w l w' m key c,
  (forall n k t, wired w n k -> input w (k_tid k) (k_tkey k) = Some t -> c_static t = false) ->
  runs ev w l w' -> input w m key = Some c -> c_static c = true ->
  exists c', input w' m key = Some c' /\ c_val c' = c_val c.
Proof. intros E ev w l w' m key c Hn H Hc Hs. eapply static_runs; eauto. Qed.
Print Assumptions C34_kept.

Example C34_ex : wf_container (static_in (TInt 0 9) (VInt 1)) /\ is_output (dynamic_in (TInt 0 9) (VInt 1)) /\
  ~ accepted (static_in (TInt 0 9) (VInt 1)) (dynamic_in (TInt 0 9) (VInt 1)) /\
  accepted (dynamic_in (TInt 0 9) (VInt 1)) (dynamic_in (TInt 0 9) (VInt 1)).
Proof.
  split; [repeat split; auto; discriminate|]. split; [repeat split|]. split; [intros H; discriminate H|reflexivity].
Qed.

(** ** C35 Default values satisfy the declared constraints *)

Theorem C35_default_partial : forall t dyn sta st c, construct t dyn sta st None = Some c -> c_static c = true ->
  default_fits t -> exists v, c_val c = Some v /\ satisfies t v.
Proof. exact default_value. Qed.
Print Assumptions C35_default_partial.

(** Integers always. *)
Theorem C35_int : forall mn mx dyn sta st c, construct (TInt mn mx) dyn sta st None = Some c -> c_static c = true ->
  exists z, c_val c = Some (VInt z) /\ (mn <= z <= mx)%Z.
Proof.
  intros mn mx dyn sta st c H Hs. destruct (C35_default_partial _ _ _ _ _ H Hs I) as [v [Hv [z [Hz Hr]]]].
  inversion Hz; subst; eauto; exfalso; unfold construct in H; destruct (negb _) in H; try discriminate;
    destruct (_ && dyn) in H; try discriminate; destruct (negb dyn && negb sta) in H; try discriminate;
    destruct (_ && negb sta) in H; try discriminate; destruct (negb _ && negb dyn) in H; try discriminate;
    simpl in H; destruct (_ && true) in H; inversion H; subst; simpl in Hv;
    destruct (Z.ltb 0 mn), (Z.ltb mx 0); discriminate.
Qed.
Print Assumptions C35_int.

Example C35_ex : exists c, construct (TInt 3 9) false true None None = Some c /\ c_static c = true /\ c_val c = Some (VInt 3).
Proof. eexists. split; [reflexivity|]. auto. Qed.

Definition f_one : spec_float := S754_finite false 4503599627370496 (-52).

(** FloatType(0, 1) starts with 1.2. *)
Theorem C35_float_refuted : exists c v, construct (TFloat (S754_zero false) f_one) false true None None = Some c /\
  c_static c = true /\ c_val c = Some v /\ ~ satisfies (c_ty c) v /\ SFeqb f_one (float_of_Z 1) = true.
Proof.
  eexists. eexists. split; [vm_compute; reflexivity|]. split; [reflexivity|]. split; [reflexivity|]. split; [|vm_compute; reflexivity].
  intros [f [Hf [_ H]]]. inversion Hf as [g|v z g Hz]; subst; [vm_compute in H; discriminate|inversion Hz].
Qed.
Print Assumptions C35_float_refuted.

(** A container that is given 1.2, the default, as its value does not hold it if a positive
    minimum is declared: it holds the minimum. *)
Definition f_half : spec_float := S754_finite false 4503599627370496 (-53).
Theorem C35_given_refuted : exists c, construct (TFloat f_half DBL_MAX) false true None (Some (VFloat FLOAT_1_2)) = Some c /\
  satisfies (TFloat f_half DBL_MAX) (VFloat FLOAT_1_2) /\ c_val c = Some (VFloat f_half).
Proof. eexists. split; [reflexivity|]. split; [|reflexivity]. exists FLOAT_1_2. split; [constructor|]. split; reflexivity. Qed.
Print Assumptions C35_given_refuted.

(** A string with allowed values, a path and a list of exact length start empty. *)
Theorem C35_empty_refuted :
  (exists c v, construct (TStr 5 (Some ["a"; "b"])) false true None None = Some c /\
     c_static c = true /\ c_val c = Some v /\ ~ satisfies (c_ty c) v) /\
  (exists c v, construct (TPath 99 None) false true None None = Some c /\
     c_static c = true /\ c_val c = Some v /\ ~ satisfies (c_ty c) v) /\
  (exists c v, construct (TList TBool true 3 true) false true None None = Some c /\
     c_static c = true /\ c_val c = Some v /\ ~ satisfies (c_ty c) v).
Proof.
  split; [|split].
  - exists (mkC (TStr 5 (Some ["a"; "b"])) false true true (Some (VStr "")) false), (VStr "").
    split; [reflexivity|]. split; [reflexivity|]. split; [reflexivity|]. intros [s [Hs [_ H]]]. inversion Hs; subst.
    destruct (H _ eq_refl) as [H1|[H1|[]]]; discriminate.
  - exists (mkC (TPath 99 None) false true true (Some (VStr "")) false), (VStr "").
    split; [reflexivity|]. split; [reflexivity|]. split; [reflexivity|]. intros [s [Hs [_ [r [H|H]]]]]; inversion Hs; subst; discriminate.
  - exists (mkC (TList TBool true 3 true) false true true (Some (VList [])) false), (VList []).
    split; [reflexivity|]. split; [reflexivity|]. split; [reflexivity|]. intros [l [Hl [[_ H] _]]]. inversion Hl; subst.
    specialize (H eq_refl). discriminate.
Qed.
Print Assumptions C35_empty_refuted.

(** A static GenericType over lists starts with a list of booleans, which it need
    not allow. *)
Theorem C35_generic_refuted : exists c v, construct (TGeneric [BList; BInt]) false true None None = Some c /\
  c_static c = true /\ c_val c = Some v /\ snd (set_value c v) <> Ok tt.
Proof.
  eexists. eexists. split; [reflexivity|]. split; [reflexivity|]. split; [reflexivity|]. vm_compute. discriminate.
Qed.
Print Assumptions C35_generic_refuted.

(** ** C36 Data flow delivers exactly the updated outputs *)

(** After a successful tick of node [n] of any class: for every wiring [k] of an
    output that this tick updated to [v], the target input was given [v], unless a
    later wiring of [n] delivers another updated output to the same input. *)
Theorem C36_delivered : forall E (ev : env E) n k name cs w w' s pre c post v t,
  call OTick (make_obj ev n k name cs) w = (w', Ok s) ->
  w_conns w' n = Some (pre ++ c :: post)%list -> fresh w' n c v ->
  (forall c' v', In c' post -> fresh w' n c' v' -> ~ (k_tid c' = k_tid c /\ k_tkey c' = k_tkey c)) ->
  input w' (k_tid c) (k_tkey c) = Some t -> c_static t = false -> given t v.
Proof.
  intros E ev n k name cs w w' s pre c post v t H. destruct (tick_push E ev n k name cs w w' s H) as [w4 [u Hp]].
  intros. eapply push_given; eauto.
Qed.
Print Assumptions C36_delivered.

(** A leaf node: a tick, whatever its result, leaves alone every input of another
    node that is not the target of a wiring of an updated output. *)
Theorem C36_untouched : forall E (ev : env E) n name w w' r m key,
  call OTick (make_obj ev n KLeaf name []) w = (w', r) -> m <> n ->
  (forall c v, wired w' n c -> fresh w' n c v -> ~ (k_tid c = m /\ k_tkey c = key)) ->
  input w' m key = input w m key.
Proof.
  intros E ev n name w w' r m key H Hm Hn. change (node_tick n (leaf_act ev OTick n) w = (w', r)) in H.
  assert (Hl : forall w1 w2 q, leaf_act ev OTick n w1 = (w2, q) -> w_ins w2 = w_ins w1).
  { intros w1 w2 q Hq. unfold leaf_act in Hq. destruct (ev_leaf ev OTick n (w_st w1 n) (w_ins w1 n) (w_ext w1)) as [[e' ws] x].
    pose proof (out_set_all_ins E ws n (set_ext w1 e')) as Ho. destruct (out_set_all _ n ws) as [w3 [u|e|]]; simpl in *; inversion Hq; subst; auto. }
  destruct (node_tick_cases E n (leaf_act ev OTick n) w) as [[_ Heq]|[_ Heq]]; rewrite Heq in H; [inversion H; subst; auto|].
  unfold tick_live in H. destruct (negb _) in H; [inversion H; subst; auto|].
  destruct (leaf_act ev OTick n _) as [w2 [s2|e|]] eqn:El in H; apply Hl in El; cbn [set_outs w_ins] in El.
  2,3: inversion H; subst; unfold input; simpl; rewrite El; auto.
  cbn zeta in H.
  assert (Hi : forall s, input (set_ins (set_st w2 n s) n (map_io reset_updated (w_ins (set_st w2 n s) n))) m key = input w m key).
  { intros s. unfold input; simpl. unfold upd. destruct (Nat.eqb_spec m n); [congruence|]. rewrite El. auto. }
  destruct (state_in s2 _) in H; [|inversion H; subst; apply Hi].
  match type of H with context [push_outputs ?x n] => pose proof (push_outputs_frame E n x) as [_ [_ [Ho [Hc _]]]]; set (w4 := x) in * end.
  assert (Hf' : w_outs w' = w_outs w4 /\ w_conns w' = w_conns w4).
  { destruct (push_outputs w4 n) as [w5 [u|e|]] in H, Ho, Hc; inversion H; subst; cbn [fst set_st w_outs w_conns] in *; auto. }
  destruct Hf' as [Ho' Hc'].
  assert (Hp : input (fst (push_outputs w4 n)) m key = input w4 m key).
  { unfold push_outputs. destruct (w_conns w4 n) as [l|] eqn:Elc; auto.
    assert (Hq : input (fst (push_conns w4 n l)) m key = input w4 m key).
    { apply push_conns_frame_input. intros c v Hin Hf. apply (Hn c v).
      - exists l. rewrite Hc'. auto.
      - unfold fresh, output in *. rewrite Ho'. auto. }
    destruct (push_conns w4 n l) as [w5 [u|e|]]; simpl in *; auto.
    pose proof (push_outgoing_frame E n (w_outs w5 n) w5) as [B1 [B2 [B3 [B4 [B5 [B6 B7]]]]]].
    rewrite <- Hq. unfold input. rewrite B5. auto. }
  rewrite <- (Hi s2). fold w4. rewrite <- Hp.
  destruct (push_outputs w4 n) as [w5 [u|e|]] in H |- *; inversion H; subst; reflexivity.
Qed.
Print Assumptions C36_untouched.

(** Whole trees and whole histories: an input that no wiring ends in keeps its
    value, except that a reset clears inputs that are not static. *)
Theorem C36_unwired : forall E (ev : env E) w l w' m key c,
  runs ev w l w' -> (forall n k, wired w n k -> ~ (k_tid k = m /\ k_tkey k = key)) ->
  input w m key = Some c ->
  exists c', input w' m key = Some c' /\ c_ty c' = c_ty c /\
    (c_val c' = c_val c \/ c_static c = false /\ c_val c' = None).
Proof.
  intros E ev w l w' m key c H Hw Hc. destruct (unwired_runs E ev w l w' H) as [_ Hu]. specialize (Hu m key Hw).
  rewrite Hc in Hu. destruct (input w' m key) as [c'|]; [|contradiction]. destruct Hu as [H1 [_ H2]]. eauto.
Qed.
Print Assumptions C36_unwired.

(** A leaf that writes 7 to its output, which is wired to input "x" of node 1. *)
Definition fenv : env unit := mkEnv unit
  (fun o n _ _ e => (e, match o with OTick => [("out", VInt 7)] | _ => [] end, Ok SUCCEEDED))
  (fun _ _ _ => Ok bounds_free) (fun e => (e, 0%Z)).
Definition fworld : world unit :=
  mkW (fun _ => IDLE) (fun _ => attrs0)
    (fun n => if Nat.eqb n 1 then [("x", dynamic_in (TInt 0 9) (VInt 1)); ("y", dynamic_in (TInt 0 9) (VInt 1))] else [])
    (fun n => if Nat.eqb n 0 then [("out", mkC (TInt 0 9) true false false None false)] else [])
    (fun n => Some (if Nat.eqb n 0 then [mkConn "out" 1 "x"] else [])) [] tt.
Example C36_ex : let w' := fst (call OTick (make_obj fenv 0 KLeaf "leaf" []) fworld) in
  snd (call OTick (make_obj fenv 0 KLeaf "leaf" []) fworld) = Ok SUCCEEDED /\
  fresh w' 0 (mkConn "out" 1 "x") (VInt 7) /\
  option_map c_val (input w' 1 "x") = Some (Some (VInt 7)) /\ option_map c_val (input w' 1 "y") = Some (Some (VInt 1)).
Proof. vm_compute. split; auto. split; eauto. Qed.
