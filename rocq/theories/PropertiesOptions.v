(** C103: what changing the options of a node does to its inputs. *)
From Coq Require Import String Ascii ZArith Bool List.
From Verif Require Import Base ModelData ModelDataLeaf ModelJson ModelOptions SpecData SpecDataLeaf SpecJson SpecOptions DemoJson.
From Verif Require Import ProofsOptions.
From Verif Require ModelFields SpecFields DemoFields.
Import ListNotations.
Local Open Scope string_scope.

(** ** C103 Changing options keeps the others and sets the ones given *)

(** A static input that the request does not mention has the same type and an equal value
    afterwards.  For an input whose type is chosen by another input: if the request does not
    mention that one either. *)
Theorem C103_kept : forall r obj round, sound_classes r obj round -> sound_numbers r ->
  forall known fuel ins outs, is_class ins -> forall req i i' o', in_use r known fuel ins outs i ->
  with_options r known fuel ins outs req i = Ok (i', o') ->
  forall k c v, dget k i = Some (SPlain c) -> ~ In k (map fst req) -> c_static c = true -> complete c ->
  c_val c = Some v -> storable r obj (c_ty c) v ->
  exists c' x, dget k i' = Some (SPlain c') /\ c_ty c' = c_ty c /\ c_static c' = true /\ c_val c' = Some x /\ SpecFields.equal_to x v.
Proof. exact kept_plain. Qed.
Print Assumptions C103_kept.

Theorem C103_reference_kept : forall r obj round, sound_classes r obj round -> sound_numbers r ->
  forall known fuel ins outs, is_class ins -> forall req i i' o', in_use r known fuel ins outs i ->
  with_options r known fuel ins outs req i = Ok (i', o') ->
  forall k K y dyn sta c v ct vt, dget k i = Some (SRef K y dyn sta true (Some c)) -> ~ In k (map fst req) -> ~ In y (map fst req) ->
  dget y i = Some (SPlain ct) -> complete ct -> c_val ct = Some vt -> storable r obj (c_ty ct) vt ->
  c_val c = Some v -> storable r obj (c_ty c) v ->
  exists c' x, dget k i' = Some (SRef K y dyn sta true (Some c')) /\ c_ty c' = c_ty c /\ c_static c' = true /\
    c_val c' = Some x /\ SpecFields.equal_to x v.
Proof. exact kept_ref. Qed.
Print Assumptions C103_reference_kept.

(** A static input that the request mentions (the last one, if it is there twice) has the value
    given, if its new type accepts it. *)
Theorem C103_given : forall r obj round, sound_classes r obj round -> sound_numbers r ->
  forall known fuel ins outs, is_class ins -> forall req i i' o', in_use r known fuel ins outs i ->
  with_options r known fuel ins outs req i = Ok (i', o') ->
  forall k it j s u v, dget k (py_dict req) = Some (it, Some j) -> dget k i' = Some s -> slot_type s = Some u ->
  (forall c, holds s c -> c_static c = true) ->
  check u v = Ok v -> storable r obj u v -> ser r fuel u (ModelFields.PVal v) = Ok j ->
  exists c x, holds s c /\ c_ty c = u /\ c_val c = Some x /\ SpecFields.equal_to x v.
Proof. exact given_taken. Qed.
Print Assumptions C103_given.

(** A node whose input holds a dictionary of anything but texts (put there by a wiring, say)
    cannot be changed: whatever the request, unless it mentions that input. *)
Theorem C103_stuck_refuted : forall r obj known fuel ins outs req i k s c elt so ml st d res, is_class ins -> in_use r known fuel ins outs i ->
  dget k i = Some s -> holds s c -> ~ In k (map fst req) ->
  c_ty c = TDict elt so ml st -> ~ text_type elt -> c_val c = Some (VDict d) -> check (c_ty c) (VDict d) = Ok (VDict d) ->
  storable r obj (c_ty c) (VDict d) -> d <> [] ->
  with_options r known fuel ins outs req i <> Ok res.
Proof.
  intros r obj known fuel ins outs req i k s c elt so ml st d res Cl U D Hs Nk T Nt V Ch St Ne.
  exact (stuck r obj known fuel ins outs req i k s c elt so ml st d res Cl U D Hs Nk T Nt V (checked_shape _ _ Ch) St Ne).
Qed.
Print Assumptions C103_stuck_refuted.

(** ** Examples *)

(** A node with a type, a value of that type, a number between 3 and 9, and a table that is
    filled by wirings. *)
Definition o_type : container := mkC (TGeneric [BInt; BStr]) false true true (Some (VDict (generic_map BInt))) false.
Definition o_count : container := mkC (TInt 3 9) false true true (Some (VInt 3)) false.
Definition o_class : smap :=
  [("type", SPlain o_type); ("value", SRef RefItem "type" false true true None); ("count", SPlain o_count);
   ("table", SRef RefDict "type" true false false None)].
Definition o_known (_ : string) : bool := true.
Lemma o_is_class : is_class o_class.
Proof.
  split; [repeat constructor; cbn; intuition discriminate|].
  intros k c [[= <- <-]|[[=]|[[= <- <-]|[[=]|[]]]]].
  - exists (TGeneric [BInt; BStr]), false, true, true, None. reflexivity.
  - exists (TInt 3 9), false, true, true, None. reflexivity.
Qed.
Definition as_type (j : json) : io_msg := ("type", (write_slot (SPlain o_type), Some j)).
Definition as_value (j : json) : io_msg := ("value", (IRef RefItem "type" false true true, Some j)).
Definition as_count (j : json) : io_msg := ("count", (write_slot (SPlain o_count), Some j)).
(** Integers from -2 to 3; texts of up to five characters. *)
Definition o_int : json := JDict [(IDENTIFIER_KEY, JInt ID_INT); ("min_value", JStr "-||"); ("max_value", JStr "+|||")].
Definition o_str : json := JDict [(IDENTIFIER_KEY, JInt ID_STRING); ("max_length", JInt 5)].
Definition o_ints : value := VDict [(IDENTIFIER_KEY, VInt ID_INT); ("min_value", VInt (-2)); ("max_value", VInt 3)].
Definition o_new (t v n : json) : res (smap * smap) :=
  node_from_msg d_ros o_known 5 o_class [] [as_type t; as_value v; as_count n].
Definition o_set (req : list io_msg) (x : res (smap * smap)) : res (smap * smap) :=
  match x with Ok (i, _) => with_options d_ros o_known 5 o_class [] req i | e => e end.
Lemma o_use : forall t v n i o, o_new t v n = Ok (i, o) -> in_use d_ros o_known 5 o_class [] i.
Proof.
  intros t v n i o H. refine (U_new d_ros o_known 5 o_class [] _ i o _ H). cbn. repeat constructor; cbn; intuition discriminate.
Qed.
Definition at_value (x : res (smap * smap)) (k : string) : option value :=
  match x with
  | Ok (i, _) => match dget k i with
                 | Some (SPlain c) | Some (SRef _ _ _ _ _ (Some c)) => c_val c
                 | _ => None
                 end
  | _ => None
  end.

(** The count is changed from 7 to 4; the type and the value stay. *)
Example C103_example : exists i o i' o' ct c,
  o_new o_int (JInt 2) (JInt 7) = Ok (i, o) /\ in_use d_ros o_known 5 o_class [] i /\
  with_options d_ros o_known 5 o_class [] [as_count (JInt 4)] i = Ok (i', o') /\
  dget "type" i = Some (SPlain ct) /\ c_static ct = true /\ complete ct /\ c_val ct = Some o_ints /\ storable d_ros d_obj (c_ty ct) o_ints /\
  dget "value" i = Some (SRef RefItem "type" false true true (Some c)) /\ c_val c = Some (VInt 2) /\ storable d_ros d_obj (c_ty c) (VInt 2) /\
  at_value (Ok (i', o')) "type" = Some o_ints /\ at_value (Ok (i', o')) "value" = Some (VInt 2) /\ at_value (Ok (i', o')) "count" = Some (VInt 4).
Proof.
  destruct (o_new o_int (JInt 2) (JInt 7)) as [[i o]|e|] eqn:E; [|vm_compute in E; discriminate E|vm_compute in E; discriminate E].
  destruct (with_options d_ros o_known 5 o_class [] [as_count (JInt 4)] i) as [[i' o']|e|] eqn:W;
    [|vm_compute in E; injection E as <- <-; vm_compute in W; discriminate W|vm_compute in E; injection E as <- <-; vm_compute in W; discriminate W].
  pose proof (o_use _ _ _ _ _ E) as U. vm_compute in E. injection E as <- <-. vm_compute in W. injection W as <- <-.
  do 6 eexists. split; [reflexivity|]. split; [exact U|]. split; [reflexivity|]. split; [reflexivity|]. split; [reflexivity|].
  split; [split; [cbn; repeat split; discriminate|left; reflexivity]|]. split; [reflexivity|]. split.
  - eapply Described; [reflexivity|..].
    + intros k x [[= <- <-]|[[= <- <-]|[[= <- <-]|[]]]] [B|B]; try discriminate B; left; (split; [reflexivity|eauto]).
    + intros x [[= ]|[[= ]|[[= ]|[]]]].
    + intros k x [[= <- <-]|[[= <- <-]|[[= <- <-]|[]]]] B Ne; constructor.
  - repeat (split; [reflexivity|]). cbn. auto.
Qed.
Example C103_given_example : check (TInt 3 9) (VInt 4) = Ok (VInt 4) /\ ser d_ros 5 (TInt 3 9) (ModelFields.PVal (VInt 4)) = Ok (JInt 4).
Proof. split; reflexivity. Qed.

(** Another type and a value for it, both at once. *)
Example C103_both_example : at_value (o_set [as_type o_str; as_value (JStr "hello")] (o_new o_int (JInt 2) (JInt 7))) "value" = Some (VStr "hello").
Proof. vm_compute. reflexivity. Qed.

(** A value that the input does not accept: the change is reported as done, but the input has
    neither the old value nor the new one. *)
Theorem C103_refused_refuted :
  at_value (o_new o_int (JInt 2) (JInt 7)) "count" = Some (VInt 7) /\
  at_value (o_set [as_count (JInt 50)] (o_new o_int (JInt 2) (JInt 7))) "count" = Some (VInt 3).
Proof. split; vm_compute; reflexivity. Qed.
Print Assumptions C103_refused_refuted.

(** The type alone cannot be changed: the value it had raises an exception. *)
Theorem C103_retype_refuted :
  o_set [as_type o_int] (o_new o_str (JStr "abc") (JInt 7)) = Raise /\
  o_set [as_type o_str] (o_new o_int (JInt 2) (JInt 7)) = Raise.
Proof. split; vm_compute; reflexivity. Qed.
Print Assumptions C103_retype_refuted.

(** A table with a number in it: not even the count can be changed. *)
Example C103_stuck_example : exists i o c s, o_new o_int (JInt 2) (JInt 7) = Ok (i, o) /\
  dget "table" i = Some s /\ holds s c /\ c_static c = false /\
  let c1 := cops_run [CSet (VDict [("a", VInt 1)])] c in
  let i1 := dset "table" (put s c1) i in
  in_use d_ros o_known 5 o_class [] i1 /\ c_val c1 = Some (VDict [("a", VInt 1)]) /\ c_ty c1 = TDict (TInt (-2) 3) false INT_FLOAT_MAX false /\
  check (c_ty c1) (VDict [("a", VInt 1)]) = Ok (VDict [("a", VInt 1)]) /\ storable d_ros d_obj (c_ty c1) (VDict [("a", VInt 1)]) /\
  with_options d_ros o_known 5 o_class [] [as_count (JInt 4)] i1 = Raise.
Proof.
  destruct (o_new o_int (JInt 2) (JInt 7)) as [[i o]|e|] eqn:E; [|vm_compute in E; discriminate E|vm_compute in E; discriminate E].
  pose proof (o_use _ _ _ _ _ E) as U. vm_compute in E. injection E as <- <-.
  do 4 eexists. split; [reflexivity|]. split; [reflexivity|]. split; [right; repeat eexists|]. split; [reflexivity|]. cbn zeta.
  split; [refine (U_op _ _ _ _ _ _ "table" _ _ [CSet (VDict [("a", VInt 1)])] U _ _ _); [reflexivity|right; repeat eexists|discriminate]|].
  split; [vm_compute; reflexivity|]. split; [vm_compute; reflexivity|]. split; [vm_compute; reflexivity|]. split; [|vm_compute; reflexivity].
  cbn. auto.
Qed.
