(** Property C101: values survive being written as text and read again. *)
From Coq Require Import String ZArith Bool List.
From Coq.Floats Require Import SpecFloat.
From Verif Require Import Base ModelData ModelJson SpecData SpecJson ProofsData ProofsJson DemoJson.
From Verif Require ModelFields SpecFields DemoFields.
Import ListNotations.
Local Open Scope string_scope.

(** ** C101 *)

(** What a container accepts is, if it can be written, read as the same value: numbers,
    texts, bytes, lists, dictionaries, type descriptions, message classes and messages, with
    messages in them to any depth. *)
Theorem C101_value : forall r obj round, sound_classes r obj round -> sound_numbers r ->
  forall fuel t v w j, check t v = Ok w -> storable r obj t w ->
  ser r fuel t (ModelFields.PVal w) = Ok j -> deser r fuel t j = Ok w.
Proof. exact value_back. Qed.
Print Assumptions C101_value.

(** A static input, whatever was done to it, that is written into the message about its node
    is read from it as an input of the same type with the same value, or one that Python
    considers equal. *)
Theorem C101_saved : forall r obj round, sound_classes r obj round -> sound_numbers r ->
  forall fuel t dyn sta init c1 ops v m, construct t dyn sta (Some true) init = Some c1 ->
  shallow t dyn -> (element_static t = None \/ element_static t = Some sta) ->
  let c := cops_run ops c1 in c_val c = Some v -> storable r obj t v ->
  write_input r fuel c = Ok m ->
  exists c' x, read_input r fuel m = Ok c' /\ c_ty c' = t /\ c_static c' = true /\
    c_val c' = Some x /\ SpecFields.equal_to x v.
Proof. exact saved. Qed.
Print Assumptions C101_saved.

(** Whatever has no messages in it, and no dictionary of anything but texts, can be
    written. *)
Theorem C101_serializes : forall r obj fuel t v w, printable t -> check t v = Ok w -> storable r obj t w ->
  exists j, ser r fuel t (ModelFields.PVal w) = Ok j.
Proof. intros r obj fuel t v w P H St. apply (total r obj fuel t w P); [|exact St]. apply admits_shape. eapply check_admits; eauto. Qed.
Print Assumptions C101_serializes.

(** A dictionary of anything else that is not empty cannot be written, although containers
    accept it: an exception is raised. *)
Theorem C101_dict_refuted : forall r obj fuel elt so ml st v d j, ~ text_type elt ->
  check (TDict elt so ml st) v = Ok (VDict d) -> storable r obj (TDict elt so ml st) (VDict d) -> d <> [] ->
  ser r fuel (TDict elt so ml st) (ModelFields.PVal (VDict d)) <> Ok j.
Proof. intros r obj fuel elt so ml st v d j N H St Ne. apply (dict_raises r obj); auto. apply admits_shape. eapply check_admits; eauto. Qed.
Print Assumptions C101_dict_refuted.

(** Nor can a message with a field that is a sequence or an array of numbers. *)
Theorem C101_array_refuted : forall r obj round, sound_classes r obj round ->
  forall fuel c m fs i n j, r_class r c = Some m ->
  SpecFields.class_of (r_get_message r) round m fs -> SpecFields.readable fs ->
  (exists f e, SpecFields.is_number e /\
     ((exists b, In (f, SpecFields.FSeq e b) fs) \/ (exists k, In (f, SpecFields.FArr e k) fs))) ->
  obj c n -> ser r fuel (TRosMsg c i) (ModelFields.PVal (VMsg c n)) <> Ok j.
Proof. exact array_raises. Qed.
Print Assumptions C101_array_refuted.

(** A value in a file that the input does not accept is dropped without an error: the input
    has its default value. *)
Theorem C101_ignored_refuted : exists c c',
  from_msg (serialize_type c) = Some c /\ c_ty c = TInt 0 10 /\
  read_input d_ros 5 (serialize_type c, Some (JInt 50)) = Ok c' /\ c_val c' = Some (VInt 0).
Proof.
  destruct (construct (TInt 0 10) false true (Some true) None) as [c|] eqn:E; [|discriminate E].
  exists c. injection E as <-. eexists. split; [reflexivity|]. split; [reflexivity|]. split; reflexivity.
Qed.
Print Assumptions C101_ignored_refuted.

(** The assumptions about ROS can be met. *)
Example C101_world : sound_classes d_ros d_obj DemoFields.rnd /\ sound_numbers d_ros.
Proof. exact (conj d_classes d_numbers). Qed.

(** A list of messages with messages in them. *)
Definition j_list : ctype := TList (TRosMsg "demo/msg/Pair" 0) true 10 false.
Definition j_pairs : value := VList [VMsg "demo/msg/Pair" 1; VMsg "demo/msg/Pair" 0].
Example C101_value_example : check j_list j_pairs = Ok j_pairs /\ storable d_ros d_obj j_list j_pairs /\
  ser d_ros 5 j_list (ModelFields.PVal j_pairs) = Ok
    (JList [JDict [("note", JStr "hello"); ("flag", JDict [("on", JBool true)])];
            JDict [("note", JStr "hello"); ("flag", JDict [("on", JBool false)])]]).
Proof.
  split; [reflexivity|]. split; [|reflexivity]. cbn [storable]. intros l [= <-] x [<-|[<-|[]]] c n [= <- <-]; right; left; auto.
Qed.

(** A static list of bytes, set after the container was made. *)
Definition j_bytes : ctype := TList (TBytes 4 None) true 10 false.
Definition j_value : value := VList [VBytes "ab"; VBytes ""].
Example C101_saved_example : exists c1 m,
  construct j_bytes false true (Some true) None = Some c1 /\ shallow j_bytes false /\
  element_static j_bytes = Some true /\ c_val (cops_run [CSet j_value; CReset] c1) = Some j_value /\
  storable d_ros d_obj j_bytes j_value /\ write_input d_ros 5 (cops_run [CSet j_value; CReset] c1) = Ok m /\
  snd m = Some (JList [JStr "6162"; JStr ""]).
Proof.
  do 2 eexists. split; [reflexivity|]. split; [|split; [reflexivity|]; split; [reflexivity|]; split; [|split; reflexivity]].
  - cbn [shallow j_bytes]. split; [split; [reflexivity|discriminate]|discriminate].
  - cbn [storable j_bytes]. auto.
Qed.

(** The description of a list of numbers between bounds. *)
Definition j_type : value := VDict [(IDENTIFIER_KEY, VInt ID_LIST); ("max_length", VInt 7); ("strict_length", VBool false);
  (ELEMENT_KEY, VDict [(IDENTIFIER_KEY, VInt ID_INT); ("min_value", VInt (-2)); ("max_value", VInt 3)])].
Lemma j_described : described j_type.
Proof.
  eapply Described; [reflexivity|..].
  - intros k x [[= <- <-]|[[= <- <-]|[[= <- <-]|[[= <- <-]|[]]]]] [E|E]; discriminate E.
  - intros x [[= ]|[[= ]|[[= ]|[[= <-]|[]]]]]. split; [discriminate|]. split; [discriminate|].
    eapply Described; [reflexivity|..].
    + intros k x [[= <- <-]|[[= <- <-]|[[= <- <-]|[]]]] [E|E]; try discriminate E; left; (split; [reflexivity|eauto]).
    + intros x [[= ]|[[= ]|[[= ]|[]]]].
    + intros k x [[= <- <-]|[[= <- <-]|[[= <- <-]|[]]]] B Ne; constructor.
  - intros k x [[= <- <-]|[[= <- <-]|[[= <- <-]|[[= <- <-]|[]]]]] B Ne; try constructor. congruence.
Qed.
Example C101_type_example : check (TGeneric [BList; BInt]) j_type = Ok j_type /\ storable d_ros d_obj (TGeneric [BList; BInt]) j_type /\
  printable (TGeneric [BList; BInt]) /\
  ser d_ros 5 (TGeneric [BList; BInt]) (ModelFields.PVal j_type) = Ok
    (JDict [(IDENTIFIER_KEY, JInt ID_LIST); ("max_length", JInt 7); ("strict_length", JBool false);
            (ELEMENT_KEY, JDict [(IDENTIFIER_KEY, JInt ID_INT); ("min_value", JStr "-||"); ("max_value", JStr "+|||")])]).
Proof. split; [reflexivity|]. split; [exact j_described|]. split; [exact I|reflexivity]. Qed.

Definition j_dict : ctype := TDict (TInt 0 9) false 10 false.
Example C101_dict_example : ~ text_type (TInt 0 9) /\ check j_dict (VDict [("a", VInt 1)]) = Ok (VDict [("a", VInt 1)]) /\
  storable d_ros d_obj j_dict (VDict [("a", VInt 1)]) /\ ser d_ros 5 j_dict (ModelFields.PVal (VDict [("a", VInt 1)])) = Raise.
Proof. split; [intros []|]. split; [reflexivity|]. split; [cbn; auto|reflexivity]. Qed.
Example C101_array_example : exists m,
  r_class d_ros "demo/msg/Values" = Some m /\ SpecFields.class_of (r_get_message d_ros) DemoFields.rnd m values_fields /\
  SpecFields.readable values_fields /\ In ("values", SpecFields.FSeq DemoFields.I32 None) values_fields /\
  SpecFields.is_number DemoFields.I32 /\ d_obj "demo/msg/Values" 0 /\
  ser d_ros 5 (TRosMsg "demo/msg/Values" 0) (ModelFields.PVal (VMsg "demo/msg/Values" 0)) = Raise.
Proof.
  eexists. split; [reflexivity|].
  destruct (d_class_of values_fields) as [A B]; [repeat constructor; intros []|intros f t [[= <- <-]|[]]; cbn; auto|].
  split; [exact A|]. split; [exact B|]. split; [left; reflexivity|]. split; [exact I|]. split; [right; right; auto|reflexivity].
Qed.
