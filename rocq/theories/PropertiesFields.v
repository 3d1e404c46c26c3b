(** C91: the containers for the fields of ROS messages.
    C92: nodes whose inputs and outputs are the fields of ROS messages. *)
From Coq Require Import String ZArith NArith Bool Ascii Lia List.
From Coq Require Import Floats.SpecFloat.
From Verif Require Import Base ModelData ModelEdit ModelFiles SpecData SpecEdit ProofsEditLast ProofsParallel ModelFields SpecFields ProofsFields DemoFields.
Import ListNotations.
Local Open Scope string_scope.

(** ** C91 *)

(** For every type that a field can have, the text that ROS gives for it is turned
    into the container that belongs to it. *)
Theorem C91_type : forall cls f t, no_string_name f -> holds cls f t ->
  exists c, get_message_field_io_type cls (text f) = Ok c /\ c_ty c = t /\
            c_dyn c = true /\ c_sta c = true /\ c_static c = true.
Proof. intros cls f t N H. destruct (io_type cls f t N H) as [c [A [B [C [D [E _]]]]]]. exists c. auto. Qed.
Print Assumptions C91_type.

(** Every type of which a container is known has one, so there are no others: bounded
    strings, sequences with and without bound, arrays and nested messages. *)
Example C91_type_ex :
  let cls := fun n => if String.eqb n "geometry_msgs/Point" then Some "geometry_msgs/msg/Point" else None in
  text (FSeq (FStr false (Some 10%N)) (Some 5%N)) = "sequence<string<10>, 5>" /\
  (exists c, get_message_field_io_type cls "sequence<string<10>, 5>" = Ok c /\ c_ty c = TList (TStr 10 None) true 5 false) /\
  (exists c, get_message_field_io_type cls "geometry_msgs/Point[3]" = Ok c /\
             c_ty c = TList (TRosMsg "geometry_msgs/msg/Point" 0) true 3 true) /\
  no_string_name (FArr (FMsg "geometry_msgs/Point") 3) /\
  holds cls (FArr (FMsg "geometry_msgs/Point") 3) (TList (TRosMsg "geometry_msgs/msg/Point" 0) true 3 true).
Proof.
  cbn zeta. split; [reflexivity|]. split; [eexists; split; reflexivity|]. split; [eexists; split; reflexivity|]. split.
  - intros n [<-|[]]. split; [|split; intros [r H]; discriminate H]. split; [cbn; tauto|]. exists "geometry_msgs", "Point". reflexivity.
  - apply (H_arr _ (FMsg "geometry_msgs/Point") 3%N). apply H_msg. reflexivity.
Qed.

(** Refuted: a message of a package whose name begins with "string" or "wstring" is
    taken for a string. *)
Theorem C91_string_refuted : forall cls n, message_name n -> starts "string" n \/ starts "wstring" n ->
  exists c b, get_message_field_io_type cls n = Ok c /\ c_ty c = TStr b None.
Proof. exact io_string. Qed.
Print Assumptions C91_string_refuted.
Example C91_string_ex : message_name "string_tools/Pattern" /\ starts "string" "string_tools/Pattern".
Proof. split; [split; [cbn; tauto|exists "string_tools", "Pattern"; reflexivity]|exists "_tools/Pattern"; reflexivity]. Qed.

(** What a field of a message can hold, its container takes: every value but infinite
    numbers and arrays of numbers of fixed length. *)
Theorem C91_takes_partial : forall cls round f v o c, stays_single round ->
  holds cls f (c_ty c) -> takes cls round f v o -> no_inf v -> ~ is_numpy o -> ~ locked c ->
  exists c' x, py_set c o = (c', Ok tt) /\ c_ty c' = c_ty c /\ c_val c' = Some x /\ equal_to x (content o).
Proof.
  intros cls round f v o c R H T F N L.
  destruct (set_taken cls round f (c_ty c) v o c R H T F N eq_refl L) as [c' [A [B [_ [x [X Q]]]]]]. exists c', x. auto.
Qed.
Print Assumptions C91_takes_partial.

(** Refuted: infinite numbers, which messages hold, are refused. *)
Theorem C91_inf_refuted : forall cls round f c b, f = FFloat \/ f = FDouble -> holds cls f (c_ty c) ->
  takes cls round f (VFloat (S754_infinity b)) (PVal (VFloat (S754_infinity b))) /\
  exists e, py_set c (PVal (VFloat (S754_infinity b))) = (c, Err e).
Proof.
  intros cls round f c b E H. split; [apply K_one; destruct E as [-> | ->]; [apply T_inf|apply T_dinf]|]. exists EData. cbn [py_set]. unfold set_value.
  destruct c as [ty d s st cv up]. cbn [c_ty] in H |- *.
  destruct E as [-> | ->]; inversion H as [? ? X| |]; subst; inversion X; subst; destruct b; reflexivity.
Qed.
Print Assumptions C91_inf_refuted.

(** Refuted: the attribute of a message for an array of numbers of fixed length is a
    numpy array, and offering it to its container raises an exception. *)
Theorem C91_numpy_refuted : forall cls round f v l c, holds cls f (c_ty c) -> takes cls round f v (PNumpy l) ->
  py_set c (PNumpy l) = (c, Raise).
Proof. exact set_numpy. Qed.
Print Assumptions C91_numpy_refuted.
Example C91_numpy_ex : forall cls round,
  takes cls round (FArr (FInt false W8) 2) (VList [VInt 1; VInt 255]) (PNumpy [VInt 1; VInt 255]) /\
  holds cls (FArr (FInt false W8) 2) (TList (TInt 0 255) true 2 true).
Proof.
  intros cls round. split.
  - apply (K_numpy cls round (FInt false W8) 2%N [VInt 1; VInt 255]); [|reflexivity|exact I].
    intros x [<-|[<-|[]]]; constructor; cbn; lia.
  - apply (H_arr cls (FInt false W8) 2%N). apply (H_int cls false W8).
Qed.

(** The other way round: what a container of a field has taken, a message takes,
    except for the two cases below. *)
Theorem C91_gives_partial : forall cls round f c v c' u x, holds cls f (c_ty c) -> c_val c = None ->
  set_value c v = (c', Ok u) -> c_val c' = Some x -> fits f x -> exists o, takes cls round f x o.
Proof.
  intros cls round f c v c' u x H V S X F. unfold set_value in S.
  destruct (check (c_ty c) v) as [w| |] eqn:K; try discriminate S.
  assert (w = x).
  { unfold base_set, changed in S. rewrite V in S. cbn in S. pose proof (proj2 (proj2 (holds_params cls f _ H))) as G.
    destruct (c_static c && c_upd c)%bool; destruct (c_ty c); cbn in S; try (exfalso; eapply G; reflexivity);
      try discriminate S; injection S as <- _; cbn in X; congruence. }
  subst w. exact (check_takes cls round f (c_ty c) v x H K F).
Qed.
Print Assumptions C91_gives_partial.
Example C91_gives_ex : forall cls,
  let c := mkC (TList (TFloat DBL_MIN DBL_MAX) true INT_FLOAT_MAX false) true false false None false in
  let v := VList [VFloat (S754_finite false 1 0); VFloat S754_nan] in
  holds cls (FSeq FDouble None) (c_ty c) /\ (exists c', set_value c v = (c', Ok tt) /\ c_val c' = Some v) /\ fits (FSeq FDouble None) v.
Proof.
  intros cls. cbn zeta. split; [apply (H_seq cls FDouble None); constructor|]. split.
  - eexists. split; reflexivity.
  - cbn. intros x [<-|[<-|[]]]; (split; [exact I|intros _; eexists; reflexivity]).
Qed.

(** Refuted: a list of floating point numbers takes integers and keeps them, but a
    message does not take them; an empty bytes object is taken as an octet; so is the largest
    number of single precision, which the setter of a message refuses. *)
Theorem C91_gives_refuted :
  (exists cls c v c', holds cls (FSeq FDouble None) (c_ty c) /\ set_value c v = (c', Ok tt) /\ c_val c' = Some v /\
     forall round o, ~ takes cls round (FSeq FDouble None) v o) /\
  (exists cls c v c', holds cls FOctet (c_ty c) /\ set_value c v = (c', Ok tt) /\ c_val c' = Some v /\
     forall round o, ~ takes cls round FOctet v o) /\
  (exists cls c v c', holds cls FFloat (c_ty c) /\ set_value c v = (c', Ok tt) /\ c_val c' = Some v /\
     v = VFloat (S754_finite false 9007198717870080 75) /\ forall round o, ~ takes cls round FFloat v o).
Proof.
  split; [|split].
  - exists (fun _ => None), (mkC (TList (TFloat DBL_MIN DBL_MAX) true INT_FLOAT_MAX false) true false false None false), (VList [VInt 1]).
    eexists. split; [apply (H_seq _ FDouble None); constructor|]. split; [reflexivity|]. split; [reflexivity|].
    intros round o T. inversion T as [? ? X|? ? ? X ? N|? ? ? X ? N| |]; subst.
    + inversion X.
    + apply N. exact I.
    + specialize (X _ (or_introl eq_refl)). inversion X.
  - exists (fun _ => None), (mkC (TBytes 1 None) true false false None false), (VBytes "").
    eexists. split; [constructor; constructor|]. split; [reflexivity|]. split; [reflexivity|].
    intros round o T. inversion T as [? ? X| | | |]; subst. inversion X.
  - exists (fun _ => None), (mkC (TFloat FLT_LIMIT_NEG FLT_LIMIT) true false false None false), (VFloat (S754_finite false 9007198717870080 75)).
    eexists. split; [constructor; constructor|]. split; [reflexivity|]. split; [reflexivity|]. split; [reflexivity|].
    intros round o T. inversion T as [? ? X| | | |]; subst. inversion X as [| | | |? [_ L]| | | | |]. discriminate L.
Qed.
Print Assumptions C91_gives_refuted.
(** Single precision: what is written and what is not. *)
Example C91_single_ex :
  (exists c', set_value (mkC (TFloat FLT_LIMIT_NEG FLT_LIMIT) true false false None false) (VFloat (S754_finite true 1 (-1))) = (c', Ok tt)) /\
  fits FFloat (VFloat (S754_finite true 1 (-1))) /\
  (exists c' e, set_value (mkC (TFloat FLT_LIMIT_NEG FLT_LIMIT) true false false None false) (VFloat (S754_finite false 4503599627370496 76)) = (c', Err e)).
Proof. split; [eexists; reflexivity|]. split; [split; reflexivity|]. eexists. eexists. reflexivity. Qed.
(** A message with a number that is refused: the node reports an error. *)
Example C92_refused_ex : forall b,
  let outs := [("x", mkC (TFloat DBL_MIN DBL_MAX) true false false None false)] in
  show_message (demo_class [("x", FDouble)]) [("x", PVal (VFloat (S754_infinity b)))] outs = (outs, Err EConfig).
Proof. intros []; reflexivity. Qed.

(** ** C92 *)

Lemma id_inj : forall a b : string, a = b -> a = b.
Proof. auto. Qed.
Lemma forced_outputs : forall cls fs lo base cfg (key : string -> string), made cls fs lo -> NoDup (map fst fs) ->
  (forall k, dget k (f_outs cfg) = match dget k (f_outs base) with Some c => Some c | None => dget k (forced lo) end) ->
  free fs (f_outs base) -> outputs_of cls (fun f => f) fs (f_outs cfg).
Proof.
  intros cls fs lo base cfg key M N E F f t I. destruct (made_get cls fs lo M N f t I) as [c [C [H _]]].
  exists (force_output c). rewrite E, F by (apply in_map_iff; exists (f, t); auto). rewrite forced_get, C. cbn. auto.
Qed.
Lemma plain_inputs : forall cls fs li base cfg, made cls fs li -> NoDup (map fst fs) ->
  (forall k, dget k (f_ins cfg) = match dget k (f_ins base) with Some c => Some c | None => dget k li end) ->
  free fs (f_ins base) -> ports_of cls (fun f => f) fs (f_ins cfg).
Proof.
  intros cls fs li base cfg M N E F f t I. destruct (made_get cls fs li M N f t I) as [c [C [H _]]].
  exists c. rewrite E, F by (apply in_map_iff; exists (f, t); auto). auto.
Qed.

(** A Service node has, besides its own, one input for each field of the request and
    one output for each field of the response, of the types of the fields. *)
Theorem C92_service : forall cls round base req qs resp ps,
  class_of cls round req qs -> class_of cls round resp ps -> readable qs -> readable ps ->
  free qs (f_ins base) -> free ps (f_outs base) ->
  exists cfg, service_config cls base req resp = Some cfg /\
    ports_of cls (fun f => f) qs (f_ins cfg) /\ outputs_of cls (fun f => f) ps (f_outs cfg) /\
    (forall k, dget k (f_ins cfg) <> None <-> dget k (f_ins base) <> None \/ In k (map fst qs)) /\
    (forall k, dget k (f_outs cfg) <> None <-> dget k (f_outs base) <> None \/ In k (map fst ps)).
Proof.
  intros cls round base req qs resp ps Cq Cp Rq Rp Fq Fp.
  pose proof (class_good cls round req qs Cq Rq) as Gq. pose proof (class_good cls round resp ps Cp Rp) as Gp.
  destruct (extra_made cls qs [] Gq ltac:(reflexivity)) as [li [Li Mi]]. destruct (extra_made cls ps [] Gp ltac:(reflexivity)) as [lo [Lo Mo]].
  destruct (build_ok cls base qs ps li lo Mi Mo (proj1 Gq) (proj1 Gp) Fq Fp) as [cfg [B [_ [Ei Eo]]]].
  exists cfg. unfold service_config. rewrite (proj1 Cq), (proj1 Cp), Li, Lo. split; [exact B|].
  split; [exact (plain_inputs cls qs li base cfg Mi (proj1 Gq) Ei Fq)|].
  split; [exact (forced_outputs cls ps lo base cfg (fun f => f) Mo (proj1 Gp) Eo Fp)|].
  split; intros k.
  - rewrite Ei, <- (made_keys cls qs li Mi). destruct (dget k (f_ins base)); [split; [left; discriminate|discriminate]|].
    split; [|intros [H|H]; [congruence|]]; [intros H; right|].
    + destruct (in_dec string_dec k (map fst li)); [assumption|]. exfalso. apply H. now apply dget_nIn.
    + intros Q. apply dget_nIn in Q. contradiction.
  - rewrite Eo, <- (made_keys cls ps lo Mo), <- forced_keys. destruct (dget k (f_outs base)); [split; [left; discriminate|discriminate]|].
    split; [|intros [H|H]; [congruence|]]; [intros H; right|].
    + destruct (in_dec string_dec k (map fst (forced lo))); [assumption|]. exfalso. apply H. now apply dget_nIn.
    + intros Q. apply dget_nIn in Q. contradiction.
Qed.
Print Assumptions C92_service.
Example C92_service_ex :
  class_of no_cls rnd (demo_class req_fields) req_fields /\ class_of no_cls rnd (demo_class resp_fields) resp_fields /\
  readable req_fields /\ readable resp_fields /\ free req_fields (f_ins node_base) /\ free resp_fields (f_outs node_base) /\
  exists cfg, service_config no_cls node_base (demo_class req_fields) (demo_class resp_fields) = Some cfg /\
    map fst (f_ins cfg) = ["service_type"; "enable"; "values"] /\ map fst (f_outs cfg) = ["ok"; "count"] /\
    option_map c_ty (dget "values" (f_ins cfg)) = Some (TList (TInt (- 2 ^ 31) (2 ^ 31 - 1)) true INT_FLOAT_MAX false).
Proof.
  split; [exact req_class|]. split; [exact resp_class|]. split; [|split; [|split; [|split]]].
  - apply demo_readable. intros f t [I|[I|[]]]; injection I as <- <-; unfold known; auto.
  - apply demo_readable. intros f t [I|[I|[]]]; injection I as <- <-; unfold known; auto.
  - intros f [<-|[<-|[]]]; reflexivity.
  - intros f [<-|[<-|[]]]; reflexivity.
  - eexists. split; [reflexivity|]. split; [reflexivity|]. split; reflexivity.
Qed.

(** The same for the outputs of MessageToFields and the inputs of FieldsToMessage. *)
Theorem C92_converters : forall cls round base m fs, class_of cls round m fs -> readable fs ->
  (free fs (f_outs base) -> exists cfg, to_fields_config cls base m = Some cfg /\ outputs_of cls (fun f => f) fs (f_outs cfg)) /\
  (free fs (f_ins base) -> exists cfg, from_fields_config cls base m = Some cfg /\ ports_of cls (fun f => f) fs (f_ins cfg)).
Proof.
  intros cls round base m fs C R. pose proof (class_good cls round m fs C R) as G.
  destruct (extra_made cls fs [] G ltac:(reflexivity)) as [l [L M]]. cbn [app] in L. split; intros F.
  - destruct (build_ok cls base [] fs [] l (Forall2_nil _) M (NoDup_nil _) (proj1 G) ltac:(intros f []) F) as [cfg [B [_ [Ei Eo]]]].
    exists cfg. unfold to_fields_config. rewrite (proj1 C), L. split; [exact B|]. exact (forced_outputs cls fs l base cfg (fun f => f) M (proj1 G) Eo F).
  - destruct (build_ok cls base fs [] l [] M (Forall2_nil _) (proj1 G) (NoDup_nil _) F ltac:(intros f [])) as [cfg [B [_ [Ei Eo]]]].
    exists cfg. unfold from_fields_config. rewrite (proj1 C), L. split; [exact B|]. exact (plain_inputs cls fs l base cfg M (proj1 G) Ei F).
Qed.
Print Assumptions C92_converters.

(** Refuted: the node cannot be made when a field has the name of one of its own
    inputs. *)
Theorem C92_clash_refuted : forall cls round base req qs resp ps f,
  class_of cls round req qs -> class_of cls round resp ps -> readable qs -> readable ps ->
  In f (map fst qs) -> dget f (f_ins base) <> None -> service_config cls base req resp = None.
Proof.
  intros cls round base req qs resp ps f Cq Cp Rq Rp I D.
  pose proof (class_good cls round req qs Cq Rq) as Gq. pose proof (class_good cls round resp ps Cp Rp) as Gp.
  destruct (extra_made cls qs [] Gq ltac:(reflexivity)) as [li [Li Mi]]. destruct (extra_made cls ps [] Gp ltac:(reflexivity)) as [lo [Lo Mo]].
  unfold service_config. rewrite (proj1 Cq), (proj1 Cp), Li, Lo. apply build_clash; rewrite ?app_nil_l.
  - cbn [app]. rewrite (made_keys cls qs li Mi). exact (proj1 Gq).
  - cbn [app]. rewrite (made_keys cls ps lo Mo). exact (proj1 Gp).
  - left. exists f. split; [exact D|]. cbn [app]. rewrite (made_keys cls qs li Mi). exact I.
Qed.
Print Assumptions C92_clash_refuted.
(** A request with a field "service_type". *)
Example C92_clash_ex :
  let qs := [("service_type", FBool)] in
  class_of no_cls rnd (demo_class qs) qs /\ readable qs /\ dget "service_type" (f_ins node_base) <> None /\
  service_config no_cls node_base (demo_class qs) (demo_class resp_fields) = None.
Proof.
  cbn zeta. assert (K : forall f t, In (f, t) [("service_type", FBool)] -> known t) by (intros f t [I|[]]; injection I as <- <-; unfold known; auto).
  split; [apply demo_class_of; [constructor; [intros []|constructor]|exact K]|]. split; [exact (demo_readable _ K)|]. split; [discriminate|reflexivity].
Qed.

(** A message made from inputs (FieldsToMessage, the request of a Service, the goal of
    an Action) has in every field what the input of that name holds. *)
Theorem C92_message : forall cls round m fs ins a, class_of cls round m fs -> make_message m ins = Ok a ->
  forall f t, In (f, t) fs -> exists v o, has_value_for ins f v /\ takes cls round t v o /\ dget f a = Some o.
Proof.
  intros cls round m fs ins a (Fs & N & _ & _ & St) H f t I.
  assert (E : names m = map fst fs) by (unfold names; rewrite Fs, map_map; reflexivity).
  unfold make_message in H. rewrite E in H. destruct (fill_in m ins _ _ _ H N) as [A _].
  destruct (A f) as [v [o [V [S D]]]]; [apply in_map_iff; exists (f, t); auto|]. exists v, o. split; [exact V|]. split; [|exact D].
  now apply (St f t v o I).
Qed.
Print Assumptions C92_message.

(** It is made whenever each input holds a value that the field takes. *)
Theorem C92_made : forall cls round m fs ins, class_of cls round m fs ->
  (forall f t, In (f, t) fs -> exists v o, has_value_for ins f v /\ takes cls round t v o) ->
  exists a, make_message m ins = Ok a.
Proof.
  intros cls round m fs ins (Fs & N & _ & _ & St) H.
  assert (E : names m = map fst fs) by (unfold names; rewrite Fs, map_map; reflexivity).
  unfold make_message. rewrite E. apply fill_total. intros f I. apply in_map_iff in I. destruct I as [[g t] [Q I]]. cbn in Q. subst g.
  destruct (H f t I) as [v [o [V T]]]. exists v, o. split; [exact V|]. now apply (St f t v o I).
Qed.
Print Assumptions C92_made.
Example C92_made_ex :
  let ins := [("enable", mkC TBool true true true (Some (VBool true)) true);
              ("values", mkC (TList (TInt (- 2 ^ 31) (2 ^ 31 - 1)) true INT_FLOAT_MAX false) true true true (Some (VList [VInt 3; VInt (-4)])) true)] in
  make_message (demo_class req_fields) ins = Ok [("enable", PVal (VBool true)); ("values", PArray [VInt 3; VInt (-4)])].
Proof. reflexivity. Qed.

Lemma message_plain : forall cls round fs a, finite_message cls round fs a -> no_numpy fs ->
  forall f t, In (f, t) fs -> exists v o, dget f a = Some o /\ takes cls round t v o /\ no_inf v /\ ~ is_numpy o.
Proof.
  intros cls round fs a M N f t I. destruct (M f t I) as [v [o [O [T F]]]]. exists v, o. split; [exact O|]. split; [exact T|]. split; [exact F|].
  intros [l ->]. inversion T; subst. eapply (N f); eassumption.
Qed.
(** A message that arrives (MessageToFields, the response of a Service) is shown by
    the outputs: each holds the value of the field of its name; all other outputs are
    left alone.  Without infinite numbers, arrays of numbers of fixed length (C91) and
    a field named "self". *)
Theorem C92_shown_partial : forall cls round m fs a outs, stays_single round -> class_of cls round m fs ->
  finite_message cls round fs a -> no_numpy fs -> ~ In "self" (map fst fs) -> outputs_of cls (fun f => f) fs outs ->
  exists outs', show_message m a outs = (outs', Ok tt) /\ shows (fun f => f) fs a outs' /\
    outputs_of cls (fun f => f) fs outs' /\
    forall k, ~ In k (map fst fs) -> dget k outs' = dget k outs.
Proof.
  intros cls round m fs a outs R (Fs & N & _) M P S O.
  assert (E : names m = map fst fs) by (unfold names; rewrite Fs, map_map; reflexivity).
  destruct (set_fields_ok cls round (fun f => f) id_inj fs a outs R N O (message_plain cls round fs a M P)) as [outs' [A [B [C D]]]].
  { intros f I ->. contradiction. }
  exists outs'. unfold show_message. rewrite E. split; [exact A|]. split; [exact C|]. split; [exact B|].
  intros k K. apply D. now rewrite map_id.
Qed.
Print Assumptions C92_shown_partial.
Example C92_shown_ex :
  let a := [("ok", PVal (VBool true)); ("count", PVal (VInt 7))] in
  let outs := [("ok", mkC TBool true false false None false); ("count", mkC (TInt (- 2 ^ 31) (2 ^ 31 - 1)) true false false None false)] in
  finite_message no_cls rnd resp_fields a /\ no_numpy resp_fields /\ ~ In "self" (map fst resp_fields) /\
  outputs_of no_cls (fun f => f) resp_fields outs /\
  exists outs', show_message (demo_class resp_fields) a outs = (outs', Ok tt) /\ has_value_for outs' "count" (VInt 7).
Proof.
  cbn zeta. split; [|split; [|split; [|split]]].
  - intros f t [I|[I|[]]]; injection I as <- <-.
    + exists (VBool true), (PVal (VBool true)). split; [reflexivity|]. split; [apply K_one; constructor|discriminate].
    + exists (VInt 7), (PVal (VInt 7)). split; [reflexivity|]. split; [apply K_one; constructor; cbn; lia|discriminate].
  - intros f e n [I|[I|[]]]; discriminate I.
  - intros [I|[I|[]]]; discriminate I.
  - intros f t [I|[I|[]]]; injection I as <- <-; eexists; (split; [reflexivity|]); (split; [|reflexivity]); apply H_one; [constructor|apply (H_int no_cls true W32)].
  - eexists. split; [reflexivity|]. eexists. split; reflexivity.
Qed.

(** Refuted: with a field named "self" nothing can be shown. *)
Theorem C92_self_refuted : forall cls round m fs a outs, class_of cls round m fs -> finite_message cls round fs a ->
  In "self" (map fst fs) -> show_message m a outs = (outs, Raise).
Proof.
  intros cls round m fs a outs (Fs & N & _) M S.
  assert (E : names m = map fst fs) by (unfold names; rewrite Fs, map_map; reflexivity).
  unfold show_message. rewrite E. apply set_fields_self; [|eauto].
  intros f I. apply in_map_iff in I. destruct I as [[g t] [Q I]]. cbn in Q. subst g. destruct (M f t I) as [_ [o [O _]]]. eauto.
Qed.
Print Assumptions C92_self_refuted.

(** ** Actions *)

Definition keyed (key : string -> string) (fs : list (string * ftype)) : list (string * ftype) := map (fun f => (key (fst f), snd f)) fs.
Lemma keyed_names : forall key fs, map fst (keyed key fs) = map key (map fst fs).
Proof. intros key fs. unfold keyed. rewrite !map_map. reflexivity. Qed.
Lemma result_inj : forall a b, result_key a = result_key b -> a = b.
Proof. intros a b H. unfold result_key in H. cbn in H. congruence. Qed.
Lemma feedback_inj : forall a b, feedback_key a = feedback_key b -> a = b.
Proof. intros a b H. unfold feedback_key in H. cbn in H. congruence. Qed.
Lemma NoDup_keyed : forall key : string -> string, (forall a b : string, key a = key b -> a = b) -> forall l : list string, NoDup l -> NoDup (map key l).
Proof. intros key K l N. apply FinFun.Injective_map_NoDup; [intros a b; apply K|exact N]. Qed.

(** An Action node has one input for each field of the goal and one output for each
    field of the result. *)
Theorem C92_action : forall cls round base goal gs result rs feedback fs,
  class_of cls round goal gs -> class_of cls round result rs -> class_of cls round feedback fs ->
  readable gs -> readable rs -> free gs (f_ins base) -> f_outs base = [] ->
  exists cfg, action_config cls base goal result feedback = Some cfg /\
    ports_of cls (fun f => f) gs (f_ins cfg) /\ outputs_of cls result_key rs (f_outs cfg) /\
    (* and the outputs for feedback: those of the fields of the result *)
    outputs_of cls feedback_key rs (f_outs cfg) /\
    (forall k, dget k (f_outs cfg) <> None <-> exists f, In f (map fst rs) /\ (k = result_key f \/ k = feedback_key f)).
Proof.
  intros cls round base goal gs result rs feedback fs Cg Cr Cf Rg Rr Fg Bo.
  pose proof (class_good cls round goal gs Cg Rg) as Gg. pose proof (class_good cls round result rs Cr Rr) as Gr.
  set (os := (keyed result_key rs ++ keyed feedback_key rs)%list).
  assert (No : NoDup (map fst os)).
  { unfold os. rewrite map_app, !keyed_names. apply nodup_app.
    - apply NoDup_keyed; [exact result_inj|exact (proj1 Gr)].
    - apply NoDup_keyed; [exact feedback_inj|exact (proj1 Gr)].
    - intros x A B. apply in_map_iff in A, B. destruct A as [p [<- _]], B as [q [E _]]. discriminate E. }
  assert (Go : good cls os).
  { split; [exact No|]. intros f t I. unfold os, keyed in I. apply in_app_or in I.
    destruct I as [I|I]; apply in_map_iff in I; destruct I as [[g u] [E I]]; injection E as _ ->; exact (proj2 Gr g _ I). }
  destruct (extra_made cls gs [] Gg ltac:(reflexivity)) as [li [Li Mi]]. destruct (extra_made cls os [] Go ltac:(reflexivity)) as [lo [Lo Mo]].
  assert (Fo : free os (f_outs base)) by (intros f _; rewrite Bo; reflexivity).
  destruct (build_ok cls base gs os li lo Mi Mo (proj1 Gg) No Fg Fo) as [cfg [B [_ [Ei Eo]]]].
  assert (Ec : combined result feedback = map (fun f => (fst f, text (snd f))) os).
  { unfold combined. rewrite (proj1 Cr). unfold os, keyed. rewrite !map_map, map_app, !map_map. cbn. apply py_dict_nodup.
    rewrite map_app, !map_map. cbn. unfold os, keyed in No. rewrite map_app, !map_map in No. exact No. }
  exists cfg. unfold action_config. rewrite (proj1 Cg), Ec, Li, Lo. split; [exact B|].
  split; [exact (plain_inputs cls gs li base cfg Mi (proj1 Gg) Ei Fg)|].
  pose proof (forced_outputs cls os lo base cfg (fun f => f) Mo No Eo Fo) as Ou.
  split; [|split].
  - intros f t I. apply (Ou (result_key f) t). unfold os. apply in_or_app. left. apply in_map_iff. exists (f, t). auto.
  - intros f t I. apply (Ou (feedback_key f) t). unfold os. apply in_or_app. right. apply in_map_iff. exists (f, t). auto.
  - intros k. rewrite Eo, Bo. cbn [dget].
    assert (K : dget k (forced lo) <> None <-> In k (map fst os)).
    { rewrite <- (made_keys cls os lo Mo), <- forced_keys. split.
      - intros H. destruct (in_dec string_dec k (map fst (forced lo))); [assumption|]. exfalso. apply H. now apply dget_nIn.
      - intros H Q. apply dget_nIn in Q. contradiction. }
    rewrite K. unfold os. rewrite map_app, !keyed_names, in_app_iff, !in_map_iff. split.
    + intros [[f [<- I]]|[f [<- I]]]; exists f; auto.
    + intros [f [I [-> | ->]]]; [left|right]; exists f; auto.
Qed.
Print Assumptions C92_action.

(** The result of a goal is shown by the outputs of the node. *)
Theorem C92_result_partial : forall cls round result rs a outs, stays_single round -> class_of cls round result rs ->
  finite_message cls round rs a -> no_numpy rs -> outputs_of cls result_key rs outs ->
  exists outs', set_result result a outs = (outs', Ok tt) /\ shows result_key rs a outs' /\
    forall k, ~ In k (map result_key (map fst rs)) -> dget k outs' = dget k outs.
Proof.
  intros cls round m fs a outs R (Fs & N & _) M P O.
  assert (E : names m = map fst fs) by (unfold names; rewrite Fs, map_map; reflexivity).
  destruct (set_fields_ok cls round result_key result_inj fs a outs R N O (message_plain cls round fs a M P)) as [outs' [A [B [C D]]]].
  { intros f _ H. discriminate H. }
  exists outs'. unfold set_result. rewrite E. auto.
Qed.
Print Assumptions C92_result_partial.

(** Feedback is shown when all its fields are fields of the result too, with the same
    types (as in Fibonacci, the action of the tests). *)
Theorem C92_feedback_partial : forall cls round feedback fs rs a outs, stays_single round -> class_of cls round feedback fs ->
  incl fs rs -> finite_message cls round fs a -> no_numpy fs -> outputs_of cls feedback_key rs outs ->
  exists outs', feedback_tick feedback a outs = (outs', Ok tt) /\ shows feedback_key fs a outs'.
Proof.
  intros cls round m fs rs a outs R (Fs & N & _) Inc M P O.
  assert (E : names m = map fst fs) by (unfold names; rewrite Fs, map_map; reflexivity).
  destruct (set_fields_ok cls round feedback_key feedback_inj fs a outs R N (fun f t I => O f t (Inc _ I)) (message_plain cls round fs a M P)) as [outs' [A [B [C D]]]].
  { intros f _ H. discriminate H. }
  exists outs'. unfold feedback_tick, set_feedback. rewrite E, A. auto.
Qed.
Print Assumptions C92_feedback_partial.

(** Refuted in general: the outputs for feedback are those of the fields of the
    result.  With an action none of whose feedback fields has the name of a result
    field, the node has no output for any feedback field, and feedback never changes
    an output, whatever happened to the outputs before; no error is reported. *)
Theorem C92_feedback_refuted : forall cls round base goal gs result rs feedback fs cfg,
  class_of cls round goal gs -> class_of cls round result rs -> class_of cls round feedback fs ->
  readable gs -> readable rs -> free gs (f_ins base) -> f_outs base = [] ->
  (forall f, In f (map fst fs) -> ~ In f (map fst rs)) ->
  action_config cls base goal result feedback = Some cfg ->
  (forall f, In f (map fst fs) -> dget (feedback_key f) (f_outs cfg) = None) /\
  forall outs a, map fst outs = map fst (f_outs cfg) -> finite_message cls round fs a ->
    feedback_tick feedback a outs = (outs, Ok tt).
Proof.
  intros cls round base goal gs result rs feedback fs cfg Cg Cr Cf Rg Rr Fg Bo D E.
  destruct (C92_action cls round base goal gs result rs feedback fs Cg Cr Cf Rg Rr Fg Bo) as [cfg' [E' [_ [_ [_ K]]]]].
  rewrite E in E'. injection E' as <-.
  assert (X : forall f, In f (map fst fs) -> dget (feedback_key f) (f_outs cfg) = None).
  { intros f I. destruct (dget (feedback_key f) (f_outs cfg)) eqn:Q; [|reflexivity]. exfalso.
    destruct (proj1 (K (feedback_key f))) as [g [J [H|H]]]; [congruence|discriminate H|]. apply feedback_inj in H. subst g. exact (D f I J). }
  split; [exact X|]. intros outs a Ko M.
  assert (En : names feedback = map fst fs) by (unfold names; rewrite (proj1 Cf), map_map; reflexivity).
  unfold feedback_tick, set_feedback. rewrite En. destruct (map fst fs) as [|f l] eqn:Q.
  - reflexivity.
  - rewrite (set_fields_missing feedback_key f l a outs).
    + reflexivity.
    + intros g I. rewrite <- Q in I. apply in_map_iff in I. destruct I as [[h t] [H I]]. cbn in H. subst h. destruct (M g t I) as [_ [o [O _]]]. eauto.
    + intros g _ H. discriminate H.
    + apply dget_nIn. rewrite Ko. apply dget_nIn. apply X. left. reflexivity.
Qed.
Print Assumptions C92_feedback_refuted.
(** An action with the result "sequence" and the feedback "progress" and "done": the
    node has no output for the feedback. *)
Example C92_feedback_ex :
  class_of no_cls rnd (demo_class goal_fields) goal_fields /\ class_of no_cls rnd (demo_class result_fields) result_fields /\
  class_of no_cls rnd (demo_class feedback_fields) feedback_fields /\
  (forall f, In f (map fst feedback_fields) -> ~ In f (map fst result_fields)) /\
  (exists cfg, action_config no_cls node_base (demo_class goal_fields) (demo_class result_fields) (demo_class feedback_fields) = Some cfg /\
     map fst (f_outs cfg) = ["result.sequence"; "feedback.sequence"]) /\
  finite_message no_cls rnd feedback_fields [("progress", PVal (VInt 3)); ("done", PVal (VBool false))].
Proof.
  split; [exact goal_class|]. split; [exact result_class|]. split; [exact feedback_class|]. split; [|split].
  - intros f [<-|[<-|[]]] [I|[]]; discriminate I.
  - eexists. split; reflexivity.
  - intros f t [I|[I|[]]]; injection I as <- <-.
    + exists (VInt 3), (PVal (VInt 3)). split; [reflexivity|]. split; [apply K_one; constructor; cbn; lia|discriminate].
    + exists (VBool false), (PVal (VBool false)). split; [reflexivity|]. split; [apply K_one; constructor|discriminate].
Qed.
(** An input without a value, and an input that is not there: no message is made, and the node
    reports an error. *)
Theorem C92_unset : forall m ins f rest, names m = f :: rest ->
  (dget f ins = None \/ exists c, dget f ins = Some c /\ c_val c = None) -> exists e, make_message m ins = Err e.
Proof.
  intros m ins f rest E H. unfold make_message. rewrite E. cbn [fill]. destruct H as [-> | (c & -> & V)]; [eexists; reflexivity|].
  rewrite V. eexists. reflexivity.
Qed.
Print Assumptions C92_unset.
Example C92_unset_ex : exists e, make_message (demo_class [("x", FBool)]) [("x", mkC TBool true true false None false)] = Err e.
Proof. apply (C92_unset _ _ "x" []); [reflexivity|]. right. eexists. split; reflexivity. Qed.
