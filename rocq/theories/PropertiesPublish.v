(** Properties C89 and C90: what is published about the data of a tree. *)
From Coq Require Import Ascii ZArith Bool Arith String Permutation List.
From Coq.Floats Require Import SpecFloat.
From Verif Require Import Base ModelData ModelUtility ModelTree ModelSubtreeNode ModelJson ModelPublish.
From Verif Require Import SpecData SpecFlow SpecPublish Demo ProofsPublish.
From Verif Require DemoJson.
Import ListNotations.
Local Open Scope string_scope.

(** ** C89 The published data of a tree *)

(** Once the data flow of a tree is initialized, the published data list every wiring of the
    tree, as often as the tree has it, and nothing else, whatever the nodes do (if they can
    be written, see [C89_dict_refuted]). *)
Theorem C89_lists : forall F r fuel (ev : env F) d w w1 l w2 ds,
  NoDup (sd_ids d) -> initialize d w = (w1, Ok tt) -> runs ev w1 l w2 ->
  get_wiring_data r fuel (sd_ids d) w2 = Ok ds ->
  Permutation (map (fun e => Some (about e)) ds) (map as_wiring (sd_wires d)).
Proof. intros F r fuel ev. exact (lists r fuel ev). Qed.
Print Assumptions C89_lists.

(** Each entry tells the truth: if both ends exist it gives their types and the value the
    source holds at this moment, and is marked current exactly if the target holds a value
    that is written in the same way (or both hold none).  If an end is missing nothing is
    given. *)
Theorem C89_entry : forall F r fuel ids (w : world F) ds e, get_wiring_data r fuel ids w = Ok ds -> In e ds ->
  wired w (wd_src e) (mkConn (wd_skey e) (wd_tgt e) (wd_tkey e)) /\
  match output w (wd_src e) (wd_skey e), w_conns w (wd_tgt e), input w (wd_tgt e) (wd_tkey e) with
  | Some s, Some _, Some t =>
      wd_types e = Some (serialize_type (runtime_type s), serialize_type (runtime_type t)) /\
      serialize_value r fuel s = Ok (wd_text e) /\
      (wd_current e = true <-> serialize_value r fuel t = Ok (wd_text e))
  | _, _, _ => wd_types e = None /\ wd_text e = None /\ wd_current e = false
  end.
Proof.
  intros F r fuel ids w ds e Hd H. destruct (entry r fuel ids w ds e Hd H) as [Hw He]. split; [exact Hw|]. destruct Hw as (l & Hl & _).
  unfold wiring_data, output, input in *. cbn [k_src k_tid k_tkey] in He. rewrite Hl in He.
  destruct (dget (wd_skey e) (w_outs w (wd_src e))) as [s|]; [|inversion He as [X]; cbn; auto].
  destruct (w_conns w (wd_tgt e)) as [l'|]; [|inversion He as [X]; cbn; auto].
  destruct (dget (wd_tkey e) (w_ins w (wd_tgt e))) as [t|]; [|inversion He as [X]; cbn; auto].
  destruct (serialize_value r fuel s) as [a|x|] eqn:Es; try discriminate. destruct (serialize_value r fuel t) as [b|x|] eqn:Et; try discriminate.
  assert (X1 : wd_types e = Some (serialize_type (runtime_type s), serialize_type (runtime_type t))) by (injection He as <-; reflexivity).
  assert (X2 : wd_text e = a) by (injection He as <-; reflexivity).
  assert (X3 : wd_current e = text_eqb a b) by (injection He as <-; reflexivity).
  split; [exact X1|]. rewrite X2, X3, text_eqb_eq. split; [reflexivity|]. split; [intros ->; reflexivity|congruence].
Qed.
Print Assumptions C89_entry.

(** After a successful tick of a node, each wiring of an output this tick updated is marked
    current, the target holds the very value, unless a later wiring of the node feeds another
    updated output to the same input.  This needs that the value has only one form; the types
    of the ends are compatible, as wiring them requires. *)
Theorem C89_current : forall E r fuel (ev : env E) n k name cs w w' st pre c post v s t text,
  call OTick (make_obj ev n k name cs) w = (w', Ok st) ->
  w_conns w' n = Some (pre ++ c :: post)%list -> w_conns w' (k_tid c) <> None ->
  output w' n (k_src c) = Some s -> c_upd s = true -> c_val s = Some v ->
  (forall c' v', In c' post -> fresh w' n c' v' -> ~ (k_tid c' = k_tid c /\ k_tkey c' = k_tkey c)) ->
  input w' (k_tid c) (k_tkey c) = Some t -> c_static t = false ->
  ty_compat (c_ty t) (c_ty s) = true -> in_form s -> in_form t -> one_form (c_ty t) v ->
  serialize_value r fuel s = Ok text ->
  exists e, wiring_data r fuel w' n c = Ok e /\ wd_text e = text /\ wd_current e = true /\ c_val t = Some v.
Proof. exact current. Qed.
Print Assumptions C89_current.

(** Containers keep their values in form, and these values have only one form. *)
Theorem C89_in_form : forall ops c, in_form c -> in_form (cops_run ops c).
Proof. exact in_form_ops. Qed.
Print Assumptions C89_in_form.
Theorem C89_plain : forall t v, plain t v -> one_form t v.
Proof. exact plain_one_form. Qed.
Print Assumptions C89_plain.

(** A leaf whose ticks write what the outside world holds into its output. *)
Definition penv : env value := mkEnv value
  (fun o n _ _ e => (e, match o, n with OTick, 1 => [("out", e)] | _, _ => [] end,
                     match o with OTick => Ok SUCCEEDED | OShutdown => Ok SHUTDOWN | _ => Ok IDLE end))
  (fun _ _ _ => Ok bounds_free) (fun e => (e, 0%Z)).
Definition pdef : subdef := mkSD (Ok None) [1; 2; 3]
  [mkIW (Some 1) "out" (Some 2) "in"; mkIW (Some 3) "out" (Some 2) "more"; mkIW (Some 1) "out" (Some 3) "in"].
Definition pworld (t : ctype) (held : option value) (v : value) : world value :=
  mkW (fun _ => IDLE) (fun _ => attrs0)
    (fun n => match n with 2 => [("in", mkC t true false false held false)]
                         | 3 => [("in", mkC t true false false None false)] | _ => [] end)
    (fun n => match n with 1 => [("out", mkC t true false false None false)] | _ => [] end)
    (fun _ => None) [] v.
Definition pstart t held v := fst (initialize pdef (pworld t held v)).
Definition pros : ros := DemoJson.d_ros.
Definition ptick t held v := call OTick (make_obj penv 1 KLeaf "leaf" []) (pstart t held v).

Example C89_lists_example : NoDup (sd_ids pdef) /\ snd (initialize pdef (pworld TBool None (VBool true))) = Ok tt /\
  exists ds, get_wiring_data pros 9 (sd_ids pdef) (pstart TBool None (VBool true)) = Ok ds /\
  map about ds = [(1, "out", 2, "in"); (1, "out", 3, "in"); (3, "out", 2, "more")].
Proof. split; [repeat constructor; simpl; intuition discriminate|]. split; [reflexivity|]. eexists. split; reflexivity. Qed.

Definition pconn : conn := mkConn "out" 2 "in".
Definition pstr : ctype := TStr 10 None.
Example C89_current_example : exists w' s t,
  ptick pstr (Some (VStr "a")) (VStr "b") = (w', Ok SUCCEEDED) /\
  w_conns w' 1 = Some [pconn; mkConn "out" 3 "in"] /\ w_conns w' 2 <> None /\
  output w' 1 "out" = Some s /\ c_upd s = true /\ c_val s = Some (VStr "b") /\
  (forall c' v', In c' [mkConn "out" 3 "in"] -> fresh w' 1 c' v' -> ~ (k_tid c' = 2 /\ k_tkey c' = "in")) /\
  input w' 2 "in" = Some t /\ c_static t = false /\ ty_compat (c_ty t) (c_ty s) = true /\
  in_form s /\ in_form t /\ one_form (c_ty t) (VStr "b") /\ serialize_value pros 9 s = Ok (Some (JStr "b")).
Proof.
  assert (Hn : forall c, c_val c = Some (VStr "b") -> c_ty c = pstr -> in_form c).
  { intros c Hv Ht v H. rewrite Hv in H. inversion H; subst. rewrite Ht. reflexivity. }
  exists (fst (ptick pstr (Some (VStr "a")) (VStr "b"))). do 2 eexists.
  split; [vm_compute; reflexivity|]. split; [vm_compute; reflexivity|]. split; [vm_compute; discriminate|].
  split; [vm_compute; reflexivity|]. split; [reflexivity|]. split; [reflexivity|].
  split; [intros c' v' [<- | []] _ [X _]; discriminate X|].
  split; [vm_compute; reflexivity|]. split; [reflexivity|]. split; [vm_compute; reflexivity|].
  split; [apply Hn; reflexivity|]. split; [apply Hn; reflexivity|]. split; [apply C89_plain; exact I|reflexivity].
Qed.

(** Not so for a value with two forms: the input held -0.0 and keeps it when it is given 0.0,
    because Python considers them equal; the wiring is not marked current.  The same with a
    dictionary whose keys come in another order. *)
Theorem C89_zero_refuted : exists w' s t st,
  ptick (TFloat (S754_infinity true) (S754_infinity false)) (Some (VFloat (S754_zero true))) (VFloat (S754_zero false)) =
    (w', Ok st) /\
  output w' 1 "out" = Some s /\ c_upd s = true /\ c_val s = Some (VFloat (S754_zero false)) /\
  input w' 2 "in" = Some t /\ c_val t = Some (VFloat (S754_zero true)) /\ in_form s /\ in_form t /\
  exists e, wiring_data pros 9 w' 1 pconn = Ok e /\ wd_current e = false.
Proof.
  assert (Hn : forall c b, c_val c = Some (VFloat (S754_zero b)) -> c_ty c = TFloat (S754_infinity true) (S754_infinity false) -> in_form c).
  { intros c b Hv Ht v H. rewrite Hv in H. inversion H; subst. rewrite Ht. reflexivity. }
  exists (fst (ptick (TFloat (S754_infinity true) (S754_infinity false)) (Some (VFloat (S754_zero true))) (VFloat (S754_zero false)))).
  do 3 eexists. split; [vm_compute; reflexivity|]. split; [vm_compute; reflexivity|]. split; [reflexivity|]. split; [reflexivity|].
  split; [vm_compute; reflexivity|]. split; [reflexivity|]. split; [eapply Hn; reflexivity|]. split; [eapply Hn; reflexivity|].
  eexists. split; vm_compute; reflexivity.
Qed.
Print Assumptions C89_zero_refuted.

Definition pdict : ctype := TDict pstr false 10 false.
Definition pab : value := VDict [("a", VStr "x"); ("b", VStr "y")].
Definition pba : value := VDict [("b", VStr "y"); ("a", VStr "x")].
Theorem C89_order_refuted : exists w' st, ptick pdict (Some pba) pab = (w', Ok st) /\
  option_map c_val (output w' 1 "out") = Some (Some pab) /\ option_map c_upd (output w' 1 "out") = Some true /\
  option_map c_val (input w' 2 "in") = Some (Some pba) /\
  exists e, wiring_data pros 9 w' 1 pconn = Ok e /\ wd_current e = false.
Proof.
  exists (fst (ptick pdict (Some pba) pab)). eexists. split; [vm_compute; reflexivity|]. split; [vm_compute; reflexivity|].
  split; [vm_compute; reflexivity|]. split; [vm_compute; reflexivity|]. eexists. split; vm_compute; reflexivity.
Qed.
Print Assumptions C89_order_refuted.

(** The data are written, all of them, unless some wired value cannot be written; then none
    are: the exception ends the publishing. *)
Theorem C89_written : forall F r fuel ids (w : world F),
  (forall n l c, In n ids -> w_conns w n = Some l -> In c l ->
     (forall s, output w n (k_src c) = Some s -> exists x, serialize_value r fuel s = Ok x) /\
     (forall t, input w (k_tid c) (k_tkey c) = Some t -> exists x, serialize_value r fuel t = Ok x)) ->
  exists ds, get_wiring_data r fuel ids w = Ok ds.
Proof. intros F. exact written. Qed.
Print Assumptions C89_written.

(** A dictionary of numbers that a node gives to another keeps all data of the tree from
    being published. *)
Definition pnum : ctype := TDict (TInt 0 9) false 10 false.
Theorem C89_dict_refuted : exists w' st, ptick pnum None (VDict [("a", VInt 1)]) = (w', Ok st) /\
  option_map c_val (output w' 1 "out") = Some (Some (VDict [("a", VInt 1)])) /\
  (forall r fuel, get_wiring_data r fuel (sd_ids pdef) w' = Raise).
Proof.
  exists (fst (ptick pnum None (VDict [("a", VInt 1)]))). eexists. split; [vm_compute; reflexivity|]. split; [vm_compute; reflexivity|].
  intros r [|fuel]; vm_compute; reflexivity.
Qed.
Print Assumptions C89_dict_refuted.

(** The message about states has one entry for each node of the tree, in their order, with the
    state the node has at this moment. *)
Theorem C89_states : forall F ids (w : world F), map fst (node_states ids w) = ids /\
  forall n s, In (n, s) (node_states ids w) <-> In n ids /\ s = w_st w n.
Proof.
  intros F ids w. unfold node_states. split; [rewrite map_map; apply map_id|]. intros n s. rewrite in_map_iff. split.
  - intros (m & [= <- <-] & I). auto.
  - intros [I ->]. exists n. auto.
Qed.
Print Assumptions C89_states.

(** ** C90 Switching data publishing on and off *)

(** While publishing is switched off, nobody asks for it to be switched on and no thread is
    about to publish, no data are published, in any interleaving. *)
Theorem C90_off : forall M (s s' : pubsys M), p_on s = false -> ~ In PSend (p_threads s) -> idle_on s ->
  steps idle_on s s' ->
  p_on s' = false /\ exists new, p_log s' = (new ++ p_log s)%list /\ Forall (fun x => x = NoData) new.
Proof.
  intros M s s' H1 H2 H3 H. destruct (calm_steps M s s' H (conj H1 (conj H2 H3))) as [[H4 _] H5]. auto.
Qed.
Print Assumptions C90_off.

(** If no thread is about to publish when the switch is turned off, then when the request
    has been served the last message is the empty one. *)
Theorem C90_cleared : forall M (s s' : pubsys M) i, nth_error (p_threads s) i = Some (PNested false) ->
  p_on s = false -> ~ In PSend (p_threads s) -> idle_on s -> steps idle_on s s' ->
  nth_error (p_threads s') i = Some PEnd -> exists old, p_log s' = NoData :: old.
Proof. intros M s s' i Hi H1 H2 H3 H He. eapply (off_ends M s s' i H (conj H1 (conj H2 H3))); eauto. Qed.
Print Assumptions C90_cleared.

(** While it is switched on, each tick publishes data. *)
Theorem C90_on : forall M (s s' : pubsys M) i, nth_error (p_threads s) i = Some PData -> p_on s = true ->
  steps (fun s => p_on s = true) s s' -> nth_error (p_threads s') i = Some PEnd ->
  exists m new, p_log s' = (new ++ p_log s)%list /\ In (Data m) new.
Proof. intros M s s' i Hi H1 H He. eapply (on_sends M s s' i H H1 (p_log s)); eauto. exists []. reflexivity. Qed.
Print Assumptions C90_on.

(** A request that is served while nobody else switches takes effect on the tree and on its
    subtrees. *)
Theorem C90_switched : forall M (s s' : pubsys M) i v, nth_error (p_threads s) i = Some (PSet v) -> only_switch i s ->
  steps (only_switch i) s s' -> nth_error (p_threads s') i = Some PEnd -> p_on s' = v /\ p_nested s' = v.
Proof. exact switched. Qed.
Print Assumptions C90_switched.
Ltac others := let j := fresh in let x := fresh in intros [|[|[|j]]] x; cbn; intros [=]; subst; try congruence; auto; destruct j; discriminate.
Example C90_switched_example : exists s', steps (only_switch 0) (mkP true true [] [PSet false; PSend]) s' /\
  nth_error (p_threads s') 0 = Some PEnd /\ p_on s' = false /\ p_nested s' = false /\ p_log s' = [NoData; Data 4].
Proof.
  eexists. split; [|split; [|split; [|split]]].
  - eapply steps_one; [eapply (pubs_step _ [] _ [PSend] 0); reflexivity|cbn [pub_step p_on p_nested p_log p_threads app negb]; others|].
    eapply steps_one; [eapply (pubs_step _ [PNested false] _ [] 4); reflexivity|cbn [pub_step p_on p_nested p_log p_threads app negb]; others|].
    eapply steps_one; [eapply (pubs_step _ [] _ [PEnd] 0); reflexivity|cbn [pub_step p_on p_nested p_log p_threads app negb]; others|].
    eapply steps_one; [eapply (pubs_step _ [] _ [PEnd] 0); reflexivity|cbn [pub_step p_on p_nested p_log p_threads app negb]; others|].
    apply steps_none.
  - reflexivity.
  - reflexivity.
  - reflexivity.
  - reflexivity.
Qed.

Ltac pstep pre post m :=
  eapply steps_one; [eapply (pubs_step _ pre _ post m); reflexivity|first [exact I|cbn; intros v X; repeat (destruct X as [X | X]; [inversion X; auto|]); contradiction]|cbn [pub_step p_on p_nested p_log p_threads app negb]].

(** Publishing is on; the tick thread has just tested this when the request to switch it off
    arrives and is served.  Then the data are published, after the empty message, and no
    later tick replaces them. *)
Definition pon (l : list place) : pubsys nat := mkP true true [] l.
Definition any {M} (s : pubsys M) : Prop := True.
Theorem C90_race_refuted : exists s', steps any (pon [PData; PSet false]) s' /\
  at_rest s' /\ p_on s' = false /\ p_log s' = [Data 7; NoData] /\
  forall s2, steps idle_on s' s2 ->
    exists new, p_log s2 = (new ++ Data 7 :: [NoData])%list /\ Forall (fun x => x = NoData) new.
Proof.
  eexists. split; [|split].
  - unfold pon.
    pstep (@nil place) [PSet false] 0. pstep [PSend] (@nil place) 0. pstep [PSend] (@nil place) 0. pstep [PSend] (@nil place) 0.
    pstep (@nil place) [PEnd] 7. apply steps_none.
  - intros x [<- | [<- | []]]; reflexivity.
  - split; [reflexivity|]. split; [reflexivity|]. intros s2 H. eapply C90_off in H; try reflexivity.
    + destruct H as [_ H]. exact H.
    + cbn. intros [X | [X | []]]; discriminate X.
    + intros v [X | [X | []]]; discriminate X.
Qed.
Print Assumptions C90_race_refuted.

(** Two requests at once may leave the tree and its subtrees switched differently. *)
Theorem C90_flags_refuted : exists s' : pubsys nat, steps any (mkP false false [] [PSet true; PSet false]) s' /\
  at_rest s' /\ p_on s' = true /\ p_nested s' = false.
Proof.
  eexists. split; [|split].
  - pstep [PSet true] (@nil place) 0. pstep (@nil place) [PNested false] 0. pstep (@nil place) [PNested false] 0.
    pstep (@nil place) [PNested false] 0. pstep [PEnd] (@nil place) 0. pstep [PEnd] (@nil place) 0. apply steps_none.
  - intros x [<- | [<- | []]]; reflexivity.
  - split; reflexivity.
Qed.
Print Assumptions C90_flags_refuted.

(** A request that is served while a tick is about to test, and a tick while it is on. *)
Example C90_example : exists s',
  nth_error [PData; PNested false] 1 = Some (PNested false) /\
  steps idle_on (mkP false true [Data 7] [PData; PNested false]) s' /\
  nth_error (p_threads s') 1 = Some PEnd /\ p_log s' = [NoData; Data 7].
Proof.
  eexists. split; [reflexivity|]. split.
  - pstep (@nil place) [PNested false] 0. pstep [PEnd] (@nil place) 0. pstep [PEnd] (@nil place) 0. apply steps_none.
  - split; reflexivity.
Qed.
Example C90_on_example : exists s', steps (fun s => p_on s = true) (pon [PData]) s' /\
  nth_error (p_threads s') 0 = Some PEnd /\ p_log s' = [Data 5].
Proof.
  unfold pon. eexists. split.
  - eapply steps_one; [eapply (pubs_step _ [] _ [] 0); reflexivity|reflexivity|cbn [pub_step p_on p_nested p_log p_threads app]].
    eapply steps_one; [eapply (pubs_step _ [] _ [] 5); reflexivity|reflexivity|apply steps_none].
  - split; reflexivity.
Qed.
