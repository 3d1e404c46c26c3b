(** Proofs about WaitForService and TopicPublisher. *)
From Coq Require Import String ZArith Bool SpecFloat Arith Lia List.
From Verif Require Import Base ModelData ModelUtility ModelTree ModelLeaf SpecLeaf ProofsLeaf ProofsWait ProofsTopic.
Import ListNotations.
Local Open Scope string_scope.
Local Open Scope list_scope.

Section WaitService.
Variables (n : nid) (name : string).
Notation hist := (history waitsvc_leaf (fun _ => True) waitsvc_out n name).

Lemma asking_snoc : forall l it, asking_since n (l ++ [it]) =
  let x := w_ext (i_before it) in
  match i_op it, i_res it with
  | OSetup, Ok _ | OReset, Ok _ | OUntick, Ok _ => None
  | OTick, Ok _ =>
      let acc := if is_updated (w_ins (i_before it) n) ["service_name"] then None else asking_since n l in
      if ws_ready x then acc else match acc with None => Some (ws_clock x) | Some t => Some t end
  | _, _ => asking_since n l
  end.
Proof. intros. unfold asking_since. rewrite fold_left_app. reflexivity. Qed.

Lemma wreset : forall x x' r, waitsvc_reset x = (x', r) ->
  (r = Ok IDLE /\ ws_called x' = None /\ ws_timeout x' = ws_timeout x /\ ws_ready x' = ws_ready x /\ ws_clock x' = ws_clock x /\ ws_lag x' = ws_lag x) \/
  (x' = x /\ r = Err EConfig).
Proof.
  intros x x' r H. unfold waitsvc_reset in H. destruct (ws_client x); [destruct (ws_destroy x)|]; injection H as <- <-; cbn; auto 8.
Qed.
Lemma wtick : forall st ins x x' ws s, waitsvc_leaf OTick st ins x = (x', ws, Ok s) ->
  let c0 := if is_updated ins ["service_name"] then None else ws_called x in
  ws_timeout x' = ws_timeout x /\
  ws_called x' = (if ws_ready x then c0 else match c0 with None => Some (ws_clock x) | Some t => Some t end) /\
  s = (if ws_ready x then SUCCEEDED
       else if SFltb (ws_timeout x) (match c0 with None => seconds (ws_clock x + ws_lag x) (ws_clock x) | Some t => seconds (ws_clock x) t end)
            then FAILED else RUNNING).
Proof.
  intros st ins x x' ws s H. unfold waitsvc_leaf in H. unfold onok at 1 in H. unfold is_updated.
  assert (PO : forall y, ws_timeout y = ws_timeout x -> ws_ready y = ws_ready x -> ws_clock y = ws_clock x -> ws_lag y = ws_lag x ->
    waitsvc_poll ins y = (x', ws, Ok s) ->
    ws_timeout x' = ws_timeout x /\
    ws_called x' = (if ws_ready x then ws_called y else match ws_called y with None => Some (ws_clock x) | Some t => Some t end) /\
    s = (if ws_ready x then SUCCEEDED
         else if SFltb (ws_timeout x) (match ws_called y with None => seconds (ws_clock x + ws_lag x) (ws_clock x) | Some t => seconds (ws_clock x) t end)
              then FAILED else RUNNING)).
  { intros y A B C D Q. unfold waitsvc_poll, onok in Q. destruct (if ws_client y then _ else _); try discriminate.
    cbn in Q. rewrite A, B, C, D in Q. destruct (ws_ready x); [injection Q as <- <- <-; auto|].
    destruct (ws_called y); injection Q as <- <- <-; cbn; auto. }
  destruct (io_any_updated ins ["service_name"]) as [[|]|e|]; try discriminate.
  - destruct (waitsvc_reset x) as [x1 r1] eqn:R. apply wreset in R. destruct R as [(-> & A & B & C & D & E)|(-> & ->)]; [|discriminate].
    cbv zeta. specialize (PO x1 B C D E H). rewrite A in PO. exact PO.
  - cbv zeta. apply PO; auto.
Qed.

Definition winv (l : list (item waitsvc)) (w : world waitsvc) : Prop :=
  w_st w n = UNINITIALIZED \/ w_st w n = SHUTDOWN \/ w_st w n = BROKEN \/
  (ws_called (w_ext w) = asking_since n l /\
   exists ins, setup_inputs n l = Some ins /\ io_value_as as_float ins "wait_for_service_seconds" = Ok (ws_timeout (w_ext w))).

Lemma wstates : forall o st ins x x' ws s, waitsvc_leaf o st ins x = (x', ws, Ok s) -> state_in s (expected o) = true.
Proof.
  intros o st ins x x' ws s F. destruct o; [|apply wtick in F; destruct F as (_ & _ & ->); destruct (ws_ready x); [|destruct (SFltb _ _)]; reflexivity| | |];
    unfold waitsvc_leaf in F; unfold onok in F;
    try (destruct (waitsvc_reset x) as [z q] eqn:R; apply wreset in R; destruct R as [(-> & _)|(_ & ->)]; try discriminate F);
    repeat match type of F with context [match ?r with Ok _ => _ | _ => _ end] => destruct r; try discriminate F end;
    injection F as _ _ <-; reflexivity.
Qed.

Lemma whist : forall l w, hist l w -> no_exception l -> winv l w.
Proof.
  induction 1 as [w S _|l w w' H IH S (O1 & O2 & O3)|l w o w' r H IH C]; intros NE; unfold winv in *.
  - auto.
  - rewrite S, O2, O3. auto.
  - apply no_exception_snoc in NE. destruct NE as [NE NR]. specialize (IH NE). cbn in NR.
    apply leaf_call in C. destruct C as [(RF & -> & R)|[(-> & _ & -> & R)|(NRF & x' & ws & r0 & F & E & I & _ & O & _)]].
    + rewrite asking_snoc, setup_inputs_snoc. cbn. destruct R as [->|(-> & _ & ->)]; [destruct o|]; cbn; exact IH.
    + cbn. rewrite upd_same. auto.
    + destruct O as [(R & _)|[(O & _)|(s & Q & O & P)]]; [congruence|auto|]. subst r0. rewrite (wstates _ _ _ _ _ _ _ F) in P.
      destruct P as [(_ & [->|[-> R]])|(P & _)]; [|congruence|discriminate].
      destruct o; cbn [ins_for] in F.
      * specialize (I ltac:(discriminate)). unfold waitsvc_leaf, onok in F.
        destruct (io_value _ _); try discriminate. destruct (io_value_as _ _ _) eqn:V; try discriminate. injection F as <- <- <-.
        do 3 right. rewrite asking_snoc, setup_inputs_snoc, E. cbn. split; [reflexivity|]. eexists. split; [reflexivity|]. rewrite I. exact V.
      * destruct IH as [A|[A|[A|(A & ins & B & D)]]]; try (exfalso; apply NRF; cbn; auto; fail).
        apply wtick in F. destruct F as (T & CA & _). do 3 right. rewrite asking_snoc, setup_inputs_snoc, E. cbn. rewrite CA, T, A. eauto.
      * destruct IH as [A|[A|[A|(A & ins & B & D)]]]; try (exfalso; apply NRF; cbn; auto; fail).
        injection F as <- <- <-. do 3 right. rewrite asking_snoc, setup_inputs_snoc, E. cbn. eauto.
      * destruct IH as [A|[A|[A|(A & ins & B & D)]]]; try (exfalso; apply NRF; cbn; auto; fail).
        unfold waitsvc_leaf in F. destruct (waitsvc_reset (w_ext w)) as [z q] eqn:R. apply wreset in R.
        destruct R as [(-> & K1 & K2 & _)|(_ & ->)]; [|discriminate F]. injection F as <- <- <-.
        do 3 right. rewrite asking_snoc, setup_inputs_snoc, E. cbn. rewrite K1, K2. eauto.
      * right; left. rewrite O. unfold waitsvc_leaf in F. destruct (waitsvc_reset (w_ext w)) as [z q] eqn:R. apply wreset in R.
        destruct R as [(-> & _)|(_ & ->)]; [|discriminate F]. injection F as _ _ <-. reflexivity.
Qed.

Lemma waitsvc_tick : forall l w w' s, hist l w -> no_exception l -> call OTick (the_leaf waitsvc_leaf n name) w = (w', Ok s) ->
  exists ins d, setup_inputs n l = Some ins /\ io_value_as as_float ins "wait_for_service_seconds" = Ok d /\
    let x := w_ext w in
    let since := if is_updated (w_ins w n) ["service_name"] then None else asking_since n l in
    let elapsed := match since with None => seconds (ws_clock x + ws_lag x) (ws_clock x) | Some t => seconds (ws_clock x) t end in
    s = if ws_ready x then SUCCEEDED else if SFltb d elapsed then FAILED else RUNNING.
Proof.
  intros l w w' s H NE C. apply whist in H; [|exact NE]. apply leaf_call in C.
  destruct C as [(RF & _ & [R|(R & _)])|[(_ & _ & _ & R)|(NR & x' & ws & r0 & F & E & I & _ & O & _)]]; try discriminate.
  destruct H as [A|[A|[A|(A & ins & B & D)]]]; try (exfalso; apply NR; cbn; auto; fail).
  destruct O as [(R & _)|[(_ & e & R)|(s' & Q & O & [(_ & [R|(_ & R)])|(P & e & R)])]]; try discriminate.
  injection R as ->. subst r0. cbn [ins_for] in F. apply wtick in F. destruct F as (_ & _ & F).
  exists ins, (ws_timeout (w_ext w)). split; [exact B|]. split; [exact D|]. rewrite A in F. exact F.
Qed.
End WaitService.

Section Publisher.
Variables (n : nid) (name : string).

Lemma value_as_noraise : forall {A} (f : value -> option A) (ins : iomap) k, io_value_as f ins k <> Raise.
Proof.
  intros A f ins k H. unfold io_value_as, io_value in H. destruct (dget k ins) as [c|]; [destruct (c_val c)|]; cbn in H; try discriminate H; destruct (f _); discriminate H.
Qed.

Lemma publish_spec : forall ins x x' ws r, pub_open ins x = (x', ws, r) ->
  ws = [] /\ pb_sent x' = pb_sent x ++ (match r with Ok _ => if is_updated ins ["message"] then match io_value ins "message" with Ok m => [m] | _ => [] end else [] | _ => [] end) /\
  (forall s, r = Ok s -> s = SUCCEEDED /\ (is_updated ins ["message"] = true -> exists m, io_value ins "message" = Ok m)) /\ r <> Raise.
Proof.
  intros ins x x' ws r H.
  assert (PB : forall y, pb_sent y = pb_sent x -> pub_publish ins y = (x', ws, r) ->
    ws = [] /\ pb_sent x' = pb_sent x ++ (match r with Ok _ => if is_updated ins ["message"] then match io_value ins "message" with Ok m => [m] | _ => [] end else [] | _ => [] end) /\
    (forall s, r = Ok s -> s = SUCCEEDED /\ (is_updated ins ["message"] = true -> exists m, io_value ins "message" = Ok m)) /\ r <> Raise).
  { intros y Y Q. unfold pub_publish, onok in Q. unfold is_updated.
    assert (NR : forall ks, io_any_updated ins ks <> Raise).
    { induction ks as [|k ks IH]; cbn; [discriminate|]. destruct (dget k ins); [|discriminate]. destruct (io_any_updated ins ks); cbn; congruence. }
    assert (NV : io_value ins "message" <> Raise) by (unfold io_value; destruct (dget _ ins) as [c|]; [destruct (c_val c)|]; discriminate).
    destruct (io_any_updated ins ["message"]) as [[|]|e|] eqn:U.
    - destruct (io_value ins "message") as [m|e|] eqn:V; injection Q as <- <- <-; cbn; rewrite Y, ?app_nil_r.
      + split; [reflexivity|]. split; [reflexivity|]. split; [|discriminate]. intros s K. injection K as <-. split; [reflexivity|]. eauto.
      + split; [reflexivity|]. split; [reflexivity|]. split; [|discriminate]. intros s K. discriminate K.
      + congruence.
    - injection Q as <- <- <-. rewrite Y, app_nil_r. split; [reflexivity|]. split; [reflexivity|]. split; [|discriminate].
      intros s K. injection K as <-. split; [reflexivity|discriminate].
    - injection Q as <- <- <-. rewrite Y, app_nil_r. split; [reflexivity|]. split; [reflexivity|]. split; [|discriminate]. intros s K. discriminate K.
    - exfalso. exact (NR _ U). }
  unfold pub_open in H. destruct (pb_pub x) as [[|]|]; [exact (PB x eq_refl H)| |];
    unfold onok in H;
    repeat match type of H with context [match ?r with Ok _ => _ | _ => _ end] =>
      destruct r eqn:?; [|injection H as <- <- <-; cbn; rewrite app_nil_r; split; [reflexivity|]; split; [reflexivity|]; split; [intros s K; discriminate K|discriminate]
                         |exfalso; match goal with K : io_value_as _ _ _ = Raise |- _ => exact (value_as_noraise _ _ _ K)
                                   | K : io_value _ _ = Raise |- _ => unfold io_value in K; destruct (dget _ ins) as [c|]; [destruct (c_val c)|]; discriminate K end] end;
    apply (PB (pub_set x (Some true)) eq_refl H).
Qed.

Lemma publisher_tick : forall w w' s, call OTick (the_leaf publisher_leaf n name) w = (w', Ok s) ->
  s = SUCCEEDED /\
  if is_updated (w_ins w n) ["message"] then exists m, io_value (w_ins w n) "message" = Ok m /\ pb_sent (w_ext w') = pb_sent (w_ext w) ++ [m]
  else pb_sent (w_ext w') = pb_sent (w_ext w).
Proof.
  intros w w' s C. apply leaf_call in C.
  destruct C as [(RF & _ & [R|(R & _)])|[(_ & _ & _ & R)|(NR & x' & ws & r0 & F & E & I & _ & O & _)]]; try discriminate.
  destruct O as [(R & _)|[(_ & e & R)|(s' & Q & O & [(_ & [R|(_ & R)])|(P & e & R)])]]; try discriminate.
  injection R as ->. subst r0. cbn [ins_for] in F. rewrite E.
  assert (X : forall y, pb_sent y = pb_sent (w_ext w) -> pub_open (w_ins w n) y = (x', ws, Ok s') ->
    s' = SUCCEEDED /\
    if is_updated (w_ins w n) ["message"] then exists m, io_value (w_ins w n) "message" = Ok m /\ pb_sent x' = pb_sent (w_ext w) ++ [m]
    else pb_sent x' = pb_sent (w_ext w)).
  { intros y Y G. apply publish_spec in G. destruct G as (_ & G & K & _). destruct (K s' eq_refl) as [K1 K2]. split; [exact K1|].
    rewrite Y in G. destruct (is_updated _ _); [|rewrite G; apply app_nil_r]. destruct (K2 eq_refl) as [m M]. exists m. rewrite M in G. auto. }
  unfold publisher_leaf, onok in F. destruct (io_any_updated (w_ins w n) _) as [[|]|e|]; try discriminate; [|exact (X _ eq_refl F)].
  unfold pub_reset in F. destruct (pb_pub (w_ext w)) as [[|]|]; [destruct (pb_destroy (w_ext w))| |]; try discriminate; apply X in F; auto.
Qed.
Lemma publisher_else : forall o w w' r, o <> OTick -> call o (the_leaf publisher_leaf n name) w = (w', r) ->
  pb_sent (w_ext w') = pb_sent (w_ext w).
Proof.
  intros o w w' r N C. apply leaf_call in C.
  destruct C as [(RF & -> & _)|[(-> & _ & _ & R)|(NR & x' & ws & r0 & F & E & I & _ & O & _)]]; try congruence.
  rewrite E. destruct o; try congruence; unfold publisher_leaf, pub_reset in F;
    try (destruct (pb_pub (w_ext w)) as [[|]|]; [destruct (pb_destroy (w_ext w))| |]); injection F as <- <- <-; reflexivity.
Qed.
End Publisher.
