(** Proofs about topic subscribers. *)
From Coq Require Import String ZArith Bool SpecFloat Arith Lia List.
From Verif Require Import Base ModelData ModelUtility ModelTree ModelLeaf SpecLeaf ProofsControl ProofsFlow ProofsLeaf ProofsWait.
Import ListNotations.
Local Open Scope string_scope.
Local Open Scope list_scope.

Lemma skipn_short : forall A (l : list A), skipn (length l) l = [].
Proof. intros. apply skipn_all. Qed.
Lemma latest_snoc : forall A (l : list A) a, latest (l ++ [a]) = Some a.
Proof. intros. unfold latest. rewrite rev_app_distr. reflexivity. Qed.
Lemma no_exception_snoc : forall X (l : list (item X)) it, no_exception (l ++ [it]) -> no_exception l /\ i_res it <> Raise.
Proof.
  intros X l it H. split.
  - intros j I. apply H. apply in_or_app. auto.
  - apply H. apply in_or_app. right. left. reflexivity.
Qed.

Section Topic.
Variables (mem : bool) (n : nid) (name : string).
Definition topic_leaf : leafcode topic := if mem then memory_leaf else subscriber_leaf.
Notation hist := (history topic_leaf topic_init (topic_out mem) n name).

Lemma settled_snoc : forall l it, settled_at mem n (l ++ [it]) =
  let got := List.length (tp_got (w_ext (i_after it))) in
  match i_op it, i_res it with
  | OSetup, Ok _ | OReset, Ok _ => got
  | OTick, Ok s =>
      if is_updated (w_ins (i_before it) n) (topic_keys mem) then got
      else match s, mem with SUCCEEDED, false => got | _, _ => settled_at mem n l end
  | _, _ => settled_at mem n l
  end.
Proof. intros. unfold settled_at. rewrite fold_left_app. reflexivity. Qed.

(** What a tick does, with [m] the message it sees. *)
Definition answer (m : option value) (x : topic) : list (string * value) * state :=
  match m with
  | None => ([], RUNNING)
  | Some v =>
      if mem && match tp_stamp x with Some t => SFltb (tp_delay x) (seconds (tp_clock x) t) | None => false end
      then ([], FAILED) else ([("message", v)], SUCCEEDED)
  end.

Lemma subscribe_ok : forall ins x k x' ws s, topic_subscribe ins x k = (x', ws, Ok s) ->
  exists y, k y = (x', ws, Ok s) /\ tp_msg y = tp_msg x /\ tp_stamp y = tp_stamp x /\ tp_delay y = tp_delay x /\
    tp_got y = tp_got x /\ tp_clock y = tp_clock x.
Proof.
  intros ins x k x' ws s H. unfold topic_subscribe in H. destruct (tp_sub x).
  - exists x. auto 10.
  - unfold onok in H. repeat match type of H with context [match ?r with Ok _ => _ | _ => _ end] => destruct r; try discriminate end.
    eexists. split; [exact H|]. cbn. auto 10.
Qed.
Lemma topic_tick_spec : forall st ins x x' ws s, topic_leaf OTick st ins x = (x', ws, Ok s) ->
  let m := if is_updated ins (topic_keys mem) then None else tp_msg x in
  (ws, s) = answer m x /\ tp_got x' = tp_got x /\ tp_delay x' = tp_delay x /\
  (tp_msg x' = if mem then m else match s with SUCCEEDED => None | _ => m end) /\
  (is_updated ins (topic_keys mem) = false -> tp_stamp x' = tp_stamp x).
Proof.
  intros st ins x x' ws s H. unfold topic_leaf in H. unfold is_updated, topic_keys, answer. destruct mem; cbn -[io_any_updated topic_subscribe] in H;
    unfold topic_start, onok at 1 in H; unfold sub_keys in H;
    (destruct (io_any_updated ins _) as [[|]|e|]; try discriminate H);
    [unfold topic_reset in H; destruct (tp_sub x); [destruct (tp_destroy x)|]| |unfold topic_reset in H; destruct (tp_sub x); [destruct (tp_destroy x)|]|];
    try discriminate H; apply subscribe_ok in H; destruct H as (y & K & Y1 & Y2 & Y3 & Y4 & Y5);
    cbn in Y1, Y2, Y3, Y4, Y5; rewrite Y1 in K; rewrite ?Y2, ?Y3, ?Y5 in K; cbn -[seconds];
    try (injection K as <- <- <-; cbn; rewrite ?Y1, ?Y2, ?Y3, ?Y4; repeat split; auto; discriminate).
  - destruct (tp_msg x); [|injection K as <- <- <-; cbn; rewrite ?Y1, ?Y2, ?Y3, ?Y4; auto 10].
    destruct (match tp_stamp x with Some _ => _ | None => _ end); injection K as <- <- <-; cbn; rewrite ?Y1, ?Y2, ?Y3, ?Y4; auto 10.
  - destruct (tp_msg x); injection K as <- <- <-; cbn; rewrite ?Y1, ?Y2, ?Y3, ?Y4; auto 10.
Qed.

Definition tinv (l : list (item topic)) (w : world topic) : Prop :=
  let x := w_ext w in
  let k := settled_at mem n l in
  k <= length (tp_got x) /\
  (w_st w n = UNINITIALIZED \/ w_st w n = SHUTDOWN \/ w_st w n = BROKEN \/
   match latest (skipn k (tp_got x)) with
   | None => tp_msg x = None
   | Some (m, t) => tp_msg x = Some m /\ (mem = true -> tp_stamp x = Some t)
   end /\
   (mem = true -> exists ins, setup_inputs n l = Some ins /\ io_value_as as_float ins "memory_delay" = Ok (tp_delay x))).

Lemma topic_got : forall o st ins x x' ws r, topic_leaf o st ins x = (x', ws, r) -> tp_got x' = tp_got x.
Proof.
  intros o st ins x x' ws r H.
  assert (RS : forall b y z q, topic_reset b y = (z, q) -> tp_got z = tp_got y).
  { intros b y z q Q. unfold topic_reset in Q. destruct (tp_sub y); [destruct (tp_destroy y)|]; injection Q as <- <-; reflexivity. }
  assert (SU : forall k y z v q, (forall a z v q, k a = (z, v, q) -> tp_got z = tp_got a) ->
    topic_subscribe ins y k = (z, v, q) -> tp_got z = tp_got y).
  { intros k y z v q K Q. unfold topic_subscribe in Q. destruct (tp_sub y); [exact (K _ _ _ _ Q)|]. unfold onok in Q.
    repeat match type of Q with context [match ?r with Ok _ => _ | _ => _ end] => destruct r; [|injection Q as <- <- <-; reflexivity|injection Q as <- <- <-; reflexivity] end.
    exact (K _ _ _ _ Q). }
  assert (ST : forall b keys k y z v q, (forall a z v q, k a = (z, v, q) -> tp_got z = tp_got a) ->
    topic_start b ins keys y k = (z, v, q) -> tp_got z = tp_got y).
  { intros b keys k y z v q K Q. unfold topic_start, onok in Q. destruct (io_any_updated ins keys) as [[|]|e|];
      try (injection Q as <- <- <-; reflexivity); [|exact (SU _ _ _ _ _ K Q)].
    destruct (topic_reset b y) as [y1 [?|?|]] eqn:R; apply RS in R; try (injection Q as <- <- <-; exact R).
    apply SU in Q; [congruence|exact K]. }
  unfold topic_leaf in H. destruct mem, o; cbn -[topic_start seconds topic_reset] in H;
    try (injection H as <- <- <-; reflexivity);
    try (destruct (topic_reset _ x) as [y1 q] eqn:R; apply RS in R; injection H as <- <- <-; exact R).
  - unfold onok in H. destruct (io_value_as _ _ _); injection H as <- <- <-; reflexivity.
  - eapply ST; [|exact H]. intros a z v q Q. cbn beta in Q.
    destruct (tp_msg a); [destruct (match tp_stamp a with Some _ => _ | None => _ end)|]; injection Q as <- <- <-; reflexivity.
  - eapply ST; [|exact H]. intros a z v q Q. cbn beta in Q.
    destruct (tp_msg a); injection Q as <- <- <-; reflexivity.
Qed.

Lemma reset_msg : forall b y z q, topic_reset b y = (z, q) ->
  tp_msg z = None /\ tp_delay z = tp_delay y /\ tp_got z = tp_got y /\ (q = Ok IDLE \/ q = Err EConfig).
Proof.
  intros b y z q Q. unfold topic_reset in Q. destruct (tp_sub y); [destruct (tp_destroy y)|]; injection Q as <- <-; cbn; auto.
Qed.

Lemma topic_states : forall o st ins x x' ws s, topic_leaf o st ins x = (x', ws, Ok s) -> state_in s (expected o) = true.
Proof.
  intros o st ins x x' ws s F. destruct o;
    [ |apply topic_tick_spec in F; destruct F as (A & _); unfold answer in A;
       destruct (if is_updated _ _ then _ else _); [destruct (mem && _)|]; injection A as -> ->; reflexivity| | |];
    unfold topic_leaf in F; destruct mem; cbn -[topic_reset] in F;
    try (injection F as _ _ <-; reflexivity);
    try (destruct (topic_reset _ x) as [z q] eqn:RS; destruct (reset_msg _ _ _ _ RS) as (_ & _ & _ & [->| ->]);
         try discriminate F; injection F as _ _ <-; reflexivity).
  unfold onok in F. destruct (io_value_as _ _ _); try discriminate F. injection F as _ _ <-. reflexivity.
Qed.

Lemma topic_hist : forall l w, hist l w -> no_exception l -> tinv l w.
Proof.
  induction 1 as [w S _|l w w' H IH S O|l w o w' r H IH C]; intros NE.
  - split; [apply Nat.le_0_l|auto].
  - specialize (IH NE). destruct IH as [L IH]. unfold tinv. rewrite S. inversion O as [c d E|m c SB E]; cbn; subst.
    + split; [exact L|]. exact IH.
    + split; [rewrite app_length; lia|]. destruct IH as [A|[A|[A|(A & B)]]]; auto. do 3 right. split; [|exact B].
      rewrite skipn_app. replace (settled_at mem n l - length (tp_got (w_ext w))) with 0 by lia. cbn [skipn].
      rewrite latest_snoc. split; [reflexivity|]. intros ->. reflexivity.
  - apply no_exception_snoc in NE. destruct NE as [NE NR]. specialize (IH NE). cbn in NR. destruct IH as [L IH].
    apply leaf_call in C. destruct C as [(RF & -> & R)|[(-> & _ & -> & R)|(NRF & x' & ws & r0 & F & E & I & W & O & _)]].
    + unfold tinv. rewrite settled_snoc, setup_inputs_snoc. cbn. destruct R as [->|(-> & S & ->)].
      * destruct o; cbn; (split; [exact L|exact IH]).
      * cbn. split; [exact L|exact IH].
    + unfold tinv. rewrite settled_snoc. cbn. rewrite upd_same. subst r. auto.
    + assert (G := topic_got _ _ _ _ _ _ _ F).
      assert (L' : settled_at mem n (l ++ [mkItem w o w' r]) <= length (tp_got (w_ext w'))).
      { rewrite settled_snoc. cbn. rewrite E, G. destruct o; try exact L; destruct r as [s|e|]; try exact L; try lia.
        destruct (is_updated _ _); [lia|]. destruct s, mem; exact L || lia. }
      split; [exact L'|].
      destruct O as [(R & _)|[(O & _)|(s & Q & O & P)]]; [congruence|auto|].
      destruct P as [(P & [R|[-> R]])|(P & e & R)]; [|congruence|].
      2:{ subst r0. rewrite (topic_states _ _ _ _ _ _ _ F) in P. discriminate. }
      subst r r0.
      destruct o.
      * (* setup *)
        specialize (I ltac:(discriminate)). do 3 right. rewrite settled_snoc, setup_inputs_snoc. cbn. rewrite skipn_short. cbn.
        rewrite E, I. unfold topic_leaf in F. destruct mem; cbn in F.
        -- unfold onok in F. destruct (io_value_as _ _ _) as [d| |] eqn:V; try discriminate F. injection F as <- <- <-. cbn.
           split; [reflexivity|]. intros _. eexists. split; [reflexivity|exact V].
        -- injection F as <- <- <-. split; [reflexivity|discriminate].
      * (* tick *)
        destruct IH as [A|[A|[A|(A & B)]]]; try (exfalso; apply NRF; cbn; auto; fail).
        destruct (topic_tick_spec _ _ _ _ _ _ F) as (AN & G' & D & M & ST).
        do 3 right. split; [|rewrite setup_inputs_snoc, E, D; exact B].
        rewrite settled_snoc. cbn. rewrite E. cbn [ins_for] in *.
        destruct (is_updated (w_ins w n) (topic_keys mem)).
        -- rewrite skipn_short. cbn. rewrite M. destruct mem; [reflexivity|]. destruct s; reflexivity.
        -- specialize (ST eq_refl). rewrite G.
           assert (KEEP : tp_msg x' = tp_msg (w_ext w) ->
             match latest (skipn (settled_at mem n l) (tp_got (w_ext w))) with
             | Some (m, t) => tp_msg x' = Some m /\ (mem = true -> tp_stamp x' = Some t)
             | None => tp_msg x' = None
             end).
           { intros K. rewrite K, ST. exact A. }
           destruct mem; [destruct s; apply KEEP; exact M|].
           destruct s; try (apply KEEP; exact M). rewrite skipn_short. cbn. exact M.
      * (* untick *)
        destruct IH as [A|[A|[A|(A & B)]]]; try (exfalso; apply NRF; cbn; auto; fail).
        do 3 right. rewrite settled_snoc, setup_inputs_snoc. cbn. rewrite E.
        assert (x' = w_ext w) by (unfold topic_leaf in F; destruct mem; injection F as <- <- <-; reflexivity). subst x'. rewrite H0. auto.
      * (* reset *)
        destruct IH as [A|[A|[A|(A & B)]]]; try (exfalso; apply NRF; cbn; auto; fail).
        do 3 right. rewrite settled_snoc, setup_inputs_snoc. cbn. rewrite skipn_short. cbn. rewrite E.
        unfold topic_leaf in F. destruct mem; cbn -[topic_reset] in F; destruct (topic_reset _ (w_ext w)) as [z q] eqn:RS;
          destruct (reset_msg _ _ _ _ RS) as (R1 & R2 & _); injection F as <- <- _; rewrite R2; auto.
      * (* shutdown *)
        rewrite O. unfold topic_leaf in F. destruct mem; cbn -[topic_reset] in F; destruct (topic_reset _ (w_ext w)) as [z q] eqn:RS;
          destruct (reset_msg _ _ _ _ RS) as (_ & _ & _ & [->| ->]); injection F as <- <- F; try discriminate F; auto.
Qed.

Lemma written_one : forall X (w w2 w' : world X) x' k v,
  out_set_all (set_ext (set_outs w n (map_io reset_updated (w_outs w n))) x') n [(k, v)] = (w2, Ok tt) ->
  w_outs w' n = w_outs w2 n -> written n k v w w'.
Proof.
  intros X w w2 w' x' k v H E. cbn in H. unfold out_set in H. cbn in H. rewrite upd_same in H. rewrite dget_map_io in H.
  destruct (dget k (w_outs w n)) as [c|] eqn:D; cbn in H; [|discriminate].
  destruct (set_value (reset_updated c) v) as [c' [[]|e|]] eqn:SV; cbn in H; try discriminate. injection H as <-.
  exists c, c'. split; [exact D|]. split; [exact SV|]. rewrite E. cbn. rewrite upd_same. apply dget_dset_same.
Qed.

Lemma topic_tick : forall l w w' s, hist l w -> no_exception l ->
  call OTick (the_leaf topic_leaf n name) w = (w', Ok s) ->
  match fresh mem n l w with
  | None => s = RUNNING
  | Some (m, t) =>
      if mem then exists ins d, setup_inputs n l = Some ins /\ io_value_as as_float ins "memory_delay" = Ok d /\
        (if SFltb d (seconds (tp_clock (w_ext w)) t) then s = FAILED else s = SUCCEEDED /\ written n "message" m w w')
      else s = SUCCEEDED /\ written n "message" m w w'
  end.
Proof.
  intros l w w' s H NE C. apply topic_hist in H; [|exact NE]. apply leaf_call in C. destruct H as [L H].
  destruct C as [(RF & _ & [R|(R & _)])|[(_ & _ & _ & R)|(NRF & x' & ws & r0 & F & E & I & W & O & _)]]; try discriminate.
  destruct H as [A|[A|[A|(A & B)]]]; try (exfalso; apply NRF; cbn; auto; fail).
  destruct (W eq_refl s eq_refl) as (w2 & W1 & W2).
  destruct O as [(R & _)|[(_ & e & R)|(s' & Q & O & [(_ & [R|(_ & R)])|(P & e & R)])]]; try discriminate.
  injection R as ->. subst r0. cbn [ins_for] in F. destruct (topic_tick_spec _ _ _ _ _ _ F) as (AN & _).
  unfold fresh. destruct (is_updated (w_ins w n) (topic_keys mem)); [injection AN as _ ->; reflexivity|].
  destruct (latest _) as [[m t]|].
  - destruct A as [A1 A2]. rewrite A1 in AN. unfold answer in AN. destruct mem.
    + destruct (B eq_refl) as (ins & B1 & B2). exists ins, (tp_delay (w_ext w)). split; [exact B1|]. split; [exact B2|].
      rewrite (A2 eq_refl) in AN. cbn [andb] in AN. destruct (SFltb _ _); injection AN as -> ->; [reflexivity|].
      split; [reflexivity|]. eapply written_one; eassumption.
    + injection AN as -> ->. split; [reflexivity|]. eapply written_one; eassumption.
  - rewrite A in AN. injection AN as _ ->. reflexivity.
Qed.
End Topic.
