(** Proofs about service nodes. *)
From Coq Require Import String ZArith Bool SpecFloat Arith Lia List.
From Verif Require Import Base ModelData ModelUtility ModelTree ModelLeaf SpecLeaf ProofsLeaf ProofsWait.
Import ListNotations.
Local Open Scope string_scope.
Local Open Scope list_scope.

Lemma nth_upd_nth : forall A (l : list A) i g j,
  nth_error (nth_upd l i g) j = if (i =? j)%nat then option_map g (nth_error l j) else nth_error l j.
Proof.
  induction l as [|a l IH]; intros i g j; cbn.
  - destruct j, (i =? _)%nat; reflexivity.
  - destruct i as [|i], j as [|j]; cbn; try reflexivity. apply IH.
Qed.
Lemma nth_upd_length : forall A (l : list A) i g, length (nth_upd l i g) = length l.
Proof. induction l as [|a l IH]; intros [|i] g; cbn; auto. Qed.

Lemma cancel_pending : forall R (f : future R), ~ pending (cancel f).
Proof. intros R f [A B]. unfold cancel in *. destruct (f_reply f) eqn:E; [congruence|discriminate]. Qed.
Lemma fut_on_pending : forall R (f f' : future R), fut_on f f' -> pending f' -> pending f.
Proof.
  intros R f f' [A B] [C D]. split.
  - destruct (f_reply f) eqn:E; [|reflexivity]. rewrite (A _ eq_refl) in C. discriminate.
  - destruct (f_cancelled f) eqn:E; [|reflexivity]. rewrite (B eq_refl) in D. discriminate.
Qed.
Lemma Forall2_nth : forall A B (P : A -> B -> Prop) l l' i b, Forall2 P l l' -> nth_error l' i = Some b ->
  exists a, nth_error l i = Some a /\ P a b.
Proof.
  intros A B P l l' i b H. revert i. induction H as [|x y l l' Q H IH]; intros [|i] E; cbn in *; try discriminate.
  - injection E as <-. eauto.
  - auto.
Qed.
Lemma Forall2_nth_l : forall A B (P : A -> B -> Prop) l l' i a, Forall2 P l l' -> nth_error l i = Some a ->
  exists b, nth_error l' i = Some b /\ P a b.
Proof.
  intros A B P l l' i b H. revert i. induction H as [|x y l l' Q H IH]; intros [|i] E; cbn in *; try discriminate.
  - injection E as <-. eauto.
  - auto.
Qed.

Section Service.
Context {Req Resp : Type}.
Variable fields : list string.
Variable get_request : iomap -> res Req.
Variable set_outputs : Resp -> list (string * value) * res state.
Variable get_type : iomap -> res unit.
Variables (n : nid) (name : string).
Notation leaf := (service_leaf fields get_request set_outputs get_type).
Notation hist := (history leaf service_init service_out n name).
Notation sv := (service Req Resp).

Definition none_pending (x : sv) : Prop := forall c, In c (sv_calls x) -> ~ pending (sc_fut c).
Definition core (x : sv) : Prop :=
  (forall i c, nth_error (sv_calls x) i = Some c -> pending (sc_fut c) -> sv_future x = Some i) /\
  (forall i, sv_future x = Some i -> S i = length (sv_calls x) /\
     exists c, nth_error (sv_calls x) i = Some c /\ sv_called x = Some (sc_time c)).

Lemma core_none : forall x, core x -> sv_future x = None -> none_pending x.
Proof.
  intros x [A _] N c I P. apply In_nth_error in I. destruct I as [i E]. rewrite (A i c E P) in N. discriminate.
Qed.
Lemma none_core : forall x, sv_future x = None -> none_pending x -> core x.
Proof.
  intros x N P. split.
  - intros i c E Q. exfalso. eapply P; [eapply nth_error_In; exact E|exact Q].
  - intros i E. congruence.
Qed.
Lemma cancel_none : forall x i, core x -> sv_future x = Some i ->
  forall c, In c (cancel_call (sv_calls x) i) -> ~ pending (sc_fut c).
Proof.
  intros x i [A B] F c I P. apply In_nth_error in I. destruct I as [j E]. unfold cancel_call in E. rewrite nth_upd_nth in E.
  destruct (i =? j)%nat eqn:J.
  - destruct (nth_error (sv_calls x) j); [|discriminate]. injection E as <-. exact (cancel_pending _ _ P).
  - apply Nat.eqb_neq in J. assert (K := A j c E P). congruence.
Qed.

Lemma untick_spec : forall x, core x ->
  none_pending (service_untick x) /\ sv_future (service_untick x) = None /\ sv_request (service_untick x) = None /\
  sv_timeout (service_untick x) = sv_timeout x /\ length (sv_calls (service_untick x)) = length (sv_calls x) /\
  sv_clock (service_untick x) = sv_clock x.
Proof.
  intros x C. unfold service_untick. cbn. destruct (sv_future x) as [i|] eqn:F.
  - split; [intros c I; exact (cancel_none x i C F c I)|]. repeat split. apply nth_upd_length.
  - split; [exact (core_none x C F)|]. auto.
Qed.
Lemma reset_spec : forall (x x' : sv) r, core x -> service_reset x = (x', r) ->
  (r = Ok IDLE /\ none_pending x' /\ sv_future x' = None /\ sv_request x' = None /\
   sv_timeout x' = sv_timeout x /\ length (sv_calls x') = length (sv_calls x) /\ sv_clock x' = sv_clock x) \/
  (x' = x /\ r = Err EConfig).
Proof.
  intros x x' r C H. unfold service_reset in H. destruct (sv_client x).
  - destruct (sv_destroy x); injection H as <- <-; [left|right; auto].
    split; [reflexivity|]. apply (untick_spec (sv_set x false (sv_future x) (sv_request x) (sv_called x) (sv_calls x))). exact C.
  - injection H as <- <-. left. split; [reflexivity|]. exact (untick_spec x C).
Qed.

(** What a tick does. *)
Inductive tick_case (st : state) (ins : iomap) (x x' : sv) : list (string * value) -> res state -> Prop :=
| tc_err r : (forall s, r <> Ok s) -> core x' -> (sv_future x' = None \/ sv_future x' = sv_future x) ->
    (r = Raise -> sv_request x' = sv_request x \/ sv_request x' = None) -> tick_case st ins x x' [] r
| tc_call r old : (updated ins ("service_name" :: fields) \/ st = IDLE \/ sv_request x <> None) ->
    (get_request ins = Ok r \/ sv_request x = Some r) ->
    length old = length (sv_calls x) -> (forall c, In c old -> ~ pending (sc_fut c)) ->
    sv_calls x' = old ++ [mkCall r (sv_clock x) new_future] ->
    sv_future x' = Some (length (sv_calls x)) -> sv_request x' = None -> sv_called x' = Some (sv_clock x) ->
    tick_case st ins x x' [] (Ok RUNNING)
| tc_same : not_updated ins ("service_name" :: fields) -> sv_future x = None -> sv_future x' = None -> sv_calls x' = sv_calls x -> st <> IDLE ->
    sv_request x' = None -> tick_case st ins x x' [] (Ok st)
| tc_reply i c m : not_updated ins ("service_name" :: fields) -> sv_future x = Some i -> nth_error (sv_calls x) i = Some c -> f_reply (sc_fut c) = Some (RMsg m) ->
    sv_future x' = None -> sv_calls x' = sv_calls x -> sv_request x' = None ->
    tick_case st ins x x' (fst (set_outputs m)) (snd (set_outputs m))
| tc_cancelled i c : not_updated ins ("service_name" :: fields) -> sv_future x = Some i -> nth_error (sv_calls x) i = Some c -> f_reply (sc_fut c) = None ->
    f_cancelled (sc_fut c) = true -> sv_future x' = None -> sv_calls x' = sv_calls x -> sv_request x' = None ->
    tick_case st ins x x' [] (Ok FAILED)
| tc_timeout i c : not_updated ins ("service_name" :: fields) -> sv_future x = Some i -> nth_error (sv_calls x) i = Some c -> pending (sc_fut c) ->
    SFltb (sv_timeout x) (seconds (sv_clock x) (sc_time c)) = true -> sv_future x' = None -> sv_request x' = None ->
    sv_calls x' = cancel_call (sv_calls x) i -> tick_case st ins x x' [] (Ok FAILED)
| tc_wait i c : not_updated ins ("service_name" :: fields) -> sv_future x = Some i -> nth_error (sv_calls x) i = Some c -> pending (sc_fut c) ->
    SFltb (sv_timeout x) (seconds (sv_clock x) (sc_time c)) = false -> sv_future x' = Some i -> sv_request x' = None ->
    sv_calls x' = sv_calls x -> sv_called x' = Some (sc_time c) -> tick_case st ins x x' [] (Ok RUNNING).

Lemma io_value_as_noraise : forall A (conv : value -> option A) m k, io_value_as conv m k <> Raise.
Proof. intros. unfold io_value_as, io_value. destruct (dget k m) as [c|]; [destruct (c_val c) as [v|]; [destruct (conv v)|]|]; discriminate. Qed.

Lemma call_new : forall st ins (x y : sv) (r0 : Req) x' ws r,
  (updated ins ("service_name" :: fields) \/ st = IDLE \/ sv_request x <> None) ->
  (get_request ins = Ok r0 \/ sv_request x = Some r0) ->
  sv_future y = None -> none_pending y -> length (sv_calls y) = length (sv_calls x) ->
  sv_clock y = sv_clock x -> sv_request y = Some r0 ->
  service_call set_outputs st ins y = (x', ws, r) -> sv_timeout x' = sv_timeout y /\ tick_case st ins x x' ws r.
Proof.
  intros st ins x y r0 x' ws r U G F N L CL RQ H. unfold service_call in H. unfold onok in H.
  destruct (if sv_client y then _ else _) as [u|e|] eqn:V.
  - cbn in H. rewrite RQ in H. injection H as <- <- <-. cbn. split; [reflexivity|]. rewrite L. rewrite CL.
    eapply (tc_call st ins x _ r0 (sv_calls y)); cbn; auto.
  - injection H as <- <- <-. split; [reflexivity|]. apply tc_err; [discriminate|apply none_core; assumption|auto|discriminate].
  - exfalso. destruct (sv_client y); [discriminate|]. destruct (io_value_as as_str ins "service_name") eqn:Q; try discriminate.
    exact (io_value_as_noraise _ _ _ _ Q).
Qed.

Lemma call_old : forall st ins (x x' : sv) ws r, core x ->
  not_updated ins ("service_name" :: fields) -> (st = IDLE -> sv_future x = None -> sv_request x <> None) ->
  (sv_request x <> None -> sv_future x = None) ->
  service_call set_outputs st ins x = (x', ws, r) -> sv_timeout x' = sv_timeout x /\ tick_case st ins x x' ws r.
Proof.
  intros st ins x x' ws r C U G RF H.
  destruct (sv_request x) as [q|] eqn:RQ.
  { apply (call_new st ins x x q); auto.
    - right; right. rewrite RQ. discriminate.
    - apply RF. discriminate.
    - apply core_none; [exact C|apply RF; discriminate]. }
  unfold service_call in H. unfold onok in H.
  destruct (if sv_client x then _ else _) as [u|e|] eqn:V.
  2:{ injection H as <- <- <-. split; [reflexivity|]. apply tc_err; [discriminate|exact C|auto|auto]. }
  2:{ exfalso. destruct (sv_client x); [discriminate|]. destruct (io_value_as as_str ins "service_name") eqn:Q; try discriminate.
      exact (io_value_as_noraise _ _ _ _ Q). }
  cbn in H. rewrite RQ in H. destruct (sv_future x) as [i|] eqn:F.
  2:{ injection H as <- <- <-. split; [reflexivity|]. apply tc_same; cbn; auto. intros ->. apply (G eq_refl eq_refl). reflexivity. }
  destruct (proj2 C i F) as (LI & c & EC & ET). rewrite EC in H.
  destruct (f_reply (sc_fut c)) as [[|m|]|] eqn:R.
  - injection H as <- <- <-. split; [reflexivity|]. apply tc_err; [discriminate| |cbn; auto|cbn; auto]. unfold core in *. cbn. rewrite F in C. exact C.
  - destruct (set_outputs m) as [ws0 r0] eqn:SO. injection H as <- <- <-. split; [reflexivity|].
    replace ws0 with (fst (set_outputs m)) by (rewrite SO; reflexivity). replace r0 with (snd (set_outputs m)) by (rewrite SO; reflexivity).
    eapply tc_reply; cbn; eauto.
  - injection H as <- <- <-. split; [reflexivity|]. apply tc_err; [discriminate| |cbn; auto|cbn; auto]. unfold core in *. cbn. rewrite F in C. exact C.
  - destruct (f_cancelled (sc_fut c)) eqn:CA.
    + injection H as <- <- <-. split; [reflexivity|]. eapply tc_cancelled; cbn; eauto.
    + cbv zeta in H. rewrite ET in H. destruct (SFltb _ _) eqn:TO; injection H as <- <- <-; (split; [reflexivity|]).
      * eapply tc_timeout; cbn; eauto. split; assumption.
      * eapply tc_wait; cbn; eauto. split; assumption.
Qed.

Lemma tick_spec : forall st ins (x x' : sv) ws r, core x -> (st = IDLE -> sv_future x = None) ->
  (sv_request x <> None -> sv_future x = None) -> leaf OTick st ins x = (x', ws, r) -> sv_timeout x' = sv_timeout x /\ tick_case st ins x x' ws r.
Proof.
  intros st ins x x' ws r C G RF H. unfold service_leaf in H. unfold onok at 1 in H.
  destruct (io_any_updated ins ("service_name" :: fields)) as [[|]|e|] eqn:U.
  - destruct (service_reset x) as [x1 r1] eqn:R. destruct (reset_spec x x1 r1 C R) as [(-> & N & F & Q & T & L & CL)|[-> ->]].
    + unfold onok in H. destruct (get_request ins) as [q|e|] eqn:GR.
      * assert (H' : service_call set_outputs st ins (sv_set x1 (sv_client x1) (sv_future x1) (Some q) (sv_called x1) (sv_calls x1)) = (x', ws, r)).
        { unfold service_request in H. cbn [sv_set sv_future sv_request] in H. rewrite F in *. destruct st; exact H. }
        rewrite <- T. refine (call_new st ins x _ q x' ws r _ _ _ _ _ _ _ H'); cbn; auto.
      * injection H as <- <- <-. split; [exact T|]. apply tc_err; [discriminate|apply none_core; assumption|auto|auto].
      * injection H as <- <- <-. split; [exact T|]. apply tc_err; [discriminate|apply none_core; assumption|auto|auto].
    + injection H as <- <- <-. split; [reflexivity|]. apply tc_err; [discriminate|exact C|auto|auto].
  - unfold service_request in H.
    destruct st eqn:ST; try (eapply call_old; eauto; congruence).
    rewrite (G eq_refl) in H. destruct (sv_request x) as [q|] eqn:Q.
    { eapply call_old; eauto. intros _ _. congruence. }
    unfold onok in H. destruct (get_request ins) as [q|e|] eqn:GR.
    + refine (call_new IDLE ins x _ q x' ws r _ _ _ _ _ _ _ H); cbn; auto. exact (core_none x C (G eq_refl)).
    + injection H as <- <- <-. split; [reflexivity|]. apply tc_err; [discriminate|exact C|auto|auto].
    + injection H as <- <- <-. split; [reflexivity|]. apply tc_err; [discriminate|exact C|auto|auto].
  - injection H as <- <- <-. split; [reflexivity|]. apply tc_err; [discriminate|exact C|auto|auto].
  - injection H as <- <- <-. split; [reflexivity|]. apply tc_err; [discriminate|exact C|auto|auto].
Qed.

Lemma tick_core : forall st ins x x' ws r, core x -> tick_case st ins x x' ws r -> core x'.
Proof.
  intros st ins x x' ws r C T. destruct T.
  - assumption.
  - split.
    + intros i c E P. rewrite H3 in E. destruct (Nat.lt_ge_cases i (length old)) as [L|L].
      * rewrite nth_error_app1 in E by exact L. exfalso. eapply H2; [eapply nth_error_In; exact E|exact P].
      * rewrite nth_error_app2 in E by exact L. destruct (i - length old) as [|k] eqn:K; [|destruct k; discriminate].
        rewrite H4. f_equal. lia.
    + intros i E. rewrite H4 in E. injection E as <-. rewrite H3, app_length. cbn. split; [lia|].
      eexists. rewrite nth_error_app2 by lia. rewrite H1, Nat.sub_diag. cbn. split; [reflexivity|]. exact H6.
  - apply none_core; [assumption|]. intros c I. rewrite H2 in I. exact (core_none x C H0 c I).
  - apply none_core; [assumption|]. intros d I P. rewrite H4 in I. apply In_nth_error in I. destruct I as [j I].
    assert (K := proj1 C j d I P). assert (j = i) by congruence. subst j. assert (d = c) by congruence. subst d. destruct P. congruence.
  - apply none_core; [assumption|]. intros d I P. rewrite H5 in I. apply In_nth_error in I. destruct I as [j I].
    assert (K := proj1 C j d I P). assert (j = i) by congruence. subst j. assert (d = c) by congruence. subst d. destruct P. congruence.
  - apply none_core; [assumption|]. intros d I. rewrite H6 in I. exact (cancel_none x i C H0 d I).
  - destruct C as [C1 C2]. split; rewrite H6, H4, <- H0; [exact C1|]. intros j E. destruct (C2 j E) as (A & d & B & D).
    split; [exact A|]. exists d. split; [exact B|]. rewrite H7. congruence.
Qed.

Definition dead (st : state) : Prop := st = UNINITIALIZED \/ st = SHUTDOWN \/ st = BROKEN.
Definition sinv (l : list (item sv)) (w : world sv) : Prop :=
  core (w_ext w) /\
  (sv_future (w_ext w) <> None -> w_st w n = RUNNING \/ w_st w n = BROKEN) /\
  (~ dead (w_st w n) -> sv_request (w_ext w) = None /\
     exists ins, setup_inputs n l = Some ins /\ io_value_as as_float ins "wait_for_response_seconds" = Ok (sv_timeout (w_ext w))).

Lemma sinv_app : forall l w it, sinv l w -> (forall s, i_op it = OSetup -> i_res it <> Ok s) -> sinv (l ++ [it]) w.
Proof.
  intros l w it (A & B & C) D. split; [exact A|]. split; [exact B|]. intros N. destruct (C N) as (C1 & ins & C2 & C3).
  split; [exact C1|]. exists ins. split; [|exact C3]. rewrite setup_inputs_snoc.
  destruct (i_op it); try exact C2. destruct (i_res it) as [s| |] eqn:E; try exact C2. exfalso. exact (D s eq_refl eq_refl).
Qed.

Lemma service_hist : forall l w, hist l w -> sinv l w.
Proof.
  induction 1 as [w S (I1 & I2 & I3)|l w w' H IH S O|l w o w' r H IH C].
  - split; [|split].
    + apply none_core; [exact I2|]. intros c I. rewrite I3 in I. destruct I.
    + congruence.
    + intros N. exfalso. apply N. left. exact S.
  - destruct O as (O1 & O2 & O3 & O4 & O5 & O6). destruct IH as ((A1 & A2) & B & D). split; [|split].
    + split.
      * intros i c E P. destruct (Forall2_nth _ _ _ _ _ _ _ O6 E) as (a & E1 & _ & _ & E4). rewrite O2.
        eapply A1; [exact E1|]. exact (fut_on_pending _ _ _ E4 P).
      * intros i E. rewrite O2 in E. destruct (A2 i E) as (L & c & E1 & E2). split.
        { rewrite L. clear - O6. induction O6; cbn; auto. }
        destruct (Forall2_nth_l _ _ _ _ _ _ _ O6 E1) as (b & F1 & _ & F3 & _). exists b. split; [exact F1|]. congruence.
    + rewrite O2, S. exact B.
    + rewrite O3, O4, S. exact D.
  - apply leaf_call in C. destruct C as [(RF & -> & R)|[(-> & _ & -> & R)|(NR & x' & ws & r0 & F & E & I & _ & O & _)]].
    + apply sinv_app; [exact IH|]. cbn. intros s -> ->. destruct R as [R|(R & _)]; discriminate.
    + destruct IH as (A & B & D). unfold sinv. cbn. rewrite upd_same. split; [exact A|]. split; [auto|].
      intros N. exfalso. apply N. right; right. reflexivity.
    + destruct IH as (A & B & D).
      assert (BR : w_st w' n = BROKEN -> core x' -> sinv (l ++ [mkItem w o w' r]) w').
      { intros S0 C0. unfold sinv. rewrite S0, E. split; [exact C0|]. split; [auto|]. intros N. exfalso. apply N. right; right. reflexivity. }
      destruct o.
      * (* setup *)
        specialize (I ltac:(discriminate)).
        assert (FN : sv_future (w_ext w) = None).
        { destruct (sv_future (w_ext w)); [|reflexivity]. exfalso. apply NR. cbn. destruct B as [->| ->]; [discriminate| |]; split; discriminate. }
        assert (NP := core_none _ A FN).
        unfold service_leaf, onok in F.
        assert (X : core x' /\ (forall s, r0 = Ok s -> s = IDLE /\ sv_future x' = None /\ sv_request x' = None /\
                      io_value_as as_float (ins_for OSetup (w_ins w n)) "wait_for_response_seconds" = Ok (sv_timeout x')) /\ ws = [] /\ sv_future x' = None).
        { destruct (io_value_as as_float _ _) as [t|e|]; [destruct (get_type _)| |]; injection F as <- <- <-;
            (split; [apply none_core; [reflexivity|exact NP]|]); (split; [|split; reflexivity]); intros s Q; try discriminate.
          injection Q as <-. auto. }
        destruct X as (X1 & X2 & -> & X3).
        destruct O as [(-> & S0 & [->|O])|[(S0 & _)|(s & Q & S0 & P)]].
        -- assert (Dd : dead (w_st w n)). { cbn in NR. unfold dead. destruct (w_st w n); auto; exfalso; apply NR; split; discriminate. }
           unfold sinv. rewrite E, S0. split; [exact X1|]. split.
           ++ congruence.
           ++ tauto.
        -- congruence.
        -- auto.
        -- destruct (X2 s Q) as (-> & Y1 & Y2 & Y3). destruct P as [(_ & [->|[? ?]])|(P & _)]; try discriminate.
           unfold sinv. rewrite E, S0. split; [exact X1|]. split; [congruence|]. intros _. split; [exact Y2|].
           eexists. rewrite setup_inputs_snoc. cbn [i_op i_res i_after]. split; [reflexivity|]. rewrite I. exact Y3.
      * (* tick *)
        assert (ND : ~ dead (w_st w n)) by exact NR.
        destruct (D ND) as (D1 & ins & D2 & D3).
        assert (GI : w_st w n = IDLE -> sv_future (w_ext w) = None).
        { intros K. destruct (sv_future (w_ext w)); [|reflexivity]. destruct B as [B|B]; [discriminate| |]; congruence. }
        destruct (tick_spec _ _ _ _ _ _ A GI ltac:(congruence) F) as [TO TC].
        assert (X1 := tick_core _ _ _ _ _ _ A TC).
        assert (SI : setup_inputs n (l ++ [mkItem w OTick w' r]) = Some ins) by (rewrite setup_inputs_snoc; exact D2).
        assert (RQ : sv_request x' = None \/ exists e, r0 = Err e).
        { destruct TC; auto. destruct r0 as [s|e|]; [exfalso; exact (H0 s eq_refl)|eauto|]. left. destruct (H3 eq_refl) as [K|K]; congruence. }
        destruct O as [(-> & S0 & O)|[(S0 & _)|(s & Q & S0 & P)]].
        -- assert (RQ' : sv_request x' = None).
           { destruct RQ as [K|(e & ->)]; [exact K|]. destruct O as [O|O]; [discriminate|]. inversion TC; congruence. }
           unfold sinv. rewrite E, S0. split; [exact X1|]. split.
           ++ intros K. destruct TC; try congruence; try (destruct O as [O|O]; congruence).
              destruct H2 as [H2|H2]; [congruence|]. rewrite H2 in K. exact (B K).
           ++ intros _. split; [exact RQ'|]. exists ins. split; [exact SI|]. rewrite TO. exact D3.
        -- auto.
        -- subst r0. destruct RQ as [RQ|(e & ?)]; [|discriminate].
           unfold sinv. rewrite E, S0. split; [exact X1|]. split.
           ++ inversion TC; subst; try congruence; try (exfalso; eapply H0; reflexivity); auto.
           ++ intros _. split; [exact RQ|]. exists ins. split; [exact SI|]. rewrite TO. exact D3.
      * (* untick *)
        assert (ND : ~ dead (w_st w n)) by exact NR.
        destruct (D ND) as (D1 & ins & D2 & D3).
        unfold service_leaf in F. injection F as <- <- <-. destruct (untick_spec _ A) as (U1 & U2 & U3 & U4 & _).
        destruct O as [(-> & S0 & [O|O])|[(S0 & _)|(s & Q & S0 & P)]]; try congruence.
        -- apply BR; [exact S0|apply none_core; assumption].
        -- unfold sinv. rewrite E. split; [apply none_core; assumption|]. split; [congruence|]. intros _.
           split; [exact U3|]. exists ins. split; [rewrite setup_inputs_snoc; exact D2|]. rewrite U4. exact D3.
      * (* reset *)
        assert (ND : ~ dead (w_st w n)) by exact NR.
        destruct (D ND) as (D1 & ins & D2 & D3).
        unfold service_leaf in F. destruct (service_reset (w_ext w)) as [x1 r1] eqn:RS. injection F as <- <- <-.
        destruct (reset_spec _ _ _ A RS) as [(-> & U1 & U2 & U3 & U4 & _)|[-> ->]].
        -- destruct O as [(-> & S0 & [O|O])|[(S0 & _)|(s & Q & S0 & P)]]; try congruence.
           ++ apply BR; [exact S0|apply none_core; assumption].
           ++ unfold sinv. rewrite E. split; [apply none_core; assumption|]. split; [congruence|]. intros _.
              split; [exact U3|]. exists ins. split; [rewrite setup_inputs_snoc; exact D2|]. rewrite U4. exact D3.
        -- destruct O as [(-> & S0 & [O|O])|[(S0 & _)|(s & Q & S0 & P)]]; try congruence. auto.
      * (* shutdown *)
        unfold service_leaf in F. destruct (service_reset (w_ext w)) as [x1 r1] eqn:RS. injection F as <- <- <-.
        destruct (reset_spec _ _ _ A RS) as [(-> & U1 & U2 & U3 & U4 & _)|[-> ->]]; cbn in O.
        -- destruct O as [(-> & S0 & [O|O])|[(S0 & _)|(s & Q & S0 & P)]]; try congruence.
           ++ apply BR; [exact S0|apply none_core; assumption].
           ++ injection Q as <-. unfold sinv. rewrite E, S0. split; [apply none_core; assumption|]. split; [congruence|].
              intros N. exfalso. apply N. right; left. reflexivity.
        -- destruct O as [(-> & S0 & [O|O])|[(S0 & _)|(s & Q & S0 & P)]]; try congruence. auto.
Qed.

Lemma service_one : forall l w i j c d, hist l w ->
  nth_error (sv_calls (w_ext w)) i = Some c -> pending (sc_fut c) ->
  nth_error (sv_calls (w_ext w)) j = Some d -> pending (sc_fut d) -> i = j.
Proof.
  intros l w i j c d H E P E' P'. apply service_hist in H. destruct H as ((A & _) & _).
  assert (Some i = Some j) by (rewrite <- (A i c E P); exact (A j d E' P')). congruence.
Qed.

Lemma service_quiet : forall l w o w' s, hist l w -> o = OUntick \/ o = OReset \/ o = OShutdown ->
  call o (the_leaf leaf n name) w = (w', Ok s) -> none_pending (w_ext w').
Proof.
  intros l w o w' s H O C. assert (H' := h_op _ _ _ _ _ _ _ _ _ _ H C). apply service_hist in H'.
  destruct H' as (A & B & _). apply core_none; [exact A|].
  destruct (sv_future (w_ext w')) eqn:F; [exfalso|reflexivity].
  assert (K : w_st w' n = RUNNING \/ w_st w' n = BROKEN) by (apply B; discriminate).
  apply leaf_call in C. destruct C as [(RF & -> & [R|(-> & S & R)])|[(-> & _ & -> & R)|(NR & x' & ws & r0 & G & E & I & _ & OC & _)]]; try discriminate.
  - rewrite S in K. destruct K; discriminate.
  - destruct OC as [(R & _)|[(_ & e & R)|(s' & Q & S0 & [(P & [R|[_ R]])|(P & e & R)])]]; try discriminate.
    rewrite <- S0 in P. destruct O as [->|[->| ->]]; destruct K as [K|K]; rewrite K in P; discriminate.
Qed.

Lemma service_nocall : forall l w o w' r, hist l w -> o <> OTick -> call o (the_leaf leaf n name) w = (w', r) ->
  length (sv_calls (w_ext w')) = length (sv_calls (w_ext w)).
Proof.
  intros l w o w' r H O C. apply service_hist in H. destruct H as (A & _).
  apply leaf_call in C. destruct C as [(RF & -> & R)|[(-> & _ & -> & R)|(NR & x' & ws & r0 & F & E & I & _ & OC & _)]]; try congruence.
  rewrite E. destruct o; try congruence; unfold service_leaf in F.
  - unfold onok in F. destruct (io_value_as as_float _ _); [destruct (get_type _)| |]; injection F as <- <- <-; reflexivity.
  - injection F as <- <- <-. apply untick_spec. exact A.
  - destruct (service_reset (w_ext w)) as [x1 r1] eqn:RS. injection F as <- <- <-.
    destruct (reset_spec _ _ _ A RS) as [(_ & _ & _ & _ & _ & L & _)|[-> _]]; auto.
  - destruct (service_reset (w_ext w)) as [x1 r1] eqn:RS. injection F as <- <- <-.
    destruct (reset_spec _ _ _ A RS) as [(_ & _ & _ & _ & _ & L & _)|[-> _]]; auto.
Qed.

(** A tick that succeeds. *)
Lemma service_tick_ok : forall l w w' s, hist l w -> call OTick (the_leaf leaf n name) w = (w', Ok s) ->
  ~ dead (w_st w n) /\ sinv l w /\ w_st w' n = s /\ exists ws, tick_case (w_st w n) (w_ins w n) (w_ext w) (w_ext w') ws (Ok s).
Proof.
  intros l w w' s H C. apply service_hist in H. assert (H' := H). destruct H as (A & B & D).
  apply leaf_call in C.
  destruct C as [(RF & _ & [R|(R & _)])|[(_ & _ & _ & R)|(NR & x' & ws & r0 & F & E & I & _ & O & _)]]; try discriminate.
  split; [exact NR|]. split; [exact H'|].
  destruct O as [(R & _)|[(_ & e & R)|(s' & Q & S0 & [(P & [R|[_ R]])|(P & e & R)])]]; try discriminate.
  injection R as ->. split; [exact S0|]. subst r0.
  destruct (D NR) as (D1 & _).
  assert (GI : w_st w n = IDLE -> sv_future (w_ext w) = None).
  { intros K. destruct (sv_future (w_ext w)); [|reflexivity]. destruct B as [B|B]; [discriminate| |]; congruence. }
  exists ws. rewrite E. exact (proj2 (tick_spec _ _ _ _ _ _ A GI ltac:(congruence) F)).
Qed.

Lemma service_start : forall l w w' s, hist l w -> call OTick (the_leaf leaf n name) w = (w', Ok s) ->
  updated (w_ins w n) ("service_name" :: fields) \/ w_st w n = IDLE ->
  s = RUNNING /\ exists r old, get_request (w_ins w n) = Ok r /\
    sv_calls (w_ext w') = old ++ [mkCall r (sv_clock (w_ext w)) new_future] /\
    length old = length (sv_calls (w_ext w)) /\ (forall c, In c old -> ~ pending (sc_fut c)).
Proof.
  intros l w w' s H C U. destruct (service_tick_ok _ _ _ _ H C) as (ND & (A & B & D) & _ & ws & T).
  destruct (D ND) as (D1 & _).
  assert (NU : not_updated (w_ins w n) ("service_name" :: fields) -> w_st w n = IDLE).
  { intros K. destruct U as [U|U]; [unfold updated, not_updated in *; congruence|exact U]. }
  assert (GI : not_updated (w_ins w n) ("service_name" :: fields) -> sv_future (w_ext w) = None).
  { intros K. apply NU in K. destruct (sv_future (w_ext w)); [|reflexivity]. destruct B as [B|B]; [discriminate| |]; congruence. }
  inversion T as [rr K|r old K1 K2 K3 K4 K5|K|i c m K K'|i c K K'|i c K K'|i c K K']; subst; try (exfalso; rewrite GI in *; congruence).
  - split; [reflexivity|]. exists r, old. destruct K2 as [K2|K2]; [|congruence]. auto.
  - exfalso. auto.
Qed.

Lemma service_settled : forall l w w' s, hist l w -> call OTick (the_leaf leaf n name) w = (w', Ok s) ->
  not_updated (w_ins w n) ("service_name" :: fields) -> w_st w n <> IDLE -> w_st w n <> RUNNING ->
  s = w_st w n /\ sv_calls (w_ext w') = sv_calls (w_ext w).
Proof.
  intros l w w' s H C U N1 N2. destruct (service_tick_ok _ _ _ _ H C) as (ND & (A & B & D) & _ & ws & T).
  destruct (D ND) as (D1 & _).
  assert (GI : sv_future (w_ext w) = None).
  { destruct (sv_future (w_ext w)); [|reflexivity]. destruct B as [B|B]; [discriminate| |]; [congruence|].
    exfalso. apply ND. right; right. exact B. }
  inversion T as [rr K|r old K1 K2 K3 K4 K5|K|i c m K K'|i c K K'|i c K K'|i c K K']; subst; try (exfalso; rewrite GI in *; congruence); auto.
  exfalso. destruct K1 as [K|[K|K]]; [unfold updated, not_updated in *; congruence|congruence|congruence].
Qed.

(** While RUNNING, the answer to the last call is outstanding. *)
Lemma service_awaits : (forall m, snd (set_outputs m) <> Ok RUNNING) -> forall l w, hist l w ->
  no_exception l -> w_st w n = RUNNING -> sv_future (w_ext w) <> None.
Proof.
  intros SO l w H. induction H as [w S _|l w w' H IH S O|l w o w' r H IH C]; intros NR ST.
  - congruence.
  - destruct O as (_ & O2 & _). rewrite O2. apply IH; [exact NR|congruence].
  - assert (NR' : forall it, In it l -> i_res it <> Raise) by (intros it I; apply NR; apply in_or_app; auto).
    assert (RR : r <> Raise) by (apply (NR (mkItem w o w' r)); apply in_or_app; right; left; reflexivity).
    assert (C0 := C). apply leaf_call in C.
    destruct C as [(RF & -> & R)|[(-> & _ & -> & R)|(NRF & x' & ws & r0 & F & E & I & _ & OC & _)]].
    + exact (IH NR' ST).
    + cbn in ST. rewrite upd_same in ST. discriminate.
    + destruct OC as [(R & _)|[(S0 & _)|(s' & Q & S0 & [(P & [R|[_ R]])|(P & e & R)])]]; try congruence.
      * subst r r0. destruct o; try (rewrite <- S0, ST in P; discriminate P).
        destruct (service_tick_ok _ _ _ _ H C0) as (ND & (A & B & D) & _ & ws' & T).
        assert (s' = RUNNING) by congruence. subst s'.
        inversion T as [rr K|r old K1 K2 K3 K4 K5|K K' K2 K3 K4 K5 K6 K7|i c m K K'|i c K K'|i c K K'|i c K K']; subst; try congruence.
        exfalso. apply IH; [exact NR'|congruence|exact K'].
      * rewrite <- S0, ST in Q. rewrite <- S0, ST in P. subst r0. destruct o; try discriminate P;
          unfold service_leaf in F; unfold onok in F; try (injection F as _ _ F; discriminate F).
        -- destruct (io_value_as as_float _ _); [destruct (get_type _)| |]; discriminate F.
        -- destruct (service_hist _ _ H) as (A & _). destruct (service_reset (w_ext w)) as [x1 r1] eqn:RS.
           destruct (reset_spec _ _ _ A RS) as [(-> & _)|[_ ->]]; discriminate F.
        -- destruct (service_hist _ _ H) as (A & _). destruct (service_reset (w_ext w)) as [x1 r1] eqn:RS.
           destruct (reset_spec _ _ _ A RS) as [(-> & _)|[_ ->]]; discriminate F.
Qed.

Lemma service_answer0 : forall l w w' s, hist l w ->
  sv_future (w_ext w) <> None -> call OTick (the_leaf leaf n name) w = (w', Ok s) ->
  not_updated (w_ins w n) ("service_name" :: fields) -> w_st w n = RUNNING ->
  exists before c ins t, sv_calls (w_ext w) = before ++ [c] /\
    setup_inputs n l = Some ins /\ io_value_as as_float ins "wait_for_response_seconds" = Ok t /\
    ((exists m, f_reply (sc_fut c) = Some (RMsg m) /\ snd (set_outputs m) = Ok s /\ sv_calls (w_ext w') = sv_calls (w_ext w)) \/
     (f_reply (sc_fut c) = None /\ f_cancelled (sc_fut c) = true /\ s = FAILED /\ sv_calls (w_ext w') = sv_calls (w_ext w)) \/
     (pending (sc_fut c) /\ SFltb t (seconds (sv_clock (w_ext w)) (sc_time c)) = true /\ s = FAILED /\
      sv_calls (w_ext w') = before ++ [mkCall (sc_req c) (sc_time c) (cancel (sc_fut c))]) \/
     (pending (sc_fut c) /\ SFltb t (seconds (sv_clock (w_ext w)) (sc_time c)) = false /\ s = RUNNING /\
      sv_calls (w_ext w') = sv_calls (w_ext w))).
Proof.
  intros l w w' s H AW C U ST.
  destruct (service_tick_ok _ _ _ _ H C) as (ND & (A & B & D) & _ & ws & T).
  destruct (D ND) as (D1 & ins & D2 & D3). destruct (sv_future (w_ext w)) as [i|] eqn:F; [|congruence].
  destruct (proj2 A i F) as (LI & c & EC & _).
  assert (SP : exists before, sv_calls (w_ext w) = before ++ [c] /\ length before = i).
  { destruct (@exists_last _ (sv_calls (w_ext w))) as (b & c' & EB); [intros K; rewrite K in LI; discriminate|].
    rewrite EB, app_length in LI. cbn in LI. assert (i = length b) by lia. subst i. exists b.
    rewrite EB, nth_error_app2, Nat.sub_diag in EC by lia. cbn in EC. injection EC as ->. auto. }
  destruct SP as (b & SP & LB). exists b, c, ins, (sv_timeout (w_ext w)). split; [exact SP|]. split; [exact D2|]. split; [exact D3|].
  inversion T as [rr K|r old K1 K2 K3 K4 K5|K K'|j c0 m K KF KN KR|j c0 K KF KN KR KC|j c0 K KF KN KP KT KF' KQ KC|j c0 K KF KN KP KT KF' KQ KC];
    try (exfalso; subst; congruence); try (assert (j = i) by congruence; subst j; assert (c0 = c) by congruence; subst c0).
  - exfalso. destruct K1 as [K|[K|K]]; [unfold updated, not_updated in *; congruence|congruence|congruence].
  - left. exists m. auto.
  - right; left. auto.
  - right; right; left. split; [exact KP|]. split; [exact KT|]. split; [reflexivity|].
    rewrite KC. unfold cancel_call. rewrite SP. rewrite <- LB. clear.
    induction b as [|a b IH]; cbn; [reflexivity|]. f_equal. exact IH.
  - right; right; right. auto.
Qed.
Lemma service_answer : (forall m, snd (set_outputs m) <> Ok RUNNING) -> forall l w w' s, hist l w ->
  no_exception l -> call OTick (the_leaf leaf n name) w = (w', Ok s) ->
  not_updated (w_ins w n) ("service_name" :: fields) -> w_st w n = RUNNING ->
  exists before c ins t, sv_calls (w_ext w) = before ++ [c] /\
    setup_inputs n l = Some ins /\ io_value_as as_float ins "wait_for_response_seconds" = Ok t /\
    ((exists m, f_reply (sc_fut c) = Some (RMsg m) /\ snd (set_outputs m) = Ok s /\ sv_calls (w_ext w') = sv_calls (w_ext w)) \/
     (f_reply (sc_fut c) = None /\ f_cancelled (sc_fut c) = true /\ s = FAILED /\ sv_calls (w_ext w') = sv_calls (w_ext w)) \/
     (pending (sc_fut c) /\ SFltb t (seconds (sv_clock (w_ext w)) (sc_time c)) = true /\ s = FAILED /\
      sv_calls (w_ext w') = before ++ [mkCall (sc_req c) (sc_time c) (cancel (sc_fut c))]) \/
     (pending (sc_fut c) /\ SFltb t (seconds (sv_clock (w_ext w)) (sc_time c)) = false /\ s = RUNNING /\
      sv_calls (w_ext w') = sv_calls (w_ext w))).
Proof.
  intros SO l w w' s H NR C U ST. exact (service_answer0 l w w' s H (service_awaits SO l w H NR ST) C U ST).
Qed.
Lemma service_answer_all : (forall m, snd (set_outputs m) <> Ok RUNNING) -> forall l w w' s, hist l w ->
  call OTick (the_leaf leaf n name) w = (w', Ok s) ->
  not_updated (w_ins w n) ("service_name" :: fields) -> w_st w n = RUNNING ->
  ((exists it, In it l /\ i_res it = Raise) /\ (forall c, In c (sv_calls (w_ext w)) -> ~ pending (sc_fut c)) /\
    s = RUNNING /\ sv_calls (w_ext w') = sv_calls (w_ext w)) \/
  exists before c ins t, sv_calls (w_ext w) = before ++ [c] /\
    setup_inputs n l = Some ins /\ io_value_as as_float ins "wait_for_response_seconds" = Ok t /\
    ((exists m, f_reply (sc_fut c) = Some (RMsg m) /\ snd (set_outputs m) = Ok s /\ sv_calls (w_ext w') = sv_calls (w_ext w)) \/
     (f_reply (sc_fut c) = None /\ f_cancelled (sc_fut c) = true /\ s = FAILED /\ sv_calls (w_ext w') = sv_calls (w_ext w)) \/
     (pending (sc_fut c) /\ SFltb t (seconds (sv_clock (w_ext w)) (sc_time c)) = true /\ s = FAILED /\
      sv_calls (w_ext w') = before ++ [mkCall (sc_req c) (sc_time c) (cancel (sc_fut c))]) \/
     (pending (sc_fut c) /\ SFltb t (seconds (sv_clock (w_ext w)) (sc_time c)) = false /\ s = RUNNING /\
      sv_calls (w_ext w') = sv_calls (w_ext w))).
Proof.
  intros SO l w w' s H C U ST. destruct (sv_future (w_ext w)) as [i|] eqn:F.
  - right. apply (service_answer0 l w w' s H); [congruence|exact C|exact U|exact ST].
  - left. split; [|split].
    + destruct (find (fun it => match i_res it with Raise => true | _ => false end) l) as [it|] eqn:FI.
      * exists it. apply find_some in FI. destruct FI as [FI FR]. split; [exact FI|]. destruct (i_res it); congruence.
      * exfalso. refine (service_awaits SO l w H _ ST F). intros it I R. apply (find_none _ _ FI) in I. rewrite R in I. discriminate I.
    + destruct (service_hist _ _ H) as (A & _). exact (core_none _ A F).
    + destruct (service_tick_ok _ _ _ _ H C) as (ND & (A & B & D) & _ & ws & T). destruct (D ND) as (D1 & _).
      inversion T as [rr K|r old K1 K2 K3 K4 K5|K K'|j c0 m K KF|j c0 K KF|j c0 K KF|j c0 K KF]; subst; try congruence.
      * exfalso. destruct K1 as [K|[K|K]]; [unfold updated, not_updated in *; congruence|congruence|congruence].
      * split; congruence.
Qed.
End Service.
