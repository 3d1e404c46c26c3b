(** Proofs about the data leaves that never succeed, and about files. *)
From Coq Require Import String Ascii ZArith Bool SpecFloat Arith Lia List.
From Verif Require Import Base ModelData ModelUtility ModelTree ModelLeaf ModelDataLeaf SpecData SpecLeaf SpecDataLeaf.
From Verif Require Import ProofsData ProofsLeaf ProofsDataLeaf ProofsDataRefs ProofsDataClass ProofsDataMore.
Import ListNotations.
Local Open Scope string_scope.
Local Open Scope list_scope.

Section Unary.
Context {X : Type}.
Variables (lib : mathlib) (known : string -> bool) (n : nid) (name : string).
Notation leaf g := (tick_only (fun _ : X => g)).
Notation unary := (leaf (unary_tick lib)).
Lemma unary_facts : forall (w w' : world X) r s x, ticks known unary_ins unary_outs unary n name w w' r ->
  value_at (w_ins w n) "operator" (VStr s) -> value_at (w_ins w n) "in" x ->
  exists i o t c, inv n i o w /\ NoDup (map fst o) /\ ready n w /\ call OTick (the_leaf unary n name) w = (w', r) /\
    dget "result" (w_outs w n) = Some c /\ c_ty c = t /\ stored t x /\ bytes_plain t /\
    unary_tick lib (w_ins w n) = match dget s unops with
      | None => ([], Raise)
      | Some p => match un_value lib p x with Some v => put_out "result" v | None => ([], Raise) end
      end.
Proof.
  intros w w' r s x H O A. start H.
  destruct (in_item _ _ n w T F EX "in" _ _ _ _ _ eq_refl) as (t1 & v1 & A1 & V1 & T1 & S1).
  destruct (out_ref _ _ n w T F "result" _ _ _ _ _ _ eq_refl) as (c & t & D & T3 & E & [BP _]).
  rewrite (T_fun _ _ n w T F _ _ _ T1 T3) in S1. rewrite (value_at_fun _ _ _ _ A1 A) in *. cbn in E.
  exists i, o, t, c. split; [auto|]. split; [auto|]. split; [auto|]. split; [auto|]. split; [auto|]. split; [auto|]. split; [auto|]. split; [auto|].
  unfold unary_tick, io_value_as. rewrite (value_at_io _ _ _ O), V1. reflexivity.
Qed.
Lemma factorial_eq : forall x z, is_factorial x z -> (0 <= x)%Z /\ factorial (Z.to_nat x) = z.
Proof.
  intros x z H. induction H as [|k f K H [_ IH]]; [split; [lia|reflexivity]|]. split; [lia|].
  replace (Z.to_nat (k + 1)) with (S (Z.to_nat k)) by lia. change (factorial (S (Z.to_nat k))) with (Z.of_nat (S (Z.to_nat k)) * factorial (Z.to_nat k))%Z.
  rewrite IH, Nat2Z.inj_succ, Z2Nat.id by lia. reflexivity.
Qed.
Theorem unary_int : forall (w w' : world X) r s x z, ticks known unary_ins unary_outs unary n name w w' r ->
  value_at (w_ins w n) "operator" (VStr s) -> value_at (w_ins w n) "in" (VInt x) -> int_unary s x z -> stores_result n (VInt z) z w w' r.
Proof.
  intros w w' r s x z H O A IU. destruct (unary_facts _ _ _ _ _ H O A) as (i & o & t & c & IV & ND & R & C & D & E & S1 & _ & G).
  destruct (stored_int _ _ S1) as (lo & hi & ->).
  assert (G2 : unary_tick lib (w_ins w n) = put_out "result" (VInt z)).
  { rewrite G. inversion IU as [? ? J|? ? J|? ? J|? ? J]; subst.
    - repeat (destruct J as [<-|J]; [reflexivity|]). contradiction.
    - assert (L : Z.lnot x = (- x - 1)%Z) by (unfold Z.lnot; lia). rewrite <- L. repeat (destruct J as [<-|J]; [reflexivity|]). contradiction.
    - repeat (destruct J as [<-|J]; [reflexivity|]). contradiction.
    - destruct (factorial_eq _ _ J) as [P F]. change (dget "factorial" unops) with (Some UFactorial). cbn [un_value]. unfold py_factorial. cbn [as_int].
      apply Z.ltb_ge in P. rewrite P, F. reflexivity. }
  eapply store_int; eauto. constructor.
Qed.
Theorem unary_not : forall (w w' : world X) r x, ticks known unary_ins unary_outs unary n name w w' r ->
  value_at (w_ins w n) "operator" (VStr "not") -> value_at (w_ins w n) "in" (VInt x) ->
  stores_result n (VBool (Z.eqb x 0)) (if Z.eqb x 0 then 1 else 0)%Z w w' r.
Proof.
  intros w w' r x H O A. destruct (unary_facts _ _ _ _ _ H O A) as (i & o & t & c & IV & ND & R & C & D & E & S1 & _ & G).
  destruct (stored_int _ _ S1) as (lo & hi & ->). cbn in G. eapply store_int; eauto. destruct (Z.eqb x 0); constructor.
Qed.
Theorem unary_real : forall (w w' : world X) r s x st, ticks known unary_ins unary_outs unary n name w w' r ->
  value_at (w_ins w n) "operator" (VStr s) -> value_at (w_ins w n) "in" (VInt x) -> In s real_functions -> r <> Ok st.
Proof.
  intros w w' r s x st H O A J. destruct (unary_facts _ _ _ _ _ H O A) as (i & o & t & c & IV & ND & R & C & D & E & S1 & _ & G).
  destruct (stored_int _ _ S1) as (lo & hi & ->).
  assert (DG : dget s unops = Some (UFun s)) by (repeat (destruct J as [<-|J]; [reflexivity|]); contradiction).
  rewrite DG in G. cbn [un_value] in G. destruct (ml_fun lib s (VInt x)) as [f|]; cbn [option_map] in G.
  - destruct (tick_refused n unary name w (w_ext w) "result" (VFloat f) SUCCEEDED c EData (proj1 R)) with (w' := w') (r := r) as [(e & ->) _]; auto;
      [cbn; rewrite G; reflexivity|rewrite E; reflexivity|discriminate].
  - destruct (tick_bad n unary name w (w_ext w) Raise (proj1 R)) with (w' := w') (r := r) as [-> _]; auto; [cbn; rewrite G; auto|discriminate|discriminate].
Qed.
Theorem unary_negative : forall (w w' : world X) r x, ticks known unary_ins unary_outs unary n name w w' r ->
  value_at (w_ins w n) "operator" (VStr "factorial") -> value_at (w_ins w n) "in" (VInt x) -> (x < 0)%Z -> r = Raise /\ w_st w' n = w_st w n.
Proof.
  intros w w' r x H O A L. destruct (unary_facts _ _ _ _ _ H O A) as (i & o & t & c & IV & ND & R & C & D & E & S1 & _ & G).
  change (dget "factorial" unops) with (Some UFactorial) in G. cbn [un_value] in G. unfold py_factorial in G. cbn [as_int] in G. apply Z.ltb_lt in L. rewrite L in G.
  apply (tick_bad n unary name w (w_ext w) Raise (proj1 R)) with (w' := w') (r := r); auto; [cbn; rewrite G; auto|discriminate].
Qed.
(** Doubles. *)
Lemma floor_unique : forall d k a b, (a * d <= k < (a + 1) * d -> b * d <= k < (b + 1) * d -> 0 < d -> a = b)%Z.
Proof. intros d k a b A B P. assert (a < b + 1 /\ b < a + 1)%Z by (split; nia). lia. Qed.
Lemma floor_eq : forall x z, is_floor x z -> round_float false x = Some z.
Proof.
  intros x z (k & d & F & L). inversion F as [b|m e P|m e P|m e P|m e P]; subst; cbn [round_float]; f_equal.
  - lia.
  - rewrite (proj2 (Z.leb_le 0 e) P). lia.
  - rewrite (proj2 (Z.leb_le 0 e) P). change (Z.neg m) with (- Z.pos m)%Z. lia.
  - rewrite (proj2 (Z.leb_gt 0 e) P). pose proof (Z.pow_pos_nonneg 2 (- e)) as Q. symmetry. apply (Z.div_unique _ _ _ (Z.pos m - z * 2 ^ (- e))); lia.
  - rewrite (proj2 (Z.leb_gt 0 e) P). pose proof (Z.pow_pos_nonneg 2 (- e)) as Q. symmetry. change (Z.neg m) with (- Z.pos m)%Z.
    apply (Z.div_unique _ _ _ (- Z.pos m - z * 2 ^ (- e))); lia.
Qed.
Lemma ceil_eq : forall x z, is_ceil x z -> round_float true x = Some z.
Proof.
  intros x z (k & d & F & L). inversion F as [b|m e P|m e P|m e P|m e P]; subst; cbn [round_float]; f_equal.
  - lia.
  - rewrite (proj2 (Z.leb_le 0 e) P). lia.
  - rewrite (proj2 (Z.leb_le 0 e) P). change (Z.neg m) with (- Z.pos m)%Z. lia.
  - rewrite (proj2 (Z.leb_gt 0 e) P). pose proof (Z.pow_pos_nonneg 2 (- e)) as Q. rewrite <- (Z.div_unique (- Z.pos m) (2 ^ (- e)) (- z) (- Z.pos m + z * 2 ^ (- e))); lia.
  - rewrite (proj2 (Z.leb_gt 0 e) P). pose proof (Z.pow_pos_nonneg 2 (- e)) as Q. change (Z.neg m) with (- Z.pos m)%Z. rewrite Z.opp_involutive.
    rewrite <- (Z.div_unique (Z.pos m) (2 ^ (- e)) (- z) (Z.pos m + z * 2 ^ (- e))); lia.
Qed.
Lemma round_defined : forall up x z, round_float up x = Some z -> if up then is_ceil x z else is_floor x z.
Proof.
  intros up x z H. destruct x as [b|b| |[] m e]; cbn [round_float] in H; try discriminate H;
    match type of H with Some ?q = Some z => assert (E : q = z) by congruence; clear H; rewrite <- E; clear E end.
  - destruct up; exists 0%Z, 1%Z; (split; [constructor|lia]).
  - destruct (Z.leb_spec 0 e) as [P|P]; change (Z.neg m) with (- Z.pos m)%Z.
    + destruct up; exists (- (Z.pos m * 2 ^ e))%Z, 1%Z; (split; [apply fraction_whole_neg; auto|lia]).
    + assert (Q : (0 < 2 ^ (- e))%Z) by (apply Z.pow_pos_nonneg; lia).
      destruct up; exists (- Z.pos m)%Z, (2 ^ (- e))%Z; (split; [apply fraction_part_neg; auto|]); rewrite ?Z.opp_involutive;
        [pose proof (Z.div_mod (Z.pos m) (2 ^ (- e))) as DM; pose proof (Z.mod_pos_bound (Z.pos m) _ Q)
        |pose proof (Z.div_mod (- Z.pos m) (2 ^ (- e))) as DM; pose proof (Z.mod_pos_bound (- Z.pos m) _ Q)]; nia.
  - destruct (Z.leb_spec 0 e) as [P|P].
    + destruct up; exists (Z.pos m * 2 ^ e)%Z, 1%Z; (split; [apply fraction_whole; auto|lia]).
    + assert (Q : (0 < 2 ^ (- e))%Z) by (apply Z.pow_pos_nonneg; lia).
      destruct up; exists (Z.pos m)%Z, (2 ^ (- e))%Z; (split; [apply fraction_part; auto|]);
        [pose proof (Z.div_mod (- Z.pos m) (2 ^ (- e))) as DM; pose proof (Z.mod_pos_bound (- Z.pos m) _ Q)
        |pose proof (Z.div_mod (Z.pos m) (2 ^ (- e))) as DM; pose proof (Z.mod_pos_bound (Z.pos m) _ Q)]; nia.
Qed.
Lemma float_unary_op : forall s x v, float_unary lib s x v -> exists o, dget s unops = Some o /\ un_value lib o (VFloat x) = Some v.
Proof.
  intros s x v H. inversion H as [? ? J|? ? J|b|? NZ|? ? J|? ? J|? ? ? J E]; subst.
  - exists UNeg. split; [each J; reflexivity|reflexivity].
  - exists UPos. split; [each J; reflexivity|reflexivity].
  - exists UNot. split; reflexivity.
  - exists UNot. split; [reflexivity|]. cbn. destruct x as [b| | |]; auto. destruct (NZ b eq_refl).
  - exists UCeil. split; [reflexivity|]. cbn [un_value]. rewrite (ceil_eq _ _ J). reflexivity.
  - exists UFloor. split; [reflexivity|]. cbn [un_value]. rewrite (floor_eq _ _ J). reflexivity.
  - exists (UFun s). split; [each J; reflexivity|]. cbn [un_value]. rewrite E. reflexivity.
Qed.
Lemma float_op_unary : forall s x o v, dget s unops = Some o -> un_value lib o (VFloat x) = Some v -> float_unary lib s x v.
Proof.
  intros s x o v D F. apply dget_In in D. cbn [unops math_funs map app In] in D.
  repeat (destruct D as [D|D]; [injection D as <- <-; cbn [un_value as_int] in F;
    try discriminate F;
    try (injection F as <-; destruct x as [b| | |]; cbn [is_zero]; constructor; (cbn; auto; fail) || (intros b0; discriminate); fail);
    try (injection F as <-; constructor; cbn; auto; fail);
    try (destruct (round_float _ x) as [z|] eqn:RF; [|discriminate F]; injection F as <-; apply round_defined in RF; constructor; exact RF);
    try (destruct (ml_fun lib _ (VFloat x)) as [z|] eqn:ML; [|discriminate F]; injection F as <-; apply fu_fun; [unfold real_functions; cbn; tauto|exact ML])|]).
  contradiction.
Qed.
Theorem unary_float : forall (w w' : world X) r s x v f, ticks known unary_ins unary_outs unary n name w w' r ->
  value_at (w_ins w n) "operator" (VStr s) -> value_at (w_ins w n) "in" (VFloat x) -> float_unary lib s x v -> is_float v f -> stores_float n v f w w' r.
Proof.
  intros w w' r s x v f H O A FU IF. destruct (unary_facts _ _ _ _ _ H O A) as (i & o & t & c & IV & ND & R & C & D & E & S1 & _ & G).
  destruct (stored_float _ _ S1) as (lo & hi & ->). destruct (float_unary_op _ _ _ FU) as (p & P1 & P2). rewrite P1, P2 in G.
  eapply store_float; eauto.
Qed.
Theorem unary_float_undefined : forall (w w' : world X) r s x, ticks known unary_ins unary_outs unary n name w w' r ->
  value_at (w_ins w n) "operator" (VStr s) -> value_at (w_ins w n) "in" (VFloat x) -> (forall v, ~ float_unary lib s x v) -> r = Raise /\ w_st w' n = w_st w n.
Proof.
  intros w w' r s x H O A FU. destruct (unary_facts _ _ _ _ _ H O A) as (i & o & t & c & IV & ND & R & C & D & E & S1 & _ & G).
  assert (G2 : unary_tick lib (w_ins w n) = ([], Raise)).
  { rewrite G. destruct (dget s unops) as [p|] eqn:DP; [|auto]. destruct (un_value lib p (VFloat x)) as [v|] eqn:UV; [|auto].
    destruct (FU v). eapply float_op_unary; eauto. }
  apply (tick_bad n unary name w (w_ext w) Raise (proj1 R)) with (w' := w') (r := r); auto; [cbn; rewrite G2; auto|discriminate].
Qed.
(** Bools: only not. *)
Theorem unary_bool : forall (w w' : world X) r s x, ticks known unary_ins unary_outs unary n name w w' r ->
  value_at (w_ins w n) "operator" (VStr s) -> value_at (w_ins w n) "in" (VBool x) ->
  (forall c, dget "result" (w_outs w n) = Some c -> c_ty c = TBool) ->
  (s = "not" -> r = Ok SUCCEEDED /\ written n "result" (VBool (negb x)) w w') /\ (s <> "not" -> forall st, r <> Ok st).
Proof.
  intros w w' r s x H O A TY. destruct (unary_facts _ _ _ _ _ H O A) as (i & o & t & c & IV & ND & R & C & D & E & S1 & _ & G).
  rewrite (TY _ D) in E. subst t. split.
  - intros ->. eapply (ran_one (fun _ => unary_tick lib)); eauto; [rewrite G; destruct x; reflexivity|rewrite (TY _ D); exact I|]. rewrite (TY _ D). exists (negb x). auto.
  - intros NN st.
    assert (G2 : unary_tick lib (w_ins w n) = ([], Raise) \/ exists v e, unary_tick lib (w_ins w n) = put_out "result" v /\ check TBool v = Err e).
    { rewrite G. destruct (dget s unops) as [p|] eqn:DP; [|auto]. destruct (un_value lib p (VBool x)) as [v|] eqn:UV; [|auto]. right.
      assert (NP : p <> UNot) by (intros ->; apply dget_In in DP; cbn in DP; repeat (destruct DP as [DP|DP]; [try discriminate DP; injection DP as <-; congruence|]); contradiction).
      exists v, EData. split; [reflexivity|].
      destruct p; cbn [un_value as_int] in UV; try congruence; try (injection UV as <-; reflexivity).
      - unfold py_factorial in UV. cbn [as_int] in UV. destruct (Z.ltb _ 0); [discriminate|]. injection UV as <-. reflexivity.
      - destruct (ml_fun lib name0 (VBool x)); [|discriminate]. injection UV as <-. reflexivity. }
    destruct G2 as [G2|(v & e & G2 & CE)].
    + destruct (tick_bad n unary name w (w_ext w) Raise (proj1 R)) with (w' := w') (r := r) as [-> _]; auto; [cbn; rewrite G2; auto|discriminate|discriminate].
    + destruct (tick_refused n unary name w (w_ext w) "result" v SUCCEEDED c e (proj1 R)) with (w' := w') (r := r) as [(e' & ->) _]; auto;
        [cbn; rewrite G2; reflexivity|rewrite (TY _ D); auto|discriminate].
Qed.

(** ** Nodes that never succeed *)
Theorem setattr_never : forall rs (w w' : world X) r st, ticks known setattr_ins setattr_outs (leaf (setattr_tick rs)) n name w w' r -> r <> Ok st.
Proof.
  intros rs w w' r st H. start H.
  destruct (in_item _ _ n w T F EX "object" _ _ _ _ _ eq_refl) as (t & v & A & V & _).
  destruct (in_str _ _ n w T F EX "attr_name" _ eq_refl (ex_intro _ None eq_refl)) as (k & A2 & V2 & _).
  assert (NV : io_value (w_ins w n) "value" = Err EConfig).
  { unfold io_value. destruct (dget "value" (w_ins w n)) as [c|] eqn:D; [|auto]. exfalso.
    assert (Q : dget "value" (w_ins w n) <> None) by congruence. rewrite dget_keys in Q. destruct F as (_ & _ & _ & _ & K). rewrite K in Q.
    cbn in Q. intuition discriminate. }
  destruct (tick_bad n (leaf (setattr_tick rs)) name w (w_ext w) (Err EConfig) EX) with (w' := w') (r := r) as [-> _]; auto; try discriminate.
  cbn. unfold setattr_tick. rewrite V, V2, NV. reflexivity.
Qed.
Theorem format_list_never : forall (w w' : world X) r, ticks known format_list_ins format_list_outs (leaf format_list_tick) n name w w' r -> r = Ok FAILED.
Proof.
  intros w w' r H. start H. destruct (in_value _ _ n w T F EX "format_strings" _ eq_refl) as (u & v & A & V & _).
  refine (ran_none (fun _ => format_list_tick) n name _ _ w w' r FAILED IV ND R C _ _); [unfold format_list_tick; rewrite V; reflexivity|cbn; auto].
Qed.
Theorem convert_never : forall conv (w : world (option (value -> option value))), built known convert_ins convert_outs (convert_leaf conv) n name w ->
  In (w_st w n) [UNINITIALIZED; BROKEN; SHUTDOWN] /\
  (forall w' r st, call OSetup (the_leaf (convert_leaf conv) n name) w = (w', r) -> r <> Ok st) /\
  (forall w' r st, call OTick (the_leaf (convert_leaf conv) n name) w = (w', r) -> r <> Ok st).
Proof.
  intros conv w (msg & i & o & mi & mo & PM & NM & CI & CO & FI & LI).
  assert (KEY : forall w0, life (convert_leaf conv) mi mo n name w0 -> map fst (w_ins w0 n) = map fst convert_ins).
  { intros w0 L0. destruct (built_facts known convert_ins convert_outs (convert_leaf conv) n name) with (w := w0) as (i1 & o1 & T & F & _);
      [nodup|nodup|fresh_outs|exists msg, i, o, mi, mo; auto 8|]. exact (proj2 (proj2 (proj2 (proj2 F)))). }
  assert (BAD : forall w0 st, life (convert_leaf conv) mi mo n name w0 ->
    exists e, convert_leaf conv OSetup st (ins_for OSetup (w_ins w0 n)) (w_ext w0) = (w_ext w0, [], Err e)).
  { intros w0 st L0. pose proof (KEY _ L0) as K. cbn [convert_leaf].
    assert (IOV : forall A (cv : value -> option A) m k, exists q, io_value_as cv m k = q /\ q <> Raise).
    { intros A cv m k. unfold io_value_as, io_value. destruct (dget k m) as [c|]; [|eexists; split; [reflexivity|discriminate]].
      destruct (c_val c) as [v|]; [|eexists; split; [reflexivity|discriminate]]. destruct (cv v); eexists; (split; [reflexivity|discriminate]). }
    assert (NC : io_value_as as_bool (ins_for OSetup (w_ins w0 n)) "clamp" = Err EConfig).
    { unfold io_value_as, io_value. cbn [ins_for]. rewrite dget_map_io. destruct (dget "clamp" (w_ins w0 n)) as [c|] eqn:D; [|auto]. exfalso.
      assert (Q : dget "clamp" (w_ins w0 n) <> None) by congruence. rewrite dget_keys, K in Q. cbn in Q. intuition discriminate. }
    destruct (IOV _ as_type (ins_for OSetup (w_ins w0 n)) "input_type") as ([a|e|] & -> & N1); [|eexists; reflexivity|congruence]. cbn [onok].
    destruct (IOV _ as_type (ins_for OSetup (w_ins w0 n)) "output_type") as ([b|e|] & -> & N2); [|eexists; reflexivity|congruence]. cbn [onok].
    rewrite NC. eexists. reflexivity. }
  assert (SET : forall w0, life (convert_leaf conv) mi mo n name w0 -> forall w' r, call OSetup (the_leaf (convert_leaf conv) n name) w0 = (w', r) ->
    (exists e, r = Err e) /\ (w_st w' n = BROKEN \/ w_st w' n = w_st w0 n)).
  { intros w0 L0 w' r C. apply leaf_call in C. destruct C as [(RF & -> & [->|([=] & _)])|[([=] & _)|(NR & x' & ws & r0 & F & _ & _ & _ & OC & _)]]; [eauto|].
    destruct (BAD w0 (w_st w0 n) L0) as (e & B). rewrite B in F. injection F as <- <- <-.
    destruct OC as [(-> & S & [[=]|Q])|[(S & e' & ->)|(s & [=] & _)]]; [congruence|]. eauto. }
  assert (ST : forall w0, life (convert_leaf conv) mi mo n name w0 -> In (w_st w0 n) [UNINITIALIZED; BROKEN; SHUTDOWN]).
  { induction 1 as [w0 S A B|w0 w1 L IH S A B|w0 k c v c' r L IH D S|w0 op w1 r L IH C].
    - rewrite S. cbn. auto.
    - rewrite S. auto.
    - exact IH.
    - destruct op.
      + destruct (SET _ L _ _ C) as (_ & [->| ->]); [cbn; auto|auto].
      + apply leaf_call in C. destruct C as [(RF & -> & _)|[(_ & [NR _] & _)|(NR & _)]]; auto; exfalso; apply NR; cbn in IH |- *; intuition congruence.
      + apply leaf_call in C. destruct C as [(RF & -> & _)|[([=] & _)|(NR & _)]]; auto; exfalso; apply NR; cbn in IH |- *; intuition congruence.
      + apply leaf_call in C. destruct C as [(RF & -> & _)|[([=] & _)|(NR & _)]]; auto; exfalso; apply NR; cbn in IH |- *; intuition congruence.
      + apply leaf_call in C. destruct C as [(RF & -> & _)|[([=] & _)|(NR & x' & ws & r0 & F & _ & _ & _ & OC & _)]]; auto.
        cbn in F. injection F as <- <- <-. destruct OC as [(-> & S & _)|[(S & _)|(s & [= <-] & S & _)]]; rewrite S; auto; cbn; auto. }
  split; [auto|]. split.
  - intros w' r st C. destruct (SET _ LI _ _ C) as ((e & ->) & _). discriminate.
  - intros w' r st C. specialize (ST _ LI). apply leaf_call in C. destruct C as [(RF & -> & [->|([=] & _)])|[(_ & [NR _] & _)|(NR & _)]]; try discriminate;
      exfalso; apply NR; cbn in ST |- *; intuition congruence.
Qed.
End Unary.

(** ** Files *)
Lemma out_set_all_checked : forall X n ws (w w' : world X), out_set_all w n ws = (w', Ok tt) ->
  forall k v, In (k, v) ws -> exists c v', dget k (w_outs w n) = Some c /\ check (c_ty c) v = Ok v'.
Proof.
  intros X n ws. induction ws as [|[k v] ws IH]; intros w w' H k0 v0 J; [destruct J|]. cbn [out_set_all] in H. unfold out_set in H.
  destruct (dget k (w_outs w n)) as [c|] eqn:D; [|discriminate]. destruct (set_value c v) as [c' r] eqn:S. destruct r as [u|e|]; cbn [bind] in H; try discriminate.
  destruct J as [[= -> ->]|J].
  - exists c. unfold set_value in S. destruct (check (c_ty c) v0) as [v'|e|] eqn:CK; [eauto|discriminate|discriminate].
  - destruct (IH _ _ H _ _ J) as (c1 & v' & D1 & CK). cbn in D1. rewrite upd_same in D1. destruct (set_keeps _ _ _ _ S) as (K1 & _).
    destruct (String.eqb_spec k0 k) as [->|N].
    + rewrite dget_dset_eq in D1. injection D1 as <-. exists c, v'. rewrite <- K1. auto.
    + rewrite dget_dset_ne in D1 by auto. eauto.
Qed.

Section Yaml.
Variables (is_list : bool) (n : nid) (name : string).
Notation leaf := (yaml_leaf is_list).
Notation hist := (history leaf (fun _ => True) yaml_out n name).

Lemma fresh_cache : forall (w w' : world yaml) s, call OTick (the_leaf leaf n name) w = (w', Ok s) -> typed n w -> ya_cache (w_ext w') = Some s.
Proof.
  intros w w' s C TY. apply leaf_call in C. destruct C as [(_ & _ & [[=]|([=] & _)])|[(_ & _ & _ & [=])|(_ & x' & ws & r0 & F & EE & _ & O & OC & _)]].
  specialize (O eq_refl s eq_refl). destruct O as (w2 & O & _).
  assert (R0 : r0 = Ok s).
  { destruct OC as [([=] & _)|[(_ & e & [=])|(s' & -> & _ & [(_ & [[= <-]|(_ & [=])])|(_ & e & [=])])]]. auto. }
  subst r0. rewrite EE. cbn [yaml_leaf ins_for] in F. destruct (io_any_updated (w_ins w n) ["file_path"]) as [u|e|]; cbn [onok] in F; try discriminate.
  set (x := if u then ya_with (w_ext w) None (ya_reads (w_ext w)) else w_ext w) in F.
  assert (TX : ya_ty x = ya_ty (w_ext w)) by (unfold x; destruct u; reflexivity).
  destruct (ya_cache x) as [s0|] eqn:CX; [injection F as <- <- <-; auto|].
  destruct (io_value_as as_str (w_ins w n) "file_path") as [p|e|]; cbn [onok] in F; try discriminate.
  cbn [ya_with ya_files] in F. destruct (ya_files x p) as [v|m|]; try discriminate.
  - destruct (good_data is_list v) eqn:GD; cbn [yaml_outs] in F; rewrite GD in F.
    + cbn [ya_ty ya_with] in F. destruct (check (ya_ty x) v) as [v'|e|] eqn:CK.
      * injection F as <- <- <-. reflexivity.
      * injection F as <- <- <-.
        destruct (out_set_all_checked _ _ _ _ _ O "content" v) as (c & v' & D & CK'); [cbn; auto|].
        cbn in D. rewrite upd_same, dget_map_io in D. destruct (dget "content" (w_outs w n)) as [c0|] eqn:D0; [|discriminate].
        cbn in D. injection D as <-. cbn in CK'. rewrite (TY _ D0), <- TX, CK in CK'. discriminate.
      * injection F as <- <- <-.
        destruct (out_set_all_checked _ _ _ _ _ O "content" v) as (c & v' & D & CK'); [cbn; auto|].
        cbn in D. rewrite upd_same, dget_map_io in D. destruct (dget "content" (w_outs w n)) as [c0|] eqn:D0; [|discriminate].
        cbn in D. injection D as <-. cbn in CK'. rewrite (TY _ D0), <- TX, CK in CK'. discriminate.
    + injection F as <- <- <-. reflexivity.
  - cbn [yaml_outs] in F. injection F as <- <- <-. reflexivity.
Qed.
Lemma cached_tick : forall (w w' : world yaml) o r s, call o (the_leaf leaf n name) w = (w', r) -> ya_cache (w_ext w) = Some s ->
  keeps_file n (mkItem w o w' r) -> w_ext w' = w_ext w /\ (o = OTick -> forall t, r = Ok t -> t = s).
Proof.
  intros w w' o r s C CA K. unfold keeps_file in K. cbn in K. apply leaf_call in C.
  destruct C as [(_ & -> & Q)|[(-> & _ & -> & ->)|(_ & x' & ws & r0 & F & EE & _ & _ & OC & _)]].
  - split; [auto|]. intros ->. intros t ->. destruct Q as [[=]|([=] & _)].
  - split; [auto|discriminate].
  - rewrite EE. destruct o; try contradiction.
    + cbn [yaml_leaf ins_for] in F. unfold is_updated in K. destruct (io_any_updated (w_ins w n) ["file_path"]) as [[|]|e|]; cbn [onok] in F; try discriminate.
      * rewrite CA in F. injection F as <- <- <-. split; [auto|]. intros _ t ->.
        destruct OC as [([=] & _)|[(_ & e & [=])|(s' & [= <-] & _ & [(_ & [[= <-]|(_ & [=])])|(_ & e & [=])])]]. auto.
      * injection F as <- <- <-. split; [auto|]. intros _ t ->. destruct OC as [([=] & _)|[(_ & e' & [=])|(s' & [=] & _)]].
      * injection F as <- <- <-. split; [auto|]. intros _ t ->. destruct OC as [([=] & _)|[(_ & e' & [=])|(s' & [=] & _)]].
    + cbn in F. injection F as <- <- <-. split; [auto|discriminate].
    + cbn in F. injection F as <- <- <-. split; [auto|discriminate].
Qed.
Theorem yaml_cache : forall l1 it l2 w s, hist (l1 ++ it :: l2) w -> i_op it = OTick -> i_res it = Ok s -> typed n (i_before it) ->
  (forall j, In j l2 -> keeps_file n j) ->
  forall j, In j l2 -> i_op j = OTick -> (forall t, i_res j = Ok t -> t = s) /\ ya_reads (w_ext (i_after j)) = ya_reads (w_ext (i_before j)).
Proof.
  assert (G : forall l w, hist l w -> forall l1 it l2 s, l = l1 ++ it :: l2 -> i_op it = OTick -> i_res it = Ok s -> typed n (i_before it) ->
    (forall j, In j l2 -> keeps_file n j) -> ya_cache (w_ext w) = Some s /\
    forall j, In j l2 -> i_op j = OTick -> (forall t, i_res j = Ok t -> t = s) /\ ya_reads (w_ext (i_after j)) = ya_reads (w_ext (i_before j))).
  { induction 1 as [w S I|l w w' H IH S (O1 & _ & _)|l w o w' r H IH C]; intros l1 it l2 s E O R TY K.
    - destruct l1; discriminate.
    - destruct (IH _ _ _ _ E O R TY K) as [A B]. split; [congruence|exact B].
    - destruct l2 as [|j l2 _] using rev_ind.
      + apply app_inj_tail in E. destruct E as [-> <-]. cbn in O, R, TY. subst. split; [eapply fresh_cache; eauto|intros j []].
      + rewrite app_comm_cons, app_assoc in E. apply app_inj_tail in E. destruct E as [E <-].
        destruct (IH _ _ _ _ E O R TY) as [A B]; [intros j J; apply K, in_app_iff; auto|].
        destruct (cached_tick _ _ _ _ _ C A) as [X1 X2]; [apply K, in_app_iff; right; left; auto|].
        split; [congruence|]. intros j J JO. apply in_app_iff in J. destruct J as [J|[<-|[]]]; [auto|]. cbn in JO |- *. split; [auto|congruence]. }
  intros l1 it l2 w s H O R TY K. exact (proj2 (G _ _ H _ _ _ _ eq_refl O R TY K)).
Qed.

(** After a reset the next tick reads again. *)
Lemma empty_cache : forall (w w' : world yaml) o r, call o (the_leaf leaf n name) w = (w', r) -> o <> OTick ->
  (ya_cache (w_ext w) = None \/ (o = OReset \/ o = OSetup) /\ exists s, r = Ok s) -> ya_cache (w_ext w') = None.
Proof.
  intros w w' o r C NT H. apply leaf_call in C. destruct C as [(_ & -> & Q)|[(-> & _)|(_ & x' & ws & r0 & F & EE & _)]].
  - destruct H as [H|[[->| ->] [s ->]]]; [exact H| |]; destruct Q as [Q|(Q & _)]; discriminate.
  - congruence.
  - rewrite EE. destruct o; cbn [yaml_leaf] in F; try congruence; injection F as <- _ _; try reflexivity; destruct H as [H|[[H|H] _]]; congruence.
Qed.
Lemma reading_tick : forall (w w' : world yaml) s, call OTick (the_leaf leaf n name) w = (w', Ok s) -> ya_cache (w_ext w) = None ->
  exists p, ya_reads (w_ext w') = ya_reads (w_ext w) ++ [p].
Proof.
  intros w w' s C CA. apply leaf_call in C. destruct C as [(_ & _ & [[=]|([=] & _)])|[(_ & _ & _ & [=])|(_ & x' & ws & r0 & F & EE & _ & O & OC & _)]].
  assert (R0 : exists s0, r0 = Ok s0).
  { destruct OC as [([=] & _)|[(_ & e & [=])|(s' & -> & _)]]. eauto. }
  destruct R0 as [s0 ->]. rewrite EE. cbn [yaml_leaf ins_for] in F. destruct (io_any_updated (w_ins w n) ["file_path"]) as [u|e|]; cbn [onok] in F; try discriminate.
  set (x := if u then ya_with (w_ext w) None (ya_reads (w_ext w)) else w_ext w) in F.
  assert (RX : ya_reads x = ya_reads (w_ext w)) by (unfold x; destruct u; reflexivity).
  assert (CX : ya_cache x = None) by (unfold x; destruct u; [reflexivity|exact CA]). rewrite CX in F.
  destruct (io_value_as as_str (w_ins w n) "file_path") as [p|e|]; cbn [onok] in F; try discriminate. exists p.
  cbn [ya_with ya_files ya_reads ya_ty] in F. rewrite RX in F. destruct (ya_files x p) as [v|m|]; try discriminate; cbn [yaml_outs] in F.
  - destruct (good_data is_list v); [destruct (check (ya_ty x) v)|]; injection F as <- <- <-; reflexivity.
  - injection F as <- <- <-. reflexivity.
Qed.
Theorem yaml_again : forall l1 it l2 j w s s', hist (l1 ++ it :: l2 ++ [j]) w -> i_op it = OReset \/ i_op it = OSetup -> i_res it = Ok s ->
  (forall k, In k l2 -> i_op k <> OTick) -> i_op j = OTick -> i_res j = Ok s' ->
  exists p, ya_reads (w_ext (i_after j)) = ya_reads (w_ext (i_before j)) ++ [p].
Proof.
  assert (G : forall l w, hist l w -> forall l1 it l2 s, l = l1 ++ it :: l2 -> i_op it = OReset \/ i_op it = OSetup -> i_res it = Ok s ->
    (forall k, In k l2 -> i_op k <> OTick) -> ya_cache (w_ext w) = None).
  { induction 1 as [w S I|l w w' H IH S (O1 & _ & _)|l w o w' r H IH C]; intros l1 it l2 s E O R K.
    - destruct l1; discriminate.
    - rewrite O1. exact (IH _ _ _ _ E O R K).
    - destruct l2 as [|j l2 _] using rev_ind.
      + apply app_inj_tail in E. destruct E as [-> <-]. cbn in O, R. apply (empty_cache _ _ _ _ C); [intros ->; destruct O; discriminate|]. right. eauto.
      + rewrite app_comm_cons, app_assoc in E. apply app_inj_tail in E. destruct E as [E <-].
        apply (empty_cache _ _ _ _ C); [refine (K (mkItem w o w' r) _); apply in_app_iff; right; left; reflexivity|]. left.
        apply (IH _ _ _ _ E O R). intros k J. apply K, in_app_iff. auto. }
  intros l1 it l2 j w s s' H O R K Oj Rj. remember (l1 ++ it :: l2 ++ [j]) as l eqn:E. revert E.
  induction H as [w S I|l w w' H IH S X|l w o w' r H IH C]; intros E.
  - destruct l1; discriminate.
  - exact (IH E).
  - rewrite app_comm_cons, app_assoc in E. apply app_inj_tail in E. destruct E as [E <-]. cbn in Oj, Rj |- *. subst o r.
    exact (reading_tick _ _ _ C (G _ _ H _ _ _ _ E O R K)).
Qed.

Variable known : string -> bool.
Notation outs := (if is_list then yaml_list_outs else yaml_dict_outs).
Lemma good_ok : forall v, good_data is_list v = true <-> good_content is_list v.
Proof.
  intros v. unfold good_content. destruct is_list; destruct v as [| | | | |l|l| |]; cbn; try (split; [discriminate|firstorder discriminate]).
  all: destruct l as [|x l]; try (split; [discriminate|firstorder discriminate]).
  all: try destruct x; split; eauto.
Qed.
Theorem yaml_ticks : forall (w w' : world yaml) r p, ticks known yaml_ins outs leaf n name w w' r -> typed n w ->
  ya_reads (w_ext w') = ya_reads (w_ext w) ++ [p] ->
  value_at (w_ins w n) "file_path" (VStr p) /\
  match ya_files (w_ext w) p with
  | LData v =>
      (good_content is_list v -> forall c, dget "content" (w_outs w n) = Some c -> admits (c_ty c) v ->
        r = Ok SUCCEEDED /\ written n "content" v w w' /\ written n "load_success" (VBool true) w w') /\
      (~ good_content is_list v -> r = Ok FAILED /\ written n "load_success" (VBool false) w w')
  | LError m => (zlen m <= INT_FLOAT_MAX)%Z ->
      r = Ok FAILED /\ written n "load_success" (VBool false) w w' /\ written n "load_error_msg" (VStr m) w w'
  | LRaise => r = Raise
  end.
Proof.
  intros w w' r p H TY RD.
  assert (FX : exists i o T, facts yaml_ins outs n T w /\ inv n i o w /\ NoDup (map fst o)).
  { apply (built_facts known yaml_ins outs leaf n name) with (w := w); [nodup|destruct is_list; nodup|destruct is_list; fresh_outs|exact (proj1 H)]. }
  destruct FX as (i & o & T & F & IV & ND). destruct H as (_ & R & C).
  destruct (in_value _ _ n w T F (proj1 R) "file_path" _ eq_refl) as (u & v & A & V & _ & _).
  assert (RAN : exists x' ws r0, leaf OTick (w_st w n) (w_ins w n) (w_ext w) = (x', ws, r0) /\ w_ext w' = x').
  { pose proof C as C2. apply leaf_call in C2. destruct C2 as [(_ & -> & _)|[(_ & _ & -> & _)|(_ & x' & ws & r0 & G & EE & _)]]; [| |eauto];
      exfalso; apply (f_equal (@length _)) in RD; rewrite app_length in RD; cbn in RD; lia. }
  destruct RAN as (x' & ws & r0 & G & EX'). subst x'. pose proof G as G0. cbn [yaml_leaf] in G.
  assert (NO : forall l q, l ++ [q] = l -> False) by (intros l q E; apply (f_equal (@length string)) in E; rewrite app_length in E; cbn in E; lia).
  destruct (io_any_updated (w_ins w n) ["file_path"]) as [b|e|]; cbn [onok] in G;
    [|injection G as E _ _; rewrite <- E in RD; symmetry in RD; destruct (NO _ _ RD)|injection G as E _ _; rewrite <- E in RD; symmetry in RD; destruct (NO _ _ RD)].
  set (x := if b then ya_with (w_ext w) None (ya_reads (w_ext w)) else w_ext w) in G.
  assert (X1 : ya_reads x = ya_reads (w_ext w)) by (unfold x; destruct b; reflexivity).
  assert (X2 : ya_files x = ya_files (w_ext w)) by (unfold x; destruct b; reflexivity).
  assert (X3 : ya_ty x = ya_ty (w_ext w)) by (unfold x; destruct b; reflexivity).
  destruct (ya_cache x); [injection G as E _ _; rewrite <- E, X1 in RD; symmetry in RD; destruct (NO _ _ RD)|].
  unfold io_value_as in G. rewrite V in G. destruct v as [| | |s| | | | |]; cbn [as_str onok] in G; try (injection G as E _ _; rewrite <- E, X1 in RD; symmetry in RD; destruct (NO _ _ RD)).
  assert (PE : s = p).
  { cbn [ya_with ya_files ya_reads] in G. rewrite X1 in G. destruct (ya_files x s) as [v|m|]; cbn [yaml_outs] in G.
    1: destruct (good_data is_list v); cbn [ya_ty ya_with] in G; [destruct (check (ya_ty x) v)|].
    all: cbn [ya_ty ya_with] in G; injection G as E _ _; rewrite <- E in RD; cbn in RD; apply app_inj_tail in RD; destruct RD as [_ Q]; congruence. }
  subst s. split; [exact A|]. cbn [ya_with ya_files] in G. rewrite X2 in G.
  assert (LS : exists c, dget "load_success" (w_outs w n) = Some c /\ c_ty c = TBool).
  { destruct (out_plain _ _ n w T F "load_success" _ ltac:(destruct is_list; reflexivity)) as (c & D & E); eauto. }
  assert (LM : exists c, dget "load_error_msg" (w_outs w n) = Some c /\ c_ty c = any_str).
  { destruct (out_plain _ _ n w T F "load_error_msg" _ ltac:(destruct is_list; reflexivity)) as (c & D & E); eauto. }
  destruct LS as (c1 & D1 & T1), LM as (c2 & D2 & T2).
  destruct (ya_files (w_ext w) p) as [v|m|].
  - cbn [yaml_outs] in G. destruct (good_data is_list v) eqn:GD.
    + split; [|intros NG; exfalso; apply NG; apply good_ok; exact GD]. intros GC c DC AC.
      assert (BP : bytes_plain (c_ty c)).
      { destruct is_list.
        - destruct (out_ref _ _ n w T F "content" _ _ _ _ _ _ eq_refl) as (c0 & t & D0 & _ & E0 & [BP _]).
          rewrite DC in D0. injection D0 as <-. rewrite E0. exact BP.
        - destruct (out_ref _ _ n w T F "content" _ _ _ _ _ _ eq_refl) as (c0 & t & D0 & _ & E0 & [BP _]).
          rewrite DC in D0. injection D0 as <-. rewrite E0. exact BP. }
      destruct (admits_check _ _ BP AC) as (v' & CK). cbn [ya_with ya_ty] in G. rewrite X3, <- (TY _ DC), CK in G. injection G as G1 G2 G3.
      rewrite <- G2, <- G3 in G0.
      destruct (tick_ok n i o leaf name ND w _ _ _ IV R G0) with (w' := w') (r := r) as (Q1 & _ & Q2 & _); auto.
      * cbn. auto.
      * destruct is_list; nodup.
      * intros k y J. cbn in J. destruct J as [[= <- <-]|[[= <- <-]|[[= <- <-]|J]]].
        -- exists c1. rewrite T1. split; [auto|]. split; [exact I|]. exists true. reflexivity.
        -- exists c2. rewrite T2. split; [auto|]. split; [exact I|]. apply str_admits. vm_compute. discriminate.
        -- eauto.
        -- destruct is_list; [|destruct J]. destruct J as [[= <- <-]|[]].
           destruct (out_plain _ _ n w T F "line_count" _ eq_refl) as (c3 & D3 & T3).
           exists c3. rewrite T3. split; [auto|]. split; [exact I|].
           destruct (out_ref _ _ n w T F "content" _ _ _ _ _ _ eq_refl) as (c0 & t & D0 & _ & E0 & _).
           rewrite DC in D0. injection D0 as <-. rewrite E0 in AC. cbn in AC. destruct AC as (l & -> & [L _] & _). cbn [data_len].
           exists (Z.of_nat (length l)). split; [constructor|]. split.
           ++ apply (Z.le_trans _ 0); [vm_compute; discriminate|apply Nat2Z.is_nonneg].
           ++ apply (Z.le_trans _ _ _ L). vm_compute. discriminate.
      * split; [auto|]. split; apply Q2; cbn; auto.
    + split; [intros GC; apply good_ok in GC; congruence|]. intros _. injection G as G1 G2 G3. rewrite <- G2, <- G3 in G0.
      destruct (tick_ok n i o leaf name ND w _ _ _ IV R G0) with (w' := w') (r := r) as (Q1 & _ & Q2 & _); auto.
      * cbn. auto.
      * nodup.
      * intros k y J. cbn in J. destruct J as [[= <- <-]|[[= <- <-]|[]]].
        -- exists c1. rewrite T1. split; [auto|]. split; [exact I|]. exists false. reflexivity.
        -- exists c2. rewrite T2. split; [auto|]. split; [exact I|]. apply str_admits. destruct is_list; vm_compute; discriminate.
      * split; [auto|]. apply Q2. cbn. auto.
  - intros LL. cbn [yaml_outs] in G. injection G as G1 G2 G3. rewrite <- G2, <- G3 in G0.
    destruct (tick_ok n i o leaf name ND w _ _ _ IV R G0) with (w' := w') (r := r) as (Q1 & _ & Q2 & _); auto.
    + cbn. auto.
    + nodup.
    + intros k y J. cbn in J. destruct J as [[= <- <-]|[[= <- <-]|[]]].
      * exists c1. rewrite T1. split; [auto|]. split; [exact I|]. exists false. reflexivity.
      * exists c2. rewrite T2. split; [auto|]. split; [exact I|]. apply str_admits. exact LL.
    + split; [auto|]. split; apply Q2; cbn; auto.
  - injection G as G1 G2 G3. rewrite <- G2, <- G3 in G0.
    destruct (tick_bad n leaf name w _ Raise (proj1 R) G0) with (w' := w') (r := r) as [-> _]; auto. discriminate.
Qed.
End Yaml.
