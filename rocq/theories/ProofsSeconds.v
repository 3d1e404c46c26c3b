(** Rounding in [seconds]: proofs with Flocq and the reals of the standard library. *)
From Coq Require Import ZArith SpecFloat Reals Lra Lia.
From Flocq Require Import Core BinarySingleNaN.
From Flocq Require PrimFloat.
From Verif Require Import Base ModelData ModelLeaf SpecLeaf.
Local Open Scope R_scope.

Notation fexp64 := (FLT_exp (3 - emax - prec) prec).
Notation rnd := (round radix2 fexp64 ZnearestE).

Lemma Hp : Prec_gt_0 prec. Proof. reflexivity. Qed.
Lemma Hm : Prec_lt_emax prec emax. Proof. reflexivity. Qed.
Lemma vexp : Valid_exp fexp64. Proof. apply FLT_exp_valid. exact Hp. Qed.

Definition bz (z : Z) : binary_float prec emax := binary_normalize prec emax Hp Hm mode_NE z 0 false.

Lemma float_of_Z_bz : forall z, float_of_Z z = B2SF (bz z).
Proof.
  intros [|p|p]; unfold float_of_Z, bz; cbn -[prec emax SpecFloat.binary_round]; [reflexivity| |];
    rewrite B2SF_SF2B; apply PrimFloat.binary_round_equiv.
Qed.

Lemma bpow63 : bpow radix2 63 = IZR (2 ^ 63). Proof. rewrite <- (IZR_Zpower radix2); [reflexivity|lia]. Qed.
Lemma rnd_bpow : forall k, (-1074 <= k)%Z -> rnd (bpow radix2 k) = bpow radix2 k.
Proof.
  intros k K. apply round_generic; [apply valid_rnd_N|]. apply generic_format_FLT_bpow; [exact Hp|exact K].
Qed.
Lemma rnd_mono : forall x y, x <= y -> rnd x <= rnd y.
Proof. intros. apply round_le; [exact vexp|apply valid_rnd_N|assumption]. Qed.
Lemma rnd_abs : forall x k, (-1074 <= k)%Z -> Rabs x <= bpow radix2 k -> Rabs (rnd x) <= bpow radix2 k.
Proof.
  intros x k K H. apply abs_round_le_generic; [exact vexp|apply valid_rnd_N|apply generic_format_FLT_bpow; [exact Hp|exact K]|exact H].
Qed.

Lemma bz_correct : forall z, Rabs (IZR z) <= bpow radix2 63 ->
  B2R (bz z) = rnd (IZR z) /\ is_finite (bz z) = true.
Proof.
  intros z H. generalize (binary_normalize_correct prec emax Hp Hm mode_NE z 0 false). cbv zeta. fold (bz z).
  assert (E : F2R (Float radix2 z 0) = IZR z) by (unfold F2R; cbn; ring). rewrite E.
  rewrite Rlt_bool_true; [tauto|].
  apply Rle_lt_trans with (bpow radix2 63); [apply rnd_abs; [lia|exact H]|apply bpow_lt; reflexivity].
Qed.

Lemma e9 : B2R (bz 1000000000) = 1000000000 /\ is_finite (bz 1000000000) = true.
Proof.
  destruct (bz_correct 1000000000) as [A B].
  { rewrite bpow63. rewrite <- abs_IZR. apply IZR_le. vm_compute. discriminate. }
  split; [|exact B]. rewrite A. apply round_generic; [apply valid_rnd_N|].
  apply generic_format_FLT. exists (Float radix2 1000000000 0); [unfold F2R; cbn; ring|vm_compute; reflexivity|vm_compute; discriminate].
Qed.

Lemma SFdiv_B : forall x y : binary_float prec emax,
  SFdiv prec emax (B2SF x) (B2SF y) = B2SF (@Bdiv prec emax Hp Hm mode_NE x y).
Proof.
  intros x y. destruct x as [sx|sx| |sx mx ex Bx]; destruct y as [sy|sy| |sy my ey By];
    try (cbn; now (trivial || destruct sx; destruct sy)).
  cbn [Bdiv]. rewrite B2SF_SF2B. cbn [B2SF SFdiv].
  destruct (SFdiv_core_binary _ _ _ _ _ _) as [[mz ez] lz]. apply PrimFloat.binary_round_aux_equiv.
Qed.

Definition bsec (d : Z) : binary_float prec emax := @Bdiv prec emax Hp Hm mode_NE (bz d) (bz 1000000000).
Lemma seconds_bsec : forall now last, seconds now last = B2SF (bsec (now - last)).
Proof. intros. unfold seconds, bsec. rewrite !float_of_Z_bz. apply SFdiv_B. Qed.

Lemma bsec_correct : forall d, Rabs (IZR d) <= bpow radix2 63 ->
  B2R (bsec d) = rnd (rnd (IZR d) / 1000000000) /\ is_finite (bsec d) = true.
Proof.
  intros d H. destruct (bz_correct d H) as [A B]. destruct e9 as [C D].
  generalize (@Bdiv_correct prec emax Hp Hm mode_NE (bz d) (bz 1000000000)). fold (bsec d). rewrite A, C.
  intros G. specialize (G ltac:(lra)). rewrite Rlt_bool_true in G.
  - destruct G as (G1 & G2 & _). rewrite B in G2. auto.
  - apply Rle_lt_trans with (bpow radix2 63); [|apply bpow_lt; reflexivity].
    apply rnd_abs; [lia|]. unfold Rdiv. rewrite Rabs_mult.
    assert (K := rnd_abs (IZR d) 63 ltac:(lia) H). rewrite (Rabs_pos_eq (/ 1000000000)) by lra.
    assert (Rabs (rnd (IZR d)) >= 0) by (apply Rle_ge, Rabs_pos). lra.
Qed.

(** The real value of a double that Python can hold. *)
Lemma valid_B : forall d, valid_binary prec emax d = true -> exists b : binary_float prec emax, B2SF b = d.
Proof. intros d H. exists (SF2B d H). apply B2SF_SF2B. Qed.
Lemma SF2R_B : forall b : binary_float prec emax, SF2R radix2 (B2SF b) = B2R b.
Proof. intros [s|s| |s m e B]; reflexivity. Qed.

Lemma int64_abs : forall z, int64 z -> Rabs (IZR z) <= bpow radix2 63.
Proof. intros z [A B]. rewrite bpow63, <- abs_IZR. apply IZR_le. lia. Qed.

Lemma seconds_mono : forall d n1 l1 n2 l2, valid_binary prec emax d = true ->
  int64 (n1 - l1) -> int64 (n2 - l2) -> (n1 - l1 <= n2 - l2)%Z ->
  SFleb d (seconds n1 l1) = true -> SFleb d (seconds n2 l2) = true.
Proof.
  intros d n1 l1 n2 l2 V I1 I2 L. destruct (valid_B d V) as [b <-]. rewrite !seconds_bsec.
  destruct (bsec_correct _ (int64_abs _ I1)) as [A1 F1]. destruct (bsec_correct _ (int64_abs _ I2)) as [A2 F2].
  fold (@Bleb prec emax b (bsec (n1 - l1))). fold (@Bleb prec emax b (bsec (n2 - l2))).
  assert (M : B2R (bsec (n1 - l1)) <= B2R (bsec (n2 - l2))).
  { rewrite A1, A2. apply rnd_mono. apply Rmult_le_compat_r; [lra|]. apply rnd_mono. apply IZR_le. exact L. }
  destruct (is_finite b) eqn:FB.
  - rewrite !Bleb_correct by assumption. intros H. apply Rle_bool_true.
    destruct (Rle_bool_spec (B2R b) (B2R (bsec (n1 - l1)))); [lra|discriminate].
  - destruct b as [s|[|]| |s m e B]; try discriminate.
    + intros _. unfold Bleb. destruct (bsec (n2 - l2)) as [?|?| |? ? ? ?]; try discriminate; reflexivity.
    + unfold Bleb. destruct (bsec (n1 - l1)) as [?|?| |? ? ? ?]; try discriminate.
Qed.

Lemma seconds_real : forall d now last, valid_binary prec emax d = true -> is_finite_SF d = true ->
  (0 <= now - last <= 2 ^ 53)%Z ->
  SFleb d (seconds now last) = true <-> SF2R radix2 d <= rnd (IZR (now - last) / 1000000000).
Proof.
  intros d now last V F R. destruct (valid_B d V) as [b E]. subst d. rewrite SF2R_B, seconds_bsec.
  assert (I : int64 (now - last)) by (split; lia).
  destruct (bsec_correct _ (int64_abs _ I)) as [A F1].
  assert (X : rnd (IZR (now - last)) = IZR (now - last)).
  { apply round_generic; [apply valid_rnd_N|]. apply generic_format_FLT.
    destruct (Z.eq_dec (now - last) (2 ^ 53)) as [->|N].
    - exists (Float radix2 1 53); [unfold F2R; cbn; lra|vm_compute; reflexivity|vm_compute; discriminate].
    - exists (Float radix2 (now - last) 0); [unfold F2R; cbn; ring| |vm_compute; discriminate].
      cbn [Fnum]. change (Zpower radix2 prec) with (2 ^ 53)%Z. lia. }
  rewrite X in A. fold (@Bleb prec emax b (bsec (now - last))).
  rewrite is_finite_SF_B2SF in F. rewrite Bleb_correct by assumption. rewrite A.
  destruct (Rle_bool_spec (B2R b) (rnd (IZR (now - last) / 1000000000))); split; intros; try reflexivity; try discriminate; lra.
Qed.

(** Not later than asked for, and early by less than the distance to the next double. *)
Lemma seconds_enough : forall d now last, valid_binary prec emax d = true -> is_finite_SF d = true ->
  (0 <= now - last <= 2 ^ 53)%Z -> SF2R radix2 d <= IZR (now - last) / 1000000000 ->
  SFleb d (seconds now last) = true.
Proof.
  intros d now last V F R H. apply seconds_real; try assumption.
  destruct (valid_B d V) as [b E]. subst d. rewrite SF2R_B in *.
  apply round_ge_generic; [exact vexp|apply valid_rnd_N|apply generic_format_B2R|exact H].
Qed.
Lemma seconds_early : forall d now last, valid_binary prec emax d = true -> is_finite_SF d = true ->
  (0 <= now - last <= 2 ^ 53)%Z -> SFleb d (seconds now last) = true ->
  pred radix2 fexp64 (SF2R radix2 d) < IZR (now - last) / 1000000000.
Proof.
  intros d now last V F R H. apply seconds_real in H; try assumption.
  destruct (valid_B d V) as [b E]. subst d. rewrite SF2R_B in *.
  apply Rnot_le_lt. intros N.
  assert (G : generic_format radix2 fexp64 (pred radix2 fexp64 (B2R b))).
  { apply generic_format_pred; [exact vexp|apply generic_format_B2R]. }
  assert (K : rnd (IZR (now - last) / 1000000000) <= pred radix2 fexp64 (B2R b)).
  { apply round_le_generic; [exact vexp|apply valid_rnd_N|exact G|exact N]. }
  destruct (Req_dec (B2R b) 0) as [Z|NZ].
  - (* d = 0: the elapsed time is not negative *)
    rewrite Z in *. assert (0 <= IZR (now - last)) by (apply IZR_le; lia).
    assert (0 <= IZR (now - last) / 1000000000) by lra.
    assert (pred radix2 fexp64 0 < 0).
    { rewrite pred_0. assert (0 < ulp radix2 fexp64 0); [|lra].
      rewrite ulp_FLT_0 by exact Hp. apply bpow_gt_0. }
    lra.
  - assert (pred radix2 fexp64 (B2R b) < B2R b) by (apply pred_lt_id; exact NZ). lra.
Qed.

(** Every double below [d] is less than the elapsed time. *)
Lemma seconds_not_early : forall d now last, valid_binary prec emax d = true -> is_finite_SF d = true ->
  (0 <= now - last <= 2 ^ 53)%Z -> SFleb d (seconds now last) = true ->
  forall e, valid_binary prec emax e = true -> is_finite_SF e = true -> SF2R radix2 e < SF2R radix2 d ->
  SF2R radix2 e < IZR (now - last) / 1000000000.
Proof.
  intros d now last V F R H e Ve Fe L. apply seconds_early in H; try assumption.
  apply Rle_lt_trans with (2 := H).
  destruct (valid_B d V) as [b E]. destruct (valid_B e Ve) as [c E']. subst d e. rewrite (SF2R_B b), (SF2R_B c) in L. rewrite (SF2R_B c), (SF2R_B b).
  apply pred_ge_gt; [exact vexp|apply generic_format_B2R..|exact L].
Qed.
