(** Proofs for C111. *)
From Coq Require Import String ZArith Bool SpecFloat Lia List.
From Verif Require Import Base ModelData ModelEdit ModelDataLeaf ModelParam ModelEnumSwitch SpecEnumSwitch.
From Verif Require ModelFields.
From Verif Require Import ProofsTimed.
Import ListNotations.
Local Open Scope string_scope.

Lemma of_builtin : forall b v, of_type b v <-> builtin_type v = Some b.
Proof. intros b v. split; [intros H; destruct H; reflexivity|]. destruct v; simpl; intros [= <-]; constructor. Qed.
Lemma bty_eqb_spec : forall a b, bty_eqb a b = true <-> a = b.
Proof. intros [] []; simpl; split; congruence. Qed.
Lemma bty_eqb_refl : forall a, bty_eqb a a = true.
Proof. intros a. now apply bty_eqb_spec. Qed.

(** The type of the input. *)
Definition case_type (b : bty) : ctype :=
  match b with
  | BBool | BObject => TBool
  | BInt => TInt INT64_MIN INT64_MAX
  | BFloat => TFloat DBL_MIN DBL_MAX
  | BStr => TStr INT_FLOAT_MAX None
  | BBytes => TBytes 1 None
  | BList => TList TBool true INT_FLOAT_MAX false
  | BDict => TDict TBool true INT_FLOAT_MAX false
  end.
Definition case_input (b : bty) : container :=
  mkC (case_type b) true true false (class_default (case_type b)) false.

Lemma extra_of : forall known b v cs, of_type b v -> 
  (if existsb (fun fv => negb (same_type (snd fv) v)) cs then @Err ios EConfig
   else match builtin_type v with
        | None => Err EConfig
        | Some b => match iotype_of known (VDict (generic_map b)) with
                    | Ok t => match construct t true true None None with
                              | Some c => Ok [("case", mkC (c_ty c) (c_dyn c) (c_sta c) false (c_val c) (c_upd c))]
                              | None => Raise
                              end
                    | Err _ => Err EConfig
                    | Raise => Raise
                    end
        end) =
  if existsb (fun fv : string * value => negb (same_type (snd fv) v)) cs then Err EConfig else Ok [("case", case_input b)].
Proof. intros known b v cs H. destruct (existsb _ cs); auto. destruct H; vm_compute; reflexivity. Qed.

Lemma same_of : forall b v u, of_type b v -> (same_type u v = true <-> of_type b u).
Proof.
  intros b v u H. apply of_builtin in H. unfold same_type. rewrite H. rewrite of_builtin.
  destruct (builtin_type u) as [x|]; [|split; discriminate]. rewrite bty_eqb_spec. split; congruence.
Qed.

Lemma extra_ok : forall known cs li, switch_extra known cs = Ok li <-> exists b, constants_of b cs /\ li = [("case", case_input b)].
Proof.
  intros known cs li. split.
  - intros H. destruct cs as [|[f v] cs]; [discriminate|]. unfold switch_extra in H.
    destruct (builtin_type v) as [b|] eqn:B; [|destruct (existsb _ _); discriminate].
    apply of_builtin in B. pose proof (extra_of known b v ((f, v) :: cs) B) as X.
    rewrite (proj1 (of_builtin b v) B) in X. rewrite X in H. clear X.
    destruct (existsb _ _) eqn:Ex; [discriminate|]. injection H as <-. exists b. split; auto. split; [discriminate|].
    apply Forall_forall. intros y Hy. apply (same_of b v (snd y) B).
    destruct (same_type (snd y) v) eqn:S; auto. exfalso. rewrite <- not_true_iff_false in Ex. apply Ex.
    apply existsb_exists. exists y. split; auto. now rewrite S.
  - intros (b & [N F] & ->). destruct cs as [|[f v] cs]; [congruence|]. unfold switch_extra.
    assert (B : of_type b v) by (inversion F; auto). rewrite (extra_of known b v ((f, v) :: cs) B).
    destruct (existsb _ _) eqn:Ex; auto. exfalso. apply existsb_exists in Ex. destruct Ex as [y [Hy S]].
    rewrite Forall_forall in F. apply F in Hy. apply (same_of b v (snd y) B) in Hy. rewrite Hy in S. discriminate.
Qed.

Lemma config_of : forall known base cs cfg, dget "case" (f_ins base) = None ->
  switch_config known base cs = Some cfg <->
  exists b, constants_of b cs /\ cfg = mkCfg (dset "case" (case_input b) (f_ins base)) (f_outs base) (f_max base).
Proof.
  intros known base cs cfg D.
  assert (Q : forall b, ModelFields.build base (Ok [("case", case_input b)]) (Ok []) =
                Some (mkCfg (dset "case" (case_input b) (f_ins base)) (f_outs base) (f_max base))).
  { intros b. unfold ModelFields.build, make_config, extend. cbn [f_max f_ins f_outs existsb map].
    assert (M : opt_nat_eqb (f_max base) (f_max base) = true) by (destruct (f_max base); [apply Nat.eqb_refl|reflexivity]).
    rewrite M. cbn [negb extend_io]. unfold has_key. rewrite D. reflexivity. }
  unfold switch_config. split.
  - intros H. destruct (switch_extra known cs) as [li|e|] eqn:X; try discriminate.
    apply extra_ok in X. destruct X as (b & C & ->). rewrite Q in H. injection H as <-. eauto.
  - intros (b & C & ->). rewrite (proj2 (extra_ok known cs _) (ex_intro _ b (conj C eq_refl))). apply Q.
Qed.

Lemma case_takes : forall b v, of_type b v -> fits v ->
  exists c', set_value (reset_value (case_input b)) v = (c', Ok tt) /\ c_val c' = Some v /\ c_upd c' = true.
Proof.
  intros b v T F. unfold set_value.
  assert (X : check (c_ty (reset_value (case_input b))) v = Ok v).
  { destruct F; inversion T; subst; cbn; auto.
    - destruct (Z.ltb_spec z (-9223372036854775808)); [lia|]. destruct (Z.ltb_spec 9223372036854775807 z); [lia|]. reflexivity.
    - rewrite H0, H1. reflexivity.
    - unfold str_check, zlen. destruct (Z.leb_spec (Z.of_nat (String.length s)) 18446744073709550000); [reflexivity|]. lia. }
  rewrite X. destruct T; cbn; eexists; (split; [reflexivity|split; reflexivity]).
Qed.

Lemma case_refuses : forall z, (z < - 2 ^ 63 \/ 2 ^ 63 <= z)%Z ->
  forall c, c_ty c = c_ty (case_input BInt) -> set_value c (VInt z) = (c, Err EData).
Proof.
  intros z H c Hc. unfold set_value. rewrite Hc. cbn.
  destruct (Z.ltb_spec z (-9223372036854775808)); [reflexivity|]. destruct (Z.ltb_spec 9223372036854775807 z); [reflexivity|]. lia.
Qed.

(** A value of the message picks its child. *)
Lemma dict_split : forall cs f v, In (f, v) cs -> py_eq v v = true ->
  (forall g u, In (g, u) cs -> py_eq u v = true -> g = f) ->
  exists p q u, pchild_dict cs = (p ++ (u, f) :: q)%list /\ py_eq u v = true /\ (forall y, In y q -> py_eq (fst y) v = false).
Proof.
  unfold pchild_dict. induction cs as [|[g u] cs IH]; intros f v H R U; [destruct H|].
  destruct (existsb (fun y : string * value => py_eq (snd y) v) cs) eqn:Ex.
  - apply existsb_exists in Ex. destruct Ex as [[h x] [Hy Hx]]. cbn in Hx.
    pose proof (U h x (or_intror Hy) Hx) as ->.
    assert (L : exists p q u, map (fun fv : string * value => (snd fv, fst fv)) cs = (p ++ (u, f) :: q)%list /\ py_eq u v = true /\ (forall y, In y q -> py_eq (fst y) v = false)).
    { clear IH H. revert Hy. assert (U' : forall g u, In (g, u) cs -> py_eq u v = true -> g = f) by (intros; eapply U; [right|]; eauto). clear U R.
      revert U'. generalize x Hx. clear x Hx g u. induction cs as [|[g u] cs IH]; intros x Hx U Hy; [destruct Hy|].
      destruct (existsb (fun y : string * value => py_eq (snd y) v) cs) eqn:Ex.
      - apply existsb_exists in Ex. destruct Ex as [[h y] [Hh Hz]]. cbn in Hz. pose proof (U h y (or_intror Hh) Hz) as ->.
        destruct (IH y Hz) as (p & q & z & E & A & B); [intros; eapply U; [right|]; eauto|auto|].
        exists ((u, g) :: p), q, z. cbn. rewrite E. auto.
      - destruct Hy as [Hy|Hy]; [injection Hy as -> ->|exfalso; rewrite <- not_true_iff_false in Ex; apply Ex; apply existsb_exists; eexists; split; [exact Hy|exact Hx]].
        exists [], (map (fun fv : string * value => (snd fv, fst fv)) cs), x. split; [reflexivity|]. split; auto.
        intros y Hy. apply in_map_iff in Hy. destruct Hy as [[k z] [<- Hz]]. cbn. destruct (py_eq z v) eqn:P; auto.
        exfalso. rewrite <- not_true_iff_false in Ex. apply Ex. apply existsb_exists. eexists. split; [exact Hz|exact P]. }
    destruct L as (p & q & z & E & A & B). exists ((u, g) :: p), q, z. cbn. rewrite E. auto.
  - destruct H as [H|H]; [injection H as -> ->|exfalso; rewrite <- not_true_iff_false in Ex; apply Ex; apply existsb_exists; eexists; split; [exact H|exact R]].
    exists [], (map (fun fv : string * value => (snd fv, fst fv)) cs), v. split; [reflexivity|]. split; auto.
    intros y Hy. apply in_map_iff in Hy. destruct Hy as [[k z] [<- Hz]]. cbn. destruct (py_eq z v) eqn:P; auto.
    exfalso. rewrite <- not_true_iff_false in Ex. apply Ex. apply existsb_exists. eexists. split; [exact Hz|exact P].
Qed.

Lemma py_eq_refl_fit : forall v, fits v -> py_eq v v = true.
Proof.
  intros v F. destruct F; cbn [py_eq].
  - now destruct b.
  - cbn. apply Z.eqb_refl.
  - cbn. unfold SFeqb, SFcompare. destruct f as [s|s| |s m e]; auto; try congruence.
    + now destruct s.
    + destruct s; rewrite ?Z.compare_refl, ?Pos.compare_refl, ?Pos.compare_cont_refl; auto.
  - apply String.eqb_refl.
  - apply String.eqb_refl.
Qed.
