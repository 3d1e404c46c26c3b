(** C117: the comparison of inputs and outputs. *)
From Coq Require Import String Ascii ZArith Bool SpecFloat Arith Lia List.
From Verif Require Import Base ModelData ModelUtility ModelTree ModelLeaf ModelDataLeaf ModelDataEq.
From Verif Require Import SpecData SpecLeaf SpecDataLeaf SpecDataEq ProofsData ProofsDataLeaf ProofsDataRefs DemoDataLeaf.
Import ListNotations.
Local Open Scope string_scope.
Local Open Scope list_scope.

Lemma options_back : forall m1 v1 m2 v2 s, str_compat m1 v1 m2 v2 = true -> str_compat m2 v2 m1 v1 = true -> str_ok m2 v2 s -> str_ok m1 v1 s.
Proof.
  intros m1 v1 m2 v2 s A B [L V]. unfold str_compat in *. apply andb_true_iff in A, B. destruct A as [A1 A2], B as [_ B2].
  apply Z.leb_le in A1. split; [lia|]. intros l ->. destruct v2 as [l2|]; [|discriminate]. specialize (V _ eq_refl).
  rewrite forallb_forall in B2. specialize (B2 _ V). unfold str_in in B2. apply existsb_exists in B2. destruct B2 as (x & I & E).
  apply String.eqb_eq in E. subst x. exact I.
Qed.
Lemma compat_both : forall a b v, ty_compat a b = true -> ty_compat b a = true -> bounds_no_nan a -> satisfies b v -> satisfies a v.
Proof.
  induction a; intros b v C D N H; destruct b; simpl in C; try discriminate; simpl in D.
  all: try (match type of H with satisfies ?b _ => match goal with |- satisfies ?a _ => exact (ty_compat_sound a b v C I N H) end end).
  - destruct H as (s & -> & K). exists s. split; [reflexivity|]. eapply options_back; eassumption.
  - destruct H as (s & -> & K & U). exists s. split; [reflexivity|]. split; [|exact U]. eapply options_back; eassumption.
  - destruct H as (s & -> & K). exists s. split; [reflexivity|]. eapply options_back; eassumption.
  - rewrite !andb_true_iff in C, D. destruct C as [[C1 _] C2], D as [_ D2]. unfold len_compat in C1. apply andb_true_iff in C1. destruct C1 as [C1 C3].
    apply Z.leb_le in C1. destruct H as (l & -> & [H1 H2] & H3). exists l. split; [reflexivity|]. split.
    + split; [lia|]. intros ->. simpl in C3. apply andb_true_iff in C3. destruct C3 as [-> C4]. apply Z.eqb_eq in C4. rewrite <- C4. auto.
    + intros x X. exact (IHa _ _ C2 D2 N (H3 _ X)).
  - rewrite !andb_true_iff in C, D. destruct C as [[C1 _] C2], D as [_ D2]. unfold len_compat in C1. apply andb_true_iff in C1. destruct C1 as [C1 C3].
    apply Z.leb_le in C1. destruct H as (l & -> & [H1 H2] & H3). exists l. split; [reflexivity|]. split.
    + split; [lia|]. intros ->. simpl in C3. apply andb_true_iff in C3. destruct C3 as [-> C4]. apply Z.eqb_eq in C4. rewrite <- C4. auto.
    + intros k x X. exact (IHa _ _ C2 D2 N (H3 _ _ X)).
Qed.
Lemma flags_both : forall x y, (negb x || y)%bool = true -> (negb y || x)%bool = true -> x = y.
Proof. intros [] []; cbn; congruence. Qed.
Lemma flag_refl : forall x, (negb x || x)%bool = true.
Proof. intros []; reflexivity. Qed.
Lemma lt_irrefl : forall f, SFltb f f = false.
Proof.
  intros [[]|[]| |[] m e]; try reflexivity; unfold SFltb, SFcompare; rewrite Z.compare_refl;
    change (Pos.compare_cont Eq m m) with (Pos.compare m m); rewrite Pos.compare_refl; reflexivity.
Qed.
Lemma options_refl : forall m v, str_compat m v m v = true.
Proof.
  intros m v. unfold str_compat. rewrite Z.leb_refl. destruct v as [l|]; [|reflexivity]. apply forallb_forall. intros x X.
  unfold str_in. apply existsb_exists. exists x. split; [exact X|]. apply String.eqb_refl.
Qed.
Lemma compat_refl : forall t, ty_compat t t = true.
Proof.
  induction t; cbn [ty_compat]; rewrite ?Z.ltb_irrefl, ?lt_irrefl, ?options_refl, ?Z.eqb_refl, ?String.eqb_refl, ?flag_refl, ?IHt; try reflexivity.
  - unfold len_compat. rewrite Z.leb_refl, Z.eqb_refl. destruct strict; reflexivity.
  - unfold len_compat. rewrite Z.leb_refl, Z.eqb_refl. destruct strict; reflexivity.
  - apply forallb_forall. intros x X. apply existsb_exists. exists x. split; [exact X|]. destruct x; reflexivity.
  - unfold roskind_eqb. rewrite Z.eqb_refl. reflexivity.
  - unfold roskind_eqb. rewrite Z.eqb_refl. reflexivity.
Qed.

(** ** C117 *)

(** Containers that are equal are the same; containers with the same type, flags and values are
    equal. *)
Theorem C117_plain : forall c d, bounds_no_nan (c_ty c) -> bounds_no_nan (c_ty d) ->
  (slot_eq (SPlain c) (SPlain d) = true -> same_container c d) /\
  (c_ty c = c_ty d -> c_dyn c = c_dyn d -> c_sta c = c_sta d -> c_static c = c_static d -> same_values (c_val c) (c_val d) ->
   slot_eq (SPlain c) (SPlain d) = true).
Proof.
  intros c d N M. unfold slot_eq, same_container. cbn [slot_compat]. unfold is_compatible. split.
  - intros E. rewrite !andb_true_iff in E. destruct E as [[[[A1 A2] A3] [[B1 B2] B3]] [S V]]. apply eqb_prop in S.
    split; [intros v; split; [exact (compat_both _ _ v B3 A3 M)|exact (compat_both _ _ v A3 B3 N)]|].
    split; [exact (flags_both _ _ A1 B1)|]. split; [exact (flags_both _ _ A2 B2)|]. split; [exact S|].
    unfold value_eq, same_values in *. destruct (c_val c), (c_val d); auto; discriminate.
  - intros -> -> -> -> V. rewrite !flag_refl, compat_refl, eqb_reflx. cbn [andb]. unfold value_eq, same_values in *.
    destruct (c_val c), (c_val d); auto; contradiction.
Qed.
Print Assumptions C117_plain.

Lemma smap_agree : forall a b, NoDup (map fst a) -> smap_eq a b = true -> agree a b.
Proof.
  intros a b N E. unfold smap_eq in E.
  apply andb_true_iff in E. destruct E as [L E]. apply Nat.eqb_eq in L. rewrite forallb_forall in E.
  assert (J : incl (map fst a) (map fst b)).
  { intros k K. apply in_map_iff in K. destruct K as ([k1 s] & <- & K). specialize (E _ K). cbn [fst snd] in *.
    apply dget_keys. destruct (dget k1 b); [discriminate|discriminate E]. }
  split.
  - intros k. split; [apply J|]. apply (NoDup_length_incl N); [rewrite !map_length; lia|exact J].
  - intros k c D. apply dget_In in D. specialize (E _ D). cbn [fst snd] in E. destruct (dget k b) as [s|]; [|discriminate].
    destruct s as [d|K r dyn sta st n]; [|cbn in E; discriminate]. exists d. split; [reflexivity|].
    intros M M'. exact (proj1 (C117_plain c d M M') E).
Qed.
(** Inputs and outputs of equal configurations have the same names, and those that are no
    references are the same; they allow the same number of children. *)
Theorem C117_config_partial : forall i o m i' o' m', NoDup (map fst i) -> NoDup (map fst o) -> config_eq i o m i' o' m' = true ->
  agree i i' /\ agree o o' /\ m = m'.
Proof.
  intros i o m i' o' m' Ni No E. unfold config_eq in E. rewrite !andb_true_iff in E. destruct E as [[E F] G].
  split; [apply smap_agree; assumption|]. split; [apply smap_agree; assumption|].
  destruct m, m'; try discriminate; [|reflexivity]. apply Z.eqb_eq in G. congruence.
Qed.
Print Assumptions C117_config_partial.

(** References are equal exactly if they are of the same kind, refer to the same input, have the
    same flags and are both fixed or both not, whatever they stand for. *)
Theorem C117_reference : forall k r dyn sta st n k' r' dyn' sta' st' n',
  slot_eq (SRef k r dyn sta st n) (SRef k' r' dyn' sta' st' n') = true <->
  k = k' /\ r = r' /\ dyn = dyn' /\ sta = sta' /\ st = st'.
Proof.
  intros. unfold slot_eq. cbn [slot_compat value_eq]. split.
  - intros E. rewrite !andb_true_iff in E. destruct E as [[[[[K A1] A2] R] [[[_ B1] B2] _]] [S _]].
    apply String.eqb_eq in R. apply eqb_prop in S. split; [destruct k, k'; congruence|]. split; [exact R|].
    split; [exact (flags_both _ _ A1 B1)|]. split; [exact (flags_both _ _ A2 B2)|exact S].
  - intros (<- & <- & <- & <- & <-). rewrite !flag_refl, String.eqb_refl, eqb_reflx. destruct k; reflexivity.
Qed.
Print Assumptions C117_reference.

(** A reference and a container that is none are never equal. *)
Theorem C117_kinds : forall c k r dyn sta st n,
  slot_eq (SPlain c) (SRef k r dyn sta st n) = false /\ slot_eq (SRef k r dyn sta st n) (SPlain c) = false.
Proof. intros. split; reflexivity. Qed.
Print Assumptions C117_kinds.

(** The values of references are not compared: two Constants with different values are equal. *)
Definition a_constant (z : Z) : list (string * slot * text) :=
  [ty_in "constant_type" all_types (int_desc 0 10); fixed_in "constant_value" RefItem "constant_type" (VInt z)].
Theorem C117_reference_refuted : exists m m' i o i' o' s s', proper m /\ proper m' /\
  node_of_msg no_msgs constant_ins constant_outs m = Ok (i, o) /\ node_of_msg no_msgs constant_ins constant_outs m' = Ok (i', o') /\
  config_eq i o (Some 0%Z) i' o' (Some 0%Z) = true /\
  dget "constant_value" i = Some s /\ dget "constant_value" i' = Some s' /\ held s = Some (VInt 7) /\ held s' = Some (VInt 8).
Proof.
  exists (a_constant 7), (a_constant 8). do 6 eexists. split; [is_proper|]. split; [is_proper|].
  split; [vm_compute; reflexivity|]. split; [vm_compute; reflexivity|]. split; [vm_compute; reflexivity|].
  split; [reflexivity|]. split; [reflexivity|]. split; reflexivity.
Qed.
Print Assumptions C117_reference_refuted.

(** Containers that are equal, and that differ in their options, in their length, or in their value. *)
Definition a_str (n : Z) (l : list string) (v : string) : slot := SPlain (mkC (TStr n (Some l)) true true true (Some (VStr v)) false).
Example C117_example :
  slot_eq (a_str 5 ["a"; "b"] "a") (a_str 5 ["b"; "a"] "a") = true /\
  slot_eq (a_str 5 ["a"; "b"] "a") (a_str 5 ["b"; "a"] "b") = false /\
  slot_eq (a_str 5 ["a"; "b"] "a") (a_str 6 ["b"; "a"] "a") = false /\
  slot_eq (a_str 5 ["a"; "b"] "a") (a_str 5 ["b"; "a"; "c"] "a") = false /\
  slot_eq (a_str 5 ["a"; "b"; "c"] "a") (a_str 5 ["b"; "a"] "a") = false.
Proof. repeat split; reflexivity. Qed.
Example C117_config_ex :
  let i := [("x", a_str 5 ["a"; "b"] "a"); ("y", a_str 3 ["c"] "c")] in
  let i' := [("y", a_str 3 ["c"] "c"); ("x", a_str 5 ["b"; "a"] "a")] in
  let o := [("z", a_str 9 ["d"] "d")] in
  NoDup (map fst i) /\ NoDup (map fst o) /\ config_eq i o None i' o None = true /\ config_eq i o None i' [("w", a_str 9 ["d"] "d")] None = false /\
  config_eq i o None (("v", a_str 9 ["d"] "d") :: i') o None = false /\ config_eq i o None i' o (Some 1%Z) = false.
Proof.
  cbv zeta. split; [|split; [|repeat split; vm_compute; reflexivity]]; repeat constructor; cbn; intuition discriminate.
Qed.
