(** Proofs about the data containers. *)
From Coq Require Import List String Ascii ZArith Bool Lia.
From Coq.Floats Require Import SpecFloat.
From Verif Require Import Base ModelData SpecData.
Import ListNotations.
Local Open Scope bool_scope.

(** ** The order of floats *)

Lemma SFlt_antisym : forall a b, SFcompare a b = match SFcompare b a with Some c => Some (CompOpp c) | None => None end.
Proof.
  intros [[]|[]| |s m e] [[]|[]| |s' m' e']; simpl; auto; try (destruct s; auto; fail); try (destruct s'; auto; fail).
  destruct s, s'; auto; rewrite (Z.compare_antisym e e'); destruct (Z.compare e e') eqn:E; simpl; auto;
    change (Pos.compare_cont Eq m m') with (Pos.compare m m'); change (Pos.compare_cont Eq m' m) with (Pos.compare m' m);
    rewrite (Pos.compare_antisym m m'); destruct (Pos.compare m m') eqn:Em; simpl; auto.
Qed.

Lemma leb_not_gt : forall a b, a <> S754_nan -> b <> S754_nan -> SFltb b a = false -> float_le a b.
Proof.
  intros a b Ha Hb H. unfold float_le, SFleb, SFltb in *. rewrite SFlt_antisym.
  destruct (SFcompare b a) as [[]|] eqn:E; simpl; auto; try discriminate.
  exfalso. destruct a as [[]|[]| |[] m e], b as [[]|[]| |[] m' e']; simpl in E; try discriminate; try congruence.
Qed.

Lemma leb_no_gt : forall a b, float_le a b -> SFltb b a = false.
Proof.
  intros a b H. unfold float_le, SFleb, SFltb in *. rewrite SFlt_antisym in H.
  destruct (SFcompare b a) as [[]|]; simpl in *; auto; discriminate.
Qed.

Lemma leb_nan : forall a b, float_le a b -> a <> S754_nan /\ b <> S754_nan.
Proof. intros a b H. split; intros ->; unfold float_le, SFleb in H; [|destruct a as [[]|[]| |[] m e]]; discriminate. Qed.

Lemma pos_cmp_trans : forall (x y z : positive), (x <= y)%positive -> (y <= z)%positive -> (x <= z)%positive.
Proof. intros; lia. Qed.

(** Finite floats of the same sign are ordered by exponent, then mantissa. *)
Lemma float_le_trans : forall a b c, float_le a b -> float_le b c -> float_le a c.
Proof.
  unfold float_le, SFleb.
  assert (K : forall (e e' : Z) (m m' : positive) (H : match (match Z.compare e e' with Eq => Pos.compare_cont Eq m m' | Lt => Lt | Gt => Gt end) with Gt => false | _ => true end = true),
             (e < e')%Z \/ (e = e' /\ (m <= m')%positive)).
  { intros e e' m m' H. destruct (Z.compare_spec e e'); [right; split; auto|left; auto|discriminate].
    change (Pos.compare_cont Eq m m') with (Pos.compare m m') in H. destruct (Pos.compare_spec m m'); [lia|lia|discriminate]. }
  assert (K' : forall (e e' : Z) (m m' : positive), (e < e')%Z \/ (e = e' /\ (m <= m')%positive) ->
     match (match Z.compare e e' with Eq => Pos.compare_cont Eq m m' | Lt => Lt | Gt => Gt end) with Gt => false | _ => true end = true).
  { intros e e' m m' H. destruct (Z.compare_spec e e'); auto; [|lia].
    change (Pos.compare_cont Eq m m') with (Pos.compare m m'). destruct (Pos.compare_spec m m'); auto; lia. }
  assert (N : forall (e e' : Z) (m m' : positive) (H : match (match Z.compare e e' with Eq => CompOpp (Pos.compare_cont Eq m m') | Lt => Gt | Gt => Lt end) with Gt => false | _ => true end = true),
             (e' < e)%Z \/ (e = e' /\ (m' <= m)%positive)).
  { intros e e' m m' H. destruct (Z.compare_spec e e'); [right; split; auto|discriminate|left; auto].
    change (Pos.compare_cont Eq m m') with (Pos.compare m m') in H. destruct (Pos.compare_spec m m'); simpl in H; [lia|discriminate|lia]. }
  assert (N' : forall (e e' : Z) (m m' : positive), (e' < e)%Z \/ (e = e' /\ (m' <= m)%positive) ->
     match (match Z.compare e e' with Eq => CompOpp (Pos.compare_cont Eq m m') | Lt => Gt | Gt => Lt end) with Gt => false | _ => true end = true).
  { intros e e' m m' H. destruct (Z.compare_spec e e'); auto; [|lia].
    change (Pos.compare_cont Eq m m') with (Pos.compare m m'). destruct (Pos.compare_spec m m'); simpl; auto; lia. }
  intros [[]|[]| |[] m e] [[]|[]| |[] m' e'] [[]|[]| |[] m'' e''] H1 H2; simpl in *; auto; try discriminate.
  - apply N in H1. apply N in H2. apply N'. lia.
  - apply K in H1. apply K in H2. apply K'. lia.
Qed.

(** ** The checks of set_value *)

Definition list_go (elt : ctype) := fix go (l : list value) : res unit :=
  match l with
  | [] => Ok tt
  | x :: r => match check elt x with Ok _ => go r | Err e => Err e | Raise => Raise end
  end.
Definition dict_go (elt : ctype) := fix go (l : list (string * value)) : res unit :=
  match l with
  | [] => Ok tt
  | (_, x) :: r => match check elt x with Ok _ => go r | Err e => Err e | Raise => Raise end
  end.

Lemma list_go_ok : forall elt l u, list_go elt l = Ok u <-> forall x, In x l -> exists v, check elt x = Ok v.
Proof.
  intros elt l u. destruct u. induction l as [|x l IH]; simpl.
  - split; auto. intros _ x [].
  - split.
    + intros H y [->|Hy].
      * destruct (check elt y); try discriminate. eauto.
      * destruct (check elt x); try discriminate. apply IH; auto.
    + intros H. destruct (H x (or_introl eq_refl)) as [v ->]. apply IH. intros y Hy. apply H. auto.
Qed.
Lemma dict_go_ok : forall elt d u, dict_go elt d = Ok u <-> forall k x, In (k, x) d -> exists v, check elt x = Ok v.
Proof.
  intros elt d u. destruct u. induction d as [|[k x] l IH]; simpl.
  - split; auto. intros _ k x [].
  - split.
    + intros H k' y [Hy|Hy].
      * inversion Hy; subst. destruct (check elt y); try discriminate. eauto.
      * destruct (check elt x); try discriminate. eapply IH; eauto.
    + intros H. destruct (H k x (or_introl eq_refl)) as [v ->]. apply IH. intros k' y Hy. eapply H. eauto.
Qed.

Lemma str_check_ok : forall ml va s, str_check ml va s = true <-> str_ok ml va s.
Proof.
  intros ml va s. unfold str_check, str_ok, zlen. rewrite andb_true_iff, Z.leb_le. split.
  - intros [H1 H2]. split; auto. intros l ->. unfold str_in in H2. apply existsb_exists in H2.
    destruct H2 as [x [Hx He]]. apply String.eqb_eq in He. subst; auto.
  - intros [H1 H2]. split; auto. destruct va as [l|]; auto. apply existsb_exists. exists s. split; [auto|apply String.eqb_refl].
Qed.

Lemma len_check_ok : forall n ml st, len_check (Z.of_nat n) ml st = true <-> len_ok n ml st.
Proof.
  intros n ml st. unfold len_check, len_ok. rewrite andb_true_iff, Z.leb_le, negb_true_iff, andb_false_iff, Z.ltb_ge.
  destruct st; intuition (try lia; try discriminate).
Qed.

Lemma prefix_app : forall p s, prefix p s = true <-> exists r, s = (p ++ r)%string.
Proof.
  induction p as [|a p IH]; intros s; simpl.
  - split; [exists s; auto|destruct s; auto].
  - destruct s as [|b s]; [split; [discriminate|intros [r H]; discriminate]|].
    cbn [prefix]. destruct (ascii_dec a b) as [->|Hn].
    + rewrite IH. split; intros [r H]; exists r; [subst; auto|inversion H; auto].
    + split; [discriminate|]. intros [r H]. inversion H; congruence.
Qed.

Lemma is_uri_ok : forall s, is_uri s = true <-> exists r, s = ("file://" ++ r)%string \/ s = ("package://" ++ r)%string.
Proof.
  intros s. unfold is_uri. rewrite orb_true_iff, !prefix_app. split.
  - intros [[r ->]|[r ->]]; exists r; auto.
  - intros [r [ -> | -> ]]; [left|right]; exists r; auto.
Qed.

Lemma keys_eq_ok : forall A B (d : list (string * A)) (e : list (string * B)), keys_eq d e = true <-> same_keys d e.
Proof.
  intros A B d e. unfold keys_eq, same_keys. rewrite andb_true_iff, !forallb_forall.
  assert (Hin : forall X (l : list (string * X)) k, dget k l <> None <-> exists v, In (k, v) l).
  { intros X l k. induction l as [|[k' v'] l IH]; simpl; [split; [congruence|intros [v []]]|].
    destruct (String.eqb_spec k k') as [->|Hn]; [split; [eauto|discriminate]|].
    rewrite IH. split; intros [v H]; [exists v; auto|destruct H as [H|H]; [inversion H; congruence|eauto]]. }
  split.
  - intros [H1 H2] k. split; intros Hk.
    + destruct (dget k e) as [x|] eqn:Ee; auto. exfalso. assert (Hx : dget k e <> None) by congruence. apply Hin in Hx.
      destruct Hx as [v Hv]. specialize (H2 _ Hv). simpl in H2. rewrite Hk in H2. discriminate.
    + destruct (dget k d) as [x|] eqn:Ee; auto. exfalso. assert (Hx : dget k d <> None) by congruence. apply Hin in Hx.
      destruct Hx as [v Hv]. specialize (H1 _ Hv). simpl in H1. rewrite Hk in H1. discriminate.
  - intros H. split; intros [k v] Hk; simpl.
    + destruct (dget k e) eqn:Ee; auto. apply H in Ee. exfalso. assert (Hx : dget k d <> None) by (apply Hin; eauto). congruence.
    + destruct (dget k d) eqn:Ee; auto. apply H in Ee. exfalso. assert (Hx : dget k e <> None) by (apply Hin; eauto). congruence.
Qed.

(** Two builtin types with equal identifiers are the same. *)
Lemma Z_eq_float_inj : forall a b f, Z_eq_float a f = true -> Z_eq_float b f = true -> a = b.
Proof.
  intros a b f Ha Hb. destruct f as [s|s| |s m e]; simpl in *; try discriminate.
  - apply Z.eqb_eq in Ha, Hb. lia.
  - destruct (Z.leb 0 e) eqn:E.
    + apply Z.eqb_eq in Ha, Hb. congruence.
    + apply Z.leb_gt in E. apply Z.eqb_eq in Ha, Hb.
      assert (H2 : (2 ^ (- e) > 0)%Z) by (apply Z.lt_gt; apply Z.pow_pos_nonneg; lia).
      apply Z.mul_reg_r with (2 ^ (- e))%Z; lia.
Qed.

Lemma generic_id_inj : forall b b' i j j',
  dget IDENTIFIER_KEY (generic_map b) = Some j -> py_eq j i = true ->
  dget IDENTIFIER_KEY (generic_map b') = Some j' -> py_eq j' i = true -> b = b'.
Proof.
  intros b b' i j j' H1 H2 H3 H4.
  assert (Hj : exists z z', j = VInt z /\ j' = VInt z' /\ (z = z' -> b = b')).
  { destruct b, b'; simpl in H1, H3; inversion H1; inversion H3; subst; eexists; eexists;
      (split; [reflexivity|split; [reflexivity|]]); intros He; auto; discriminate. }
  destruct Hj as [z [z' [-> [-> Hi]]]]. apply Hi. simpl in H2, H4.
  destruct i; try discriminate.
  - apply Z.eqb_eq in H2, H4. congruence.
  - apply Z.eqb_eq in H2, H4. congruence.
  - eapply Z_eq_float_inj; eauto.
Qed.

Definition elt_go (valid : list bty) := fix find_elt (l : list (string * value)) : res unit :=
  match l with
  | [] => Ok tt
  | (k, x) :: r => if String.eqb ELEMENT_KEY k then match_generic x valid else find_elt r
  end.
Lemma elt_go_dget : forall valid d, elt_go valid d = match dget ELEMENT_KEY d with Some x => match_generic x valid | None => Ok tt end.
Proof.
  intros valid d. induction d as [|[k x] r IH]; [reflexivity|].
  change (elt_go valid ((k, x) :: r)) with (if String.eqb ELEMENT_KEY k then match_generic x valid else elt_go valid r).
  change (dget ELEMENT_KEY ((k, x) :: r)) with (if String.eqb ELEMENT_KEY k then Some x else dget ELEMENT_KEY r).
  destruct (String.eqb ELEMENT_KEY k); auto.
Qed.

Lemma dget_In : forall A k (d : list (string * A)) v, dget k d = Some v -> In (k, v) d.
Proof.
  intros A k d v. induction d as [|[k' v'] d IH]; simpl; [discriminate|]. destruct (String.eqb_spec k k') as [->|Hn].
  - intros H; inversion H; subst; auto.
  - auto.
Qed.

(** Induction over values. *)
Fixpoint value_ind' (P : value -> Prop)
  (Hl : forall l, Forall P l -> P (VList l))
  (Hd : forall d, Forall (fun kx => P (snd kx)) d -> P (VDict d))
  (H0 : forall v, (forall l, v <> VList l) -> (forall d, v <> VDict d) -> P v) (v : value) {struct v} : P v.
Proof.
  destruct v; try (apply H0; discriminate).
  - apply Hl. induction l as [|x l IH]; constructor; [apply value_ind'; auto|exact IH].
  - apply Hd. induction d as [|[k x] l IH]; constructor; [simpl; apply value_ind'; auto|exact IH].
Qed.

Lemma match_generic_ok : forall v valid u, match_generic v valid = Ok u <-> describes valid v.
Proof.
  intros v valid u. destruct u. revert v. apply value_ind'.
  - intros l _. simpl. split; [destruct valid; discriminate|intros H; inversion H].
  - intros d HF. cbn [match_generic]. fold (elt_go valid).
    assert (Hx : forall x, dget ELEMENT_KEY d = Some x -> (match_generic x valid = Ok tt <-> describes valid x)).
    { intros x Hx. apply dget_In in Hx. rewrite Forall_forall in HF. exact (HF _ Hx). }
    split.
    + intros H. destruct (dget IDENTIFIER_KEY d) as [i|] eqn:Ei; [|destruct valid; discriminate].
      destruct (find _ valid) as [b|] eqn:Ef; [|discriminate]. apply find_some in Ef. destruct Ef as [Hin Hid].
      destruct (keys_eq (generic_map b) d) eqn:Ek; [|discriminate]. apply keys_eq_ok in Ek.
      apply describes_type with (b := b) (i := i); auto.
      * destruct (dget IDENTIFIER_KEY (generic_map b)) as [j|] eqn:Ej; [|discriminate]. eauto.
      * intros x Hd. apply (Hx x Hd). rewrite elt_go_dget, Hd in H. exact H.
    + intros H. inversion H as [d' b i Hin Ei [j [Ej Hp]] Hk He]; subst. rewrite Ei.
      destruct (find _ valid) as [b'|] eqn:Ef.
      * apply find_some in Ef. destruct Ef as [Hin' Hid'].
        destruct (dget IDENTIFIER_KEY (generic_map b')) as [j'|] eqn:Ej'; [|discriminate].
        assert (b = b') by (eapply generic_id_inj; eauto). subst b'.
        apply keys_eq_ok in Hk. rewrite Hk. rewrite elt_go_dget.
        destruct (dget ELEMENT_KEY d) as [x|] eqn:Ee; auto. apply (Hx x eq_refl). auto.
      * exfalso. apply find_none with (x := b) in Ef; auto. simpl in Ef. rewrite Ej in Ef. congruence.
  - intros v Hl Hd. destruct v; try (split; [destruct valid; simpl; discriminate|intros H; inversion H]).
    + exfalso. eapply Hd. reflexivity.
Qed.

Lemma no_nan_list : forall l x, no_nan (VList l) -> In x l -> no_nan x.
Proof. induction l as [|y l IH]; intros x H Hx; [destruct Hx|]. destruct H as [H1 H2]. destruct Hx as [->|Hx]; auto. Qed.
Lemma no_nan_dict : forall d k x, no_nan (VDict d) -> In (k, x) d -> no_nan x.
Proof.
  induction d as [|[k' y] l IH]; intros k x H Hx; [destruct Hx|]. destruct H as [H1 H2].
  destruct Hx as [Hx|Hx]; [inversion Hx; subst; auto|eapply IH; eauto].
Qed.

Lemma shr_1_nonneg : forall r, (0 <= shr_m r)%Z -> (0 <= shr_m (shr_1 r))%Z.
Proof. intros [m rr s] H. simpl in *. destruct m as [|[p|p|]|[p|p|]]; simpl; lia. Qed.
Lemma iter_shr_nonneg : forall p r, (0 <= shr_m r)%Z -> (0 <= shr_m (iter_pos shr_1 p r))%Z.
Proof.
  induction p; intros r H; simpl.
  - apply IHp, IHp, shr_1_nonneg. auto.
  - apply IHp, IHp. auto.
  - apply shr_1_nonneg. auto.
Qed.
Lemma shr_fexp_nonneg : forall m e l, (0 <= m)%Z -> (0 <= shr_m (fst (shr_fexp prec emax m e l)))%Z.
Proof.
  intros m e l H. unfold shr_fexp, shr. assert (K : (0 <= shr_m (shr_record_of_loc m l))%Z) by (destruct l as [|[]]; simpl; auto).
  destruct (Z.sub _ e); simpl; auto. apply iter_shr_nonneg; auto.
Qed.
Lemma round_nonneg : forall m l, (0 <= m)%Z -> (0 <= round_nearest_even m l)%Z.
Proof. intros m l H. unfold round_nearest_even. destruct l as [|[]]; auto; try lia. destruct (Z.even m); lia. Qed.

Lemma float_of_Z_no_nan : forall z f, py_float z = Some f -> f <> S754_nan.
Proof.
  intros z f H. unfold py_float in H.
  assert (K : forall s p e, binary_round prec emax s p e <> S754_nan).
  { intros s p e. unfold binary_round. destruct (shl_align p e _) as [mz ez]. unfold binary_round_aux.
    destruct (shr_fexp prec emax (Zpos mz) ez loc_Exact) as [a b] eqn:E1.
    assert (H1 : (0 <= shr_m a)%Z).
    { assert (K := shr_fexp_nonneg (Zpos mz) ez loc_Exact ltac:(lia)). rewrite E1 in K. exact K. }
    destruct (shr_fexp prec emax (round_nearest_even (shr_m a) (loc_of_shr_record a)) b loc_Exact) as [c d] eqn:E2.
    assert (H2 : (0 <= shr_m c)%Z).
    { assert (K := shr_fexp_nonneg _ b loc_Exact (round_nonneg (shr_m a) (loc_of_shr_record a) H1)). rewrite E2 in K. exact K. }
    destruct (shr_m c); [discriminate| |lia]. destruct (Z.leb d _); discriminate. }
  assert (K2 : float_of_Z z <> S754_nan) by (unfold float_of_Z, binary_normalize; destruct z; auto; discriminate).
  destruct (float_of_Z z) eqn:E; inversion H; subst; try discriminate. congruence.
Qed.

(** What passes the check satisfies the type. *)
Lemma check_sound : forall t v v', bounds_no_nan t -> no_nan v -> check t v = Ok v' -> satisfies t v /\ satisfies t v'.
Proof.
  induction t; intros v v' Hb Hn H; simpl in H, Hb.
  - destruct v; try discriminate. inversion H; subst. simpl. eauto.
  - destruct v; try discriminate.
    + destruct (Z.ltb (Z_of_bool b) mn) eqn:E1; try discriminate. destruct (Z.ltb mx (Z_of_bool b)) eqn:E2; try discriminate.
      inversion H; subst. apply Z.ltb_ge in E1, E2. assert (Hs : satisfies (TInt mn mx) (VBool b)); [|auto].
      exists (Z_of_bool b). split; [destruct b; constructor|lia].
    + destruct (Z.ltb z mn) eqn:E1; try discriminate. destruct (Z.ltb mx z) eqn:E2; try discriminate.
      inversion H; subst. apply Z.ltb_ge in E1, E2. assert (Hs : satisfies (TInt mn mx) (VInt z)); [|auto].
      exists z. split; [constructor|lia].
  - destruct Hb as [Hb1 Hb2].
    assert (Hf : forall f, is_float v f -> f <> S754_nan ->
       (if SFltb f mn then Err EData else if SFltb mx f then Err EData else Ok (VFloat f)) = Ok v' ->
       satisfies (TFloat mn mx) v /\ satisfies (TFloat mn mx) v').
    { intros f Hi Hnn Hc. destruct (SFltb f mn) eqn:E1; try discriminate. destruct (SFltb mx f) eqn:E2; try discriminate.
      inversion Hc; subst. assert (Hr : float_le mn f /\ float_le f mx) by (split; apply leb_not_gt; auto).
      split; exists f; split; auto. constructor. }
    destruct v; try discriminate.
    + apply (Hf (float_of_Z (Z_of_bool b))); auto.
      * apply float_int with (z := Z_of_bool b); [destruct b; constructor|]. destruct b; reflexivity.
      * destruct b; vm_compute; discriminate.
    + destruct (py_float z) as [f|] eqn:Ef; try discriminate. apply (Hf f); auto.
      * apply float_int with (z := z); [constructor|auto].
      * eapply float_of_Z_no_nan; eauto.
    + apply (Hf f); auto. constructor.
  - destruct v; try discriminate. destruct (str_check maxlen valid s) eqn:E; try discriminate. inversion H; subst.
    apply str_check_ok in E. simpl. eauto 10.
  - destruct v; try discriminate. destruct (is_uri s) eqn:Eu; try discriminate.
    destruct (str_check maxlen valid s) eqn:E; try discriminate. inversion H; subst.
    apply str_check_ok in E. apply is_uri_ok in Eu. simpl. eauto 10.
  - destruct v; try discriminate. destruct (Z.leb (zlen s) maxlen) eqn:E; try discriminate. destruct valid; try discriminate.
    inversion H; subst. apply Z.leb_le in E. assert (Hs : satisfies (TBytes maxlen None) (VBytes s)); [|auto].
    exists s. split; auto. split; auto. discriminate.
  - destruct v; try discriminate. fold (list_go t) in H. destruct (list_go t l) as [u| |] eqn:E; try discriminate.
    destruct (len_check (Z.of_nat (List.length l)) maxlen strict) eqn:El; try discriminate. inversion H; subst.
    apply len_check_ok in El. assert (Hs : satisfies (TList t elt_static_ok maxlen strict) (VList l)); [|auto].
    exists l. split; auto. split; auto. intros x Hx. destruct (proj1 (list_go_ok t l u) E x Hx) as [y Hy].
    eapply (IHt x y); eauto. eapply no_nan_list; eauto.
  - destruct v; try discriminate. fold (dict_go t) in H. destruct (dict_go t d) as [u| |] eqn:E; try discriminate.
    destruct (len_check (Z.of_nat (List.length d)) maxlen strict) eqn:El; try discriminate. inversion H; subst.
    apply len_check_ok in El. assert (Hs : satisfies (TDict t elt_static_ok maxlen strict) (VDict d)); [|auto].
    exists d. split; auto. split; auto. intros k x Hx. destruct (proj1 (dict_go_ok t d u) E k x Hx) as [y Hy].
    eapply (IHt x y); eauto. eapply no_nan_dict; eauto.
  - destruct v; try discriminate. destruct (dget IDENTIFIER_KEY d) eqn:Ei; try discriminate.
    fold (match_generic (VDict d) valid) in H. destruct (match_generic (VDict d) valid) eqn:E; try discriminate. inversion H; subst.
    apply match_generic_ok in E. auto.
  - destruct v; try discriminate. inversion H; subst. simpl. eauto.
  - destruct v; try discriminate. destruct (String.eqb_spec ty mt) as [->|]; try discriminate. inversion H; subst. simpl. eauto.
  - destruct v; try discriminate. destruct (ros_validate k k0) eqn:E; try discriminate. inversion H; subst.
    assert (k0 = iface_of k) by (destruct k, k0; auto; discriminate). subst. simpl. eauto.
Qed.

(** Without assumptions on NaN. *)
Lemma check_admits : forall t v v', check t v = Ok v' -> admits t v /\ admits t v'.
Proof.
  induction t; intros v v' H;
    try (apply check_sound in H; [exact H|exact I|destruct v; try discriminate H; exact I]).
  - simpl in H.
    assert (Hf : forall f, is_float v f ->
       (if SFltb f mn then Err EData else if SFltb mx f then Err EData else Ok (VFloat f)) = Ok v' ->
       admits (TFloat mn mx) v /\ admits (TFloat mn mx) v').
    { intros f Hi Hc. destruct (SFltb f mn) eqn:E1; try discriminate. destruct (SFltb mx f) eqn:E2; try discriminate.
      inversion Hc; subst. split; exists f; split; auto. constructor. }
    destruct v; try discriminate.
    + apply (Hf (float_of_Z (Z_of_bool b))); auto.
      apply float_int with (z := Z_of_bool b); [destruct b; constructor|]. destruct b; reflexivity.
    + destruct (py_float z) as [f|] eqn:Ef; try discriminate. apply (Hf f); auto.
      apply float_int with (z := z); [constructor|auto].
    + apply (Hf f); auto. constructor.
  - simpl in H. destruct v; try discriminate. fold (list_go t) in H. destruct (list_go t l) as [u| |] eqn:E; try discriminate.
    destruct (len_check (Z.of_nat (List.length l)) maxlen strict) eqn:El; try discriminate. inversion H; subst.
    apply len_check_ok in El. assert (Hs : admits (TList t elt_static_ok maxlen strict) (VList l)); [|auto].
    exists l. split; auto. split; auto. intros x Hx. destruct (proj1 (list_go_ok t l u) E x Hx) as [y Hy].
    eapply (IHt x y); eauto.
  - simpl in H. destruct v; try discriminate. fold (dict_go t) in H. destruct (dict_go t d) as [u| |] eqn:E; try discriminate.
    destruct (len_check (Z.of_nat (List.length d)) maxlen strict) eqn:El; try discriminate. inversion H; subst.
    apply len_check_ok in El. assert (Hs : admits (TDict t elt_static_ok maxlen strict) (VDict d)); [|auto].
    exists d. split; auto. split; auto. intros k x Hx. destruct (proj1 (dict_go_ok t d u) E k x Hx) as [y Hy].
    eapply (IHt x y); eauto.
  - cbn [check] in H. destruct v; try discriminate. destruct (dget IDENTIFIER_KEY d) eqn:Ei; try discriminate.
    fold (match_generic (VDict d) valid) in H. destruct (match_generic (VDict d) valid) eqn:E; try discriminate. inversion H; subst.
    apply match_generic_ok in E. auto.
Qed.

(** What satisfies the type passes the check. *)
Lemma check_complete : forall t v, bytes_plain t -> satisfies t v -> exists v', check t v = Ok v' /\ satisfies t v'.
Proof.
  induction t; intros v Hb H; simpl in H, Hb.
  - destruct H as [b ->]. simpl. eauto.
  - destruct H as [z [Hz Hr]].
    assert (Hc : forall x, (Z.ltb z mn = false) /\ (Z.ltb mx z = false) ->
       (if Z.ltb z mn then Err EData else if Z.ltb mx z then Err EData else Ok x) = @Ok value x) by (intros x [-> ->]; auto).
    assert (Hz' : Z.ltb z mn = false /\ Z.ltb mx z = false) by (rewrite !Z.ltb_ge; lia).
    inversion Hz; subst; eexists; (split; [simpl; apply (Hc _ Hz')|]); eexists; split; eauto.
  - destruct H as [f [Hf [H1 H2]]]. apply leb_no_gt in H1 as E1. apply leb_no_gt in H2 as E2.
    exists (VFloat f). split; [|exists f; split; auto; constructor].
    inversion Hf as [|v' z f' Hi Hp]; subst; cbn [check].
    + rewrite E1, E2. auto.
    + inversion Hi; subst; cbn [check Z_of_bool]; [rewrite Hp, E1, E2; auto| |].
      * assert (He : float_of_Z 1 = f) by (vm_compute in Hp; inversion Hp; reflexivity). rewrite He, E1, E2. auto.
      * assert (He : float_of_Z 0 = f) by (vm_compute in Hp; inversion Hp; reflexivity). rewrite He, E1, E2. auto.
  - destruct H as [s [-> Hs]]. apply str_check_ok in Hs as E. simpl. rewrite E. eauto.
  - destruct H as [s [-> [Hs Hu]]]. apply str_check_ok in Hs as E. apply is_uri_ok in Hu as E2. simpl. rewrite E, E2. eauto 10.
  - destruct H as [s [-> [Hs Hs2]]]. subst valid. apply Z.leb_le in Hs as E. unfold zlen in *. simpl. unfold zlen. rewrite E. eexists. split; [reflexivity|]. exists s. split; auto. split; auto.
  - destruct H as [l [-> [Hl Hx]]]. exists (VList l). split; [|exists l; auto]. simpl. fold (list_go t).
    assert (E : list_go t l = Ok tt).
    { apply list_go_ok. intros x Hi. destruct (IHt x Hb (Hx x Hi)) as [v' [Hv _]]. eauto. }
    rewrite E. apply len_check_ok in Hl. rewrite Hl. auto.
  - destruct H as [l [-> [Hl Hx]]]. exists (VDict l). split; [|exists l; auto]. simpl. fold (dict_go t).
    assert (E : dict_go t l = Ok tt).
    { apply dict_go_ok. intros k x Hi. destruct (IHt x Hb (Hx k x Hi)) as [v' [Hv _]]. eauto. }
    rewrite E. apply len_check_ok in Hl. rewrite Hl. auto.
  - exists v. split; auto. apply match_generic_ok with (u := tt) in H as E. inversion H as [d b i Hin Hi]; subst.
    cbn [check]. rewrite Hi. fold (match_generic (VDict d) valid). rewrite E. auto.
  - destruct H as [s ->]. simpl. eauto.
  - destruct H as [p ->]. simpl. rewrite String.eqb_refl. eauto.
  - destruct H as [s ->]. exists (VType (iface_of k) s). split; [|simpl; eauto]. destruct k; reflexivity.
Qed.

(** ** set_value and the other operations *)

Lemma set_value_cases : forall c v,
  (exists e, set_value c v = (c, Err e)) \/ set_value c v = (c, Raise) \/
  (exists v', check (c_ty c) v = Ok v' /\ c_static c && c_upd c = true /\ (exists l, c_ty c = TGeneric l) /\ set_value c v = (c, Ok tt)) \/
  (exists v', check (c_ty c) v = Ok v' /\ c_static c && c_upd c = false /\
     set_value c v = (mkC (c_ty c) (c_dyn c) (c_sta c) (c_static c)
       (if changed (c_val c) v' then Some v' else c_val c) (changed (c_val c) v'), Ok tt)).
Proof.
  intros c v. unfold set_value. destruct (check (c_ty c) v) as [v'|e|] eqn:E; [|left; eauto|auto].
  unfold base_set. destruct (c_static c && c_upd c) eqn:El.
  - destruct (c_ty c) eqn:Et; try (left; eexists; reflexivity). right. right. left. exists v'. split; auto. split; auto. split; eauto.
  - right. right. right. exists v'. split; auto. split; auto. destruct (c_ty c); reflexivity.
Qed.

Lemma cops_keep_ty : forall ops c, c_ty (cops_run ops c) = c_ty c.
Proof.
  induction ops as [|o ops IH]; intros c; simpl; auto. rewrite IH. destruct o; simpl; auto.
  destruct (set_value_cases c v) as [[e H]|[H|[[v' [_ [_ [_ H]]]]|[v' [_ [_ H]]]]]]; rewrite H; auto.
Qed.


Lemma cops_admit : forall ops c,
  c_val (cops_run ops c) = None \/ c_val (cops_run ops c) = c_val c \/
  exists v, c_val (cops_run ops c) = Some v /\ admits (c_ty c) v.
Proof.
  induction ops as [|o ops IH]; intros c; simpl; auto.
  assert (Ht : c_ty (cop_run c o) = c_ty c) by (apply (cops_keep_ty [o])).
  specialize (IH (cop_run c o)). rewrite Ht in IH. destruct IH as [H|[H|H]]; auto.
  rewrite H. clear H Ht. destruct o; simpl; auto.
  - destruct (set_value_cases c v) as [[e H]|[H|[[v' [_ [_ [_ H]]]]|[v' [Hc [_ H]]]]]]; rewrite H; auto. simpl.
    destruct (changed (c_val c) v') eqn:E; auto. right. right. exists v'. split; auto. eapply check_admits; eauto.
  - destruct (c_static c); auto.
Qed.

Lemma cops_hold : forall ops c, bounds_no_nan (c_ty c) -> Forall cop_no_nan ops ->
  c_val (cops_run ops c) = None \/ c_val (cops_run ops c) = c_val c \/
  exists v, c_val (cops_run ops c) = Some v /\ satisfies (c_ty c) v.
Proof.
  induction ops as [|o ops IH]; intros c Hb HF; simpl; auto. inversion HF; subst.
  assert (Ht : c_ty (cop_run c o) = c_ty c) by (apply (cops_keep_ty [o])).
  specialize (IH (cop_run c o)). rewrite Ht in IH. destruct (IH Hb H2) as [H|[H|H]]; auto.
  rewrite H. clear IH H H2 Ht. destruct o; simpl; auto.
  - destruct (set_value_cases c v) as [[e H]|[H|[[v' [_ [_ [_ H]]]]|[v' [Hc [_ H]]]]]]; rewrite H; auto. simpl.
    destruct (changed (c_val c) v') eqn:E; auto. right. right. exists v'. split; auto. eapply check_sound; eauto.
  - destruct (c_static c); auto.
Qed.

(** ** Compatibility *)

Lemma ty_compat_sound : forall a b v, ty_compat a b = true -> no_options a -> bounds_no_nan a ->
  satisfies b v -> satisfies a v.
Proof.
  induction a; intros b v Hc Ho Hn H; destruct b; simpl in Hc; try discriminate; simpl in H, Ho, Hn.
  - exact H.
  - apply andb_true_iff in Hc. destruct Hc as [C1 C2]. apply negb_true_iff, Z.ltb_ge in C1, C2.
    destruct H as [z [Hz Hr]]. exists z. split; auto. lia.
  - apply andb_true_iff in Hc. destruct Hc as [C1 C2]. apply negb_true_iff in C1, C2. destruct Hn as [N1 N2].
    destruct H as [f [Hf [H1 H2]]]. exists f. split; auto.
    destruct (leb_nan _ _ H1) as [M1 M2]. destruct (leb_nan _ _ H2) as [_ M3].
    split; eapply float_le_trans; eauto; apply leb_not_gt; auto.
  - subst valid. apply andb_true_iff in Hc. destruct Hc as [C1 _]. apply Z.leb_le in C1.
    destruct H as [s [-> [H1 _]]]. exists s. split; auto. split; [lia|discriminate].
  - subst valid. apply andb_true_iff in Hc. destruct Hc as [C1 _]. apply Z.leb_le in C1.
    destruct H as [s [-> [[H1 _] Hu]]]. exists s. split; auto. split; auto. split; [lia|discriminate].
  - subst valid. apply andb_true_iff in Hc. destruct Hc as [C1 _]. apply Z.leb_le in C1.
    destruct H as [s [-> [H1 _]]]. exists s. split; auto. split; [lia|discriminate].
  - rewrite !andb_true_iff in Hc. destruct Hc as [[C1 _] C2]. unfold len_compat in C1. apply andb_true_iff in C1. destruct C1 as [C1 C3].
    apply Z.leb_le in C1. destruct H as [l [-> [[H1 H2] H3]]]. exists l. split; auto. split.
    + split; [lia|]. intros ->. simpl in C3. apply andb_true_iff in C3. destruct C3 as [-> C4]. apply Z.eqb_eq in C4. rewrite <- C4. auto.
    + intros x Hx. eapply IHa; eauto.
  - rewrite !andb_true_iff in Hc. destruct Hc as [[C1 _] C2]. unfold len_compat in C1. apply andb_true_iff in C1. destruct C1 as [C1 C3].
    apply Z.leb_le in C1. destruct H as [l [-> [[H1 H2] H3]]]. exists l. split; auto. split.
    + split; [lia|]. intros ->. simpl in C3. apply andb_true_iff in C3. destruct C3 as [-> C4]. apply Z.eqb_eq in C4. rewrite <- C4. auto.
    + intros k x Hx. eapply IHa; eauto.
  - simpl. rewrite forallb_forall in Hc. clear Ho Hn. induction H as [d b i Hin Hi Hj Hk Hx IH].
    apply describes_type with (b := b) (i := i); auto. specialize (Hc b Hin). apply existsb_exists in Hc.
    destruct Hc as [b' [Hb' He]]. assert (b = b') by (destruct b, b'; simpl in He; auto; discriminate). subst; auto.
  - exact H.
  - apply andb_true_iff in Hc. destruct Hc as [_ C2]. apply String.eqb_eq in C2. subst. exact H.
  - apply andb_true_iff in Hc. destruct Hc as [C1 _]. unfold roskind_eqb in C1. apply Z.eqb_eq in C1.
    assert (k = k0) by (destruct k, k0; simpl in C1; auto; discriminate). subst. exact H.
Qed.

(** ** Messages *)

Lemma read_simple : forall t vids lens stricts m, simple_type t ->
  (forall dyn sta static, let i := ser_type t dyn sta static in
     m_min m = m_min i /\ m_max m = m_max i /\ m_strlen m = m_strlen i /\ m_opts m = m_opts i /\
     m_types m = m_types i /\ m_kind m = m_kind i /\ m_iid m = m_iid i /\ m_msgtype m = m_msgtype i) ->
  read_type vids lens stricts m (type_id t) = Some t.
Proof.
  intros t vids lens stricts m [Hp Ht] Hm.
  destruct (Hm true true true) as [H1 [H2 [H3 [H4 [H5 [H6 [H7 H8]]]]]]]. clear Hm.
  destruct t; simpl in H1, H2, H3, H4, H5, H6, H7, H8; try contradiction;
    destruct vids; cbn [read_type type_id]; unfold ID_BOOL, ID_INT, ID_FLOAT, ID_STRING, ID_LIST, ID_DICT, ID_BYTES, ID_PATH, ID_GENERIC, ID_ROSNAME, ID_ROSTYPE, ID_ROSVALUE;
    cbn [Z.eqb Pos.eqb]; unfold opts_of; rewrite ?H1, ?H2, ?H3, ?H4, ?H5, ?H6, ?H7, ?H8, ?Hp; auto;
    try (destruct valid as [[|]|]; congruence);
    try (destruct k; simpl; congruence).
Qed.

Lemma construct_flags : forall t dyn sta st v c, construct t dyn sta st v = Some c ->
  c_ty c = t /\ c_dyn c = dyn /\ c_sta c = sta /\ wf_container c.
Proof.
  intros t dyn sta st v c H. unfold construct in H.
  destruct (params_ok t) eqn:E1; [|discriminate]. destruct (is_type_container t && dyn) eqn:E2; [discriminate|].
  simpl in H. destruct (negb dyn && negb sta) eqn:E3; [discriminate|].
  set (s := match st with None => sta | Some b => b end) in *.
  destruct (s && negb sta) eqn:E4; [discriminate|]. destruct (negb s && negb dyn) eqn:E5; [discriminate|].
  assert (Hc : c_ty c = t /\ c_dyn c = dyn /\ c_sta c = sta /\ c_static c = s).
  { destruct v as [x|].
    - destruct (set_value _ x) as [c1 [u|e|]] eqn:Es; try discriminate.
      assert (Hk : c_ty c1 = t /\ c_dyn c1 = dyn /\ c_sta c1 = sta /\ c_static c1 = s).
      { destruct (set_value_cases (mkC t dyn sta s (class_default t) false) x) as [[e H1]|[H1|[[v' [_ [Hx _]]]|[v' [_ [_ H1]]]]]];
          try (rewrite Es in H1; discriminate).
        - simpl in Hx. rewrite andb_false_r in Hx. discriminate.
        - rewrite Es in H1. inversion H1; subst; simpl. auto. }
      destruct (s && negb (c_upd c1)); inversion H; subst; simpl; auto.
    - simpl in H. destruct (s && true); inversion H; subst; simpl; auto. }
  destruct Hc as [C1 [C2 [C3 C4]]]. repeat split; auto; rewrite ?C1, ?C2, ?C3, ?C4; auto.
  - intros ->. destruct (is_type_container t); auto.
  - intros He. rewrite He in E4. destruct sta; auto.
  - intros He. rewrite He in E5. destruct dyn; auto.
Qed.

Lemma construct_default : forall t dyn sta static,
  wf_container (mkC t dyn sta static None false) ->
  exists c, construct t dyn sta (Some static) None = Some c /\ c_ty c = t /\ c_dyn c = dyn /\ c_sta c = sta /\ c_static c = static.
Proof.
  intros t dyn sta static [H1 [H2 [H3 H4]]]. simpl in *. unfold construct. rewrite H1. simpl.
  destruct (is_type_container t && dyn) eqn:E2.
  { apply andb_true_iff in E2. destruct E2 as [E E']. rewrite H2 in E by auto. discriminate. }
  assert (E3 : negb dyn && negb sta = false).
  { destruct static; [rewrite H3 by auto|rewrite H4 by auto]; destruct dyn, sta; auto. }
  assert (E4 : static && negb sta = false) by (destruct static; auto; rewrite H3; auto).
  assert (E5 : negb static && negb dyn = false) by (destruct static; auto; rewrite H4; auto).
  rewrite E3, E4, E5. eexists. split; [reflexivity|]. destruct (static && true); simpl; auto.
Qed.

Lemma read_list : forall v ml st vids lens stricts m,
  read_type (v :: vids) (ml :: lens) (st :: stricts) m ID_LIST =
  match read_type vids lens stricts m v with
  | Some e => if is_type_container e && m_dyn m then None else Some (TList e (m_sta m) ml st)
  | None => None
  end.
Proof. reflexivity. Qed.
Lemma read_dict : forall v ml st vids lens stricts m,
  read_type (v :: vids) (ml :: lens) (st :: stricts) m ID_DICT =
  match read_type vids lens stricts m v with
  | Some e => if is_type_container e && m_dyn m then None else Some (TDict e (m_sta m) ml st)
  | None => None
  end.
Proof. reflexivity. Qed.

(** Reading back the description of a shallow type, with other flags. *)
Lemma read_shallow : forall t dyn sta static dyn' sta' static', shallow t dyn' ->
  let m := ser_type t dyn sta static in
  read_type (m_vids m) (m_lens m) (m_stricts m)
    (mkT (m_id m) dyn' sta' static' (m_vids m) (m_lens m) (m_stricts m) (m_min m) (m_max m) (m_strlen m)
       (m_opts m) (m_types m) (m_kind m) (m_iid m) (m_msgtype m)) (m_id m) = Some (with_element_static t sta').
Proof.
  intros t dyn sta static dyn' sta' static' H m.
  assert (Hid : m_id m = type_id t) by (subst m; destruct t; reflexivity).
  destruct t; try (rewrite Hid; apply read_simple; [exact H|]; intros; subst m; simpl; auto 10; fail).
  - destruct H as [Hs Hd].
    assert (Hv : forall d s x, m_vids (ser_type t d s x) = [] /\ m_lens (ser_type t d s x) = [] /\ m_stricts (ser_type t d s x) = [] /\ m_id (ser_type t d s x) = type_id t).
    { intros. destruct Hs as [_ Hs]. destruct t; try contradiction; simpl; auto. }
    destruct (Hv true elt_static_ok false) as [V1 [V2 [V3 V4]]].
    rewrite Hid. subst m. cbn [ser_type type_id m_vids m_lens m_stricts]. rewrite V1, V2, V3, V4. cbn [app].
    rewrite read_list.
    rewrite read_simple; auto.
    + cbn [m_dyn m_sta with_element_static]. destruct (is_type_container t) eqn:Et; auto. destruct dyn'; auto. pose proof (Hd eq_refl) as Hd'. congruence.
    + intros; simpl. destruct Hs as [_ Hs]. destruct t; try contradiction; simpl; auto 10.
  - destruct H as [Hs Hd].
    assert (Hv : forall d s x, m_vids (ser_type t d s x) = [] /\ m_lens (ser_type t d s x) = [] /\ m_stricts (ser_type t d s x) = [] /\ m_id (ser_type t d s x) = type_id t).
    { intros. destruct Hs as [_ Hs]. destruct t; try contradiction; simpl; auto. }
    destruct (Hv true elt_static_ok false) as [V1 [V2 [V3 V4]]].
    rewrite Hid. subst m. cbn [ser_type type_id m_vids m_lens m_stricts]. rewrite V1, V2, V3, V4. cbn [app].
    rewrite read_dict.
    rewrite read_simple; auto.
    + cbn [m_dyn m_sta with_element_static]. destruct (is_type_container t) eqn:Et; auto. destruct dyn'; auto. pose proof (Hd eq_refl) as Hd'. congruence.
    + intros; simpl. destruct Hs as [_ Hs]. destruct t; try contradiction; simpl; auto 10.
Qed.

Lemma with_element_same : forall t s, element_static t = None \/ element_static t = Some s -> with_element_static t s = t.
Proof. intros t s [H|H]; destruct t; simpl in *; auto; inversion H; auto. Qed.

Lemma with_element_facts : forall t s, params_ok (with_element_static t s) = params_ok t /\
  is_type_container (with_element_static t s) = is_type_container t /\
  (forall v, satisfies (with_element_static t s) v <-> satisfies t v) /\
  (no_options (with_element_static t s) <-> no_options t) /\ (bounds_no_nan (with_element_static t s) <-> bounds_no_nan t).
Proof. intros t s. destruct t; simpl; repeat split; auto; tauto. Qed.

Lemma msg_eta : forall m, mkT (m_id m) (m_dyn m) (m_sta m) (m_static m) (m_vids m) (m_lens m) (m_stricts m) (m_min m) (m_max m) (m_strlen m)
       (m_opts m) (m_types m) (m_kind m) (m_iid m) (m_msgtype m) = m.
Proof. intros []; reflexivity. Qed.

Lemma ser_flags : forall t dyn sta static, let m := ser_type t dyn sta static in
  m_dyn m = dyn /\ m_sta m = sta /\ m_static m = static.
Proof. intros t dyn sta static. destruct t; simpl; auto. Qed.

Lemma round_trip : forall c, wf_container c -> shallow (c_ty c) (c_dyn c) ->
  (element_static (c_ty c) = None \/ element_static (c_ty c) = Some (c_sta c)) ->
  exists c', from_msg (serialize_type c) = Some c' /\ c_ty c' = c_ty c /\
    c_dyn c' = c_dyn c /\ c_sta c' = c_sta c /\ c_static c' = c_static c.
Proof.
  intros c Hw Hs He. unfold from_msg, serialize_type. set (m := ser_type _ _ _ _).
  destruct (ser_flags (c_ty c) (c_dyn c) (c_sta c) (c_static c)) as [F1 [F2 F3]]. fold m in F1, F2, F3.
  pose proof (read_shallow (c_ty c) (c_dyn c) (c_sta c) (c_static c) (c_dyn c) (c_sta c) (c_static c) Hs) as Hr.
  cbv zeta in Hr. fold m in Hr. rewrite <- F1 in Hr at 1. rewrite <- F2 in Hr at 1. rewrite <- F3 in Hr at 1.
  rewrite msg_eta in Hr. rewrite Hr. rewrite with_element_same by auto. rewrite F1, F2, F3.
  apply construct_default. exact Hw.
Qed.

Lemma runtime_shallow : forall c, wf_container c -> shallow (c_ty c) (negb (c_static c)) ->
  let r := runtime_type c in
  c_ty r = with_element_static (c_ty c) (c_static c) /\
  c_dyn r = negb (c_static c) /\ c_sta r = c_static c /\ c_static r = c_static c.
Proof.
  intros c Hw Hs r. subst r. unfold runtime_type. cbv zeta. set (m := serialize_type c).
  destruct (ser_flags (c_ty c) (c_dyn c) (c_sta c) (c_static c)) as [F1 [F2 F3]]. fold (serialize_type c) in F1, F2, F3. fold m in F1, F2, F3.
  rewrite F3. unfold from_msg. cbn [m_vids m_lens m_stricts m_id m_dyn m_sta m_static].
  pose proof (read_shallow (c_ty c) (c_dyn c) (c_sta c) (c_static c) (negb (c_static c)) (c_static c) (c_static c) Hs) as Hr.
  cbv zeta in Hr. fold (serialize_type c) in Hr. fold m in Hr. rewrite Hr.
  destruct Hw as [W1 [W2 [W3 W4]]]. destruct (with_element_facts (c_ty c) (c_static c)) as [P1 [P2 _]].
  destruct (construct_default (with_element_static (c_ty c) (c_static c)) (negb (c_static c)) (c_static c) (c_static c)) as [c' [-> H]]; [|tauto].
  repeat split; simpl; rewrite ?P1, ?P2; auto.
  - intros Hd. apply negb_true_iff in Hd. apply W2. auto.
  - intros ->. auto.
Qed.

(** The flags of a runtime type, whatever the type. *)
Lemma runtime_flags : forall c,
  (c_sta (runtime_type c) = c_static c /\ c_dyn (runtime_type c) = negb (c_static c)) \/ runtime_type c = c.
Proof.
  intros c. unfold runtime_type. cbv zeta. match goal with |- context [from_msg ?m] => destruct (from_msg m) as [c'|] eqn:E end; auto.
  left. unfold from_msg in E. cbn [m_vids m_lens m_stricts m_id m_dyn m_sta m_static] in E.
  destruct (read_type _ _ _ _ _) as [t|]; [|discriminate]. apply construct_flags in E.
  destruct E as [_ [E1 [E2 _]]]. destruct (ser_flags (c_ty c) (c_dyn c) (c_sta c) (c_static c)) as [_ [_ F3]].
  unfold serialize_type in *. rewrite F3 in *. auto.
Qed.

Lemma static_not_accepted : forall t s, wf_container t -> c_static t = true -> is_output s ->
  is_compatible (runtime_type t) (runtime_type s) = false.
Proof.
  intros t s [_ [_ [W3 _]]] Ht [S1 [S2 S3]]. unfold is_compatible.
  assert (H1 : c_sta (runtime_type t) = true) by (destruct (runtime_flags t) as [[-> _]| ->]; auto).
  assert (H2 : c_sta (runtime_type s) = false) by (destruct (runtime_flags s) as [[-> _]| ->]; auto).
  rewrite H1, H2. simpl. rewrite andb_false_r. reflexivity.
Qed.

(** ** Defaults *)

Lemma SFltb_le : forall a b, SFltb a b = true -> float_le a b.
Proof. intros a b H. unfold SFltb, float_le, SFleb in *. destruct (SFcompare a b) as [[]|]; auto; discriminate. Qed.

Lemma default_value : forall t dyn sta st c, construct t dyn sta st None = Some c -> c_static c = true ->
  default_fits t -> exists v, c_val c = Some v /\ satisfies t v.
Proof.
  intros t dyn sta st c H Hst Hf. pose proof (construct_flags _ _ _ _ _ _ H) as [_ [_ [_ [Hp _]]]].
  assert (Ht : c_ty c = t) by (eapply construct_flags; eauto). rewrite Ht in Hp.
  assert (Hv : c_val c = adjust_default t (class_default t)).
  { unfold construct in H. destruct (negb (params_ok t)); [discriminate|]. destruct (is_type_container t && dyn); [discriminate|].
    destruct (negb dyn && negb sta); [discriminate|]. destruct (_ && negb sta); [discriminate|]. destruct (negb _ && negb dyn); [discriminate|].
    simpl in H. rewrite andb_true_r in H.
    destruct (match st with None => sta | Some b => b end); injection H as H; rewrite <- H in Hst |- *; simpl in Hst |- *; congruence. }
  rewrite Hv. clear H Hst Hv Ht c. destruct t; simpl in *.
  - eauto.
  - apply Z.leb_le in Hp. destruct (Z.ltb mx 0) eqn:E1.
    + apply Z.ltb_lt in E1. exists (VInt mx). split; auto. exists mx. split; [constructor|lia].
    + apply Z.ltb_ge in E1. destruct (Z.ltb 0 mn) eqn:E2.
      * exists (VInt mn). split; auto. exists mn. split; [constructor|lia].
      * apply Z.ltb_ge in E2. exists (VInt 0). split; auto. exists 0%Z. split; [constructor|lia].
  - destruct Hf as [N1 [N2 Hf]]. apply negb_true_iff in Hp. apply leb_not_gt in Hp; auto.
    assert (Hm : forall x, x <> S754_nan -> float_le x x).
    { intros x Hx. apply leb_not_gt; auto. destruct (SFltb x x) eqn:E; auto. exfalso.
      unfold SFltb in E. pose proof (SFlt_antisym x x) as Ha. destruct (SFcompare x x) as [[]|]; simpl in Ha; try discriminate. }
    destruct (SFltb mx (S754_zero false)) eqn:E1.
    + exists (VFloat mx). split; auto. exists mx. split; [constructor|auto].
    + destruct (SFltb (S754_zero false) mn) eqn:E2.
      * exists (VFloat mn). split; auto. exists mn. split; [constructor|auto].
      * destruct Hf as [Hf|[Hf|Hf]]; try congruence. exists (VFloat FLOAT_1_2). split; auto. exists FLOAT_1_2. split; [constructor|].
        split; auto. apply float_le_trans with (S754_zero false); [apply leb_not_gt; auto; discriminate|reflexivity].
  - destruct Hf as [Hf Hv]. exists (VStr ""). split; auto. exists ""%string. split; auto. split; auto.
  - contradiction.
  - destruct Hf as [Hf Hv]. eexists. split; [reflexivity|]. eexists. split; [reflexivity|]. split; [simpl; lia|]. intros l Hl. congruence.
  - destruct Hf as [Hf Hv]. exists (VList []). split; auto. exists []. split; auto. split; [split; [auto|intros; rewrite Hv; auto]|]. intros x [].
  - destruct Hf as [Hf Hv]. exists (VDict []). split; auto. exists []. split; auto. split; [split; [auto|intros; rewrite Hv; auto]|]. intros k x [].
  - destruct valid as [|b l]; [discriminate|]. exists (VDict (generic_map b)). split; auto.
    assert (Hflat : forall b0, In b0 (b :: l) -> b0 <> BList -> b0 <> BDict -> describes (b :: l) (VDict (generic_map b0))).
    { intros b0 Hin N1 N2. destruct b0; try congruence; (eapply describes_type; [exact Hin|reflexivity|eexists; split; [reflexivity|reflexivity]|intros k; tauto|intros x Hx; discriminate]). }
    destruct b; try (apply Hflat; [left; auto|discriminate|discriminate]).
    + eapply describes_type with (b := BList); [left; auto|reflexivity|eexists; split; reflexivity|intros k; tauto|].
      intros x Hx. inversion Hx; subst. apply (Hflat BBool); [right; auto|discriminate|discriminate].
    + eapply describes_type with (b := BDict); [left; auto|reflexivity|eexists; split; reflexivity|intros k; tauto|].
      intros x Hx. inversion Hx; subst. apply (Hflat BBool); [right; auto|discriminate|discriminate].
  - exists (VStr "/foo"). split; auto. eexists; auto.
  - exists (VMsg mt 0). split; auto. eexists; auto.
  - destruct k; eexists; (split; [reflexivity|eexists; reflexivity]).
Qed.
