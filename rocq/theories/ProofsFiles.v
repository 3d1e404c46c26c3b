(** Proofs about names and paths. *)
From Coq Require Import DecimalString DecimalFacts DecimalN FinFun String Ascii Bool Arith NArith Lia List.
From Verif Require Import Base ModelFiles SpecFiles.
Import ListNotations.
Local Open Scope string_scope.

Lemma app_assoc_s : forall a b c : string, (a ++ b) ++ c = a ++ (b ++ c).
Proof. induction a; cbn; intros; congruence. Qed.
Lemma app_nil_s : forall a : string, a ++ "" = a.
Proof. induction a; cbn; congruence. Qed.
Lemma app_inv_head_s : forall a b c : string, a ++ b = a ++ c -> b = c.
Proof. induction a; cbn; intros b c H; [exact H|]. injection H as H. auto. Qed.
Lemma length_app_s : forall a b, String.length (a ++ b) = String.length a + String.length b.
Proof. induction a; cbn; intros; [reflexivity|]. now rewrite IHa. Qed.

(** Characters of a string. *)
Fixpoint has (c : ascii) (s : string) : Prop := match s with "" => False | String a r => a = c \/ has c r end.
Lemma has_app : forall c a b, has c (a ++ b) <-> has c a \/ has c b.
Proof. induction a; cbn; intros; [tauto|]. rewrite IHa. tauto. Qed.

Lemma is_digit_spec : forall c, is_digit c = true <-> 48 <= nat_of_ascii c <= 57.
Proof. intros c. unfold is_digit. rewrite andb_true_iff, !Nat.leb_le. tauto. Qed.
Lemma digits_app : forall a b, digits (a ++ b) <-> digits a /\ digits b.
Proof. induction a; cbn; intros; [tauto|]. rewrite IHa. tauto. Qed.
Lemma digits_has : forall s c, digits s -> has c s -> 48 <= nat_of_ascii c <= 57.
Proof. induction s; cbn; intros c D H; [destruct H|]. destruct D as [D R]. destruct H as [<-|H]; auto. Qed.

Lemma span_sound : forall s d t, span_digits s = (d, t) -> s = d ++ t /\ digits d.
Proof.
  induction s as [|c s IH]; cbn; intros d t H.
  - injection H as <- <-. cbn. auto.
  - destruct (is_digit c) eqn:Q.
    + destruct (span_digits s) as [d' t'] eqn:S. injection H as <- <-. destruct (IH _ _ eq_refl) as [-> D].
      cbn. apply is_digit_spec in Q. auto.
    + injection H as <- <-. cbn. auto.
Qed.
Lemma span_digits_app : forall d t, digits d -> match t with String c _ => is_digit c = false | "" => True end ->
  span_digits (d ++ t) = (d, t).
Proof.
  induction d as [|c d IH]; intros t D T; cbn.
  - destruct t as [|c t]; cbn; [reflexivity|]. now rewrite T.
  - cbn in D. destruct D as [D1 D2]. apply is_digit_spec in D1. rewrite D1, (IH t D2 T). reflexivity.
Qed.

Lemma match_sound : forall s d, match_number s = Some d ->
  digits d /\ d <> "" /\ (s = "_" ++ d \/ s = "_" ++ d ++ newline).
Proof.
  intros [|c r] d H; [discriminate|]. cbn in H. destruct (Ascii.eqb_spec c underscore) as [->|]; [|discriminate].
  destruct (span_digits r) as [d' t] eqn:S. apply span_sound in S. destruct S as [-> D].
  destruct d' as [|c' d']; [discriminate|].
  destruct (String.eqb t "" || String.eqb t newline) eqn:T; [|discriminate]. injection H as <-.
  split; [exact D|]. split; [discriminate|]. apply orb_prop in T.
  destruct T as [T|T]; apply String.eqb_eq in T; subst t; [left|right]; cbn; [now rewrite app_nil_s|reflexivity].
Qed.
Lemma match_complete : forall d t, digits d -> d <> "" -> t = "" \/ t = newline -> match_number ("_" ++ d ++ t) = Some d.
Proof.
  intros d t D N T. cbn. rewrite span_digits_app; [|exact D|destruct T as [->| ->]; reflexivity].
  destruct d; [congruence|]. destruct T as [->| ->]; reflexivity.
Qed.

Lemma search_sound : forall s d, search_number s = Some d ->
  exists base t, digits d /\ d <> "" /\ (t = "" \/ t = newline) /\ s = base ++ "_" ++ d ++ t.
Proof.
  induction s as [|c s IH]; intros d H; cbn [search_number] in H.
  - discriminate.
  - destruct (match_number (String c s)) as [d'|] eqn:M.
    + injection H as <-. apply match_sound in M. destruct M as (D & N & [M|M]).
      * exists "", "". rewrite app_nil_s. auto.
      * exists "", newline. auto.
    + destruct (IH _ H) as (base & t & D & N & T & ->). exists (String c base), t. auto.
Qed.
(** The part that matches is the only one. *)
Lemma search_complete : forall base d t, digits d -> d <> "" -> t = "" \/ t = newline ->
  search_number (base ++ "_" ++ d ++ t) = Some d.
Proof.
  intros base d t D N T. induction base as [|c base IH].
  - assert (M := match_complete d t D N T). change ("" ++ "_" ++ d ++ t) with ("_" ++ d ++ t).
    cbn [append] in *. cbn [search_number]. rewrite M. reflexivity.
  - change (search_number (String c (base ++ "_" ++ d ++ t)) = Some d). cbn [search_number].
    destruct (match_number (String c (base ++ "_" ++ d ++ t))) as [d'|] eqn:M; [|exact IH].
    exfalso. apply match_sound in M. destruct M as (D' & N' & M).
    assert (H : has underscore (d' ++ newline)).
    { apply has_app. destruct M as [M|M]; cbn in M; injection M as _ M.
      - left. rewrite <- M. apply has_app. right. left. reflexivity.
      - apply has_app. rewrite <- M. apply has_app. right. left. reflexivity. }
    apply has_app in H. destruct H as [H|H].
    + apply digits_has in H; [|exact D']. vm_compute in H. lia.
    + cbn in H. destruct H as [H|H]; [discriminate|exact H].
Qed.

(** ** Decimal notation *)

Lemma value_from_uint_pos : forall u acc,
  value_from (Npos acc) (NilEmpty.string_of_uint u) = Npos (Pos.of_uint_acc u acc).
Proof. induction u; intros acc; cbn [NilEmpty.string_of_uint value_from Pos.of_uint_acc]; [reflexivity|..]; rewrite <- IHu; f_equal;
  match goal with |- context [N_of_ascii ?c] => let v := eval vm_compute in (N_of_ascii c) in change (N_of_ascii c) with v end; lia. Qed.
Lemma value_uint : forall u, value (NilEmpty.string_of_uint u) = N.of_uint u.
Proof.
  unfold value. induction u; cbn [NilEmpty.string_of_uint value_from N.of_uint Pos.of_uint]; [reflexivity|exact IHu|..];
    rewrite <- value_from_uint_pos; reflexivity.
Qed.
Lemma digits_uint : forall u, digits (NilEmpty.string_of_uint u).
Proof. induction u; cbn [NilEmpty.string_of_uint digits]; auto; (split; [vm_compute; lia|exact IHu]). Qed.
Lemma digits_ofuint : forall d, digits d -> exists u, d = NilEmpty.string_of_uint u.
Proof.
  induction d as [|c d IH]; intros D; [exists Decimal.Nil; reflexivity|]. cbn in D. destruct D as [C D].
  destruct (IH D) as [u ->].
  assert (K : exists k, c = ascii_of_nat (48 + k) /\ k < 10).
  { exists (nat_of_ascii c - 48). split; [|lia]. replace (48 + (nat_of_ascii c - 48)) with (nat_of_ascii c) by lia.
    symmetry. apply ascii_nat_embedding. }
  destruct K as (k & -> & L).
  do 10 (destruct k as [|k]; [first [exists (Decimal.D0 u); reflexivity|exists (Decimal.D1 u); reflexivity
   |exists (Decimal.D2 u); reflexivity|exists (Decimal.D3 u); reflexivity|exists (Decimal.D4 u); reflexivity
   |exists (Decimal.D5 u); reflexivity|exists (Decimal.D6 u); reflexivity|exists (Decimal.D7 u); reflexivity
   |exists (Decimal.D8 u); reflexivity|exists (Decimal.D9 u); reflexivity]|]). lia.
Qed.
Lemma int_of_value : forall d, digits d -> int_of d = value d.
Proof.
  intros d D. destruct (digits_ofuint d D) as [u ->]. unfold int_of. rewrite NilEmpty.usu. symmetry. apply value_uint.
Qed.
Lemma str_of_decimal : forall n, decimal n (str_of n).
Proof.
  intros n. unfold str_of. assert (E : N.of_uint (N.to_uint n) = n) by apply Unsigned.of_to.
  assert (F : Decimal.unorm (N.to_uint n) = N.to_uint n) by (rewrite <- Unsigned.to_of, E; reflexivity).
  split; [apply digits_uint|]. split; [rewrite value_uint; exact E|].
  destruct (N.to_uint n) as [|u|u|u|u|u|u|u|u|u|u] eqn:U; cbn [NilEmpty.string_of_uint]; try (split; [discriminate|intros r H; discriminate H]).
  - split; [discriminate|]. intros r H. injection H as <-. unfold Decimal.unorm in F. cbn in F.
    destruct (Decimal.nzhead u) eqn:Z; try discriminate F.
    + injection F as <-. reflexivity.
    + exfalso. injection F as <-. exact (nzhead_nonzero _ _ Z).
Qed.
Lemma value_from_bound : forall s n, digits s ->
  (n * 10 ^ N.of_nat (String.length s) <= value_from n s < (n + 1) * 10 ^ N.of_nat (String.length s))%N.
Proof.
  induction s as [|c s IH]; intros n D; [cbn; lia|]. cbn in D. destruct D as [C D].
  cbn [value_from String.length]. specialize (IH (10 * n + (N_of_ascii c - 48))%N D).
  rewrite Nat2N.inj_succ, N.pow_succ_r by lia. unfold nat_of_ascii in C.
  assert (48 <= N_of_ascii c <= 57)%N by lia. set (k := (N_of_ascii c - 48)%N) in *. assert (k <= 9)%N by lia.
  set (p := (10 ^ N.of_nat (String.length s))%N) in *. nia.
Qed.
(** The next number has at most one digit more. *)
Lemma str_of_length : forall n, String.length (str_of (n + 1)) <= S (String.length (str_of n)).
Proof.
  intros n. destruct (str_of_decimal n) as (D & V & N1 & _). destruct (str_of_decimal (n + 1)) as (D' & V' & N' & Z').
  assert (B := value_from_bound (str_of n) 0 D). fold (value (str_of n)) in B. rewrite V in B.
  destruct (str_of (n + 1)) as [|c r]; [congruence|]. cbn [String.length]. apply le_n_S.
  cbn in D'. destruct D' as [C D']. unfold value in V'. cbn [value_from] in V'.
  assert (B' := value_from_bound r (10 * 0 + (N_of_ascii c - 48))%N D'). rewrite V' in B'.
  destruct (Ascii.eqb_spec c "0"%char) as [->|NZ].
  - rewrite (Z' r eq_refl). cbn. lia.
  - assert (1 <= N_of_ascii c - 48)%N.
    { unfold nat_of_ascii in C. destruct (N.eq_dec (N_of_ascii c) 48) as [E|]; [|lia]. exfalso. apply NZ.
      rewrite <- (ascii_N_embedding c), E. reflexivity. }
    assert (10 ^ N.of_nat (String.length r) < 10 ^ N.of_nat (String.length (str_of n)) * 10)%N by
      (assert (0 < 10 ^ N.of_nat (String.length r))%N by (apply N.neq_0_lt_0, N.pow_nonzero; lia); nia).
    rewrite N.mul_comm, <- N.pow_succ_r in H0 by lia. apply N.pow_lt_mono_r_iff in H0; lia.
Qed.
Lemma str_of_inj : forall a b, str_of a = str_of b -> a = b.
Proof. intros a b H. destruct (str_of_decimal a) as (_ & A & _), (str_of_decimal b) as (_ & B & _). congruence. Qed.

Lemma decimal_str : forall n s, decimal n s -> s = str_of n.
Proof.
  intros n s (D & V & NE & Z). destruct (digits_ofuint s D) as [u ->]. rewrite value_uint in V. subst n. unfold str_of.
  rewrite Unsigned.to_of. f_equal. destruct u; try reflexivity; [exfalso; apply NE; reflexivity|].
  specialize (Z _ eq_refl). destruct u; try discriminate Z. reflexivity.
Qed.
Lemma decimal_unique : forall n s t, decimal n s -> decimal n t -> s = t.
Proof. intros n s t S T. rewrite (decimal_str _ _ S), (decimal_str _ _ T). reflexivity. Qed.
Fixpoint digitsb (s : string) : bool := match s with "" => true | String c r => is_digit c && digitsb r end.
Lemma digitsb_ok : forall s, digitsb s = true -> digits s.
Proof.
  induction s as [|c s IH]; intros H; cbn in *; [exact I|]. apply andb_prop in H. destruct H as [A B].
  split; [apply is_digit_spec; exact A|auto].
Qed.

(** ** increment_name *)

Lemma substring_app : forall a r m, String.length a <= m -> substring 0 m (a ++ r) = a ++ substring 0 (m - String.length a) r.
Proof.
  induction a as [|c a IH]; intros r m L; cbn in *; [now rewrite Nat.sub_0_r|].
  destruct m as [|m]; [lia|]. cbn. rewrite IH by lia. reflexivity.
Qed.
Lemma substring_slash : forall a r m, S (String.length a) <= m ->
  substring 0 m (a ++ String slash r) = a ++ "/" ++ substring 0 (m - S (String.length a)) r.
Proof.
  intros a r m L. rewrite substring_app by lia. f_equal. destruct (m - String.length a) as [|k] eqn:K; [lia|].
  cbn [substring append]. do 2 f_equal. lia.
Qed.
Lemma substring_0 : forall s, substring 0 0 s = "".
Proof. destruct s; reflexivity. Qed.
Lemma substring_all : forall s m, String.length s <= m -> substring 0 m s = s.
Proof. induction s; intros m L; cbn in *; destruct m; try reflexivity; try lia. rewrite IHs by lia. reflexivity. Qed.

Definition short (s : string) : Prop := too_long s = false.
Lemma incr_plain : forall name, ~ numbered name -> increment_name name = Ok (name ++ "_2").
Proof.
  intros name N. unfold increment_name. destruct (search_number name) as [d|] eqn:SE; [|reflexivity].
  exfalso. apply N. apply search_sound in SE. destruct SE as (base & t & D & ND & [->| ->] & ->); exists base, d; auto.
  rewrite app_nil_s. auto.
Qed.
Lemma incr_number : forall base d, digits d -> d <> "" ->
  too_long d = false -> too_long (str_of (value d + 1)) = false ->
  increment_name (base ++ "_" ++ d) = Ok (base ++ "_" ++ str_of (value d + 1)).
Proof.
  intros base d D N L1 L2. unfold increment_name. assert (SE := search_complete base d "" D N (or_introl eq_refl)).
  rewrite app_nil_s in SE. rewrite SE, L1, int_of_value, L2 by exact D. f_equal. f_equal.
  rewrite length_app_s. cbn [String.length append]. rewrite substring_app by lia.
  replace (String.length base + S (String.length d) - (1 + String.length d) - String.length base) with 0 by lia.
  rewrite substring_0. apply app_nil_s.
Qed.
(** The part up to the last slash stays. *)
Lemma slash_in : forall base d t a r, digits d -> (t = "" \/ t = newline) -> a ++ "/" ++ r = base ++ "_" ++ d ++ t ->
  exists r1, base = a ++ "/" ++ r1.
Proof.
  intros base d t a r D T. revert base. induction a as [|c a IH]; intros base H.
  - destruct base as [|b base]; cbn in H; [discriminate|]. injection H as <- _. exists base. reflexivity.
  - destruct base as [|b base].
    + exfalso. cbn in H. injection H as _ H. assert (K : has slash (d ++ t)) by (rewrite <- H; apply has_app; right; left; reflexivity).
      apply has_app in K. destruct K as [K|K]; [apply digits_has in K; [vm_compute in K; lia|exact D]|].
      destruct T as [->| ->]; cbn in K; [exact K|destruct K as [K|K]; [discriminate|exact K]].
    + cbn in H. injection H as <- H. destruct (IH _ H) as [r1 ->]. exists r1. reflexivity.
Qed.
Lemma incr_below : forall a r n, increment_name (a ++ "/" ++ r) = Ok n -> exists r', r' <> "" /\ n = a ++ "/" ++ r'.
Proof.
  intros a r n H. unfold increment_name in H. destruct (search_number (a ++ "/" ++ r)) as [d|] eqn:SE.
  - destruct (too_long d); [discriminate|]. destruct (too_long (str_of _)); [discriminate|]. injection H as <-.
    apply search_sound in SE. destruct SE as (base & t & D & ND & T & E).
    destruct (slash_in _ _ _ _ _ D T E) as [r1 B].
    exists (substring 0 (String.length (a ++ "/" ++ r) - (1 + String.length d) - S (String.length a)) r ++ "_" ++ str_of (int_of d + 1)).
    split; [destruct (substring _ _ r); discriminate|].
    assert (L : S (String.length a) <= String.length (a ++ "/" ++ r) - (1 + String.length d)).
    { rewrite E, B, !length_app_s. cbn. lia. }
    cbn [append]. rewrite (substring_slash a r) by exact L. rewrite !app_assoc_s. reflexivity.
  - injection H as <-. exists (r ++ "_" ++ str_of 2). split; [destruct r; discriminate|]. rewrite !app_assoc_s. reflexivity.
Qed.
Lemma incr_cases : forall name n, increment_name name = Ok n -> exists base k, n = base ++ "_" ++ str_of k.
Proof.
  intros name n H. unfold increment_name in H. destruct (search_number name) as [d|].
  - destruct (too_long d); [discriminate|]. destruct (too_long (str_of _)); [discriminate|]. injection H as <-.
    eexists _, _. reflexivity.
  - injection H as <-. exists name, 2%N. reflexivity.
Qed.

(** ** make_filepath_unique *)

Definition path_max (p : string) : Prop := (N.of_nat (String.length p) <= 4096)%N.
Lemma not_long : forall d s, String.length d <= S (String.length s) -> path_max s -> too_long d = false.
Proof. intros d s L P. unfold too_long, path_max in *. apply N.ltb_ge. lia. Qed.

Lemma search_length : forall s d, search_number s = Some d -> String.length d <= String.length s.
Proof. intros s d H. apply search_sound in H. destruct H as (b & t & _ & _ & _ & ->). rewrite !length_app_s. cbn. lia. Qed.
Lemma value_bound_len : forall d, digits d -> String.length (str_of (value d + 1)) <= S (S (String.length d)).
Proof.
  intros d D. destruct (str_of_decimal (value d)) as (D' & V & N1 & Z).
  assert (String.length (str_of (value d)) <= S (String.length d)).
  { destruct (str_of (value d)) as [|c r]; [congruence|]. cbn [String.length]. apply le_n_S.
    assert (B := value_from_bound d 0 D). fold (value d) in B.
    cbn in D'. destruct D' as [C D']. unfold value in V at 1. cbn [value_from] in V.
    assert (B' := value_from_bound r (10 * 0 + (N_of_ascii c - 48))%N D'). rewrite V in B'.
    destruct (Ascii.eqb_spec c "0"%char) as [->|NZ]; [rewrite (Z r eq_refl); cbn; lia|].
    assert (1 <= N_of_ascii c - 48)%N.
    { unfold nat_of_ascii in C. destruct (N.eq_dec (N_of_ascii c) 48) as [E|]; [|lia]. exfalso. apply NZ.
      rewrite <- (ascii_N_embedding c), E. reflexivity. }
    assert (10 ^ N.of_nat (String.length r) < 10 ^ N.of_nat (String.length d))%N by
      (assert (0 < 10 ^ N.of_nat (String.length r))%N by (apply N.neq_0_lt_0, N.pow_nonzero; lia); nia).
    apply N.pow_lt_mono_r_iff in H0; lia. }
  pose proof (str_of_length (value d)). lia.
Qed.
Lemma incr_total : forall s x, path_max (s ++ x) -> exists n, increment_name s = Ok n.
Proof.
  intros s x P. unfold increment_name. destruct (search_number s) as [d|] eqn:SE; [|eauto].
  assert (L := search_length _ _ SE). apply search_sound in SE. destruct SE as (b & t & D & _ & _ & E).
  assert (LS : String.length d + 1 <= String.length s) by (rewrite E, !length_app_s; cbn; lia).
  unfold path_max in P. rewrite length_app_s in P.
  replace (too_long d) with false; [|symmetry; unfold too_long; apply N.ltb_ge; lia].
  rewrite int_of_value by exact D. assert (V := value_bound_len d D).
  replace (too_long (str_of (value d + 1))) with false; [eauto|]. symmetry. unfold too_long. apply N.ltb_ge. lia.
Qed.
Lemma incr_next : forall base k x, path_max ((base ++ "_" ++ str_of k) ++ x) ->
  increment_name (base ++ "_" ++ str_of k) = Ok (base ++ "_" ++ str_of (k + 1)).
Proof.
  intros base k x P. destruct (str_of_decimal k) as (D & V & N & _).
  assert (String.length (str_of k) + 1 <= String.length ((base ++ "_" ++ str_of k) ++ x)) by (rewrite !length_app_s; cbn; lia).
  unfold path_max in P. pose proof (str_of_length k).
  rewrite incr_number; rewrite ?V; auto; unfold too_long; apply N.ltb_ge; lia.
Qed.

Section Unique.
Variables (ex : string -> bool) (l : list string).
Hypothesis fin : forall p, ex p = true -> In p l /\ path_max p.

Definition nth_name (base ext : string) (k : N) (i : nat) : string := (base ++ "_" ++ str_of (k + N.of_nat i)) ++ ext.
Lemma loop_cases : forall f base ext k,
  (exists j, j < f /\ ex (nth_name base ext k j) = false /\ (forall i, i < j -> ex (nth_name base ext k i) = true) /\
     unique_loop f ex (base ++ "_" ++ str_of k) ext = Some (Ok (nth_name base ext k j))) \/
  (forall i, i < f -> ex (nth_name base ext k i) = true).
Proof.
  induction f as [|f IH]; intros base ext k; [right; lia|].
  assert (Z : nth_name base ext k 0 = (base ++ "_" ++ str_of k) ++ ext) by (unfold nth_name; do 4 f_equal; lia).
  cbn [unique_loop]. rewrite <- Z. destruct (ex (nth_name base ext k 0)) eqn:X.
  - rewrite (incr_next base k ext) by (rewrite <- Z; apply fin; exact X).
    assert (SH : forall i, nth_name base ext (k + 1) i = nth_name base ext k (S i)) by (intros i; unfold nth_name; do 4 f_equal; lia).
    destruct (IH base ext (k + 1)%N) as [(j & J & A & B & C)|A].
    + left. exists (S j). rewrite <- SH. split; [lia|]. split; [exact A|]. split; [|exact C].
      intros [|i] I; [exact X|]. rewrite <- SH. apply B. lia.
    + right. intros [|i] I; [exact X|]. rewrite <- SH. apply A. lia.
  - left. exists 0. split; [lia|]. split; [exact X|]. split; [lia|reflexivity].
Qed.
Lemma app_inv_tail_s : forall c a b : string, a ++ c = b ++ c -> a = b.
Proof.
  intros c a b H. assert (L : String.length a = String.length b).
  { apply (f_equal String.length) in H. rewrite !length_app_s in H. lia. }
  revert b H L. induction a as [|x a IH]; intros [|y b] H L; try discriminate L; [reflexivity|].
  cbn in H. injection H as <- H. injection L as L. f_equal. auto.
Qed.
Lemma nth_name_inj : forall base ext k i j, nth_name base ext k i = nth_name base ext k j -> i = j.
Proof.
  intros base ext k i j H. unfold nth_name in H. apply app_inv_tail_s, app_inv_head_s in H. cbn in H. injection H as H.
  apply str_of_inj in H. lia.
Qed.
Lemma loop_done : forall f base ext k, length l < f ->
  exists j, ex (nth_name base ext k j) = false /\ (forall i, i < j -> ex (nth_name base ext k i) = true) /\
    unique_loop f ex (base ++ "_" ++ str_of k) ext = Some (Ok (nth_name base ext k j)).
Proof.
  intros f base ext k L. destruct (loop_cases f base ext k) as [(j & _ & A)|A]; [eauto|]. exfalso.
  assert (ND : NoDup (map (nth_name base ext k) (seq 0 f))).
  { apply Injective_map_NoDup; [|apply seq_NoDup]. intros i j. apply nth_name_inj. }
  assert (I : incl (map (nth_name base ext k) (seq 0 f)) l).
  { intros p P. apply in_map_iff in P. destruct P as (i & <- & P). apply in_seq in P. apply fin. apply A. lia. }
  apply (NoDup_incl_length ND) in I. rewrite map_length, seq_length in I. lia.
Qed.
Lemma loop_any : forall f name ext, S (length l) < f ->
  exists u, unique_loop f ex name ext = Some (Ok u) /\ ex u = false /\
    (ex (name ++ ext) = false -> u = name ++ ext) /\
    (ex (name ++ ext) = true -> exists base k n, increment_name name = Ok n /\ n = base ++ "_" ++ str_of k /\
       exists j, u = nth_name base ext k j /\ forall i, i < j -> ex (nth_name base ext k i) = true).
Proof.
  intros [|f] name ext L; [lia|]. cbn [unique_loop]. destruct (ex (name ++ ext)) eqn:X.
  - destruct (incr_total name ext) as [n E]; [apply fin; exact X|]. rewrite E. destruct (incr_cases _ _ E) as (base & k & ->).
    destruct (loop_done f base ext k) as (j & A & B & C); [lia|]. exists (nth_name base ext k j).
    split; [exact C|]. split; [exact A|]. split; [discriminate|]. intros _. exists base, k, (base ++ "_" ++ str_of k). eauto 8.
  - exists (name ++ ext). split; [reflexivity|]. split; [exact X|]. split; [auto|discriminate].
Qed.
End Unique.

Lemma substring_split : forall s m, m <= String.length s -> substring 0 m s ++ substring m (String.length s - m) s = s.
Proof.
  induction s as [|c s IH]; intros m L; cbn in L.
  - destruct m; [reflexivity|lia].
  - destruct m as [|m]; cbn.
    + rewrite substring_all by lia. reflexivity.
    + rewrite IH by lia. reflexivity.
Qed.
Lemma rfind_lt : forall c s i, rfind c s = Some i -> i < String.length s.
Proof.
  induction s as [|a s IH]; intros i H; cbn in *; [discriminate|]. destruct (rfind c s).
  - injection H as <-. specialize (IH _ eq_refl). lia.
  - destruct (Ascii.eqb a c); [injection H as <-; lia|discriminate].
Qed.
Lemma splitext_join : forall p, fst (splitext p) ++ snd (splitext p) = p.
Proof.
  intros p. unfold splitext. destruct (rfind dot p) as [d|] eqn:D; [|apply app_nil_s].
  destruct (_ && _); [|apply app_nil_s]. cbn. apply substring_split. apply rfind_lt in D. lia.
Qed.
Lemma rfind_split : forall c s, match rfind c s with
  | Some i => exists a r, s = a ++ String c r /\ String.length a = i /\ lacks c r
  | None => lacks c s end.
Proof.
  intros c. induction s as [|x s IH]; cbn [rfind].
  - intros [|] b H; discriminate.
  - destruct (rfind c s) as [i|].
    + destruct IH as (a & r & -> & <- & L). exists (String x a), r. auto.
    + destruct (Ascii.eqb x c) eqn:E.
      * apply Ascii.eqb_eq in E. subst x. exists "", s. auto.
      * intros [|y a] b H; injection H as -> H; [rewrite Ascii.eqb_refl in E; discriminate|exact (IH a b H)].
Qed.
Lemma app_cases : forall a b x y, a ++ x = b ++ y ->
  (exists z, a = b ++ z /\ y = z ++ x) \/ (exists c z, b = a ++ String c z /\ x = String c z ++ y).
Proof.
  induction a as [|c a IH]; intros [|d b] x y H.
  - left. exists "". auto.
  - right. exists d, b. auto.
  - left. exists (String c a). auto.
  - cbn in H. injection H as -> H. destruct (IH _ _ _ H) as [(z & -> & ->)|(e & z & -> & ->)]; [left; exists z; auto|right; exists e, z; auto].
Qed.
Lemma last_unique : forall c a b x y, a ++ String c x = b ++ String c y -> lacks c x -> lacks c y -> a = b /\ x = y.
Proof.
  intros c a b x y H X Y. destruct (app_cases _ _ _ _ H) as [([|d z] & -> & E)|(d & z & -> & E)].
  - cbn in E. injection E as ->. rewrite app_nil_s. auto.
  - cbn in E. injection E as -> ->. destruct (Y z x eq_refl).
  - cbn in E. injection E as -> ->. destruct (X z y eq_refl).
Qed.
Lemma substring_mid : forall a b c, substring (String.length a) (String.length b) (a ++ b ++ c) = b.
Proof.
  induction a as [|x a IH]; intros b c; [|apply IH]. cbn [String.length append]. induction b as [|y b IHb].
  - destruct c; reflexivity.
  - cbn. f_equal. exact IHb.
Qed.
Lemma only_dots_no : forall s, only_dots s = false -> exists x c y, s = x ++ String c y /\ c <> dot.
Proof.
  induction s as [|a s IH]; cbn; [discriminate|]. intros H. destruct (Ascii.eqb a dot) eqn:E.
  - destruct (IH H) as (x & c & y & -> & N). exists (String a x), c, y. auto.
  - exists "", a, s. split; [reflexivity|]. intros ->. rewrite Ascii.eqb_refl in E. discriminate.
Qed.
Lemma only_dots_yes : forall x c y, only_dots (x ++ String c y) = true -> c = dot.
Proof.
  induction x as [|a x IH]; cbn; intros c y H; apply andb_true_iff in H; destruct H as [H1 H2]; [apply Ascii.eqb_eq; exact H1|eauto].
Qed.
Lemma lacks_app : forall c a b, lacks c (a ++ b) -> lacks c a /\ lacks c b.
Proof.
  intros c a b L. split; intros x y ->; [apply (L x (y ++ b))|apply (L (a ++ x) y)]; rewrite ?app_assoc_s; reflexivity.
Qed.
Lemma lacks_cons : forall c x s, lacks c (String x s) -> x <> c /\ lacks c s.
Proof. intros c x s L. split; [intros ->; exact (L "" s eq_refl)|]. intros a b ->. exact (L (String x a) b eq_refl). Qed.
Lemma splitext_is : forall p, name_and_extension p (fst (splitext p)) (snd (splitext p)).
Proof.
  intros p. unfold splitext. pose proof (rfind_split dot p) as D. destruct (rfind dot p) as [d|].
  2: { right. split; [reflexivity|]. split; [reflexivity|]. intros n e (a & c & b & r & -> & -> & -> & _). exact (D _ _ eq_refl). }
  destruct D as (A & R & P & <- & LR).
  assert (U : forall n e, extension p n e -> n = A /\ e = String dot R).
  { intros n e (a & c & b & r & N & -> & E & _ & _ & _ & _ & L). rewrite P in E.
    destruct (last_unique _ _ _ _ _ E LR L) as [-> ->]. auto. }
  set (start := match rfind slash p with Some i => S i | None => 0 end).
  assert (ST : (exists B M, A = B ++ M /\ String.length B = start /\ lacks slash (M ++ String dot R) /\
                 (B = "" \/ exists B', B = B' ++ String slash "")) \/
               String.length A < start /\ ~ lacks slash R).
  { subst start. pose proof (rfind_split slash p) as SL. destruct (rfind slash p) as [i|].
    - destruct SL as (B & T & Q & <- & LT). rewrite P in Q.
      destruct (app_cases _ _ _ _ Q) as [([|y z] & -> & E)|(y & z & -> & E)].
      + discriminate E.
      + cbn in E. injection E as <- ->. left. exists (B ++ String slash ""), z.
        split; [rewrite app_assoc_s; reflexivity|]. split; [rewrite length_app_s; cbn; lia|]. split; [exact LT|eauto].
      + cbn in E. injection E as -> ->. right. split; [rewrite length_app_s; cbn; lia|]. intros L. exact (L z T eq_refl).
    - left. exists "", A. split; [reflexivity|]. split; [reflexivity|]. split; [rewrite <- P; exact SL|auto]. }
  destruct ST as [(B & M & -> & <- & LM & BB)|(L & NR)].
  - assert (S1 : substring (String.length B) (String.length (B ++ M) - String.length B) p = M).
    { rewrite P, app_assoc_s, length_app_s, Nat.add_comm, Nat.add_sub. apply substring_mid. }
    rewrite S1. replace (Nat.leb (String.length B) (String.length (B ++ M))) with true by (symmetry; apply Nat.leb_le; rewrite length_app_s; lia).
    destruct (lacks_app _ _ _ LM) as [LM1 LM2]. apply lacks_cons in LM2. destruct LM2 as [_ LM2].
    cbn [andb]. destruct (only_dots M) eqn:O; cbn [negb fst snd].
    + right. split; [reflexivity|]. split; [reflexivity|]. intros n e X. destruct (U _ _ X) as [-> ->].
      destruct X as (a & c & b & r & N & _ & _ & C1 & C2 & L1 & _). 
      destruct (app_cases _ _ _ _ N) as [([|y z] & E1 & E2)|(y & z & E1 & E2)].
      * cbn in E2. subst M. apply only_dots_yes with (x := "") in O. contradiction.
      * cbn in E2. injection E2 as -> ->. destruct BB as [-> |(B' & ->)]; [destruct a; discriminate|].
        clear -E1 L1 C2. destruct (app_cases _ _ _ _ E1) as [([|u v] & -> & F)|(u & v & -> & F)].
        -- cbn in F. injection F as F _. contradiction.
        -- cbn in F. injection F as _ F. subst z. apply (L1 v M). rewrite app_assoc_s. reflexivity.
        -- cbn in F. injection F as _ F. destruct v; discriminate.
      * rewrite E2 in O. apply only_dots_yes with (x := String y z) in O. contradiction.
    + left. destruct (only_dots_no _ O) as (x & c & y & -> & C).
      assert (S2 : substring 0 (String.length (B ++ x ++ String c y)) p = B ++ x ++ String c y).
      { rewrite P. apply (substring_mid "" (B ++ x ++ String c y)). }
      assert (S3 : substring (String.length (B ++ x ++ String c y)) (String.length p - String.length (B ++ x ++ String c y)) p = String dot R).
      { rewrite P. remember (B ++ x ++ String c y) as Q. rewrite length_app_s.
        replace (String.length Q + String.length (String dot R) - String.length Q) with (String.length (String dot R)) by lia.
        transitivity (substring (String.length Q) (String.length (String dot R)) (Q ++ String dot R ++ "")); [rewrite app_nil_s; reflexivity|apply substring_mid]. }
      rewrite S2, S3. exists (B ++ x), c, y, R. apply lacks_app in LM1. destruct LM1 as [_ LM1]. apply lacks_cons in LM1. destruct LM1 as [C2 LY].
      repeat split; auto. rewrite app_assoc_s. reflexivity.
  - replace (Nat.leb start (String.length A)) with false by (symmetry; apply Nat.leb_gt; exact L). cbn [andb].
    right. split; [reflexivity|]. split; [reflexivity|]. intros n e X. destruct (U _ _ X) as [-> ->].
    destruct X as (a & c & b & r & _ & [= <-] & _ & _ & _ & _ & L2 & _). contradiction.
Qed.
Lemma rfind_app : forall c a b i, rfind c b = Some i -> rfind c (a ++ b) = Some (String.length a + i).
Proof. induction a; cbn; intros b i H; [exact H|]. rewrite (IHa _ _ H). reflexivity. Qed.
Lemma rfind_slash : forall a r, exists i, rfind slash (a ++ "/" ++ r) = Some (String.length a + i).
Proof.
  intros a r. assert (exists i, rfind slash ("/" ++ r) = Some i) as [i E].
  { cbn. destruct (rfind slash r); eauto. }
  exists i. apply rfind_app. exact E.
Qed.
Lemma splitext_below : forall a r, exists r', fst (splitext (a ++ "/" ++ r)) = a ++ "/" ++ r'.
Proof.
  intros a r. unfold splitext. destruct (rfind dot (a ++ "/" ++ r)) as [d|] eqn:D; [|exists r; reflexivity].
  destruct (rfind_slash a r) as [i E]. rewrite E.
  destruct (Nat.leb _ d) eqn:L; [|exists r; reflexivity]. apply Nat.leb_le in L. cbn [andb].
  destruct (negb _); [|exists r; reflexivity]. cbn [fst].
  replace (a ++ "/" ++ r) with ((a ++ "/") ++ r) by (rewrite app_assoc_s; reflexivity).
  rewrite substring_app by (rewrite length_app_s; cbn; lia). eexists. rewrite app_assoc_s. reflexivity.
Qed.
Lemma loop_below : forall f ex a r ext u, unique_loop f ex (a ++ "/" ++ r) ext = Some (Ok u) ->
  u = (a ++ "/" ++ r) ++ ext \/ exists r', r' <> "" /\ u = a ++ "/" ++ r'.
Proof.
  induction f as [|f IH]; intros ex a r ext u H; cbn [unique_loop] in H; [discriminate|].
  destruct (ex ((a ++ "/" ++ r) ++ ext)); [|injection H as <-; auto].
  destruct (increment_name (a ++ "/" ++ r)) as [n|e|] eqn:I; try discriminate.
  apply incr_below in I. destruct I as (r' & N & ->). right. apply IH in H. destruct H as [->|H]; [|exact H].
  exists (r' ++ ext). split; [destruct r'; [congruence|discriminate]|]. rewrite !app_assoc_s. reflexivity.
Qed.
Lemma unique_below : forall f ex d p u, below d p -> make_filepath_unique f ex p = Some (Ok u) -> below d u.
Proof.
  intros f ex d p u (r & N & ->) H. unfold make_filepath_unique in H.
  assert (J := splitext_join (d ++ "/" ++ r)). destruct (splitext_below d r) as [r' E].
  destruct (splitext (d ++ "/" ++ r)) as [name ext]. cbn in J, E. subst name. apply loop_below in H. destruct H as [->|H]; [|exact H].
  exists r. auto.
Qed.
