(** Proofs about field types and the nodes with message fields (C91, C92). *)
From Coq Require Import DecimalString String ZArith NArith Bool Ascii Lia List.
From Coq Require Import Floats.SpecFloat.
From Verif Require Import SpecFiles ProofsFiles Base ModelData ModelEdit ModelFiles SpecData ProofsData SpecEdit ProofsEditLast ModelFields SpecFields.
Import ListNotations.
Local Open Scope string_scope.
Local Open Scope bool_scope.

Notation val := ModelData.value.

(** ** Strings *)

Lemma strip_app : forall p r, strip p (p ++ r) = Some r.
Proof. induction p as [|c p IH]; intros r; cbn; [reflexivity|]. now rewrite Ascii.eqb_refl. Qed.
Lemma strip_some : forall p s r, strip p s = Some r -> s = p ++ r.
Proof.
  induction p as [|c p IH]; cbn; intros s r H; [congruence|]. destruct s as [|b s]; [discriminate|].
  destruct (Ascii.eqb_spec c b) as [->|]; [|discriminate]. f_equal. auto.
Qed.
Lemma strip_none : forall p s, ~ starts p s -> strip p s = None.
Proof. intros p s H. destruct (strip p s) as [r|] eqn:Q; [|reflexivity]. exfalso. apply H. exists r. now apply strip_some. Qed.

Definition cc (c : ascii) : Prop := in_class c = true.
Lemma every_app : forall P a b, every P (a ++ b) <-> every P a /\ every P b.
Proof. induction a as [|c a IH]; intros b; cbn; [tauto|]. rewrite IH. tauto. Qed.
Lemma every_imp : forall (P Q : ascii -> Prop) s, (forall c, P c -> Q c) -> every P s -> every Q s.
Proof. intros P Q s H. induction s; cbn; [auto|]. intros [A B]. auto. Qed.

Lemma span_class_app : forall d t, every cc d -> match t with String c _ => in_class c = false | "" => True end ->
  span_class (d ++ t) = (d, t).
Proof.
  induction d as [|c d IH]; intros t D T; cbn.
  - destruct t as [|c t]; cbn; [reflexivity|]. now rewrite T.
  - cbn in D. destruct D as [D1 D2]. rewrite D1, (IH t D2 T). reflexivity.
Qed.

Lemma digit_class : forall c, 48 <= nat_of_ascii c <= 57 -> cc c.
Proof. intros c H. apply is_digit_spec in H. unfold cc, in_class, is_word. now rewrite H. Qed.
Lemma digits_class : forall s, digits s -> every cc s.
Proof. induction s; cbn; [auto|]. intros [A B]. split; [now apply digit_class|auto]. Qed.
Lemma str_of_digits : forall n, digits (str_of n) /\ str_of n <> "".
Proof. intros n. destruct (str_of_decimal n) as [A [_ [B _]]]. auto. Qed.
Lemma int_of_str : forall n, int_of (str_of n) = n.
Proof. intros n. destruct (str_of_decimal n) as [A [B _]]. now rewrite (int_of_value _ A). Qed.
Lemma bound_str : forall n, bound_of (Some (str_of n)) = Z.of_N n.
Proof. intros n. unfold bound_of. now rewrite int_of_str. Qed.

Lemma number_then_str : forall n e r, match e with String c _ => is_digit c = false | "" => False end ->
  number_then e (str_of n ++ e ++ r) = Some (str_of n).
Proof.
  intros n e r E. destruct (str_of_digits n) as [D N]. unfold number_then. rewrite span_digits_app; [|exact D|destruct e; [destruct E|exact E]].
  destruct (str_of n) eqn:Q; [congruence|]. now rewrite strip_app.
Qed.

Lemma nodup_app : forall A (a b : list A), NoDup a -> NoDup b -> (forall x, In x a -> In x b -> False) -> NoDup (a ++ b)%list.
Proof.
  intros A a b N M D. induction a as [|x a IH]; [exact M|]. inversion N as [|? ? N1 N2]; subst. cbn. constructor.
  - intros I. apply in_app_or in I. destruct I as [I|I]; [contradiction|]. exact (D x (or_introl eq_refl) I).
  - apply IH; [exact N2|]. intros y I J. exact (D y (or_intror I) J).
Qed.

(** ** The three expressions *)

Lemma seq_tail_end : seq_tail ">" = Some None.
Proof. reflexivity. Qed.
Lemma seq_tail_bound : forall n, seq_tail (", " ++ str_of n ++ ">") = Some (Some (str_of n)).
Proof.
  intros n. unfold seq_tail. rewrite strip_app. pose proof (number_then_str n ">" "" eq_refl) as H. cbn [append] in H.
  change (">" ++ "") with ">" in H. now rewrite H.
Qed.
Lemma seq_body_end : forall s, every cc s -> s <> "" -> seq_body (s ++ ">") = Some (s, None).
Proof.
  induction s as [|c s IH]; intros H N; [congruence|]. cbn in H. destruct H as [A B]. cbn [append seq_body]. rewrite A.
  destruct s as [|d s]; [reflexivity|]. rewrite (IH B) by discriminate. reflexivity.
Qed.
Lemma seq_body_bound : forall n s, every cc s -> s <> "" -> seq_body (s ++ ", " ++ str_of n ++ ">") = Some (s, Some (str_of n)).
Proof.
  intros n. induction s as [|c s IH]; intros H N; [congruence|]. cbn in H. destruct H as [A B]. cbn [append seq_body].
  rewrite A. destruct s as [|d s].
  - change ("" ++ ", " ++ str_of n ++ ">") with (", " ++ str_of n ++ ">").
    replace (seq_body (", " ++ str_of n ++ ">")) with (@None (string * option string)) by reflexivity.
    pose proof (seq_tail_bound n) as Q. cbn [append] in Q |- *. rewrite Q. reflexivity.
  - assert (E : String d s <> "") by discriminate. specialize (IH B E). cbn [append] in IH |- *. rewrite IH. reflexivity.
Qed.

Lemma array_none : forall s t, every cc s -> match t with String c _ => in_class c = false /\ c <> "["%char | "" => True end ->
  match_array (s ++ t) = None.
Proof.
  intros s t H T. unfold match_array. rewrite span_class_app; [|exact H|destruct t; tauto].
  destruct t as [|c t]; [reflexivity|]. destruct T as [_ T]. unfold strip. destruct (Ascii.eqb_spec "["%char c); [congruence|reflexivity].
Qed.
Lemma array_some : forall s n, every cc s -> match_array (s ++ "[" ++ str_of n ++ "]") = Some (s, str_of n).
Proof.
  intros s n H. unfold match_array. rewrite span_class_app; [|exact H|reflexivity]. rewrite strip_app.
  pose proof (number_then_str n "]" "" eq_refl) as Q. change ("]" ++ "") with "]" in Q. now rewrite Q.
Qed.

Lemma strip_app_none : forall p s t, strip p s = None -> String.length p <= String.length s -> strip p (s ++ t) = None.
Proof.
  induction p as [|c p IH]; intros s t H L; [discriminate H|]. destruct s as [|d s]; [cbn in L; lia|]. cbn in H, L |- *.
  destruct (Ascii.eqb c d); [|reflexivity]. apply IH; [exact H|lia].
Qed.

(** ** The text of a type *)

Section T.
  Variable cls : string -> option string.

  Lemma angles_class : forall b, every cc (in_angles b).
  Proof.
    intros [n|]; cbn -[str_of]; [|exact I]. split; [reflexivity|]. apply every_app. split; [apply digits_class, str_of_digits|].
    cbn. repeat split; reflexivity.
  Qed.
  Lemma name_class : forall n, message_name n -> every cc n.
  Proof.
    intros n [H _]. revert H. apply every_imp. intros c [H| ->]; [|reflexivity]. unfold cc, in_class. now rewrite H.
  Qed.
  Lemma text1_class : forall f, no_string_name f -> every cc (text1 f).
  Proof.
    intros f N. destruct f as [| |[] []| | |[] b|n|e b|e n]; cbn [text1]; try (cbn; repeat split; reflexivity).
    - apply every_app. split; [cbn; repeat split; reflexivity|apply angles_class].
    - apply every_app. split; [cbn; repeat split; reflexivity|apply angles_class].
    - apply name_class. apply (N n). cbn. auto.
  Qed.
  Lemma name_nonempty : forall n, message_name n -> n <> "".
  Proof. intros n [_ [a [b ->]]]. destruct a; discriminate. Qed.
  Lemma text1_nonempty : forall f, single f -> no_string_name f -> text1 f <> "".
  Proof.
    intros f S N. destruct f as [| |[] []| | |[] b|n|e b|e n]; cbn [text1 append]; try discriminate; try destruct S.
    apply name_nonempty. apply (N n). cbn. auto.
  Qed.

  (** No type but a sequence begins like one. *)
  Definition nc (c : ascii) : Prop := is_word c = true \/ c = "/"%char.
  Lemma nc_not : forall c, nc c -> c <> "<"%char /\ c <> "["%char.
  Proof. intros c [H|H]; split; intros ->; discriminate H. Qed.
  Lemma no_angle : forall p s t r, every nc p -> every nc s -> t = "" \/ starts "[" t -> s ++ t = p ++ "<" ++ r -> False.
  Proof.
    induction p as [|c p IH]; intros s t r P N T E.
    - destruct s as [|d s]; cbn in E.
      + destruct T as [->|[u ->]]; discriminate E.
      + cbn in N. destruct N as [N _]. apply nc_not in N. injection E as E1 _. destruct N. contradiction.
    - cbn in P. destruct P as [P1 P2]. destruct s as [|d s]; cbn in E.
      + destruct T as [->|[u ->]]; [discriminate E|]. cbn in E. injection E as E1 _. apply nc_not in P1. destruct P1. congruence.
      + injection E as _ E. cbn in N. destruct N as [_ N]. exact (IH s t r P2 N T E).
  Qed.
  Lemma not_sequence : forall s t, every nc s -> t = "" \/ starts "[" t -> match_sequence (s ++ t) = None.
  Proof.
    intros s t N T. unfold match_sequence. destruct (strip "sequence<" (s ++ t)) as [r|] eqn:Q; [|reflexivity]. exfalso.
    apply strip_some in Q. refine (no_angle "sequence" s t r _ N T Q). cbn. unfold nc. cbn. tauto.
  Qed.
  Lemma text1_not_sequence : forall f t, no_string_name f -> t = "" \/ starts "[" t -> single f ->
    match_sequence (text1 f ++ t) = None.
  Proof.
    intros f t N T S. destruct f as [| |[] []| | |[] b|n|e b|e n]; cbn [text1]; try destruct S;
      try (apply not_sequence; [cbn; unfold nc; cbn; tauto|exact T]); try reflexivity.
    apply not_sequence; [|exact T]. exact (proj1 (proj1 (N n (or_introl eq_refl)))).
  Qed.

  (** ** Single types *)

  Lemma strip_self : forall p, strip p p = Some "".
  Proof. intros p. rewrite <- (app_nil_s p) at 2. apply strip_app. Qed.
  Lemma angles_group : forall b, match strip "<" (in_angles b) with Some r' => number_then ">" r' | None => None end =
    option_map str_of b.
  Proof.
    intros [n|]; [|reflexivity]. unfold in_angles. rewrite strip_app. pose proof (number_then_str n ">" "" eq_refl) as H.
    change (">" ++ "") with ">" in H. exact H.
  Qed.
  Lemma bound_opt : forall b, bound_of (option_map str_of b) = up_to b.
  Proof. intros [n|]; [apply bound_str|reflexivity]. Qed.
  Lemma contains_app : forall p a b, contains p (a ++ p ++ b) = true.
  Proof.
    intros p. induction a as [|c a IH]; intros b.
    - cbn [append]. destruct (p ++ b) as [|c r] eqn:Q; cbn [contains]; rewrite <- Q at 1; now rewrite strip_app.
    - cbn [append contains]. destruct (strip p (String c (a ++ p ++ b))); [reflexivity|apply IH].
  Qed.
  Lemma base_holds : forall f t, no_string_name f -> holds1 cls f t -> base_type cls (text1 f) = Ok t.
  Proof.
    intros f t N H. destruct H as [| |s w| | |w b|n c Hc].
    - reflexivity.
    - reflexivity.
    - destruct s, w; reflexivity.
    - reflexivity.
    - reflexivity.
    - unfold base_type, match_string. destruct w; cbn [text1].
      + rewrite strip_app, angles_group, bound_opt. reflexivity.
      + replace (strip "wstring" ("string" ++ in_angles b)) with (@None string) by reflexivity.
        rewrite strip_app, angles_group, bound_opt. reflexivity.
    - unfold base_type, match_string. cbn [text1]. destruct (N n (or_introl eq_refl)) as [[_ [a [b ->]]] [N1 N2]].
      rewrite (strip_none _ _ N1), (strip_none _ _ N2), contains_app, Hc. reflexivity.
  Qed.
  Lemma holds1_single : forall f t, holds1 cls f t -> single f.
  Proof. intros f t H. destruct H; exact I. Qed.

  Lemma field_one : forall k f t, no_string_name f -> holds1 cls f t -> field_type cls (S k) (text1 f) = Ok t.
  Proof.
    intros k f t N H. cbn [field_type]. pose proof (array_none (text1 f) "" (text1_class f N) I) as A.
    pose proof (text1_not_sequence f "" N (or_introl eq_refl) (holds1_single _ _ H)) as B.
    rewrite app_nil_s in A, B. rewrite A, B. now apply base_holds.
  Qed.
  Lemma no_string_elt : forall e, (forall b, no_string_name (FSeq e b) -> single e -> no_string_name e) /\
    (forall n, no_string_name (FArr e n) -> single e -> no_string_name e).
  Proof.
    intros e. split; intros b N S n Hn; destruct e; cbn in Hn; try destruct Hn; try destruct S; subst;
      try contradiction; apply N; cbn; auto.
  Qed.
  Lemma text_holds : forall f t, no_string_name f -> holds cls f t -> field_type cls (S (String.length (text f))) (text f) = Ok t.
  Proof.
    intros f t N H. destruct H as [f t H|e b t H|e n t H].
    - assert (E : text f = text1 f) by (destruct H; reflexivity). rewrite E. now apply field_one.
    - pose proof (holds1_single _ _ H) as Sg. pose proof (proj1 (no_string_elt e) b N Sg) as Ne.
      pose proof (text1_class e Ne) as C. pose proof (text1_nonempty e Sg Ne) as C'.
      destruct b as [n|]; cbn [text].
      + cbn [field_type]. rewrite <- app_assoc_s. rewrite array_none.
        2:{ apply every_app. split; [cbn; repeat split; reflexivity|exact C]. }
        2:{ cbn. split; [reflexivity|discriminate]. }
        unfold match_sequence. rewrite app_assoc_s, strip_app, seq_body_bound by assumption.
        change (String.length ("sequence<" ++ text1 e ++ ", " ++ str_of n ++ ">")) with (S (String.length ("equence<" ++ text1 e ++ ", " ++ str_of n ++ ">"))).
        rewrite (field_one _ e t Ne H), bound_str. reflexivity.
      + cbn [field_type]. assert (A : match_array ("sequence<" ++ text1 e ++ ">") = None).
        { pose proof (array_none ("sequence<" ++ text1 e ++ ">") "") as A. rewrite app_nil_s in A. apply A; [|exact I].
          apply every_app. split; [cbn; repeat split; reflexivity|]. apply every_app. split; [exact C|cbn; repeat split; reflexivity]. }
        rewrite A. unfold match_sequence. rewrite strip_app, seq_body_end by assumption.
        change (String.length ("sequence<" ++ text1 e ++ ">")) with (S (String.length ("equence<" ++ text1 e ++ ">"))).
        rewrite (field_one _ e t Ne H). reflexivity.
    - pose proof (holds1_single _ _ H) as Sg. pose proof (proj2 (no_string_elt e) n N Sg) as Ne.
      pose proof (text1_class e Ne) as C. pose proof (text1_nonempty e Sg Ne) as C'. cbn [text field_type].
      rewrite array_some by exact C. destruct (text1 e) as [|c r] eqn:Q; [congruence|]. cbn [append String.length].
      rewrite <- Q, (field_one _ e t Ne H), bound_str. reflexivity.
  Qed.

  Lemma holds1_params : forall f t, holds1 cls f t -> params_ok t = true /\ is_type_container t = false /\ forall l, t <> TGeneric l.
  Proof. intros f t H. destruct H as [| |s w| | |w b|n c Hc]; repeat split; try reflexivity; try discriminate. destruct s, w; reflexivity. Qed.
  Lemma holds_params : forall f t, holds cls f t -> params_ok t = true /\ is_type_container t = false /\ forall l, t <> TGeneric l.
  Proof. intros f t H. destruct H; [eapply holds1_params; eassumption| |]; repeat split; try reflexivity; discriminate. Qed.
  Lemma construct_plain : forall t, params_ok t = true -> is_type_container t = false -> exists c, construct t true true None None = Some c /\
    c_ty c = t /\ c_dyn c = true /\ c_sta c = true /\ c_static c = true /\ c_upd c = false.
  Proof. intros t P Q. unfold construct. rewrite P, Q. cbn. eexists. split; [reflexivity|]. cbn. auto 10. Qed.
  Lemma io_type : forall f t, no_string_name f -> holds cls f t -> exists c, get_message_field_io_type cls (text f) = Ok c /\
    c_ty c = t /\ c_dyn c = true /\ c_sta c = true /\ c_static c = true /\ c_upd c = false.
  Proof.
    intros f t N H. pose proof (text_holds f t N H) as E. destruct (holds_params f t H) as [P [Q _]].
    destruct (construct_plain t P Q) as [c [C R]]. exists c. unfold get_message_field_io_type. rewrite E, C. auto.
  Qed.
  Lemma io_string : forall n, message_name n -> starts "string" n \/ starts "wstring" n ->
    exists c b, get_message_field_io_type cls n = Ok c /\ c_ty c = TStr b None.
  Proof.
    intros n M S. pose proof (name_class n M) as C. pose proof (array_none n "" C I) as A.
    pose proof (not_sequence n "" (proj1 M) (or_introl eq_refl)) as B. rewrite app_nil_s in A, B.
    assert (E : exists d, match_string n = Some d).
    { unfold match_string. destruct S as [[r ->]|[r ->]].
      - replace (strip "wstring" ("string" ++ r)) with (@None string) by reflexivity. rewrite strip_app. eauto.
      - rewrite strip_app. eauto. }
    destruct E as [d E]. destruct (construct_plain (TStr (bound_of d) None) eq_refl eq_refl) as [c [K [T _]]].
    exists c, (bound_of d). split; [|exact T]. unfold get_message_field_io_type. cbn [field_type]. rewrite A, B. unfold base_type.
    rewrite E, K. reflexivity.
  Qed.

  (** ** Values *)

  Variable round : spec_float -> spec_float.

  Lemma zlen_octet : forall c, zlen (String c "") = 1%Z.
  Proof. reflexivity. Qed.

  Lemma wider_limit : forall p q e x, (p <= q)%positive ->
    SFltb x (S754_finite true p e) = false /\ SFltb (S754_finite false p e) x = false ->
    SFltb x (S754_finite true q e) = false /\ SFltb (S754_finite false q e) x = false.
  Proof.
    intros p q e x L [A B]. unfold SFltb in *. destruct x as [s|s| |s m e']; [destruct s; auto|destruct s; auto|auto|].
    unfold SFcompare in *. destruct s; (split; [|try reflexivity]); try reflexivity.
    - destruct (e' ?= e)%Z; auto. change (Pos.compare_cont Eq m p) with (Pos.compare m p) in A.
      change (Pos.compare_cont Eq m q) with (Pos.compare m q).
      destruct (Pos.compare_spec m p), (Pos.compare_spec m q); cbn in *; auto; try discriminate; exfalso; lia.
    - destruct (e ?= e')%Z; auto. change (Pos.compare_cont Eq p m) with (Pos.compare p m) in B.
      change (Pos.compare_cont Eq q m) with (Pos.compare q m).
      destruct (Pos.compare_spec p m), (Pos.compare_spec q m); cbn in *; auto; try discriminate; exfalso; lia.
  Qed.
  Lemma setter_single : forall x, in_setter x -> SFltb x FLT_LIMIT_NEG = false /\ SFltb FLT_LIMIT x = false.
  Proof. intros x H. refine (wider_limit _ _ _ x _ H). apply Pos.leb_le. reflexivity. Qed.
  Lemma takes1_check : forall f t v, holds1 cls f t -> takes1 cls f v -> no_inf1 v -> check t v = Ok v.
  Proof.
    intros f t v H K F.
    destruct H as [| |s w| | |w b|n c Hc];
      inversion K as [|c0|s0 w0 z Hz|s0 w0 b0|x X0|b0|x X1 X2|b0|w0 b0 x Hx|n0 c0 p Hp]; subst; cbn [check].
    - reflexivity.
    - reflexivity.
    - destruct (Z.ltb_spec z (lowest s w)); [lia|]. destruct (Z.ltb_spec (highest s w) z); [lia|]. reflexivity.
    - destruct b0, s, w; reflexivity.
    - destruct (setter_single x X0) as [-> ->]. reflexivity.
    - exfalso. exact (F b0 eq_refl).
    - rewrite X1, X2. reflexivity.
    - exfalso. exact (F b0 eq_refl).
    - unfold str_check, zlen. apply Z.leb_le in Hx. rewrite Hx. reflexivity.
    - rewrite Hc in Hp. injection Hp as <-. now rewrite String.eqb_refl.
  Qed.
  Lemma stored_check : forall f t v, stays_single round -> holds1 cls f t -> takes1 cls f v -> no_inf1 v -> is_number f ->
    check t (stored round f v) = Ok (stored round f v).
  Proof.
    intros f t v R H K F N.
    destruct K as [|c0|s0 w0 z Hz|s0 w0 b0|x X1|b0|x X1 X2|b0|w0 b0 x Hx|n0 c0 p Hp]; try destruct N; cbn [stored].
    - apply (takes1_check (FInt s0 w0)); [exact H|now constructor|discriminate].
    - apply (takes1_check (FInt s0 w0)); [exact H| |discriminate]. constructor. destruct b0, s0, w0; cbn; lia.
    - inversion H; subst. cbn [check]. destruct (R x X1) as [-> ->]. reflexivity.
    - exfalso. exact (F b0 eq_refl).
    - apply (takes1_check FDouble); [exact H|now constructor|exact F].
    - exfalso. exact (F b0 eq_refl).
  Qed.
  Lemma list_check : forall t s ml st l, (forall x, In x l -> check t x = Ok x) -> len_check (Z.of_nat (length l)) ml st = true ->
    check (TList t s ml st) (VList l) = Ok (VList l).
  Proof.
    intros t s ml st l H L. cbn [check].
    match goal with |- match ?go l with _ => _ end = _ => assert (E : go l = Ok tt) end.
    { clear L. induction l as [|x l IH]; [reflexivity|]. rewrite (H x (or_introl eq_refl)). apply IH. intros y Hy. apply H. now right. }
    rewrite E, L. reflexivity.
  Qed.
  Lemma len_upto : forall n m, (n <= m)%Z -> len_check n m false = true.
  Proof. intros n m H. unfold len_check. apply Z.leb_le in H. rewrite H. reflexivity. Qed.
  Lemma len_exact : forall n m, n = m -> len_check n m true = true.
  Proof. intros n m ->. unfold len_check. rewrite Z.leb_refl, Z.ltb_irrefl. reflexivity. Qed.
  Lemma takes_check : forall f t v o, stays_single round -> holds cls f t -> takes cls round f v o -> no_inf v -> ~ is_numpy o ->
    check t (content o) = Ok (content o).
  Proof.
    intros f t v o R H K F N. destruct K as [f v K|e b l K L D|e b l K L D|e n l K L D|e n l K L D]; cbn [content].
    - assert (H1 : holds1 cls f t) by (inversion H; subst; [assumption|inversion K|inversion K]).
      refine (takes1_check f t v H1 K _). destruct K; exact F.
    - inversion H as [? ? X|e' b' t' X|]; subst; [inversion X|]. apply list_check; [|now apply len_upto].
      intros x Hx. refine (takes1_check e t' x X (K x Hx) (F x Hx)).
    - inversion H as [? ? X|e' b' t' X|]; subst; [inversion X|]. apply list_check; [|rewrite map_length; now apply len_upto].
      intros x Hx. apply in_map_iff in Hx. destruct Hx as [y [<- Hy]]. exact (stored_check e t' y R X (K y Hy) (F y Hy) D).
    - inversion H as [? ? X| |e' b' t' X]; subst; [inversion X|]. apply list_check; [|apply len_exact; now rewrite nat_N_Z].
      intros x Hx. refine (takes1_check e t' x X (K x Hx) (F x Hx)).
    - exfalso. apply N. eexists. reflexivity.
  Qed.

  Lemma py_set_takes : forall c o, ~ is_numpy o -> py_set c o = set_value c (content o).
  Proof. intros c [v|l|l] N; [reflexivity|reflexivity|]. exfalso. apply N. eexists. reflexivity. Qed.
  Lemma set_ok : forall c v, (forall l, c_ty c <> TGeneric l) -> check (c_ty c) v = Ok v -> ~ locked c ->
    exists c', set_value c v = (c', Ok tt) /\ c_ty c' = c_ty c /\ c_static c' = c_static c /\ c_upd c' = changed (c_val c) v /\
               exists x, c_val c' = Some x /\ equal_to x v.
  Proof.
    intros c v G K L. destruct (set_value_cases c v) as [[e H1]|[H1|[[v' [_ [E _]]]|[v' [Hc [_ H1]]]]]].
    - exfalso. unfold set_value in H1. rewrite K in H1. unfold base_set in H1. destruct (c_static c && c_upd c) eqn:E.
      + apply L. apply andb_prop in E. exact E.
      + destruct (c_ty c); discriminate H1.
    - exfalso. unfold set_value in H1. rewrite K in H1. unfold base_set in H1. destruct (c_static c && c_upd c) eqn:E; destruct (c_ty c); discriminate H1.
    - exfalso. apply L. apply andb_prop in E. exact E.
    - rewrite K in Hc. injection Hc as <-. eexists. split; [exact H1|]. cbn. split; [reflexivity|]. split; [reflexivity|].
      split; [reflexivity|]. unfold changed. destruct (c_val c) as [x|]; cbn.
      + destruct (py_eq x v) eqn:Q; cbn; eexists; (split; [reflexivity|]); [now right|now left].
      + eexists. split; [reflexivity|now left].
  Qed.
  Lemma set_taken : forall f t v o c, stays_single round -> holds cls f t -> takes cls round f v o -> no_inf v -> ~ is_numpy o ->
    c_ty c = t -> ~ locked c ->
    exists c', py_set c o = (c', Ok tt) /\ c_ty c' = t /\ c_static c' = c_static c /\ exists x, c_val c' = Some x /\ equal_to x (content o).
  Proof.
    intros f t v o c R H K F N T L. subst t. rewrite (py_set_takes c o N).
    destruct (set_ok c (content o) (proj2 (proj2 (holds_params f _ H))) (takes_check f _ v o R H K F N) L) as [c' [A [B [C [_ D]]]]].
    exists c'. auto.
  Qed.
  Lemma set_numpy : forall f v l c, holds cls f (c_ty c) -> takes cls round f v (PNumpy l) -> py_set c (PNumpy l) = (c, Raise).
  Proof.
    intros f v l c H K. inversion K; subst. inversion H as [? ? X| |]; subst; [inversion X|]. cbn [py_set].
    destruct (c_ty c); try discriminate. reflexivity.
  Qed.

  (** The other way: what a container holds, a message takes. *)
  Lemma check1_takes : forall f t v w, holds1 cls f t -> check t v = Ok w -> fits1 f w -> takes1 cls f w.
  Proof.
    intros f t v w H K F. destruct H as [| |s wd| | |wd b|n c Hc]; cbn [check] in K.
    - destruct v; try discriminate K. injection K as <-. constructor.
    - destruct v as [| | | |s| | | |]; try discriminate K. destruct (Z.leb_spec (zlen s) 1) as [L|]; [|discriminate K]. injection K as <-.
      unfold zlen in L. destruct s as [|c [|d s]]; [exfalso; now apply F|constructor|cbn in L; lia].
    - destruct v as [b|z| | | | | | |]; try discriminate K.
      + destruct (Z.ltb _ _) in K; [discriminate K|]. destruct (Z.ltb _ _) in K; [discriminate K|]. injection K as <-. constructor.
      + destruct (Z.ltb_spec z (lowest s wd)); [discriminate K|]. destruct (Z.ltb_spec (highest s wd) z); [discriminate K|].
        injection K as <-. constructor. lia.
    - match type of K with match ?e with _ => _ end = _ => destruct e as [x| |]; try discriminate K end.
      destruct (SFltb x FLT_LIMIT_NEG) eqn:A; [discriminate K|]. destruct (SFltb FLT_LIMIT x) eqn:B; [discriminate K|].
      injection K as <-. constructor. exact F.
    - match type of K with match ?e with _ => _ end = _ => destruct e as [x| |]; try discriminate K end.
      destruct (SFltb x DBL_MIN) eqn:A; [discriminate K|]. destruct (SFltb DBL_MAX x) eqn:B; [discriminate K|].
      injection K as <-. now constructor.
    - destruct v as [| | |s| | | | |]; try discriminate K. unfold str_check in K. rewrite andb_true_r in K.
      destruct (Z.leb_spec (zlen s) (up_to b)) as [L|]; [|discriminate K]. injection K as <-. constructor. exact L.
    - destruct v as [| | | | | | |ty p|]; try discriminate K. destruct (String.eqb_spec ty c) as [->|]; [|discriminate K].
      injection K as <-. now constructor.
  Qed.
  Lemma check_elts : forall t s ml st v w, check (TList t s ml st) v = Ok w -> exists l, w = VList l /\
    len_check (Z.of_nat (length l)) ml st = true /\ forall x, In x l -> exists y, check t x = Ok y.
  Proof.
    intros t s ml st v w K. cbn [check] in K. destruct v as [| | | | |l| | |]; try discriminate K.
    match type of K with match ?go l with _ => _ end = _ => set (g := go) in K end.
    destruct (g l) as [[]| |] eqn:G; try discriminate K. destruct (len_check _ _ _) eqn:L; [|discriminate K]. injection K as <-.
    exists l. split; [reflexivity|]. split; [exact L|]. clear L. revert G. induction l as [|x l IH]; intros G; [intros y []|].
    cbn in G. destruct (check t x) as [z| |] eqn:C; try discriminate G. intros y [<-|Hy]; [eauto|]. exact (IH G y Hy).
  Qed.
  Lemma check_idem1 : forall f t x y, holds1 cls f t -> check t x = Ok y -> (f = FFloat \/ f = FDouble -> exists z, x = VFloat z) -> y = x.
  Proof.
    intros f t x y H K F. destruct H as [| |s wd| | |wd b|n c Hc]; cbn [check] in K.
    - destruct x; try discriminate K. now injection K.
    - destruct x; try discriminate K. destruct (_ <=? _)%Z in K; [|discriminate K]. now injection K.
    - destruct x; try discriminate K; destruct (Z.ltb _ _) in K; try discriminate K; destruct (Z.ltb _ _) in K; try discriminate K; now injection K.
    - destruct (F (or_introl eq_refl)) as [z ->]. destruct (SFltb _ _) in K; [discriminate K|]. destruct (SFltb _ _) in K; [discriminate K|]. now injection K.
    - destruct (F (or_intror eq_refl)) as [z ->]. destruct (SFltb _ _) in K; [discriminate K|]. destruct (SFltb _ _) in K; [discriminate K|]. now injection K.
    - destruct x; try discriminate K. destruct (str_check _ _ _) in K; [|discriminate K]. now injection K.
    - destruct x; try discriminate K. destruct (String.eqb _ _) in K; [|discriminate K]. now injection K.
  Qed.
  Lemma number_dec : forall f, is_number f \/ ~ is_number f.
  Proof. destruct f; cbn; auto. Qed.
  Lemma check_takes : forall f t v w, holds cls f t -> check t v = Ok w -> fits f w -> exists o, takes cls round f w o.
  Proof.
    intros f t v w H K F. destruct H as [f t H|e b t H|e n t H].
    - exists (PVal w). constructor. refine (check1_takes f t v w H K _). destruct H; exact F.
    - destruct (check_elts _ _ _ _ _ _ K) as [l [-> [L E]]]. cbn in F.
      assert (A : forall x, In x l -> takes1 cls e x).
      { intros x Hx. destruct (E x Hx) as [y Hy]. destruct (F x Hx) as [F1 F2]. pose proof (check_idem1 e t x y H Hy F2). subst y.
        exact (check1_takes e t x x H Hy F1). }
      assert (B : (Z.of_nat (length l) <= up_to b)%Z) by (unfold len_check in L; apply andb_prop in L; now apply Z.leb_le).
      destruct (number_dec e) as [N|N]; eexists; [apply K_array|apply K_seq]; auto.
    - destruct (check_elts _ _ _ _ _ _ K) as [l [-> [L E]]]. cbn in F.
      assert (A : forall x, In x l -> takes1 cls e x).
      { intros x Hx. destruct (E x Hx) as [y Hy]. destruct (F x Hx) as [F1 F2]. pose proof (check_idem1 e t x y H Hy F2). subst y.
        exact (check1_takes e t x x H Hy F1). }
      assert (B : N.of_nat (length l) = n).
      { unfold len_check in L. apply andb_prop in L. destruct L as [L1 L2]. apply Z.leb_le in L1. apply negb_true_iff in L2. cbn [andb] in L2.
        apply Z.ltb_ge in L2. lia. }
      destruct (number_dec e) as [N|N]; eexists; [apply K_numpy|apply K_fixed]; auto.
  Qed.

  (** ** Inputs and outputs *)

  Definition made (fs : list (string * ftype)) (l : ios) : Prop :=
    Forall2 (fun ft kc => fst kc = fst ft /\ holds cls (snd ft) (c_ty (snd kc)) /\ c_static (snd kc) = true) fs l.
  Lemma made_keys : forall fs l, made fs l -> map fst l = map fst fs.
  Proof. intros fs l H. induction H as [|x y fs l [A _] _ IH]; [reflexivity|]. cbn. now rewrite A, IH. Qed.
  Lemma made_get : forall fs l, made fs l -> NoDup (map fst fs) -> forall f t, In (f, t) fs ->
    exists c, dget f l = Some c /\ holds cls t (c_ty c) /\ c_static c = true.
  Proof.
    intros fs l H. induction H as [|[f1 t1] [k c] fs l [A [B C]] H IH]; intros N f t I; [destruct I|]. cbn in A, B, C, N. subst k.
    inversion N as [|? ? N1 N2]; subst. destruct I as [I|I].
    - injection I as -> ->. exists c. cbn. rewrite String.eqb_refl. auto.
    - cbn. destruct (String.eqb_spec f f1) as [->|]; [|exact (IH N2 f t I)]. exfalso. apply N1. apply in_map_iff. exists (f1, t). auto.
  Qed.
  Definition good (fs : list (string * ftype)) : Prop :=
    NoDup (map fst fs) /\ forall f t, In (f, t) fs -> no_string_name t /\ exists ct, holds cls t ct.
  Lemma dset_fresh : forall A k (v : A) l, dget k l = None -> (dset k v l = l ++ [(k, v)])%list.
  Proof.
    intros A k v l. induction l as [|[k' v'] r IH]; cbn; [reflexivity|]. destruct (String.eqb k k'); [discriminate|].
    intros H. now rewrite IH.
  Qed.
  Lemma dget_app : forall A k (a b : list (string * A)), dget k (a ++ b)%list = match dget k a with Some x => Some x | None => dget k b end.
  Proof. intros A k a b. induction a as [|[k' v'] r IH]; cbn; [reflexivity|]. destruct (String.eqb k k'); [reflexivity|exact IH]. Qed.
  Lemma extra_made : forall fs d, good fs -> (forall f, In f (map fst fs) -> dget f d = None) ->
    exists l, extra cls (map (fun f => (fst f, text (snd f))) fs) d = Ok (d ++ l)%list /\ made fs l.
  Proof.
    induction fs as [|[f t] fs IH]; intros d [N G] D.
    - exists []. cbn. rewrite app_nil_r. split; [reflexivity|constructor].
    - cbn [map extra fst snd]. destruct (G f t (or_introl eq_refl)) as [S [ct H]]. destruct (io_type t ct S H) as [c [E [T [_ [_ [St _]]]]]].
      rewrite E. rewrite (dset_fresh _ f c d (D f (or_introl eq_refl))). cbn in N. inversion N as [|? ? N1 N2]; subst.
      destruct (IH (d ++ [(f, c)])%list) as [l [L M]].
      + split; [exact N2|]. intros g u I. apply (G g u). now right.
      + intros g I. rewrite dget_app, (D g (or_intror I)). cbn. destruct (String.eqb_spec g f) as [->|]; [contradiction|reflexivity].
      + exists ((f, c) :: l). rewrite L, <- app_assoc. split; [reflexivity|]. constructor; [|exact M]. cbn. auto.
  Qed.
  Lemma made_plain : forall fs l, made fs l -> existsb (fun kc => is_type_container (c_ty (snd kc))) l = false.
  Proof.
    intros fs l H. induction H as [|x y fs l [_ [B _]] _ IH]; [reflexivity|]. cbn. rewrite IH.
    destruct (holds_params _ _ B) as [_ [-> _]]. reflexivity.
  Qed.
  Definition forced (l : ios) : ios := map (fun kc => (fst kc, force_output (snd kc))) l.
  Lemma forced_keys : forall l, map fst (forced l) = map fst l.
  Proof. intros l. unfold forced. rewrite map_map. reflexivity. Qed.
  Lemma forced_get : forall l k, dget k (forced l) = option_map force_output (dget k l).
  Proof. induction l as [|[k' c] l IH]; intros k; cbn; [reflexivity|]. destruct (String.eqb k k'); [reflexivity|apply IH]. Qed.

  Lemma opt_nat_refl : forall a, opt_nat_eqb a a = true.
  Proof. destruct a; cbn; [apply Nat.eqb_refl|reflexivity]. Qed.

  Lemma build_ok : forall base is os li lo, made is li -> made os lo -> NoDup (map fst is) -> NoDup (map fst os) ->
    (forall f, In f (map fst is) -> dget f (f_ins base) = None) -> (forall f, In f (map fst os) -> dget f (f_outs base) = None) ->
    exists cfg, build base (Ok li) (Ok lo) = Some cfg /\ f_max cfg = f_max base /\
      (forall k, dget k (f_ins cfg) = match dget k (f_ins base) with Some c => Some c | None => dget k li end) /\
      (forall k, dget k (f_outs cfg) = match dget k (f_outs base) with Some c => Some c | None => dget k (forced lo) end).
  Proof.
    intros base is os li lo Mi Mo Ni No Di Do. unfold build, make_config. rewrite (made_plain os lo Mo). fold (forced lo).
    destruct (extend base _) as [cfg r] eqn:E.
    assert (X : NoDup (map fst (f_ins (mkCfg li (forced lo) (f_max base)))) /\ NoDup (map fst (f_outs (mkCfg li (forced lo) (f_max base))))).
    { cbn. rewrite forced_keys, (made_keys _ _ Mi), (made_keys _ _ Mo). auto. }
    destruct (extend_full _ _ _ _ (proj1 X) (proj2 X) E) as (_ & _ & Mx & Mg & Rr & Er). cbn [f_ins f_outs f_max] in *.
    destruct Rr as [->|[e ->]].
    - exists cfg. split; [reflexivity|]. destruct (Mg eq_refl) as [A B]. split; [exact Mx|]. split; [exact A|exact B].
    - exfalso. destruct (proj1 Er (ex_intro _ e eq_refl)) as [H|[[k [A B]]|[k [A B]]]].
      + now apply H.
      + apply A, Di. rewrite <- (made_keys _ _ Mi). destruct (in_dec string_dec k (map fst li)); [assumption|]. exfalso. apply B. now apply dget_nIn.
      + apply A, Do. rewrite <- (made_keys _ _ Mo), <- forced_keys. destruct (in_dec string_dec k (map fst (forced lo))); [assumption|].
        exfalso. apply B. now apply dget_nIn.
  Qed.
  Lemma build_clash : forall base li lo, NoDup (map fst li) -> NoDup (map fst lo) ->
    (exists k, dget k (f_ins base) <> None /\ In k (map fst li)) \/ (exists k, dget k (f_outs base) <> None /\ In k (map fst lo)) ->
    build base (Ok li) (Ok lo) = None.
  Proof.
    intros base li lo Ni No C. unfold build, make_config. destruct (existsb _ lo); [reflexivity|]. fold (forced lo).
    destruct (extend base _) as [cfg r] eqn:E.
    assert (X : NoDup (map fst (f_ins (mkCfg li (forced lo) (f_max base)))) /\ NoDup (map fst (f_outs (mkCfg li (forced lo) (f_max base))))).
    { cbn. rewrite forced_keys. auto. }
    destruct (extend_full _ _ _ _ (proj1 X) (proj2 X) E) as (_ & _ & _ & _ & Rr & Er). cbn [f_ins f_outs f_max] in *.
    assert (Y : exists e, r = Err e).
    { apply Er. right. destruct C as [[k [A B]]|[k [A B]]]; [left|right]; exists k; (split; [exact A|]); intros Q; apply dget_nIn in Q; apply Q;
        [exact B|now rewrite forced_keys]. }
    destruct Y as [e ->]. reflexivity.
  Qed.

  Lemma class_good : forall m fs, class_of cls round m fs -> (forall f t, In (f, t) fs -> no_string_name t) -> good fs.
  Proof. intros m fs (_ & N & H & _) S. split; [exact N|]. intros f t I. split; [exact (S f t I)|]. exact (proj2 (H f t I)). Qed.

  (** ** Filling a message *)

  Lemma fill_in : forall m ins fs a b, fill m ins fs a = Ok b -> NoDup fs ->
    (forall f, In f fs -> exists v o, has_value_for ins f v /\ mt_set m f v = Some o /\ dget f b = Some o) /\
    (forall f, ~ In f fs -> dget f b = dget f a).
  Proof.
    intros m ins. induction fs as [|f fs IH]; intros a b H N; cbn in H.
    - injection H as ->. split; [intros f []|reflexivity].
    - inversion N as [|? ? N1 N2]; subst. destruct (dget f ins) as [c|] eqn:E; [|discriminate H]. destruct (c_val c) as [v|] eqn:V; [|discriminate H].
      destruct (mt_set m f v) as [o|] eqn:S; [|discriminate H]. destruct (IH _ _ H N2) as [A B]. split.
      + intros g [<-|I]; [|exact (A g I)]. exists v, o. split; [exists c; auto|]. split; [exact S|]. rewrite (B f N1), dget_dset, String.eqb_refl. reflexivity.
      + intros g I. rewrite (B g) by (intros J; apply I; now right). rewrite dget_dset. destruct (String.eqb_spec g f) as [->|]; [|reflexivity].
        exfalso. apply I. now left.
  Qed.
  Lemma fill_total : forall m ins fs a, (forall f, In f fs -> exists v o, has_value_for ins f v /\ mt_set m f v = Some o) ->
    exists b, fill m ins fs a = Ok b.
  Proof.
    intros m ins. induction fs as [|f fs IH]; intros a H; cbn; [eauto|].
    destruct (H f (or_introl eq_refl)) as [v [o [[c [C V]] S]]]. rewrite C, V, S. apply IH. intros g I. apply H. now right.
  Qed.

  (** ** Showing a message *)

  Definition pairs (key : string -> string) (fs : list string) (a : attrs) : option attrs :=
    (fix go (fs : list string) : option attrs :=
             match fs with
             | [] => Some []
             | f :: r => match dget f a with
                         | Some o => match go r with Some l => Some ((key f, o) :: l) | None => None end
                         | None => None
                         end
             end) fs.
  Lemma pairs_some : forall key a fs, (forall f, In f fs -> exists o, dget f a = Some o) ->
    exists l, pairs key fs a = Some l /\ Forall2 (fun f ko => fst ko = key f /\ dget f a = Some (snd ko)) fs l.
  Proof.
    intros key a. induction fs as [|f fs IH]; intros H; [exists []; split; [reflexivity|constructor]|].
    destruct (H f (or_introl eq_refl)) as [o O]. destruct IH as [l [L M]]; [intros g I; apply H; now right|].
    exists ((key f, o) :: l). cbn. rewrite O. fold (pairs key fs a). rewrite L. split; [reflexivity|]. constructor; [|exact M]. auto.
  Qed.

  Variable key : string -> string.
  Hypothesis key_inj : forall a b, key a = key b -> a = b.

  Lemma set_multiple_ok : forall a (R : stays_single round) fs l outs, NoDup (map fst fs) -> outputs_of cls key fs outs ->
    (forall f t, In (f, t) fs -> exists v o, dget f a = Some o /\ takes cls round t v o /\ no_inf v /\ ~ is_numpy o) ->
    Forall2 (fun f ko => fst ko = key f /\ dget f a = Some (snd ko)) (map fst fs) l ->
    exists outs', set_multiple outs l = (outs', Ok tt) /\ outputs_of cls key fs outs' /\ shows key fs a outs' /\
      forall k, ~ In k (map key (map fst fs)) -> dget k outs' = dget k outs.
  Proof.
    intros a R. induction fs as [|[f t] fs IH]; intros l outs N Os Fm Fl; cbn in Fl; inversion Fl as [|f0 [k o] fl l' [K O] Fl']; subst.
    - exists outs. cbn. split; [reflexivity|]. split; [intros f t []|]. split; [intros f t []|reflexivity].
    - cbn in K, O. subst k. cbn in N. inversion N as [|? ? N1 N2]; subst. cbn [set_multiple].
      destruct (Os f t (or_introl eq_refl)) as [c [C [H St]]]. rewrite C.
      destruct (Fm f t (or_introl eq_refl)) as [v [o' [O' [T [F P]]]]]. rewrite O in O'. injection O' as <-.
      destruct (set_taken t (c_ty c) v o c R H T F P eq_refl) as [c' [E [Ty [St' [x [X Q]]]]]].
      { intros [L _]. congruence. }
      rewrite E. destruct (IH l' (dset (key f) c' outs) N2) as [outs' [S [Os' [Sh Fr]]]]; [| |exact Fl'|].
      + intros g u I. destruct (Os g u (or_intror I)) as [d [D1 D2]]. rewrite dget_dset. destruct (String.eqb_spec (key g) (key f)) as [J|].
        * exfalso. apply key_inj in J. subst g. apply N1. apply in_map_iff. exists (f, u). auto.
        * exists d. auto.
      + intros g u I. apply Fm. now right.
      + assert (A : dget (key f) outs' = Some c').
        { rewrite (Fr (key f)); [rewrite dget_dset, String.eqb_refl; reflexivity|]. intros I. apply in_map_iff in I. destruct I as [g [J I]].
          apply key_inj in J. subst g. contradiction. }
        exists outs'. split; [exact S|]. split; [|split].
        * intros g u [I|I]; [|exact (Os' g u I)]. injection I as <- <-. exists c'. rewrite Ty, St'. auto.
        * intros g u [I|I]; [|exact (Sh g u I)]. injection I as <- <-. exists o, x. split; [exact O|]. split; [exists c'; auto|exact Q].
        * intros k K. rewrite (Fr k) by (intros J; apply K; cbn; now right). rewrite dget_dset. destruct (String.eqb_spec k (key f)) as [->|]; [|reflexivity].
          exfalso. apply K. cbn. now left.
  Qed.
  Lemma Forall2_keys : forall fs (l : attrs) a, Forall2 (fun f ko => fst ko = key f /\ dget f a = Some (snd ko)) fs l -> map fst l = map key fs.
  Proof. intros fs l a H. induction H as [|x y fs l [A _] _ IH]; [reflexivity|]. cbn. now rewrite A, IH. Qed.

  Lemma set_fields_ok : forall fs a outs, stays_single round -> NoDup (map fst fs) -> outputs_of cls key fs outs ->
    (forall f t, In (f, t) fs -> exists v o, dget f a = Some o /\ takes cls round t v o /\ no_inf v /\ ~ is_numpy o) ->
    (forall f, In f (map fst fs) -> key f <> "self") ->
    exists outs', set_fields key (map fst fs) a outs = (outs', Ok tt) /\ outputs_of cls key fs outs' /\ shows key fs a outs' /\
      forall k, ~ In k (map key (map fst fs)) -> dget k outs' = dget k outs.
  Proof.
    intros fs a outs R N Os Fm Sf. destruct (pairs_some key a (map fst fs)) as [l [L M]].
    { intros f I. apply in_map_iff in I. destruct I as [[g t] [E I]]. cbn in E. subst g. destruct (Fm f t I) as [_ [o [O _]]]. eauto. }
    unfold set_fields. fold (pairs key (map fst fs) a). rewrite L.
    destruct (existsb (String.eqb "self") (map fst l)) eqn:X.
    - exfalso. apply existsb_exists in X. destruct X as [k [I E]]. apply String.eqb_eq in E. subst k. rewrite (Forall2_keys _ _ _ M) in I.
      apply in_map_iff in I. destruct I as [f [E I]]. exact (Sf f I E).
    - exact (set_multiple_ok a R fs l outs N Os Fm M).
  Qed.
  Lemma set_fields_self : forall fs a outs, (forall f, In f fs -> exists o, dget f a = Some o) -> (exists f, In f fs /\ key f = "self") ->
    set_fields key fs a outs = (outs, Raise).
  Proof.
    intros fs a outs H [f [I K]]. destruct (pairs_some key a fs H) as [l [L M]]. unfold set_fields. fold (pairs key fs a). rewrite L.
    assert (X : existsb (String.eqb "self") (map fst l) = true).
    { apply existsb_exists. exists "self". split; [|reflexivity]. rewrite (Forall2_keys _ _ _ M). apply in_map_iff. eauto. }
    rewrite X. reflexivity.
  Qed.
  (** The first field that has no output. *)
  Lemma set_fields_missing : forall f fs a outs, (forall g, In g (f :: fs) -> exists o, dget g a = Some o) ->
    (forall g, In g (f :: fs) -> key g <> "self") -> dget (key f) outs = None -> set_fields key (f :: fs) a outs = (outs, Err EConfig).
  Proof.
    intros f fs a outs H Sf D. destruct (pairs_some key a (f :: fs) H) as [l [L M]]. unfold set_fields. fold (pairs key (f :: fs) a). rewrite L.
    destruct (existsb (String.eqb "self") (map fst l)) eqn:X.
    - exfalso. apply existsb_exists in X. destruct X as [k [I E]]. apply String.eqb_eq in E. subst k. rewrite (Forall2_keys _ _ _ M) in I.
      apply in_map_iff in I. destruct I as [g [E I]]. exact (Sf g I E).
    - inversion M as [|? [k o] ? ? [K _] _]; subst. cbn in K. subst k. cbn. rewrite D. reflexivity.
  Qed.
End T.
