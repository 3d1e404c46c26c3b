(** Proofs for C113. *)
From Coq Require Import Ascii String ZArith Bool Arith List Lia.
From Verif Require Import Base ModelData ModelFormat SpecFormat.
Import ListNotations.
Local Open Scope string_scope.

Definition slen := String.length.
Lemma until_len : forall s a c r, until_brace s = (a, Some (c, r)) -> slen r < slen s.
Proof.
  induction s as [|x s IH]; intros a c r H; [discriminate|]. cbn [until_brace] in H.
  destruct ((x =? "{") || (x =? "}"))%char; [injection H as <- <- <-; cbn; lia|].
  destruct (until_brace s) as [a' o]. injection H as <- ->. specialize (IH _ _ _ eq_refl). cbn. unfold slen in *. lia.
Qed.
Lemma name_len : forall s b n e r, field_name b s = Some (n, e, r) -> slen r < slen s.
Proof.
  induction s as [|x s IH]; intros b n e r H; [discriminate|]. cbn [field_name] in H.
  assert (X : forall b', match field_name b' s with Some (n, e, q) => Some (String x n, e, q) | None => None end = Some (n, e, r) ->
    slen r < slen (String x s)).
  { intros b' Q. destruct (field_name b' s) as [[[n1 e1] q1]|] eqn:F; [|discriminate]. injection Q as <- <- <-.
    specialize (IH _ _ _ _ F). cbn. unfold slen in *. lia. }
  destruct b; [eauto|]. destruct (x =? "{")%char; [discriminate|]. destruct (x =? "[")%char; [eauto|].
  destruct ((x =? "}") || (x =? ":") || (x =? "!"))%char; [|eauto]. injection H as <- <- <-. cbn. lia.
Qed.
Lemma spec_len : forall s o a r, field_spec o s = Some (a, r) -> slen r < slen s.
Proof.
  induction s as [|x s IH]; intros o a r H; [discriminate|]. cbn [field_spec] in H.
  assert (X : forall n, match field_spec n s with Some (a, q) => Some (String x a, q) | None => None end = Some (a, r) ->
    slen r < slen (String x s)).
  { intros n Q. destruct (field_spec n s) as [[a1 q1]|] eqn:F; [|discriminate]. injection Q as <- <-.
    specialize (IH _ _ _ F). cbn. unfold slen in *. lia. }
  destruct (x =? "{")%char; [eauto|]. destruct (x =? "}")%char; [|eauto]. destruct o; [|eauto].
  injection H as <- <-. cbn. lia.
Qed.
Lemma field_len : forall s f r, parse_field s = Some (f, r) -> slen r < slen s.
Proof.
  intros s f r H. unfold parse_field in H. destruct (field_name false s) as [[[n e] q]|] eqn:N; [|discriminate].
  apply name_len in N. destruct (e =? "}")%char; [injection H as <- <-; exact N|]. destruct (e =? ":")%char.
  - destruct (field_spec 0 q) as [[sp q1]|] eqn:S; [|discriminate]. injection H as <- <-. apply spec_len in S. lia.
  - destruct q as [|k [|x q]]; try discriminate. cbn in N. destruct (x =? "}")%char; [injection H as <- <-; unfold slen in *; lia|].
    destruct (x =? ":")%char; [|discriminate]. destruct (field_spec 0 q) as [[sp q1]|] eqn:S; [|discriminate].
    injection H as <- <-. apply spec_len in S. unfold slen in *. lia.
Qed.
Lemma next_len : forall s p r, s <> "" -> next_piece s = Some (p, r) -> slen r < slen s.
Proof.
  intros s p r NE H. unfold next_piece in H. destruct (until_brace s) as [lit [[c q]|]] eqn:U.
  - pose proof (until_len _ _ _ _ U) as L. destruct q as [|x q]; [discriminate|]. cbn in L.
    destruct (c =? x)%char; [injection H as <- <-; unfold slen in *; lia|]. destruct (c =? "}")%char; [discriminate|].
    destruct (parse_field (String x q)) as [[f q1]|] eqn:F; [|discriminate]. injection H as <- <-.
    apply field_len in F. cbn in F. unfold slen in *. lia.
  - injection H as <- <-. destruct s; [congruence|]. cbn. lia.
Qed.
Lemma pieces_fuel : forall n m s, slen s <= n -> slen s <= m -> pieces n s = pieces m s.
Proof.
  induction n as [|n IH]; intros m s A B.
  - destruct s; [destruct m; reflexivity|cbn in A; lia].
  - destruct s as [|c s]; [destruct m; reflexivity|]. destruct m as [|m]; [cbn in B; lia|]. cbn [pieces].
    destruct (next_piece (String c s)) as [[p r]|] eqn:N; [|reflexivity]. apply next_len in N; [|discriminate].
    rewrite (IH m r) by (unfold slen in *; cbn in A, B, N; lia). reflexivity.
Qed.
Lemma parse_step : forall s, s <> "" ->
  parse s = match next_piece s with
            | Some (p, r) => match parse r with Some l => Some (p :: l) | None => None end
            | None => None
            end.
Proof.
  intros s NE. unfold parse. destruct s as [|c s]; [congruence|]. cbn [String.length pieces].
  destruct (next_piece (String c s)) as [[p r]|] eqn:N; [|reflexivity]. apply next_len in N; [|discriminate].
  rewrite (pieces_fuel (String.length s) (String.length r)) by (unfold slen in *; cbn in N; lia). reflexivity.
Qed.

Lemma parse_char : forall c s, (c =? "{")%char = false -> (c =? "}")%char = false ->
  parse (String c s) =
    match parse s with
    | None => None
    | Some [] => Some [mkPiece (String c "") None]
    | Some (p :: l) => Some (mkPiece (String c (pc_lit p)) (pc_field p) :: l)
    end.
Proof.
  intros c s C1 C2. rewrite parse_step by discriminate. unfold next_piece. cbn [until_brace]. rewrite C1, C2. cbn [orb].
  destruct s as [|x s]; [reflexivity|]. rewrite (parse_step (String x s)) by discriminate. unfold next_piece.
  destruct (until_brace (String x s)) as [lit [[b q]|]]; [|reflexivity].
  destruct q as [|y q]; [reflexivity|]. destruct (b =? y)%char; [destruct (parse q) as [[|]|]; reflexivity|].
  destruct (b =? "}")%char; [reflexivity|]. destruct (parse_field (String y q)) as [[f q1]|]; [|reflexivity].
  destruct (parse q1) as [[|]|]; reflexivity.
Qed.
Lemma parse_open : forall s, parse ("{{" ++ s) = match parse s with Some l => Some (mkPiece "{" None :: l) | None => None end.
Proof. intros s. cbn [append]. rewrite parse_step by discriminate. reflexivity. Qed.
Lemma parse_close : forall s, parse ("}}" ++ s) = match parse s with Some l => Some (mkPiece "}" None :: l) | None => None end.
Proof. intros s. cbn [append]. rewrite parse_step by discriminate. reflexivity. Qed.

Lemma name_until : forall k e s, has_none ["{"; "}"; "["; "]"; "!"; ":"; "."]%char k = true ->
  e = "}"%char \/ e = ":"%char \/ e = "!"%char -> field_name false (k ++ String e s) = Some (k, e, s).
Proof.
  induction k as [|c k IH]; intros e s H E.
  - cbn [append]. destruct E as [->|[->| ->]]; reflexivity.
  - cbn [has_none existsb] in H. apply andb_true_iff in H. destruct H as [H1 H2]. apply negb_true_iff in H1.
    repeat (apply orb_false_iff in H1; let A := fresh "A" in destruct H1 as [A H1]).
    cbn [append field_name]. rewrite A, A0, A1, A3, A4. cbn [orb]. rewrite (IH _ _ H2 E). reflexivity.
Qed.
Lemma spec_until : forall sp s, has_none ["{"; "}"]%char sp = true -> field_spec 0 (sp ++ String "}" s) = Some (sp, s).
Proof.
  induction sp as [|c sp IH]; intros s H; [reflexivity|]. cbn [has_none existsb] in H. apply andb_true_iff in H. destruct H as [H1 H2].
  apply negb_true_iff in H1. repeat (apply orb_false_iff in H1; let A := fresh "A" in destruct H1 as [A H1]).
  cbn [append field_spec]. rewrite A, A0, (IH _ H2). reflexivity.
Qed.
Definition code (c : option conversion) : option ascii :=
  match c with
  | None => None | Some Upper => Some "u" | Some Lower => Some "l" | Some Capital => Some "c"
  | Some AsStr => Some "s" | Some AsRepr => Some "r" | Some AsAscii => Some "a"
  end%char.
Lemma app_assoc_s : forall a b c : string, (a ++ b) ++ c = a ++ (b ++ c).
Proof. induction a as [|x a IH]; intros b c; cbn; [reflexivity|]. rewrite IH. reflexivity. Qed.

Lemma field_slot : forall k c sp s, plain_part (Slot k c sp) ->
  parse_field (k ++ match c with None => "" | Some c => "!" ++ letter c end ++ (if String.eqb sp "" then "" else ":" ++ sp) ++ "}" ++ s)
  = Some (mkField k sp (code c), s).
Proof.
  intros k c sp s ((K1 & _ & K2) & S). unfold parse_field.
  destruct c as [c|].
  - assert (E : ("!" ++ letter c) ++ (if String.eqb sp "" then "" else ":" ++ sp) ++ "}" ++ s =
                String "!" (letter c ++ (if String.eqb sp "" then "" else ":" ++ sp) ++ String "}" s)) by reflexivity.
    rewrite E, name_until by auto. cbn [Ascii.eqb]. change (("!" =? "}")%char) with false. change (("!" =? ":")%char) with false. cbv iota.
    destruct (String.eqb_spec sp "") as [->|NE].
    + destruct c; reflexivity.
    + destruct c; cbn [letter append code]; change ((":" =? "}")%char) with false; change ((":" =? ":")%char) with true; cbv iota;
        rewrite spec_until by exact S; reflexivity.
  - cbn [append]. destruct (String.eqb_spec sp "") as [->|NE].
    + cbn [append]. rewrite name_until by auto. reflexivity.
    + cbn [append]. rewrite name_until by auto. change ((":" =? "}")%char) with false. change ((":" =? ":")%char) with true. cbv iota.
      rewrite spec_until by exact S. reflexivity.
Qed.
Lemma parse_slot : forall k c sp s, plain_part (Slot k c sp) ->
  parse (spelled_part (Slot k c sp) ++ s) =
    match parse s with Some l => Some (mkPiece "" (Some (mkField k sp (code c))) :: l) | None => None end.
Proof.
  intros k c sp s H. assert (E : spelled_part (Slot k c sp) ++ s =
    String "{" (k ++ match c with None => "" | Some c => "!" ++ letter c end ++ (if String.eqb sp "" then "" else ":" ++ sp) ++ "}" ++ s)).
  { cbn [spelled_part append]. f_equal. rewrite !app_assoc_s. reflexivity. }
  rewrite E. rewrite parse_step by discriminate. unfold next_piece. cbn [until_brace].
  change (("{" =? "{")%char) with true. cbn [orb]. cbv iota beta.
  pose proof (field_slot k c sp s H) as F. destruct H as ((K1 & _ & K2) & S). destruct k as [|x k]; [congruence|].
  cbn [append] in *. cbn [has_none existsb] in K2. apply andb_true_iff in K2. destruct K2 as [K2 _]. apply negb_true_iff in K2.
  apply orb_false_iff in K2. destruct K2 as [K2 _]. rewrite Ascii.eqb_sym, K2.
  change (("{" =? "}")%char) with false. cbv iota. rewrite F. reflexivity.
Qed.

Section Fill.
Variable py : python.
Variable d : list (string * value).

(** The body of [vformat]. *)
Definition fill_field (k : nat) (o : option field) : option string :=
  match o with
  | None => Some ""
  | Some f =>
      match get_field py d (fl_name f) with
      | None => None
      | Some v =>
          match convert_field py v (fl_conv f) with
          | None => None
          | Some v => match vformat py k d (fl_spec f) with None => None | Some sp => py_format py v sp end
          end
      end
  end.
Fixpoint fill (k : nat) (l : list piece) : option string :=
  match l with
  | [] => Some ""
  | p :: r => match fill_field k (pc_field p), fill k r with
              | Some t, Some q => Some (pc_lit p ++ t ++ q)
              | _, _ => None
              end
  end.
Lemma vformat_fill : forall k s, vformat py (S k) d s = match parse s with None => None | Some ps => fill k ps end.
Proof.
  intros k s. cbn [vformat]. destruct (parse s) as [ps|]; [|reflexivity]. induction ps as [|p ps IH]; [reflexivity|].
  cbn [fill]. rewrite <- IH. reflexivity.
Qed.
Lemma vformat_char : forall k c s, (c =? "{")%char = false -> (c =? "}")%char = false ->
  vformat py (S k) d (String c s) = option_map (String c) (vformat py (S k) d s).
Proof.
  intros k c s A B. rewrite !vformat_fill, parse_char by assumption. destruct (parse s) as [[|p l]|]; try reflexivity.
  cbn [fill pc_lit pc_field]. destruct (fill_field k (pc_field p)), (fill k l); reflexivity.
Qed.
Lemma vformat_escaped : forall k s r, vformat py (S k) d (escaped s ++ r) = option_map (fun q => s ++ q) (vformat py (S k) d r).
Proof.
  intros k s r. induction s as [|c s IH].
  - cbn [escaped append]. destruct (vformat py (S k) d r); reflexivity.
  - cbn [escaped]. destruct (Ascii.eqb_spec c "{") as [->|N1]; [|destruct (Ascii.eqb_spec c "}") as [->|N2]].
    + rewrite app_assoc_s, vformat_fill, parse_open. rewrite vformat_fill in IH.
      destruct (parse (escaped s ++ r)) as [l|]; cbn [fill fill_field pc_lit pc_field].
      * rewrite IH. destruct (vformat py (S k) d r); reflexivity.
      * destruct (vformat py (S k) d r); [discriminate|reflexivity].
    + rewrite app_assoc_s, vformat_fill, parse_close. rewrite vformat_fill in IH.
      destruct (parse (escaped s ++ r)) as [l|]; cbn [fill fill_field pc_lit pc_field].
      * rewrite IH. destruct (vformat py (S k) d r); reflexivity.
      * destruct (vformat py (S k) d r); [discriminate|reflexivity].
    + cbn [append]. rewrite vformat_char by (apply Ascii.eqb_neq; assumption). rewrite IH. destruct (vformat py (S k) d r); reflexivity.
Qed.
Lemma vformat_plain : forall k s, has_none ["{"; "}"]%char s = true -> vformat py (S k) d s = Some s.
Proof.
  intros k. induction s as [|c s IH]; intros H; [reflexivity|]. cbn [has_none existsb] in H. apply andb_true_iff in H. destruct H as [H1 H2].
  apply negb_true_iff in H1. repeat (apply orb_false_iff in H1; let A := fresh "A" in destruct H1 as [A H1]).
  rewrite vformat_char by assumption. rewrite IH by exact H2. reflexivity.
Qed.

Lemma split_plain : forall k, has_none ["{"; "}"; "["; "]"; "!"; ":"; "."]%char k = true -> split_name k = (k, "").
Proof.
  induction k as [|c k IH]; intros H; [reflexivity|]. cbn [has_none existsb] in H. apply andb_true_iff in H. destruct H as [H1 H2].
  apply negb_true_iff in H1. repeat (apply orb_false_iff in H1; let A := fresh "A" in destruct H1 as [A H1]).
  cbn [split_name]. rewrite A1, A5. cbn [orb]. rewrite IH by exact H2. reflexivity.
Qed.
Lemma digits_number : forall k, all_digits k = is_number k.
Proof.
  induction k as [|c k IH]; [reflexivity|]. cbn [all_digits]. rewrite IH. unfold is_number at 2. cbn [list_ascii_of_string forallb].
  f_equal. destruct c as [[] [] [] [] [] [] [] []]; vm_compute; reflexivity.
Qed.
Lemma get_key : forall k, is_key k -> get_field py d k = dget k d.
Proof.
  intros k (K1 & K2 & K3). rewrite <- digits_number in K2. unfold get_field. rewrite split_plain by exact K3. rewrite K2, andb_false_r, orb_false_r.
  destruct (String.eqb_spec k "") as [->|_]; [congruence|]. destruct (dget k d); reflexivity.
Qed.
(** What the code makes of a conversion. *)
Definition really (c : option conversion) : option conversion :=
  match c with Some AsStr | Some AsRepr | Some AsAscii => None | _ => c end.
Lemma convert_code : forall v c, convert_field py v (code c) = Some (converted py (really c) v).
Proof. intros v [[]|]; reflexivity. Qed.

Lemma vformat_part : forall k p r, plain_part p ->
  vformat py (S (S k)) d (spelled_part p ++ r) =
    match text_of py d (unconverted p), vformat py (S (S k)) d r with Some a, Some b => Some (a ++ b) | _, _ => None end.
Proof.
  intros k p r H. destruct p as [s|key c sp].
  - cbn [spelled_part unconverted text_of]. rewrite vformat_escaped. destruct (vformat py (S (S k)) d r); reflexivity.
  - rewrite vformat_fill, parse_slot by exact H. rewrite (vformat_fill (S k) r). destruct H as [K S].
    assert (T : text_of py d (unconverted (Slot key c sp)) =
      match dget key d with None => None | Some v => py_format py (converted py (really c) v) sp end) by (destruct c as [[]|]; reflexivity).
    rewrite T. destruct (parse r) as [l|].
    + cbn [fill pc_field pc_lit]. unfold fill_field. cbn [fl_name fl_conv fl_spec]. rewrite get_key by exact K.
      destruct (dget key d) as [v|]; [|reflexivity]. rewrite convert_code, vformat_plain by exact S. reflexivity.
    + destruct (dget key d) as [v|]; [|reflexivity]. destruct (py_format py _ sp); reflexivity.
Qed.
Theorem format_templates : forall t, Forall plain_part t -> format py (spelled t) d = texts_of py d (map unconverted t).
Proof.
  intros t H. unfold format. induction H as [|p t P H IH]; [reflexivity|].
  cbn [spelled List.fold_right map texts_of]. change (List.fold_right (fun p s => spelled_part p ++ s) "" t) with (spelled t).
  rewrite vformat_part by exact P. rewrite IH. reflexivity.
Qed.
Lemma case_unconverted : forall p, case_only p -> unconverted p = p.
Proof. intros [s|k [[]|] sp] H; try reflexivity; destruct H. Qed.
Lemma case_map : forall t, Forall case_only t -> map unconverted t = t.
Proof. intros t H. induction H as [|p t P H IH]; [reflexivity|]. cbn. rewrite IH, case_unconverted by exact P. reflexivity. Qed.
End Fill.

Lemma unknown_letter : forall py d k c s, is_key k -> existsb (Ascii.eqb c) ["u"; "l"; "c"; "s"; "r"; "a"]%char = false ->
  format py ("{" ++ k ++ "!" ++ String c ("}" ++ s)) d = None.
Proof.
  intros py d k c s K C. unfold format. rewrite vformat_fill.
  assert (F : parse_field (k ++ String "!" (String c (String "}" s))) = Some (mkField k "" (Some c), s)).
  { unfold parse_field. rewrite name_until by (try apply K; auto). reflexivity. }
  cbn [append]. rewrite parse_step by discriminate. unfold next_piece. cbn [until_brace].
  change (("{" =? "{")%char) with true. cbn [orb]. cbv iota beta. pose proof K as (K1 & _ & K2). destruct k as [|x k]; [congruence|].
  cbn [append] in *. cbn [has_none existsb] in K2. apply andb_true_iff in K2. destruct K2 as [K2 _]. apply negb_true_iff in K2.
  apply orb_false_iff in K2. destruct K2 as [K2 _]. rewrite Ascii.eqb_sym, K2.
  change (("{" =? "}")%char) with false. cbv iota. rewrite F. destruct (parse s) as [l|]; [|reflexivity].
  cbn [fill pc_field pc_lit]. unfold fill_field. cbn [fl_name fl_conv fl_spec]. rewrite get_key by exact K.
  destruct (dget (String x k) d) as [v|]; [|reflexivity].
  cbn [existsb] in C. repeat (apply orb_false_iff in C; let A := fresh "A" in destruct C as [A C]).
  assert (Z : convert_field py v (Some c) = None); [|rewrite Z; reflexivity].
  assert (SC : super_convert py v (Some c) = None) by (cbn [super_convert]; rewrite A2, A3, A4; reflexivity).
  unfold convert_field. rewrite SC. destruct c as [[] [] [] [] [] [] [] []]; try reflexivity; discriminate.
Qed.

(** ** Attributes and items *)
Notation SPECIAL := (["{"; "}"; "["; "]"; "!"; ":"; "."]%char).
Lemma name_key : forall k r, has_none SPECIAL k = true ->
  field_name false (k ++ r) = match field_name false r with Some (n, e, q) => Some (k ++ n, e, q) | None => None end.
Proof.
  induction k as [|c k IH]; intros r H; [cbn [append]; destruct (field_name false r) as [[[n e] q]|]; reflexivity|].
  cbn [has_none existsb] in H. apply andb_true_iff in H. destruct H as [H1 H2]. apply negb_true_iff in H1.
  repeat (apply orb_false_iff in H1; let A := fresh "A" in destruct H1 as [A H1]).
  cbn [append field_name]. rewrite A, A0, A1, A3, A4. cbn [orb]. rewrite (IH _ H2).
  destruct (field_name false r) as [[[n e] q]|]; reflexivity.
Qed.
Lemma name_item : forall i r, has_none ["]"]%char i = true ->
  field_name true (i ++ "]" ++ r) = match field_name false r with Some (n, e, q) => Some (i ++ "]" ++ n, e, q) | None => None end.
Proof.
  induction i as [|c i IH]; intros r H.
  - cbn [append field_name]. change (negb ("]" =? "]")%char) with false. destruct (field_name false r) as [[[n e] q]|]; reflexivity.
  - cbn [has_none existsb] in H. apply andb_true_iff in H. destruct H as [H1 H2]. apply negb_true_iff in H1.
    apply orb_false_iff in H1. destruct H1 as [A _]. cbn [append field_name]. rewrite A. cbn [negb]. cbn [append] in IH. rewrite (IH _ H2).
    destruct (field_name false r) as [[[n e] q]|]; reflexivity.
Qed.
Lemma name_path : forall l s, Forall plain_step l -> field_name false (path l ++ String "}" s) = Some (path l, "}"%char, s).
Proof.
  intros l s H. induction H as [|x l P H IH]; [reflexivity|].
  cbn [path List.fold_right]. change (List.fold_right (fun x s => match x with Attr n => "." ++ n | Item i => "[" ++ i ++ "]" end ++ s) "" l) with (path l).
  rewrite app_assoc_s. destruct x as [n|i]; cbn [plain_step] in P.
  - cbn [append field_name]. change (("." =? "{")%char) with false. change (("." =? "[")%char) with false. cbv iota.
    change ((("." =? "}") || ("." =? ":") || ("." =? "!"))%char) with false. cbv iota. rewrite (name_key n) by exact P. rewrite IH. reflexivity.
  - cbn [append field_name]. change (("[" =? "{")%char) with false. change (("[" =? "[")%char) with true. cbv iota.
    rewrite app_assoc_s, (name_item i) by exact P. rewrite IH. rewrite app_assoc_s. reflexivity.
Qed.
Lemma split_path : forall k l, has_none SPECIAL k = true -> split_name (k ++ path l) = (k, path l).
Proof.
  induction k as [|c k IH]; intros l H.
  - cbn [append]. destruct l as [|[n|i] l]; reflexivity.
  - cbn [has_none existsb] in H. apply andb_true_iff in H. destruct H as [H1 H2]. apply negb_true_iff in H1.
    repeat (apply orb_false_iff in H1; let A := fresh "A" in destruct H1 as [A H1]).
    cbn [append split_name]. rewrite A1, A5. cbn [orb]. rewrite IH by exact H2. reflexivity.
Qed.
Lemma format_field : forall py d k l s, k <> "" -> has_none SPECIAL k = true -> Forall plain_step l ->
  format py ("{" ++ k ++ path l ++ "}" ++ s) d =
  match get_field py d (k ++ path l) with None => None | Some v => both (py_format py v "") (format py s d) end.
Proof.
  intros py d k l s K1 K2 L. unfold format. rewrite vformat_fill, (vformat_fill _ _ _ s).
  assert (F : parse_field (k ++ path l ++ String "}" s) = Some (mkField (k ++ path l) "" None, s)).
  { unfold parse_field. rewrite name_key, name_path by assumption. reflexivity. }
  cbn [append]. rewrite parse_step by discriminate. unfold next_piece. cbn [until_brace].
  change (("{" =? "{")%char) with true. cbn [orb]. cbv iota beta. destruct k as [|x k]; [congruence|].
  cbn [append] in *. cbn [has_none existsb] in K2. apply andb_true_iff in K2. destruct K2 as [K2 _]. apply negb_true_iff in K2.
  apply orb_false_iff in K2. destruct K2 as [K2 _]. rewrite Ascii.eqb_sym, K2.
  change (("{" =? "}")%char) with false. cbv iota. rewrite F. destruct (parse s) as [ps|].
  - cbn [fill pc_field pc_lit]. unfold fill_field. cbn [fl_name fl_conv fl_spec]. destruct (get_field py d _) as [v|]; [|reflexivity].
    cbn [convert_field super_convert]. cbn [vformat]. change (parse "") with (Some (@nil piece)). cbv iota beta. destruct (py_format py v ""); reflexivity.
  - destruct (get_field py d _) as [v|]; [|reflexivity]. destruct (py_format py v ""); reflexivity.
Qed.
Lemma path_nil : forall l, path l = "" -> l = [].
Proof. intros [|[n|i] l] H; [reflexivity|discriminate|discriminate]. Qed.
Lemma access_field : forall py d k l s, is_key k -> l <> [] -> Forall plain_step l ->
  format py ("{" ++ k ++ path l ++ "}" ++ s) d =
  match dget k d with
  | None => None
  | Some v => match py_access py v (path l) with None => None | Some x => both (py_format py x "") (format py s d) end
  end.
Proof.
  intros py d k l s (K1 & K2 & K3) N L. rewrite format_field by assumption. rewrite <- digits_number in K2. unfold get_field.
  rewrite split_path by exact K3. rewrite K2, andb_false_r, orb_false_r. destruct k as [|x k]; [congruence|]. cbn [append].
  change (String.eqb (String x (k ++ path l)) "") with false. cbv iota. destruct (dget (String x k) d) as [v|]; [|reflexivity].
  destruct (String.eqb_spec (path l) "") as [E|_]; [apply path_nil in E; congruence|]. reflexivity.
Qed.
Lemma number_none : forall k, is_number k = true -> has_none SPECIAL k = true.
Proof.
  unfold is_number. induction k as [|c k IH]; intros H; [reflexivity|]. cbn [list_ascii_of_string forallb] in H. apply andb_true_iff in H.
  destruct H as [A B]. cbn [has_none]. rewrite (IH B), andb_true_r. destruct c as [[] [] [] [] [] [] [] []]; try discriminate A; reflexivity.
Qed.
Lemma number_field : forall py d k l s, k <> "" -> is_number k = true -> Forall plain_step l ->
  format py ("{" ++ k ++ path l ++ "}" ++ s) d = None.
Proof.
  intros py d k l s K N L. pose proof (number_none k N) as S. rewrite format_field by assumption. rewrite <- digits_number in N.
  unfold get_field. rewrite split_path by exact S. rewrite N. destruct (String.eqb_spec k "") as [E|_]; [contradiction|].
  cbn [negb andb]. rewrite orb_true_r. reflexivity.
Qed.
