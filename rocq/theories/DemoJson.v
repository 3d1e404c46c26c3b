(** Three message classes for the examples of C101: one with a truth value, one with a
    message of the first class, one with a sequence of integers. *)
From Coq Require Import Ascii String ZArith NArith Bool Lia List.
From Coq Require Import Floats.SpecFloat.
From Verif Require Import Base ModelData ModelJson SpecJson.
From Verif Require Import ModelEdit ModelFiles ModelFields SpecFields DemoFields.
Import ListNotations.
Local Open Scope string_scope.

Definition d_find (n : string) : option string := if String.eqb n "demo/Flag" then Some "demo/msg/Flag" else None.
Definition flag_fields : list (string * ftype) := [("on", FBool)].
Definition pair_fields : list (string * ftype) := [("note", FStr false None); ("flag", FMsg "demo/Flag")].
Definition values_fields : list (string * ftype) := [("values", FSeq I32 None)].
Definition d_store (t : ftype) (v : value) : option pyobj :=
  match t, v with
  | FMsg _, VMsg c _ => if String.eqb c "demo/msg/Flag" then Some (PVal v) else None
  | FStr _ _, VStr s => if Z.leb (Z.of_nat (String.length s)) INT_FLOAT_MAX then Some (PVal v) else None
  | _, _ => store t v
  end.
Definition d_class (fs : list (string * ftype)) : msgtype :=
  mkMT (map (fun f => (fst f, text (snd f))) fs) (map (fun f => (fst f, PVal (VBool false))) fs)
       (fun f v => match dget f fs with Some t => d_store t v | None => None end).

(** Flag objects are 0 and 1; pairs are numbered by their flag; there is one list. *)
Definition d_attrs (c : string) (n : nat) : attrs :=
  if String.eqb c "demo/msg/Flag" then [("on", PVal (VBool (Nat.eqb n 1)))]
  else if String.eqb c "demo/msg/Pair" then [("note", PVal (VStr "hello")); ("flag", PVal (VMsg "demo/msg/Flag" n))]
  else [("values", PArray [VInt 3])].
Definition d_object (c : string) (a : attrs) : nat :=
  match a with
  | [(_, PVal (VBool b))] => if b then 1 else 0
  | [_; (_, PVal (VMsg _ n))] => n
  | _ => 0
  end.
Definition d_obj (c : string) (n : nat) : Prop :=
  (c = "demo/msg/Flag" /\ n < 2) \/ (c = "demo/msg/Pair" /\ n < 2) \/ (c = "demo/msg/Values" /\ n = 0).
(** Integers are printed as one character for the sign and as many as the number. *)
Fixpoint ticks (n : nat) : string := match n with O => "" | S k => String "|" (ticks k) end.
Definition d_str (v : value) : string :=
  match v with
  | VInt z => String (if Z.ltb z 0 then "-" else "+") (ticks (Z.abs_nat z))
  | _ => ""
  end.
Definition d_int (v : value) : option value :=
  match v with
  | VStr (String c s) => let z := Z.of_nat (String.length s) in
                         Some (VInt (if Ascii.eqb c "-" then Z.opp z else z))
  | _ => None
  end.
Definition sign_of (b : bool) : Ascii.ascii := if b then "-" else "+".
Definition d_float_str (f : spec_float) : string :=
  match f with
  | S754_zero s => String "0" (String (sign_of s) "")
  | S754_infinity s => String "i" (String (sign_of s) "")
  | S754_nan => "n"
  | S754_finite s m e =>
      String "f" (String (sign_of s) (ticks (Pos.to_nat m) ++ String "e" (String (sign_of (Z.ltb e 0)) (ticks (Z.abs_nat e)))))
  end.
Fixpoint d_ticks (s : string) : nat * string :=
  match s with
  | String c q => if Ascii.eqb c "|" then let (n, r) := d_ticks q in (S n, r) else (0, s)
  | "" => (0, "")
  end.
Definition d_float (v : value) : option value :=
  match v with
  | VStr "n" => Some (VFloat S754_nan)
  | VStr (String k (String s q)) =>
      let sg := Ascii.eqb s "-" in
      if Ascii.eqb k "0" then Some (VFloat (S754_zero sg))
      else if Ascii.eqb k "i" then Some (VFloat (S754_infinity sg))
      else match d_ticks q with
           | (n, String _ (String es t)) =>
               let z := Z.of_nat (String.length t) in
               Some (VFloat (S754_finite sg (Pos.of_nat n) (if Ascii.eqb es "-" then Z.opp z else z)))
           | _ => None
           end
  | _ => None
  end.
Definition d_print (v : value) : string := match v with VFloat f => d_float_str f | _ => d_str v end.

Definition d_ros : ros := mkRos
  (fun c => if String.eqb c "demo/msg/Flag" then Some (d_class flag_fields)
            else if String.eqb c "demo/msg/Pair" then Some (d_class pair_fields)
            else if String.eqb c "demo/msg/Values" then Some (d_class values_fields) else None)
  d_find d_attrs d_object (fun _ n => n) (fun n => Ok (VType IMsg n)) d_print d_int d_float.

Lemma ticks_length : forall n, String.length (ticks n) = n.
Proof. induction n as [|n IH]; cbn; congruence. Qed.
Lemma d_ticks_app : forall n c s, Ascii.eqb c "|" = false -> d_ticks (ticks n ++ String c s) = (n, String c s).
Proof. induction n as [|n IH]; intros c s H; cbn [ticks append d_ticks]; [rewrite H; reflexivity|]. rewrite IH by exact H. reflexivity. Qed.
Lemma sign_back : forall b, Ascii.eqb (sign_of b) "-" = b.
Proof. intros []; reflexivity. Qed.
Lemma abs_back : forall z, (if Z.ltb z 0 then Z.opp (Z.of_nat (Z.abs_nat z)) else Z.of_nat (Z.abs_nat z)) = z.
Proof. intros z. destruct (Z.ltb_spec z 0); lia. Qed.
Lemma d_numbers : sound_numbers d_ros.
Proof.
  split.
  - intros z. cbn [d_ros r_int r_str d_print d_str d_int]. rewrite ticks_length. f_equal. f_equal.
    transitivity (if Z.ltb z 0 then Z.opp (Z.of_nat (Z.abs_nat z)) else Z.of_nat (Z.abs_nat z)); [destruct (Z.ltb z 0); reflexivity|apply abs_back].
  - intros [s|s| |s m e]; cbn [d_ros r_float r_str d_print d_float_str].
    + destruct s; reflexivity.
    + destruct s; reflexivity.
    + reflexivity.
    + unfold d_float. change (Ascii.eqb "f" "0") with false. change (Ascii.eqb "f" "i") with false. cbn match.
      rewrite d_ticks_app by reflexivity. rewrite !sign_back, ticks_length, Pos2Nat.id, abs_back. reflexivity.
Qed.

Lemma d_i32 : forall v, is_i32 v = true <-> takes1 d_find I32 v.
Proof.
  intros v. split.
  - destruct v as [b|z| | | | | | |]; intros H; try discriminate H; [constructor|]. constructor. unfold is_i32 in H. lia.
  - intros H. inversion H as [| |s w z Hz|s w b| | | | | |]; subst; [|reflexivity]. unfold is_i32. lia.
Qed.
Lemma d_store_ok : forall t v o, In t [FBool; FStr false None; FMsg "demo/Flag"; FSeq I32 None] ->
  (d_store t v = Some o <-> takes d_find rnd t v o).
Proof.
  intros t v o [<-|[<-|[<-|[<-|[]]]]].
  - split.
    + destruct v; intros H; try discriminate H. injection H as <-. apply K_one. constructor.
    + intros H. inversion H as [? ? X| | | |]; subst. inversion X; subst. reflexivity.
  - unfold d_store. split.
    + destruct v; intros H; try discriminate H. destruct (Z.leb_spec (Z.of_nat (String.length s)) INT_FLOAT_MAX) as [L|]; [|discriminate H].
      injection H as <-. apply K_one. constructor. exact L.
    + intros H. inversion H as [? ? X| | | |]; subst. inversion X as [| | | | | | | |? ? ? L|]; subst. apply Z.leb_le in L. change (up_to None) with INT_FLOAT_MAX in L. rewrite L. reflexivity.
  - unfold d_store. split.
    + destruct v as [| | | | | | |t p|]; intros H; try discriminate H. destruct (String.eqb_spec t "demo/msg/Flag") as [->|]; [|discriminate H].
      injection H as <-. apply K_one. constructor. reflexivity.
    + intros H. inversion H as [? ? X| | | |]; subst. inversion X as [| | | | | | | | |? ? ? L]; subst. injection L as <-. reflexivity.
  - unfold d_store, store, I32. split.
    + destruct v as [| | | | |l| | |]; intros H; try discriminate H. destruct (forallb is_i32 l && _)%bool eqn:Q; [|discriminate H].
      injection H as <-. apply andb_prop in Q. destruct Q as [A B]. rewrite forallb_forall in A. apply K_array.
      * intros x I. apply d_i32. auto.
      * now apply Z.leb_le.
      * exact I.
    + intros H. inversion H as [? ? X|? ? ? X Y N|? ? ? X Y N| |]; subst.
      * inversion X.
      * exfalso. apply N. exact I.
      * assert (A : forallb is_i32 l = true) by (apply forallb_forall; intros x I; apply d_i32; auto).
        apply Z.leb_le in Y. change (up_to None) with INT_FLOAT_MAX in Y. rewrite A, Y. reflexivity.
Qed.
Lemma flag_name : message_name "demo/Flag" /\ ~ starts "string" "demo/Flag" /\ ~ starts "wstring" "demo/Flag".
Proof.
  split; [split; [cbn; repeat split; (left; reflexivity) || (right; reflexivity)|exists "demo", "Flag"; reflexivity]|].
  split; intros [q H]; discriminate H.
Qed.
Lemma d_known : forall t, In t [FBool; FStr false None; FMsg "demo/Flag"; FSeq I32 None] ->
  (proper t /\ exists ct, holds d_find t ct) /\ no_string_name t.
Proof.
  intros t [<-|[<-|[<-|[<-|[]]]]]; (split; [split; [exact I|]|]).
  - eexists. apply H_one. constructor.
  - intros n [].
  - eexists. apply H_one. constructor.
  - intros n [].
  - eexists. apply H_one. constructor. reflexivity.
  - intros n [<-|[]]. exact flag_name.
  - eexists. apply H_seq. constructor.
  - intros n [].
Qed.
Lemma d_class_of : forall fs, NoDup (map fst fs) ->
  (forall f t, In (f, t) fs -> In t [FBool; FStr false None; FMsg "demo/Flag"; FSeq I32 None]) ->
  class_of d_find rnd (d_class fs) fs /\ readable fs.
Proof.
  intros fs N K. split; [split; [reflexivity|]; split; [exact N|]; split; [|split]|].
  - intros f t I. exact (proj1 (d_known t (K f t I))).
  - cbn. rewrite map_map. reflexivity.
  - intros f t v o I. cbn. rewrite (demo_get fs f t N I). apply d_store_ok. exact (K f t I).
  - intros f t I. exact (proj2 (d_known t (K f t I))).
Qed.
Lemma d_classes : sound_classes d_ros d_obj rnd.
Proof.
  intros c m E. cbn [d_ros r_class] in E. destruct (String.eqb_spec c "demo/msg/Flag") as [->|N1]; [|destruct (String.eqb_spec c "demo/msg/Pair") as [->|N2]; [|destruct (String.eqb_spec c "demo/msg/Values") as [->|N3]; [|discriminate]]];
    injection E as <-.
  - exists flag_fields. destruct (d_class_of flag_fields) as [A B]; [repeat constructor; intros []|intros f t [[= <- <-]|[]]; cbn; auto|].
    split; [exact A|]. split; [exact B|]. intros n O. assert (L : n < 2) by (destruct O as [[_ L]|[[L _]|[L _]]]; [exact L|discriminate|discriminate]).
    split; [reflexivity|]. split; [destruct n as [|[|n]]; [reflexivity|reflexivity|lia]|]. intros f t [[= <- <-]|[]]. do 2 eexists.
    split; [reflexivity|]. split; [apply K_one; constructor|]. split; intros; discriminate.
  - exists pair_fields. destruct (d_class_of pair_fields) as [A B]; [apply nodup2; reflexivity|intros f t [[= <- <-]|[[= <- <-]|[]]]; cbn; auto|].
    split; [exact A|]. split; [exact B|]. intros n O. assert (L : n < 2) by (destruct O as [[L _]|[[_ L]|[L _]]]; [discriminate|exact L|discriminate]).
    split; [reflexivity|]. split; [reflexivity|]. intros f t [[= <- <-]|[[= <- <-]|[]]]; do 2 eexists.
    + split; [reflexivity|]. split; [apply K_one; constructor; cbn; unfold INT_FLOAT_MAX; lia|]. split; intros; discriminate.
    + split; [reflexivity|]. split; [apply K_one; constructor; reflexivity|]. split; [intros c0 n0 [= <- <-]; left; auto|intros; discriminate].
  - exists values_fields. destruct (d_class_of values_fields) as [A B]; [repeat constructor; intros []|intros f t [[= <- <-]|[]]; cbn; auto|].
    split; [exact A|]. split; [exact B|]. intros n O. assert (L : n = 0) by (destruct O as [[L _]|[[L _]|[_ L]]]; [discriminate|discriminate|exact L]). subst n.
    split; [reflexivity|]. split; [reflexivity|]. intros f t [[= <- <-]|[]]. exists (VList [VInt 3]). eexists.
    split; [reflexivity|]. split.
    + change (PArray [VInt 3]) with (PArray (map (stored rnd I32) [VInt 3])). apply K_array; [|cbn; unfold INT_FLOAT_MAX; lia|exact I].
      intros x [<-|[]]. constructor. cbn. lia.
    + split; [intros; discriminate|]. intros l c0 n0 [= <-] [X|[]]. discriminate X.
Qed.
