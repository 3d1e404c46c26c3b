(** Message classes for the examples of C92: booleans, 32 bit integers and sequences of
    them, as rosidl would generate them. *)
From Coq Require Import String ZArith NArith Bool Ascii Lia List.
From Coq Require Import Floats.SpecFloat.
From Verif Require Import Base ModelData ModelEdit ModelFiles ModelFields SpecFields ProofsFields.
Import ListNotations.
Local Open Scope string_scope.

Definition no_cls (n : string) : option string := None.
Definition rnd (f : spec_float) : spec_float := f.
Definition I32 : ftype := FInt true W32.
Definition is_i32 (v : value) : bool :=
  match v with
  | VInt z => Z.leb (lowest true W32) z && Z.leb z (highest true W32)
  | VBool _ => true
  | _ => false
  end.
Definition store (t : ftype) (v : value) : option pyobj :=
  match t, v with
  | FBool, VBool _ => Some (PVal v)
  | FInt true W32, _ => if is_i32 v then Some (PVal v) else None
  | FSeq (FInt true W32) None, VList l =>
      if forallb is_i32 l && Z.leb (Z.of_nat (List.length l)) INT_FLOAT_MAX then Some (PArray (map (stored rnd I32) l)) else None
  | _, _ => None
  end.
Definition known (t : ftype) : Prop := t = FBool \/ t = I32 \/ t = FSeq I32 None.

Definition demo_class (fs : list (string * ftype)) : msgtype :=
  mkMT (map (fun f => (fst f, text (snd f))) fs) (map (fun f => (fst f, PVal (VBool false))) fs)
       (fun f v => match dget f fs with Some t => store t v | None => None end).

Lemma i32_ok : forall v, is_i32 v = true <-> takes1 no_cls I32 v.
Proof.
  intros v. split.
  - destruct v as [b|z| | | | | | |]; intros H; try discriminate H; [constructor|]. constructor. unfold is_i32 in H. lia.
  - intros H. inversion H as [| |s w z Hz|s w b| | | | | |]; subst; [|reflexivity]. unfold is_i32. lia.
Qed.
Lemma store_ok : forall t v o, known t -> (store t v = Some o <-> takes no_cls rnd t v o).
Proof.
  intros t v o [->|[->| ->]].
  - split.
    + destruct v; intros H; try discriminate H. injection H as <-. apply K_one. constructor.
    + intros H. inversion H as [? ? X| | | |]; subst. inversion X; subst. reflexivity.
  - unfold store, I32. split.
    + intros H. destruct (is_i32 v) eqn:Q; [|discriminate H]. injection H as <-. apply K_one. now apply i32_ok.
    + intros H. inversion H as [? ? X| | | |]; subst. apply i32_ok in X. unfold I32 in X. now rewrite X.
  - unfold store, I32. split.
    + destruct v as [| | | | |l| | |]; intros H; try discriminate H. destruct (forallb is_i32 l && _)%bool eqn:Q; [|discriminate H].
      injection H as <-. apply andb_prop in Q. destruct Q as [A B]. rewrite forallb_forall in A. apply K_array.
      * intros x I. apply i32_ok. auto.
      * now apply Z.leb_le.
      * exact I.
    + intros H. inversion H as [? ? X|? ? ? X Y N|? ? ? X Y N| |]; subst.
      * inversion X.
      * exfalso. apply N. exact I.
      * assert (A : forallb is_i32 l = true) by (apply forallb_forall; intros x I; apply i32_ok; auto).
        apply Z.leb_le in Y. change (up_to None) with INT_FLOAT_MAX in Y. rewrite A, Y. reflexivity.
Qed.
Lemma known_holds : forall t, known t -> proper t /\ (exists ct, holds no_cls t ct) /\ no_string_name t.
Proof.
  intros t [->|[->| ->]]; (split; [exact I|]); (split; [|intros n []]); eexists; [apply H_one; constructor|apply H_one; constructor|apply H_seq; constructor].
Qed.
Lemma demo_get : forall (fs : list (string * ftype)) f t, NoDup (map fst fs) -> In (f, t) fs -> dget f fs = Some t.
Proof.
  induction fs as [|[g u] fs IH]; intros f t N I; [destruct I|]. cbn in N. inversion N as [|? ? N1 N2]; subst. cbn.
  destruct I as [I|I]; [injection I as -> ->; now rewrite String.eqb_refl|]. destruct (String.eqb_spec f g) as [->|]; [|auto].
  exfalso. apply N1. apply in_map_iff. exists (g, t). auto.
Qed.
Lemma demo_class_of : forall fs, NoDup (map fst fs) -> (forall f t, In (f, t) fs -> known t) -> class_of no_cls rnd (demo_class fs) fs.
Proof.
  intros fs N K. split; [reflexivity|]. split; [exact N|]. split; [|split].
  - intros f t I. destruct (known_holds t (K f t I)) as [A [B _]]. auto.
  - cbn. rewrite map_map. reflexivity.
  - intros f t v o I. cbn. rewrite (demo_get fs f t N I). apply store_ok. exact (K f t I).
Qed.
Lemma demo_readable : forall fs, (forall f t, In (f, t) fs -> known t) -> readable fs.
Proof. intros fs K f t I. exact (proj2 (proj2 (known_holds t (K f t I)))). Qed.
Lemma rnd_single : stays_single rnd.
Proof. intros f A. exact (setter_single f A). Qed.

(** A service with a request and a response. *)
Definition req_fields : list (string * ftype) := [("enable", FBool); ("values", FSeq I32 None)].
Definition resp_fields : list (string * ftype) := [("ok", FBool); ("count", I32)].
(** An action: the feedback does not have a field of the result. *)
Definition goal_fields : list (string * ftype) := [("order", I32)].
Definition result_fields : list (string * ftype) := [("sequence", FSeq I32 None)].
Definition feedback_fields : list (string * ftype) := [("progress", I32); ("done", FBool)].
Definition node_base : config := mkCfg [("service_type", mkC (TRosType RService 1) false true true None false)] [] (Some 0).

Lemma nodup2 : forall a b : string, String.eqb a b = false -> NoDup [a; b].
Proof.
  intros a b H. constructor; [|constructor; [intros []|constructor]]. intros [E|[]]. subst. rewrite String.eqb_refl in H. discriminate.
Qed.
Lemma req_class : class_of no_cls rnd (demo_class req_fields) req_fields.
Proof. apply demo_class_of; [apply nodup2; reflexivity|]. intros f t [I|[I|[]]]; injection I as <- <-; unfold known; auto. Qed.
Lemma resp_class : class_of no_cls rnd (demo_class resp_fields) resp_fields.
Proof. apply demo_class_of; [apply nodup2; reflexivity|]. intros f t [I|[I|[]]]; injection I as <- <-; unfold known; auto. Qed.
Lemma goal_class : class_of no_cls rnd (demo_class goal_fields) goal_fields.
Proof. apply demo_class_of; [constructor; [intros []|constructor]|]. intros f t [I|[]]; injection I as <- <-; unfold known; auto. Qed.
Lemma result_class : class_of no_cls rnd (demo_class result_fields) result_fields.
Proof. apply demo_class_of; [constructor; [intros []|constructor]|]. intros f t [I|[]]; injection I as <- <-; unfold known; auto. Qed.
Lemma feedback_class : class_of no_cls rnd (demo_class feedback_fields) feedback_fields.
Proof. apply demo_class_of; [apply nodup2; reflexivity|]. intros f t [I|[I|[]]]; injection I as <- <-; unfold known; auto. Qed.
