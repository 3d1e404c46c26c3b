(** Concrete editing sessions for the examples beside the theorems, and a check by
    computation that they are histories in the sense of SpecEdit. *)
From Coq Require Import String ZArith Bool Arith List.
From Verif Require Import Base ModelData ModelEdit SpecEdit.
Import ListNotations.
Local Open Scope string_scope.

(** ** Checking sessions *)

Definition answer (fuel : nat) (e : edit) (g : mgr) : res unit :=
  match serve fuel e g with Some (_, r) => r | None => Raise end.
Definition next (fuel : nat) (e : edit) (g : mgr) : mgr :=
  match serve fuel e g with Some (g', _) => g' | None => g end.
Definition returns (fuel : nat) (e : edit) (g : mgr) : bool :=
  match serve fuel e g with Some _ => true | None => false end.
Definition session (es : list edit) (g : mgr) : mgr := fold_left (fun g e => next 100 e g) es g.

Definition freshb (g : mgr) (e : edit) : bool :=
  match e with
  | EAdd u p _ _ _ | EAddLast u p _ _ =>
      negb (Nat.eqb u 0) && negb (nhas u (g_nodes g)) &&
      match ros_to_uuid p with Some q => negb (Nat.eqb q u) | None => true end
  | _ => true
  end.
Fixpoint nodupb (l : list (option nid)) : bool :=
  match l with [] => true | x :: r => negb (existsb (opt_nat_eqb x) r) && nodupb r end.
Definition saneb (g : mgr) (e : edit) : bool :=
  match e with
  | EMorph i x | EOptions i x =>
      match ros_to_uuid i, x with
      | Some n, Ok c => match f_max c with Some m => Nat.leb (List.length (kids g n)) m | None => true end
      | _, _ => true
      end
  | ELoad nodes _ _ => nodupb (map (fun m => ros_to_uuid (ms_id m)) nodes) && nodupb (map ros_to_uuid (flat_map ms_children nodes))
  | _ => true
  end.
Fixpoint checked (strict : bool) (es : list edit) (g : mgr) : bool :=
  match es with
  | [] => true
  | e :: r => freshb g e && (negb strict || saneb g e) && returns 100 e g && checked strict r (next 100 e g)
  end.

Lemma freshb_fresh : forall g e, freshb g e = true -> fresh g e.
Proof.
  assert (X : forall g u p, negb (Nat.eqb u 0) && negb (nhas u (g_nodes g)) &&
      match ros_to_uuid p with Some q => negb (Nat.eqb q u) | None => true end = true -> fresh_id g u p).
  { intros g u p H. apply andb_true_iff in H. destruct H as [H1 H2]. apply andb_true_iff in H1. destruct H1 as [H0 H1].
    apply negb_true_iff, Nat.eqb_neq in H0. apply negb_true_iff in H1. split; [exact H0|]. split.
    - unfold present, nhas in *. destruct (nget u (g_nodes g)); [discriminate|]. intros X. apply X. reflexivity.
    - intros E. rewrite E, Nat.eqb_refl in H2. discriminate. }
  intros g e H. destruct e; cbn in *; auto.
Qed.
Lemma nodupb_NoDup : forall l, nodupb l = true -> NoDup l.
Proof.
  induction l as [|x l IH]; cbn; intros H; [constructor|]. apply andb_true_iff in H. destruct H as [H1 H2].
  constructor; [|auto]. intros I. apply negb_true_iff in H1. assert (existsb (opt_nat_eqb x) l = true); [|congruence].
  apply existsb_exists. exists x. split; [exact I|]. destruct x; cbn; [apply Nat.eqb_refl|reflexivity].
Qed.
Lemma saneb_sane : forall g e gr, saneb g e = true -> sane_call g e gr.
Proof.
  assert (X : forall g i x, match ros_to_uuid i, x with
      | Some n, Ok c => match f_max c with Some m => Nat.leb (List.length (kids g n)) m | None => true end
      | _, _ => true end = true -> room_for g i x).
  { intros g i x H n c m En Ex Em. rewrite En, Ex, Em in H. apply Nat.leb_le. exact H. }
  intros g e gr H. destruct e; cbn [saneb sane_call] in *; auto.
  apply andb_true_iff in H. destruct H as [H1 H2]. split; apply nodupb_NoDup; assumption.
Qed.

Lemma session_any : forall pub es g, history any_call pub g -> checked false es g = true -> history any_call pub (session es g).
Proof.
  intros pub es. induction es as [|e es IH]; intros g H C; cbn [session fold_left] in *; [exact H|].
  cbn [checked] in C. apply andb_true_iff in C. destruct C as [C C3]. apply andb_true_iff in C. destruct C as [C C2].
  apply andb_true_iff in C. destruct C as [C0 _]. apply IH; [|exact C3]. unfold next. unfold returns in C2.
  destruct (serve 100 e g) as [[g' r]|] eqn:E; [|discriminate].
  apply (H_call _ _ 100 g e g' r H (freshb_fresh _ _ C0) E I).
Qed.
Lemma session_sane : forall pub es g, history sane_call pub g -> checked true es g = true -> history sane_call pub (session es g).
Proof.
  intros pub es. induction es as [|e es IH]; intros g H C; cbn [session fold_left] in *; [exact H|].
  cbn [checked] in C. apply andb_true_iff in C. destruct C as [C C3]. apply andb_true_iff in C. destruct C as [C C2].
  apply andb_true_iff in C. destruct C as [C0 C1]. apply IH; [|exact C3]. unfold next. unfold returns in C2.
  destruct (serve 100 e g) as [[g' r]|] eqn:E; [|discriminate].
  apply (H_call _ _ 100 g e g' r H (freshb_fresh _ _ C0) E). apply saneb_sane. exact C1.
Qed.

(** ** A tree

    1: a flow control node with the children 2 (leaf with output), 3 (leaf with input)
    and 4, a decorator with the child 5.  The output of 2 is wired to the input of 3. *)

Definition box : config := mkCfg [] [] None.
Definition deco : config := mkCfg [] [] (Some 1).
Definition out_leaf : config := mkCfg [] [("o", mkC (TInt 0 10) true false false None false)] (Some 0).
Definition in_leaf : config := mkCfg [("i", mkC (TInt 0 10) true false false None false)] [] (Some 0).

Definition id (n : nid) : idtext := Good n 0.
Definition w23 : wiring := mkWi (id 2) "o" (id 3) "i".
Definition demo_edits : list edit :=
  [EAdd 1 (id 0) (Ok box) [] 0; EAddLast 2 (id 1) (Ok out_leaf) []; EAddLast 3 (id 1) (Ok in_leaf) [];
   EAddLast 4 (id 1) (Ok deco) []; EAddLast 5 (id 4) (Ok out_leaf) []; EWireD [w23] false].
Definition demo : mgr := session demo_edits (empty_mgr true).

Lemma demo_history : history sane_call true demo.
Proof. apply session_sane; [apply H_new|vm_compute; reflexivity]. Qed.

(** What an observer sees of the nodes 0 to 9. *)
Definition look (g : mgr) : list nid * list (list nid) * list (option nid) * list wiring :=
  (order g, map (kids g) (seq 0 10), map (par g) (seq 0 10), g_wires g).

(** ** Other sessions *)

(** A message with an error in the last node; the links of the others are made. *)
Definition stale_edits : list edit :=
  [ELoad [mkM (id 1) (Ok box) [id 2]; mkM (id 2) (Ok box) [id 3]; mkM (id 3) (Ok box) []; mkM (id 4) (Ok box) [Bad 0]] [] ""].
(** A chain 1 - 2 - 3. *)
Definition chain_edits : list edit :=
  [EAdd 1 (id 0) (Ok box) [] 0; EAdd 2 (id 1) (Ok box) [] 0; EAdd 3 (id 2) (Ok box) [] 0].
(** [demo] with a second decorator 6 under 1, which has the child 7. *)
Definition two_decos : list edit :=
  (demo_edits ++ [EAddLast 6 (id 1) (Ok deco) []; EAddLast 7 (id 6) (Ok out_leaf) []])%list.
(** [demo] with 1 moved under itself. *)
Definition loop_edits : list edit := (demo_edits ++ [EMove (id 1) (id 1) 0])%list.
