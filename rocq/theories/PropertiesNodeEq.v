(** Theorems about the comparison of nodes (C115). *)
From Coq Require Import Bool List Arith Lia.
From Verif Require Import ModelNodeEq SpecNodeEq.
Import ListNotations.

Lemma lists_refl : forall eq l, lists_eq eq l l = Some Yes.
Proof. induction l as [|x l IH]; cbn; [reflexivity|]. rewrite Nat.eqb_refl. exact IH. Qed.

Lemma forall2_len : forall (R : nat -> nat -> Prop) l m, Forall2 R l m -> length l = length m.
Proof. induction 1; cbn; congruence. Qed.

(** ** C115 *)

(** A node equals itself. *)
Theorem C115_same : forall A (front back : A -> A -> bool) h, forest h ->
  (forall x, front x x = true) -> (forall x, back x x = true) -> forall a, answers front back h a a Yes.
Proof.
  intros A front back h (_ & _ & depth & D) F B.
  assert (H : forall n a, depth a < n -> answers front back h a a Yes).
  { induction n as [|n IH]; intros a L; [lia|]. destruct (n_parent (h a)) as [p|] eqn:P.
    - destruct (IH p) as [f E]; [specialize (D _ _ P); lia|]. exists (S f). cbn. rewrite F, P, E, B, Nat.eqb_refl. apply lists_refl.
    - exists 1. cbn. rewrite F, P, B, Nat.eqb_refl. apply lists_refl. }
  intros a. exact (H _ a (Nat.lt_succ_diag_r _)).
Qed.
Print Assumptions C115_same.

(** It never equals a node with another id or name, and the answer Yes means that the attributes
    are equal. *)
Theorem C115_differs : forall A (front back : A -> A -> bool) h a b,
  (front (n_attr (h a)) (n_attr (h b)) = false -> answers front back h a b No) /\
  (answers front back h a b Yes -> same_attributes front back h a b /\ length (n_kids (h a)) = length (n_kids (h b)) /\
     (n_parent (h a) = None <-> n_parent (h b) = None)).
Proof.
  intros A front back h a b. split.
  - intros F. exists 1. cbn. rewrite F. reflexivity.
  - intros ([|f] & E); cbn in E; [discriminate|]. unfold same_attributes. destruct (front _ _); [|discriminate].
    destruct (n_parent (h a)) as [p|], (n_parent (h b)) as [q|]; try discriminate E.
    + destruct (node_eq front back f h p q) as [[]|]; try discriminate E. destruct (back _ _); [|discriminate].
      destruct (Nat.eqb_spec (length (n_kids (h a))) (length (n_kids (h b)))) as [L|]; [|discriminate].
      repeat split; auto; discriminate.
    + destruct (back _ _); [|discriminate].
      destruct (Nat.eqb_spec (length (n_kids (h a))) (length (n_kids (h b)))) as [L|]; [|discriminate].
      repeat split; auto.
Qed.
Print Assumptions C115_differs.

(** Nodes without parents and children are equal iff their attributes are. *)
Theorem C115_alone_partial : forall A (front back : A -> A -> bool) h a b, alone h a -> alone h b ->
  (answers front back h a b Yes <-> same_attributes front back h a b) /\
  (answers front back h a b No <-> ~ same_attributes front back h a b).
Proof.
  intros A front back h a b [P1 K1] [P2 K2]. unfold same_attributes.
  assert (E : forall r, answers front back h a b r <->
    r = if front (n_attr (h a)) (n_attr (h b)) && back (n_attr (h a)) (n_attr (h b)) then Yes else No).
  { intros r. split.
    - intros ([|f] & E); cbn in E; [discriminate|]. rewrite P1, P2, K1, K2 in E. cbn in E.
      destruct (front _ _); cbn; [|congruence]. destruct (back _ _); congruence.
    - intros ->. exists 1. cbn. rewrite P1, P2, K1, K2. destruct (front _ _); cbn; [|reflexivity]. destruct (back _ _); reflexivity. }
  rewrite !E. destruct (front _ _), (back _ _); cbn; split; split; intros H; try discriminate; auto; try (split; reflexivity);
    try (destruct H; discriminate); try (intros [? ?]; discriminate); try (exfalso; apply H; auto; fail).
Qed.
Print Assumptions C115_alone_partial.

(** The nodes of two trees that are equal cannot be compared: a node asks its parent, which asks
    its children.  This is so for all nodes of all trees with more than one node. *)
Theorem C115_copy_refuted : forall A (front back : A -> A -> bool) h copy, forest h -> copies front back h copy ->
  forall a b, copy a b -> ~ alone h a -> never_ends front back h a b.
Proof.
  intros A front back h copy (UP & DOWN & _) CP a b C N fuel. revert a b C N.
  induction fuel as [|fuel IH]; intros a b C N; [reflexivity|].
  destruct (CP a b C) as (NE & [F B] & PP & KK). cbn. rewrite F.
  destruct PP as [[Pa Pb]|(p & q & Pa & Pb & Cpq)]; rewrite Pa, Pb.
  - rewrite B. destruct (n_kids (h a)) as [|x l] eqn:Ka; [destruct N; split; assumption|].
    destruct (n_kids (h b)) as [|y m]; [inversion KK|].
    assert (Cxy : copy x y) by (inversion KK; assumption). apply forall2_len in KK. rewrite KK, Nat.eqb_refl. cbn [lists_eq].
    destruct (CP x y Cxy) as (NE' & _). destruct (Nat.eqb_spec x y) as [|_]; [contradiction|].
    rewrite (IH x y Cxy); [reflexivity|]. intros [Px _]. rewrite (DOWN a x) in Px; [discriminate|]. rewrite Ka. left. reflexivity.
  - rewrite (IH p q Cpq); [reflexivity|]. intros [_ K]. specialize (UP _ _ Pa). rewrite K in UP. destruct UP.
Qed.
Print Assumptions C115_copy_refuted.

(** A root and a node with a parent, with the same id and name: the comparison raises. *)
Theorem C115_root_refuted : forall A (front back : A -> A -> bool) h a b p,
  front (n_attr (h a)) (n_attr (h b)) = true -> n_parent (h a) = Some p /\ n_parent (h b) = None \/ n_parent (h a) = None /\ n_parent (h b) = Some p ->
  answers front back h a b AttributeError /\ forall r, answers front back h a b r -> r = AttributeError.
Proof.
  intros A front back h a b p F P. split.
  - exists 1. cbn. rewrite F. destruct P as [[-> ->]|[-> ->]]; reflexivity.
  - intros r ([|f] & E); cbn in E; [discriminate|]. rewrite F in E. destruct P as [[P Q]|[P Q]]; rewrite P, Q in E; congruence.
Qed.
Print Assumptions C115_root_refuted.

(** ** The hypotheses are met: a root 0 with children 1 and 2, its copy 3, 4 and 5 *)
Definition demo_heap : heap nat := fun a =>
  match a with
  | 0 => mkNode 7 None [1; 2] | 1 => mkNode 8 (Some 0) [] | 2 => mkNode 9 (Some 0) []
  | 3 => mkNode 7 None [4; 5] | 4 => mkNode 8 (Some 3) [] | 5 => mkNode 9 (Some 3) []
  | _ => mkNode 6 None []
  end.
Example C115_example :
  forest demo_heap /\ copies Nat.eqb Nat.eqb demo_heap (fun a b => a < 3 /\ b = a + 3) /\
  answers Nat.eqb Nat.eqb demo_heap 1 1 Yes /\ answers Nat.eqb Nat.eqb demo_heap 1 2 No /\
  never_ends Nat.eqb Nat.eqb demo_heap 0 3 /\ answers Nat.eqb Nat.eqb demo_heap 6 7 Yes.
Proof.
  assert (F : forest demo_heap).
  { split; [|split].
    - intros a p. do 6 (destruct a as [|a]; [cbn; intros [=]; subst; cbn; auto|]). discriminate.
    - intros p a. do 6 (destruct p as [|p]; [cbn; intros H; repeat destruct H as [<-|H]; try destruct H; reflexivity|]). intros [].
    - exists (fun a => match n_parent (demo_heap a) with None => 0 | Some _ => 1 end).
      intros a p. do 6 (destruct a as [|a]; [cbn; intros [=]; subst; cbn; auto|]). discriminate. }
  assert (C : copies Nat.eqb Nat.eqb demo_heap (fun a b => a < 3 /\ b = a + 3)).
  { intros a b [L ->]. split; [lia|]. destruct a as [|[|[|a]]]; [| | |lia]; cbn.
    - split; [split; reflexivity|]. split; [left; auto|]. repeat (apply Forall2_cons; [split; [lia|reflexivity]|]). apply Forall2_nil.
    - split; [split; reflexivity|]. split; [right; exists 0, 3; repeat split; lia|constructor].
    - split; [split; reflexivity|]. split; [right; exists 0, 3; repeat split; lia|constructor]. }
  split; [exact F|]. split; [exact C|]. split; [exists 2; reflexivity|]. split; [exists 1; reflexivity|].
  split; [|exists 1; reflexivity]. apply (C115_copy_refuted _ _ _ _ _ F C); [split; auto|]. intros [_ K]. discriminate.
Qed.
