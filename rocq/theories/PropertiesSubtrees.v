(** Properties of subtree managers: C60, C71. *)
From Coq Require Import Bool Arith Lia List.
From Verif Require Import Base ModelSubtrees SpecSubtrees ProofsSubtrees.
Import ListNotations.

(** * C60 Publish switches reach every subtree *)

(** Switching publishing of subtrees changes exactly that setting, in the manager and in
    every one nested in it at any depth. *)
Theorem C60_subtrees : forall M (h h' : heap M) v fuel m, set_pub v fuel h m = Some h' ->
  forall x, (within h m x -> m_pub (h' x) = v) /\ (~ within h m x -> m_pub (h' x) = m_pub (h x)) /\
    m_data (h' x) = m_data (h x) /\ m_nested (h' x) = m_nested (h x) /\ m_msgs (h' x) = m_msgs (h x).
Proof.
  intros M h h' v fuel m H x. apply pub_post in H. destruct (H x) as [A B]. split; [intros W; rewrite (A W); reflexivity|].
  split; [intros N; destruct B as [->|[W _]]; [reflexivity|contradiction]|]. destruct B as [->|[_ ->]]; auto.
Qed.
Print Assumptions C60_subtrees.
(** The same for publishing of data. *)
Theorem C60_data : forall M (h h' : heap M) v fuel m, set_data v fuel h m = Some h' ->
  forall x, (within h m x -> m_data (h' x) = v) /\ (~ within h m x -> m_data (h' x) = m_data (h x)) /\
    m_pub (h' x) = m_pub (h x) /\ m_nested (h' x) = m_nested (h x) /\ m_msgs (h' x) = m_msgs (h x).
Proof.
  intros M h h' v fuel m H x. apply data_post in H. destruct (H x) as [A B]. split; [intros W; rewrite (A W); reflexivity|].
  split; [intros N; destruct B as [->|[W _]]; [reflexivity|contradiction]|]. destruct B as [->|[_ ->]]; auto.
Qed.
Print Assumptions C60_data.
(** A manager that is added adopts both settings, with all that is nested in it; nothing
    else changes. *)
Theorem C60_adopt : forall M (h h' : heap M) fuel m id n, ~ within h n m -> add_nested fuel h m id n = Some h' ->
  nget id (m_nested (h' m)) = Some n /\ m_pub (h' m) = m_pub (h m) /\ m_data (h' m) = m_data (h m) /\
  (forall x, within h n x -> m_pub (h' x) = m_pub (h m) /\ m_data (h' x) = m_data (h m)) /\
  (forall x, x <> m -> ~ within h n x -> h' x = h x) /\
  (forall x, m_msgs (h' x) = m_msgs (h x)) /\ (forall x, x <> m -> m_nested (h' x) = m_nested (h x)) /\
  (forall k, k <> id -> nget k (m_nested (h' m)) = nget k (m_nested (h m))).
Proof.
  intros M h h' fuel m id n N H. apply add_spec in H; [|exact N]. destruct H as (h2 & -> & S & M2 & G & F & R).
  destruct (insert_flags h2 m id n m) as [P D].
  split; [unfold add_insert; rewrite upd_same; cbn; apply nget_nset|]. rewrite M2 in P, D. split; [exact P|]. split; [exact D|].
  split; [intros x W; destruct (insert_flags h2 m id n x) as [-> ->]; apply F; exact W|].
  split; [intros x X W; unfold add_insert; rewrite upd_other by exact X; destruct (R x); [assumption|contradiction]|].
  split; [|split].
  - intros x. unfold add_insert. destruct (Nat.eq_dec x m) as [->|X]; [rewrite upd_same; cbn|rewrite upd_other by exact X]; apply G.
  - intros x X. unfold add_insert. rewrite upd_other by exact X. apply S.
  - intros k K. unfold add_insert. rewrite upd_same. cbn. rewrite nget_other by exact K. rewrite M2. reflexivity.
Qed.
Print Assumptions C60_adopt.
(** In every history a manager and all that is nested in it have the same settings. *)
Theorem C60_agree : forall M (h : heap M) m x, managed h -> within h m x ->
  m_pub (h x) = m_pub (h m) /\ m_data (h x) = m_data (h m).
Proof. intros M h m x G W. apply agree_within; [apply managed_inv; exact G|exact W]. Qed.
Print Assumptions C60_agree.
(** And every switch and every addition is answered, given enough steps. *)
Theorem C60_answers : forall M (h : heap M) m, managed h -> exists steps, forall fuel, steps <= fuel ->
  (forall v, exists h', set_pub v fuel h m = Some h') /\ (forall v, exists h', set_data v fuel h m = Some h') /\
  (forall k, exists l, get k fuel h m = Some l) /\
  (forall p id, exists h', add_nested fuel h p id m = Some h').
Proof.
  intros M h m G. destruct (managed_inv _ G) as (_ & _ & C). specialize (C m).
  assert (T : exists f, forall f' h0, f <= f' -> same_nested h h0 ->
     (forall v, exists h1, set_pub v f' h0 m = Some h1) /\ (forall v, exists h1, set_data v f' h0 m = Some h1)).
  { destruct (set_all_total (with_pub true) (fun _ => eq_refl) (fun _ => eq_refl) h m C) as [f1 F1].
    destruct (set_all_total (with_pub false) (fun _ => eq_refl) (fun _ => eq_refl) h m C) as [f2 F2].
    destruct (set_all_total (with_data true) (fun _ => eq_refl) (fun _ => eq_refl) h m C) as [f3 F3].
    destruct (set_all_total (with_data false) (fun _ => eq_refl) (fun _ => eq_refl) h m C) as [f4 F4].
    exists (f1 + f2 + f3 + f4). intros f' h0 L S. split; intros []; [apply F1|apply F2|apply F3|apply F4]; auto; lia. }
  destruct T as [f F].
  assert (K : exists f, forall f' k, f <= f' -> exists l, get k f' h m = Some l).
  { destruct (get_total Structures h m C) as [f1 F1], (get_total States h m C) as [f2 F2], (get_total Data h m C) as [f3 F3].
    exists (f1 + f2 + f3). intros f' [] L; [apply F1|apply F2|apply F3]; lia. }
  destruct K as [g K]. exists (f + g). intros fuel L.
  destruct (F fuel h ltac:(lia) (fun _ => eq_refl)) as [F1 F2]. split; [exact F1|]. split; [exact F2|].
  split; [intros k; apply K; lia|]. intros p id. unfold add_nested, add_pub.
  destruct (F1 (m_pub (h p))) as [h1 E]. rewrite E. unfold add_data. apply pub_post in E.
  assert (S := post_nested (with_pub (m_pub (h p))) (fun _ => eq_refl) _ _ _ E).
  destruct (F fuel h1 ltac:(lia) S) as [_ F3]. destruct (F3 (m_data (h1 p))) as [h2 ->]. eauto.
Qed.
Print Assumptions C60_answers.

(** A manager that is nested in itself can never be switched again. *)
Theorem C60_self_refuted : exists (h : heap nat) fuel m id h', add_nested fuel h m id m = Some h' /\
  forall v fuel', set_pub v fuel' h' m = None.
Proof.
  exists (fun _ => new_mgr), 1, 0, 0. eexists. split; [reflexivity|]. intros v fuel.
  set (h0 := add_insert _ 0 0 0). assert (L : forall f (h : heap nat), m_nested (h 0) = [(0, 0)] -> set_pub v f h 0 = None).
  { induction f as [|f IH]; intros h E; [reflexivity|]. unfold set_pub. rewrite set_all_S, E. cbn [set_list].
    unfold set_pub in IH. rewrite IH; [reflexivity|]. rewrite upd_same. exact E. }
  apply L. reflexivity.
Qed.
Print Assumptions C60_self_refuted.
(** A switch between the steps of an addition does not reach the added manager. *)
Theorem C60_race_refuted : exists (h h1 h2 h3 : heap nat) fuel m id n, managed h /\ ~ within h n m /\
  add_pub fuel h m n = Some h1 /\ set_pub false fuel h1 m = Some h2 /\ add_data fuel h2 m n = Some h3 /\
  m_pub (add_insert h3 m id n m) = false /\ in_ (add_insert h3 m id n) m n /\ m_pub (add_insert h3 m id n n) = true.
Proof.
  exists (fun _ => new_mgr). do 3 eexists. exists 1, 0, 5, 1. split; [constructor|]. split.
  { intros W. apply within_first in W. destruct W as [W|(x & (k & []) & _)]. discriminate W. }
  split; [reflexivity|]. split; [reflexivity|]. split; [reflexivity|]. split; [reflexivity|].
  split; [exists 5; left; reflexivity|reflexivity].
Qed.
Print Assumptions C60_race_refuted.

(** * C71 Subtrees are published exactly when asked for *)

(** In every history a getter returns the messages of the manager and of everything nested
    in it, and nothing while publishing of subtrees is off. *)
Theorem C71_get : forall M (h : heap M) k fuel m l, managed h -> get k fuel h m = Some l ->
  (m_pub (h m) = false -> l = []) /\
  (m_pub (h m) = true -> forall msg, In msg l <-> exists x id, within h m x /\ In (id, msg) (m_msgs (h x) k)).
Proof.
  intros M h k fuel m l G H. split.
  - intros P. destruct fuel; [discriminate|]. rewrite get_S, P in H. injection H as <-. reflexivity.
  - intros P. eapply get_spec; [apply managed_inv; exact G|exact P|exact H].
Qed.
Print Assumptions C71_get.
(** A message replaces the one of the same node; the others stay. *)
Theorem C71_add : forall M (h : heap M) k m id msg, 
  nget id (m_msgs (add_msg k h m id msg m) k) = Some msg /\
  (forall id', id' <> id -> nget id' (m_msgs (add_msg k h m id msg m) k) = nget id' (m_msgs (h m) k)) /\
  (forall k', k' <> k -> m_msgs (add_msg k h m id msg m) k' = m_msgs (h m) k') /\
  (forall x, x <> m -> add_msg k h m id msg x = h x) /\
  m_nested (add_msg k h m id msg m) = m_nested (h m).
Proof.
  intros M h k m id msg. unfold add_msg. rewrite upd_same. cbn [m_msgs m_nested].
  replace (kind_eqb k k) with true by (destruct k; reflexivity). split; [apply nget_nset|].
  split; [intros id' N; apply nget_other; exact N|]. split; [intros k' N; destruct k, k'; cbn; congruence|].
  split; [intros x X; apply upd_other; exact X|reflexivity].
Qed.
Print Assumptions C71_add.
(** Removing the subtree of a node removes what is stored for it and keeps the rest;
    clearing removes everything. *)
Theorem C71_remove : forall M (h : heap M) m id,
  (forall k msg, ~ In (id, msg) (m_msgs (remove h m id m) k)) /\ (forall n, ~ In (id, n) (m_nested (remove h m id m))) /\
  (forall k id' msg, id' <> id -> In (id', msg) (m_msgs (remove h m id m) k) <-> In (id', msg) (m_msgs (h m) k)) /\
  (forall id' n, id' <> id -> In (id', n) (m_nested (remove h m id m)) <-> In (id', n) (m_nested (h m))) /\
  (forall x, x <> m -> remove h m id x = h x) /\
  (forall k, m_msgs (clear h m m) k = []) /\ m_nested (clear h m m) = [] /\ (forall x, x <> m -> clear h m x = h x).
Proof.
  intros M h m id. unfold remove, clear. rewrite !upd_same. cbn [m_msgs m_nested].
  split; [intros k msg I; apply filter_In in I; cbn in I; rewrite Nat.eqb_refl in I; destruct I; discriminate|].
  split; [intros n I; apply filter_In in I; cbn in I; rewrite Nat.eqb_refl in I; destruct I; discriminate|].
  split; [intros k id' msg N; unfold ndel; rewrite filter_In; cbn; apply Nat.eqb_neq in N; rewrite N; tauto|].
  split; [intros id' n N; unfold ndel; rewrite filter_In; cbn; apply Nat.eqb_neq in N; rewrite N; tauto|].
  split; [intros x X; apply upd_other; exact X|]. split; [reflexivity|]. split; [reflexivity|].
  intros x X; apply upd_other; exact X.
Qed.
Print Assumptions C71_remove.

(** ** A history: 2 in 1, 1 in 0, then switches. *)
Definition d0 : heap nat := fun _ => new_mgr.
Definition or_ {A} (o : option A) (d : A) : A := match o with Some a => a | None => d end.
Definition d1 : heap nat := or_ (add_nested 3 d0 1 7 2) d0.
Definition d2 : heap nat := add_msg Structures (add_msg Structures d1 1 7 10) 2 8 20.
Definition d3 : heap nat := or_ (set_data true 3 d2 0) d2.
Definition d4 : heap nat := or_ (add_nested 3 d3 0 9 1) d3.
Definition d5 : heap nat := or_ (set_pub false 3 d4 0) d4.
Example C60_example : managed d4 /\ managed d5 /\ within d4 0 2 /\ m_data (d4 2) = true /\ m_data (d3 2) = false /\
  m_pub (d5 2) = false /\ m_pub (d4 2) = true /\
  get Structures 3 d4 0 = Some [10; 20] /\ get Structures 3 d5 0 = Some [] /\ get Structures 2 (remove d4 1 7) 0 = Some [].
Proof.
  assert (G1 : managed d1).
  { apply (g_nest d0 1 7 2 3); [constructor|intros p k []| |reflexivity].
    intros W. apply within_first in W. destruct W as [W|(x & (k & []) & _)]. discriminate W. }
  assert (G3 : managed d3).
  { apply (g_data d2 0 true 3); [unfold d2; do 2 constructor; exact G1| |reflexivity].
    intros p (k & I). destruct p as [|[|[|p]]]; cbn in I; try contradiction. destruct I as [I|[]]. discriminate I. }
  assert (G4 : managed d4).
  { apply (g_nest d3 0 9 1 3); [exact G3| | |reflexivity].
    - intros p k I. destruct p as [|[|[|p]]]; cbn in I; try contradiction. destruct I as [I|[]]. discriminate I.
    - intros W. apply within_first in W. destruct W as [W|(x & (k & I) & W)]; [discriminate W|].
      cbn in I. destruct I as [I|[]]. injection I as <- <-. apply within_first in W.
      destruct W as [W|(x & (k & []) & _)]. discriminate W. }
  split; [exact G4|]. split.
  { apply (g_pub d4 0 false 3); [exact G4| |reflexivity].
    intros p (k & I). destruct p as [|[|[|p]]]; cbn in I; try contradiction; destruct I as [I|[]]; discriminate I. }
  split; [apply (w_in _ _ 1); [apply (w_in _ _ 0); [constructor|exists 9; left; reflexivity]|exists 7; left; reflexivity]|].
  repeat split; reflexivity.
Qed.
