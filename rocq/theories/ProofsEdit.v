(** Proofs about editing, part 1: the heap invariant and the single operations. *)
From Coq Require Import String ZArith Bool Arith Lia Relations List.
From Verif Require Import Base ModelData ModelEdit SpecEdit.
Import ListNotations.

(** ** Dictionaries and lists *)

Lemma mem_In : forall x l, mem x l = true <-> In x l.
Proof.
  intros x l. unfold mem. rewrite existsb_exists. split.
  - intros (y & Hy & E). apply Nat.eqb_eq in E. subst. exact Hy.
  - intros H. exists x. rewrite Nat.eqb_refl. auto.
Qed.
Lemma mem_nIn : forall x l, mem x l = false <-> ~ In x l.
Proof. intros x l. rewrite <- mem_In. destruct (mem x l); split; congruence. Qed.

Section Dict.
Context {A : Type}.
Implicit Types l : list (nid * A).
Lemma nget_nset : forall k v l i, nget i (nset k v l) = if Nat.eqb i k then Some v else nget i l.
Proof.
  induction l as [|[k' v'] l IH]; intros i; cbn [nset nget].
  - reflexivity.
  - destruct (Nat.eqb k k') eqn:E; cbn [nget].
    + apply Nat.eqb_eq in E. subst k'. destruct (Nat.eqb i k); reflexivity.
    + rewrite IH. destruct (Nat.eqb i k') eqn:E1; [|reflexivity].
      apply Nat.eqb_eq in E1. subst k'. rewrite Nat.eqb_sym, E. reflexivity.
Qed.
Lemma nget_filter : forall (f : nid -> bool) l i,
  nget i (filter (fun kv => f (fst kv)) l) = if f i then nget i l else None.
Proof.
  induction l as [|[k' v'] l IH]; intros i; cbn [filter nget fst].
  - destruct (f i); reflexivity.
  - destruct (f k') eqn:Ef; cbn [nget]; rewrite IH; destruct (Nat.eqb i k') eqn:E; auto.
    + apply Nat.eqb_eq in E. subst k'. rewrite Ef. reflexivity.
    + apply Nat.eqb_eq in E. subst k'. rewrite Ef. reflexivity.
Qed.
Lemma nget_In : forall l i v, nget i l = Some v -> In (i, v) l.
Proof.
  induction l as [|[k' v'] l IH]; intros i v H; cbn [nget] in H; [discriminate|].
  destruct (Nat.eqb i k') eqn:E; [|right; auto].
  apply Nat.eqb_eq in E. injection H as ->. subst. left. reflexivity.
Qed.
Lemma nget_None : forall l i, nget i l = None <-> ~ In i (map fst l).
Proof.
  induction l as [|[k' v'] l IH]; intros i; cbn [nget map fst]; [split; auto|].
  destruct (Nat.eqb i k') eqn:E.
  - apply Nat.eqb_eq in E. subst. split; [discriminate|intros H; elim H; left; reflexivity].
  - apply Nat.eqb_neq in E. rewrite IH. cbn [In]. split; [intros H [H'|H']; congruence|auto].
Qed.
Lemma nget_present : forall l i, nget i l <> None <-> In i (map fst l).
Proof.
  intros l i. pose proof (nget_None l i) as H. destruct (nget i l) eqn:E.
  - split; [intros _|congruence]. destruct (in_dec Nat.eq_dec i (map fst l)) as [?|n]; auto.
    apply H in n. discriminate.
  - split; [congruence|]. intros Hi. destruct (proj1 H eq_refl Hi).
Qed.
Lemma In_nget : forall l i v, NoDup (map fst l) -> In (i, v) l -> nget i l = Some v.
Proof.
  induction l as [|[k' v'] l IH]; intros i v Hn Hi; [destruct Hi|].
  cbn [map fst] in Hn. apply NoDup_cons_iff in Hn. destruct Hn as [Hn1 Hn2]. cbn [nget].
  destruct Hi as [Hi|Hi].
  - injection Hi as -> ->. rewrite Nat.eqb_refl. reflexivity.
  - destruct (Nat.eqb i k') eqn:E; [|auto].
    apply Nat.eqb_eq in E. subst. elim Hn1. apply (in_map fst) in Hi. exact Hi.
Qed.
Lemma nset_keys : forall k v l, map fst (nset k v l) =
  if nhas k l then map fst l else (map fst l ++ [k])%list.
Proof.
  unfold nhas. induction l as [|[k' v'] l IH]; cbn [nset nget map fst app]; [reflexivity|].
  destruct (Nat.eqb k k') eqn:E; cbn [map fst].
  - apply Nat.eqb_eq in E. subst. reflexivity.
  - rewrite IH. destruct (nget k l); reflexivity.
Qed.
Lemma nhas_present : forall k l, nhas k l = true <-> In k (map fst l).
Proof. intros k l. rewrite <- nget_present. unfold nhas. destruct (nget k l); split; congruence. Qed.
Lemma NoDup_snoc : forall (l : list nid) k, NoDup l -> ~ In k l -> NoDup (l ++ [k]).
Proof.
  induction l as [|x l IH]; intros k H Hk; cbn [app].
  - constructor; [auto|constructor].
  - apply NoDup_cons_iff in H. destruct H as [H1 H2]. constructor.
    + intros Hi. apply in_app_or in Hi. destruct Hi as [Hi|[Hi|[]]]; [auto|]. apply Hk. left. auto.
    + apply IH; auto. intros Hi. apply Hk. right. exact Hi.
Qed.
Lemma NoDup_nset : forall k v l, NoDup (map fst l) -> NoDup (map fst (nset k v l)).
Proof.
  intros k v l H. rewrite nset_keys. destruct (nhas k l) eqn:E; auto.
  apply NoDup_snoc; auto. intros Hi. apply nhas_present in Hi. congruence.
Qed.
Lemma NoDup_nfilter : forall (f : nid * A -> bool) l, NoDup (map fst l) -> NoDup (map fst (filter f l)).
Proof.
  induction l as [|x l IH]; intros H; cbn [filter map]; auto.
  cbn [map] in H. apply NoDup_cons_iff in H. destruct H as [H1 H2].
  destruct (f x); cbn [map]; auto. constructor; auto.
  intros Hi. apply H1. apply in_map_iff in Hi. destruct Hi as (y & Hy & Hi). apply filter_In in Hi.
  rewrite <- Hy. apply in_map. tauto.
Qed.
End Dict.

(** [without] removes from a duplicate-free list. *)
Lemma In_without : forall x y l, In y (without x l) <-> In y l /\ y <> x.
Proof.
  intros x y l. unfold without. rewrite filter_In. split.
  - intros [H E]. split; auto. intros ->. rewrite Nat.eqb_refl in E. discriminate.
  - intros [H E]. split; auto. apply negb_true_iff, Nat.eqb_neq. congruence.
Qed.
Lemma without_id : forall x l, ~ In x l -> without x l = l.
Proof.
  induction l as [|y l IH]; intros H; [reflexivity|]. cbn [without filter].
  destruct (Nat.eqb x y) eqn:E; cbn [negb].
  - apply Nat.eqb_eq in E. subst. elim H. left. reflexivity.
  - f_equal. apply IH. intros Hi. apply H. right. exact Hi.
Qed.
Lemma NoDup_filter' : forall (f : nid -> bool) l, NoDup l -> NoDup (filter f l).
Proof. intros f l. apply NoDup_filter. Qed.
Lemma length_filter_le : forall {A} (f : A -> bool) l, length (filter f l) <= length l.
Proof. induction l as [|x l IH]; cbn [filter length]; [lia|]. destruct (f x); cbn [length]; lia. Qed.
Lemma length_without : forall x l, NoDup l -> In x l -> S (length (without x l)) = length l.
Proof.
  induction l as [|y l IH]; intros Hn Hi; [destruct Hi|].
  apply NoDup_cons_iff in Hn. destruct Hn as [H1 H2]. cbn [without filter].
  destruct (Nat.eqb x y) eqn:E; cbn [negb length].
  - apply Nat.eqb_eq in E. subst. change (filter (fun z => negb (Nat.eqb y z)) l) with (without y l).
    rewrite without_id; auto.
  - destruct Hi as [Hi|Hi]; [subst; rewrite Nat.eqb_refl in E; discriminate|].
    f_equal. change (filter (fun z => negb (Nat.eqb x z)) l) with (without x l). auto.
Qed.
Lemma del_at_without : forall k c (l : list nid), NoDup l -> nth_error l k = Some c -> del_at k l = without c l.
Proof.
  induction k as [|k IH]; intros c l Hn H; destruct l as [|y l]; cbn [nth_error] in H; try discriminate.
  - injection H as ->. unfold del_at. cbn [firstn skipn app].
    apply NoDup_cons_iff in Hn. cbn [without filter]. rewrite Nat.eqb_refl. cbn [negb].
    symmetry. apply without_id. tauto.
  - apply NoDup_cons_iff in Hn. destruct Hn as [H1 H2].
    unfold del_at in *. cbn [firstn skipn app]. cbn [without filter].
    destruct (Nat.eqb c y) eqn:E; cbn [negb].
    + apply Nat.eqb_eq in E. subst. elim H1. eapply nth_error_In; eauto.
    + f_equal. apply IH; auto.
Qed.

(** Insertion into a list. *)
Lemma slice_insert_split : forall {A} i (x : A) l, exists a b,
  l = (a ++ b)%list /\ slice_insert i x l = (a ++ x :: b)%list /\
  length a = Z.to_nat (if Z.ltb i 0 then Z.max 0 (i + Z.of_nat (length l)) else Z.min i (Z.of_nat (length l))).
Proof.
  intros A i x l. unfold slice_insert. set (j := Z.to_nat _).
  exists (firstn j l), (skipn j l). split; [symmetry; apply firstn_skipn|]. split; [reflexivity|].
  rewrite firstn_length. subst j. destruct (Z.ltb i 0) eqn:E; lia.
Qed.
Lemma slice_insert_map : forall {A B} (f : A -> B) i x l, map f (slice_insert i x l) = slice_insert i (f x) (map f l).
Proof.
  intros. unfold slice_insert. rewrite map_length. set (j := Z.to_nat _).
  rewrite map_app. cbn [map]. rewrite <- firstn_map, <- skipn_map. reflexivity.
Qed.

(** The list that add_child computes. *)
Definition insert (at_index : option Z) {A} (x : A) (l : list A) : list A :=
  let i := match at_index with None => Z.of_nat (length l) | Some i => i end in
  slice_insert (if Z.ltb i 0 then (i + Z.of_nat (length l) + 1)%Z else i) x l.

Lemma insert_map : forall {A B} (f : A -> B) i x l, map f (insert i x l) = insert i (f x) (map f l).
Proof. intros. unfold insert. rewrite slice_insert_map, map_length. reflexivity. Qed.

Lemma insert_split : forall {A} i (x : A) l, exists a b, l = (a ++ b)%list /\ insert i x l = (a ++ x :: b)%list.
Proof.
  intros A i x l. unfold insert. destruct (slice_insert_split (A:=A)
    (if Z.ltb (match i with None => Z.of_nat (length l) | Some i => i end) 0
     then (match i with None => Z.of_nat (length l) | Some i => i end + Z.of_nat (length l) + 1)%Z
     else match i with None => Z.of_nat (length l) | Some i => i end) x l) as (a & b & H & H' & _).
  eauto.
Qed.
Lemma insert_In : forall {A} i (x y : A) l, In y (insert i x l) <-> y = x \/ In y l.
Proof.
  intros A i x y l. destruct (insert_split i x l) as (a & b & -> & ->).
  rewrite !in_app_iff. cbn [In]. split; [intros [H|[H|H]]|intros [H|[H|H]]]; auto.
Qed.
Lemma insert_length : forall {A} i (x : A) l, length (insert i x l) = S (length l).
Proof.
  intros A i x l. destruct (insert_split i x l) as (a & b & -> & ->). rewrite !app_length. cbn [length]. lia.
Qed.
Lemma insert_NoDup : forall {A} i (x : A) l, NoDup l -> ~ In x l -> NoDup (insert i x l).
Proof.
  intros A i x l Hn Hx. destruct (insert_split i x l) as (a & b & E & ->). subst l.
  apply NoDup_Add with (a := x) (l := (a ++ b)%list); [apply Add_app|]. auto.
Qed.
Lemma insert_placed : forall {A} i (x : A) l, placed i x l (insert (Some i) x l).
Proof.
  intros A i x l. unfold insert, placed.
  destruct (slice_insert_split (if Z.ltb i 0 then (i + Z.of_nat (length l) + 1)%Z else i) x l)
    as (a & b & E & -> & Hl).
  exists a, b. split; [exact E|]. split; [reflexivity|].
  rewrite Hl. split; intros Hi.
  - replace (Z.ltb i 0) with false by (symmetry; apply Z.ltb_ge; lia).
    replace (Z.ltb i 0) with false by (symmetry; apply Z.ltb_ge; lia). lia.
  - replace (Z.ltb i 0) with true by (symmetry; apply Z.ltb_lt; lia).
    replace (Z.ltb (i + Z.of_nat (length l) + 1) 0) with false by (symmetry; apply Z.ltb_ge; lia). lia.
Qed.
Lemma insert_last : forall {A} (x : A) l, insert None x l = (l ++ [x])%list.
Proof.
  intros A x l. unfold insert. replace (Z.ltb (Z.of_nat (length l)) 0) with false by (symmetry; apply Z.ltb_ge; lia).
  destruct (slice_insert_split (Z.of_nat (length l)) x l) as (a & b & E & -> & Hl).
  replace (Z.ltb (Z.of_nat (length l)) 0) with false in Hl by (symmetry; apply Z.ltb_ge; lia).
  rewrite Z.min_id, Nat2Z.id in Hl. subst l. rewrite app_length in Hl.
  destruct b; [rewrite app_nil_r; reflexivity|cbn [length] in Hl; lia].
Qed.

(** ** The heap invariant *)

Definition reg (nodes : list (nid * oid)) (h : oid -> nobj) (o : oid) : Prop := nget (n_id (h o)) nodes = Some o.

Record HW (nodes : list (nid * oid)) (next : oid) (h : oid -> nobj) : Prop := {
  hw_keys : NoDup (map fst nodes);
  hw_id : forall i o, nget i nodes = Some o -> n_id (h o) = i /\ o < next;
  hw_nodup : forall o, reg nodes h o -> NoDup (n_children (h o));
  hw_child : forall o c, reg nodes h o -> In c (n_children (h o)) -> reg nodes h c /\ n_parent (h c) = Some o;
  hw_par : forall o p, reg nodes h o -> n_parent (h o) = Some p -> reg nodes h p /\ In o (n_children (h p));
  hw_max : forall o m, reg nodes h o -> f_max (n_cfg (h o)) = Some m -> length (n_children (h o)) <= m }.

Definition HWg (g : mgr) : Prop := HW (g_nodes g) (g_next g) (g_heap g).

Lemma reg_eq : forall nodes h o o', reg nodes h o -> reg nodes h o' -> n_id (h o) = n_id (h o') -> o = o'.
Proof. unfold reg. intros nodes h o o' H H' E. rewrite E in H. congruence. Qed.
Lemma nget_reg : forall nodes next h i o, HW nodes next h -> nget i nodes = Some o -> reg nodes h o.
Proof. intros nodes next h i o H E. unfold reg. destruct (hw_id _ _ _ H _ _ E) as [-> _]. exact E. Qed.

(** Two heaps that agree on identifiers and configurations. *)
Definition same_ids (h h' : oid -> nobj) : Prop := forall o, n_id (h' o) = n_id (h o) /\ n_cfg (h' o) = n_cfg (h o).
Lemma same_ids_refl : forall h, same_ids h h.
Proof. split; reflexivity. Qed.
Lemma same_ids_trans : forall a b c, same_ids a b -> same_ids b c -> same_ids a c.
Proof. intros a b c H H' o. destruct (H o), (H' o). split; congruence. Qed.
Lemma same_ids_reg : forall nodes h h' o, same_ids h h' -> (reg nodes h' o <-> reg nodes h o).
Proof. intros nodes h h' o H. unfold reg. destruct (H o) as [-> _]. reflexivity. Qed.
Lemma same_ids_of : forall h h' l, same_ids h h' -> ids_of h' l = ids_of h l.
Proof. intros h h' l H. unfold ids_of. apply map_ext. intros o. apply H. Qed.

Lemma index_of_Some : forall x l k, index_of x l = Some k -> nth_error l k = Some x.
Proof.
  induction l as [|y l IH]; intros k H; cbn [index_of] in H; [discriminate|].
  destruct (Nat.eqb x y) eqn:E.
  - injection H as <-. apply Nat.eqb_eq in E. subst. reflexivity.
  - destruct (index_of x l) eqn:E'; cbn in H; [|discriminate]. injection H as <-. cbn. auto.
Qed.
Lemma index_of_None : forall x l, index_of x l = None <-> ~ In x l.
Proof.
  induction l as [|y l IH]; cbn [index_of In]; [tauto|].
  destruct (Nat.eqb x y) eqn:E.
  - apply Nat.eqb_eq in E. subst. split; [discriminate|]. intros H. elim H. auto.
  - apply Nat.eqb_neq in E. destruct (index_of x l) eqn:E'; cbn.
    + split; [discriminate|]. intros H. exfalso.
      assert (In x l) by (apply index_of_Some in E'; eapply nth_error_In; eauto). tauto.
    + split; auto. intros _ [H|H]; [congruence|]. apply (proj1 IH); auto.
Qed.

(** What [remove_child] does. *)
Lemma remove_child_spec : forall h p i h' c, NoDup (n_children (h p)) -> remove_child h p i = Ok (h', c) ->
  n_id (h c) = i /\ In c (n_children (h p)) /\ same_ids h h' /\
  (forall o, n_children (h' o) = if Nat.eqb o p then without c (n_children (h p)) else n_children (h o)) /\
  (forall o, n_parent (h' o) = if Nat.eqb o c then None else n_parent (h o)).
Proof.
  intros h p i h' c Hn H. unfold remove_child in H.
  destruct (child_index h p i) as [k|] eqn:Ek; [|discriminate].
  destruct (nth_error (n_children (h p)) k) as [c0|] eqn:Ec; [|discriminate].
  injection H as H Hc. subst c0.
  unfold child_index in Ek. apply index_of_Some in Ek.
  rewrite (map_nth_error _ _ _ Ec) in Ek. injection Ek as Ek.
  split; [exact Ek|]. split; [eapply nth_error_In; eauto|].
  assert (D : del_at k (n_children (h p)) = without c (n_children (h p))) by exact (del_at_without _ _ _ Hn Ec).
  rewrite D in H. subst h'. unfold upd, same_ids.
  repeat split; intros; repeat match goal with |- context [Nat.eqb ?a ?b] => destruct (Nat.eqb_spec a b) end;
    cbn; subst; auto; try congruence;
    repeat match goal with |- context [Nat.eqb ?a ?b] => destruct (Nat.eqb_spec a b) end; cbn; subst; congruence.
Qed.
Lemma remove_child_total : forall h p c, NoDup (n_children (h p)) -> In c (n_children (h p)) ->
  (forall c', In c' (n_children (h p)) -> n_id (h c') = n_id (h c) -> c' = c) ->
  exists h', remove_child h p (n_id (h c)) = Ok (h', c).
Proof.
  intros h p c Hn Hc Hu. unfold remove_child.
  destruct (child_index h p (n_id (h c))) as [k|] eqn:Ek.
  - unfold child_index in Ek. apply index_of_Some in Ek.
    destruct (nth_error (n_children (h p)) k) as [c0|] eqn:Ec.
    + rewrite (map_nth_error _ _ _ Ec) in Ek. injection Ek as Ek.
      rewrite (Hu c0); eauto. eapply nth_error_In; eauto.
    + exfalso. apply nth_error_None in Ec. assert (nth_error (map (fun o => n_id (h o)) (n_children (h p))) k <> None) by congruence.
      apply nth_error_Some in H. rewrite map_length in H. lia.
  - unfold child_index in Ek. apply index_of_None in Ek. elim Ek. apply (in_map (fun o => n_id (h o))). exact Hc.
Qed.
Lemma remove_child_Err : forall h p i e, remove_child h p i = Err e -> e = EKey /\ ~ In i (ids_of h (n_children (h p))).
Proof.
  intros h p i e H. unfold remove_child in H. destruct (child_index h p i) as [k|] eqn:Ek.
  - destruct (nth_error (n_children (h p)) k); discriminate.
  - injection H as <-. split; auto. apply index_of_None in Ek. exact Ek.
Qed.
Lemma remove_child_noraise : forall h p i, remove_child h p i <> Raise.
Proof.
  intros h p i H. unfold remove_child in H. destruct (child_index h p i) as [k|] eqn:Ek; [|discriminate].
  destruct (nth_error (n_children (h p)) k) eqn:E; [discriminate|].
  apply index_of_Some in Ek. apply nth_error_None in E.
  assert (X : nth_error (map (fun o => n_id (h o)) (n_children (h p))) k <> None) by congruence.
  apply nth_error_Some in X. rewrite map_length in X. lia.
Qed.

(** What [add_child] does. *)
Lemma add_child_spec : forall h p c i h', add_child h p c i = Ok h' ->
  ~ In (n_id (h c)) (ids_of h (n_children (h p))) /\
  (forall m, f_max (n_cfg (h p)) = Some m -> length (n_children (h p)) <> m) /\ same_ids h h' /\
  (forall o, n_children (h' o) = if Nat.eqb o p then insert i c (n_children (h p)) else n_children (h o)) /\
  (forall o, n_parent (h' o) = if Nat.eqb o c then Some p else n_parent (h o)).
Proof.
  intros h p c i h' H. unfold add_child in H.
  destruct (match f_max (n_cfg (h p)) with Some m => Nat.eqb (length (n_children (h p))) m | None => false end) eqn:Em;
    [discriminate|].
  destruct (mem _ _) eqn:Ed in H; [discriminate|]. injection H as H.
  apply mem_nIn in Ed. split; [exact Ed|]. split.
  { intros m Hm. rewrite Hm in Em. apply Nat.eqb_neq in Em. exact Em. }
  subst h'. unfold upd, same_ids.
  repeat split; intros; repeat match goal with |- context [Nat.eqb ?a ?b] => destruct (Nat.eqb_spec a b) end;
    cbn; subst; auto; try congruence;
    repeat match goal with |- context [Nat.eqb ?a ?b] => destruct (Nat.eqb_spec a b) end; cbn; subst; congruence.
Qed.
Lemma add_child_total : forall h p c i,
  (forall m, f_max (n_cfg (h p)) = Some m -> length (n_children (h p)) < m) ->
  ~ In (n_id (h c)) (ids_of h (n_children (h p))) -> exists h', add_child h p c i = Ok h'.
Proof.
  intros h p c i Hm Hd. unfold add_child.
  destruct (f_max (n_cfg (h p))) as [m|].
  - specialize (Hm _ eq_refl). replace (Nat.eqb (length (n_children (h p))) m) with false by (symmetry; apply Nat.eqb_neq; lia).
    apply mem_nIn in Hd. unfold ids_of in Hd. rewrite Hd. eauto.
  - apply mem_nIn in Hd. unfold ids_of in Hd. rewrite Hd. eauto.
Qed.
Lemma add_child_noraise : forall h p c i, add_child h p c i <> Raise.
Proof.
  intros h p c i H. unfold add_child in H. destruct (f_max (n_cfg (h p))) as [m|];
    [destruct (Nat.eqb _ m); [discriminate|]|]; destruct (mem _ _) in H; discriminate.
Qed.
Lemma add_child_Err : forall h p c i e, add_child h p c i = Err e ->
  (exists m, f_max (n_cfg (h p)) = Some m /\ length (n_children (h p)) = m) \/
  In (n_id (h c)) (ids_of h (n_children (h p))).
Proof.
  intros h p c i e H. unfold add_child in H.
  destruct (f_max (n_cfg (h p))) as [m|] eqn:E.
  - destruct (Nat.eqb (length (n_children (h p))) m) eqn:E'.
    + left. exists m. apply Nat.eqb_eq in E'. auto.
    + destruct (mem _ _) eqn:Em in H; [|discriminate]. right. apply mem_In in Em. exact Em.
  - destruct (mem _ _) eqn:Em in H; [|discriminate]. right. apply mem_In in Em. exact Em.
Qed.

(** Both preserve the invariant. *)
Lemma remove_child_HW : forall nodes next h p i h' c, HW nodes next h -> reg nodes h p ->
  remove_child h p i = Ok (h', c) -> HW nodes next h' /\ reg nodes h c /\ n_parent (h c) = Some p /\ n_parent (h' c) = None.
Proof.
  intros nodes next h p i h' c W Rp H.
  pose proof (hw_nodup _ _ _ W _ Rp) as Hn.
  destruct (remove_child_spec _ _ _ _ _ Hn H) as (Hi & Hc & Sid & Hch & Hpa).
  destruct (hw_child _ _ _ W _ _ Rp Hc) as [Rc Pc].
  assert (Eq : forall o, reg nodes h' o <-> reg nodes h o) by (intros; apply same_ids_reg; auto).
  split; [|split; [exact Rc|split; [exact Pc|rewrite Hpa, Nat.eqb_refl; reflexivity]]].
  split.
  - apply W.
  - intros j o Hj. destruct (hw_id _ _ _ W _ _ Hj) as [<- Hl]. split; auto. apply Sid.
  - intros o Ro. apply Eq in Ro. rewrite Hch. destruct (Nat.eqb o p); [apply NoDup_filter; auto|apply (hw_nodup _ _ _ W); auto].
  - intros o d Ro Hd. apply Eq in Ro. rewrite Hch in Hd. rewrite Eq, Hpa. destruct (Nat.eqb o p) eqn:Eo.
    + apply Nat.eqb_eq in Eo. subst o. apply In_without in Hd. destruct Hd as [Hd Hne].
      apply Nat.eqb_neq in Hne. rewrite Hne. apply (hw_child _ _ _ W); auto.
    + destruct (hw_child _ _ _ W _ _ Ro Hd) as [R P]. split; auto.
      destruct (Nat.eqb d c) eqn:Ed; auto. apply Nat.eqb_eq in Ed. subst d.
      rewrite Pc in P. injection P as ->. rewrite Nat.eqb_refl in Eo. discriminate.
  - intros o q Ro Hq. apply Eq in Ro. rewrite Hpa in Hq. destruct (Nat.eqb o c) eqn:Eo; [discriminate|].
    destruct (hw_par _ _ _ W _ _ Ro Hq) as [Rq Iq]. rewrite Eq, Hch. split; auto.
    destruct (Nat.eqb q p) eqn:Eqp; auto. apply Nat.eqb_eq in Eqp. subst q. apply In_without. split; auto.
    apply Nat.eqb_neq in Eo. exact Eo.
  - intros o m Ro Hm. apply Eq in Ro. destruct (Sid o) as [_ Ec]. rewrite Ec in Hm. rewrite Hch.
    pose proof (hw_max _ _ _ W _ _ Ro Hm) as Hl. destruct (Nat.eqb o p) eqn:Eo; auto.
    apply Nat.eqb_eq in Eo. subst. etransitivity; [apply length_filter_le|exact Hl].
Qed.

Lemma add_child_HW : forall nodes next h p c i h', HW nodes next h -> reg nodes h p -> reg nodes h c ->
  n_parent (h c) = None -> add_child h p c i = Ok h' -> HW nodes next h'.
Proof.
  intros nodes next h p c i h' W Rp Rc Pc H.
  destruct (add_child_spec _ _ _ _ _ H) as (Hd & Hmx & Sid & Hch & Hpa).
  assert (Eq : forall o, reg nodes h' o <-> reg nodes h o) by (intros; apply same_ids_reg; auto).
  assert (Nc : forall o, reg nodes h o -> ~ In c (n_children (h o))).
  { intros o Ro Hi. destruct (hw_child _ _ _ W _ _ Ro Hi). congruence. }
  split.
  - apply W.
  - intros j o Hj. destruct (hw_id _ _ _ W _ _ Hj) as [<- Hl]. split; auto. apply Sid.
  - intros o Ro. apply Eq in Ro. rewrite Hch. destruct (Nat.eqb o p) eqn:Eo.
    + apply insert_NoDup; auto. apply (hw_nodup _ _ _ W); auto.
    + apply (hw_nodup _ _ _ W); auto.
  - intros o d Ro Hdd. apply Eq in Ro. rewrite Hch in Hdd. rewrite Eq, Hpa. destruct (Nat.eqb o p) eqn:Eo.
    + apply Nat.eqb_eq in Eo. subst o. apply insert_In in Hdd. destruct Hdd as [->|Hdd].
      * rewrite Nat.eqb_refl. auto.
      * destruct (Nat.eqb d c) eqn:Ed; [apply Nat.eqb_eq in Ed; subst; auto|]. apply (hw_child _ _ _ W); auto.
    + destruct (hw_child _ _ _ W _ _ Ro Hdd) as [R P]. split; auto.
      destruct (Nat.eqb d c) eqn:Ed; auto. apply Nat.eqb_eq in Ed. subst d. congruence.
  - intros o q Ro Hq. apply Eq in Ro. rewrite Hpa in Hq. rewrite Eq, Hch. destruct (Nat.eqb o c) eqn:Eo.
    + injection Hq as <-. apply Nat.eqb_eq in Eo. subst o. rewrite Nat.eqb_refl. split; auto. apply insert_In. auto.
    + destruct (hw_par _ _ _ W _ _ Ro Hq) as [Rq Iq]. split; auto.
      destruct (Nat.eqb q p) eqn:Eqp; auto. apply Nat.eqb_eq in Eqp. subst q. apply insert_In. auto.
  - intros o m Ro Hm. apply Eq in Ro. destruct (Sid o) as [_ Ec]. rewrite Ec in Hm. rewrite Hch.
    pose proof (hw_max _ _ _ W _ _ Ro Hm) as Hl. destruct (Nat.eqb o p) eqn:Eo; auto.
    apply Nat.eqb_eq in Eo. subst. rewrite insert_length. specialize (Hmx _ Hm). lia.
Qed.

(** Facts used throughout. *)
Lemma HW_child_unique : forall nodes next h p c c', HW nodes next h -> reg nodes h p ->
  In c (n_children (h p)) -> In c' (n_children (h p)) -> n_id (h c') = n_id (h c) -> c' = c.
Proof.
  intros nodes next h p c c' W Rp Hc Hc' E.
  eapply reg_eq; [| |exact E]; eapply hw_child; eauto.
Qed.
Lemma HW_remove_total : forall nodes next h p c, HW nodes next h -> reg nodes h c -> n_parent (h c) = Some p ->
  exists h', remove_child h p (n_id (h c)) = Ok (h', c).
Proof.
  intros nodes next h p c W Rc Pc. destruct (hw_par _ _ _ W _ _ Rc Pc) as [Rp Hc].
  apply remove_child_total; auto. - apply (hw_nodup _ _ _ W); auto.
  - intros. eapply HW_child_unique; eauto.
Qed.
Lemma HW_notin_ids : forall nodes next h p c, HW nodes next h -> reg nodes h p -> reg nodes h c ->
  n_parent (h c) <> Some p -> ~ In (n_id (h c)) (ids_of h (n_children (h p))).
Proof.
  intros nodes next h p c W Rp Rc Pc Hi. unfold ids_of in Hi. apply in_map_iff in Hi.
  destruct Hi as (d & E & Hd). destruct (hw_child _ _ _ W _ _ Rp Hd) as [Rd Pd].
  assert (d = c) by (eapply reg_eq; eauto). subst. congruence.
Qed.

(** The observer's view of the invariant. *)
Lemma HW_present : forall g i, HWg g -> present g i -> exists o, nget i (g_nodes g) = Some o /\
  reg (g_nodes g) (g_heap g) o /\ n_id (g_heap g o) = i.
Proof.
  intros g i W H. unfold present in H. destruct (nget i (g_nodes g)) as [o|] eqn:E; [|congruence].
  exists o. split; auto. split; [eapply nget_reg; eauto|]. destruct (hw_id _ _ _ W _ _ E). auto.
Qed.
Lemma kids_reg : forall g o, reg (g_nodes g) (g_heap g) o ->
  kids g (n_id (g_heap g o)) = ids_of (g_heap g) (n_children (g_heap g o)).
Proof. intros g o H. unfold kids, obj. rewrite H. reflexivity. Qed.
Lemma par_reg : forall g o, reg (g_nodes g) (g_heap g) o ->
  par g (n_id (g_heap g o)) = option_map (fun p => n_id (g_heap g p)) (n_parent (g_heap g o)).
Proof. intros g o H. unfold par, obj. rewrite H. reflexivity. Qed.
Lemma cfg_reg : forall g o, reg (g_nodes g) (g_heap g) o -> cfg g (n_id (g_heap g o)) = Some (n_cfg (g_heap g o)).
Proof. intros g o H. unfold cfg, obj. rewrite H. reflexivity. Qed.
Lemma kids_nil : forall g i, ~ present g i -> kids g i = [].
Proof. intros g i H. unfold kids, obj. unfold present in H. destruct (nget i (g_nodes g)); [elim H; discriminate|reflexivity]. Qed.
Lemma par_none : forall g i, ~ present g i -> par g i = None.
Proof. intros g i H. unfold par, obj. unfold present in H. destruct (nget i (g_nodes g)); [elim H; discriminate|reflexivity]. Qed.
Lemma present_dec : forall g i, present g i \/ ~ present g i.
Proof. intros g i. unfold present. destruct (nget i (g_nodes g)); [left; discriminate|right; auto]. Qed.
Lemma reg_present : forall g o, reg (g_nodes g) (g_heap g) o -> present g (n_id (g_heap g o)).
Proof. intros g o H. unfold present. rewrite H. discriminate. Qed.

Lemma NoDup_ids : forall nodes next h o, HW nodes next h -> reg nodes h o -> NoDup (ids_of h (n_children (h o))).
Proof.
  intros nodes next h o W R. pose proof (hw_nodup _ _ _ W _ R) as Hn.
  assert (Hu : forall c c', In c (n_children (h o)) -> In c' (n_children (h o)) -> n_id (h c') = n_id (h c) -> c' = c)
    by (intros; eapply HW_child_unique; eauto).
  clear R. induction (n_children (h o)) as [|x l IH]; [constructor|].
  apply NoDup_cons_iff in Hn. destruct Hn as [H1 H2]. cbn [ids_of map]. constructor.
  - intros Hi. apply in_map_iff in Hi. destruct Hi as (y & E & Hy). apply H1. rewrite <- (Hu x y); auto; [left; auto|right; auto].
  - apply IH; auto. intros. apply Hu; auto; right; auto.
Qed.

Theorem HW_linked : forall g, HWg g -> linked g.
Proof.
  intros g W. split.
  - apply W.
  - intros i c Hc. destruct (present_dec g i) as [Pi|Pi]; [|rewrite kids_nil in Hc; [destruct Hc|auto]].
    destruct (HW_present _ _ W Pi) as (o & _ & Ro & <-). rewrite kids_reg in Hc by auto.
    unfold ids_of in Hc. apply in_map_iff in Hc. destruct Hc as (d & <- & Hd).
    destruct (hw_child _ _ _ W _ _ Ro Hd) as [Rd Pd]. split; [apply reg_present; auto|].
    rewrite par_reg, Pd by auto. reflexivity.
  - intros i p Hp. destruct (present_dec g i) as [Pi|Pi]; [|rewrite par_none in Hp; [discriminate|auto]].
    destruct (HW_present _ _ W Pi) as (o & _ & Ro & <-). rewrite par_reg in Hp by auto.
    destruct (n_parent (g_heap g o)) as [q|] eqn:Eq; cbn in Hp; [|discriminate]. injection Hp as <-.
    destruct (hw_par _ _ _ W _ _ Ro Eq) as [Rq Iq]. split; [apply reg_present; auto|].
    rewrite kids_reg by auto. apply (in_map (fun o => n_id (g_heap g o))). exact Iq.
  - intros i. destruct (present_dec g i) as [Pi|Pi]; [|rewrite kids_nil; [constructor|auto]].
    destruct (HW_present _ _ W Pi) as (o & _ & Ro & <-). rewrite kids_reg by auto. eapply NoDup_ids; eauto.
  - intros i c m Hc Hm. destruct (present_dec g i) as [Pi|Pi].
    + destruct (HW_present _ _ W Pi) as (o & _ & Ro & <-). rewrite kids_reg by auto.
      rewrite cfg_reg in Hc by auto. injection Hc as <-. unfold ids_of. rewrite map_length. eapply hw_max; eauto.
    + rewrite kids_nil by auto. cbn. lia.
Qed.

(** ** What is not visible: adjacency mirror and root *)

(** Only [_children] and the root differ. *)
Definition only_mirror (g g' : mgr) : Prop :=
  g_heap g' = g_heap g /\ g_next g' = g_next g /\ g_nodes g' = g_nodes g /\ g_wires g' = g_wires g /\
  g_state g' = g_state g /\ g_name g' = g_name g /\ g_pub g' = g_pub g.
Lemma om_refl : forall g, only_mirror g g.
Proof. unfold only_mirror. tauto. Qed.
Lemma om_trans : forall a b c, only_mirror a b -> only_mirror b c -> only_mirror a c.
Proof. unfold only_mirror. intros a b c H H'. intuition congruence. Qed.
Lemma om_sync : forall g, only_mirror g (sync_children g).
Proof. unfold only_mirror. cbn. tauto. Qed.
Lemma om_find_root : forall g, only_mirror g (fst (find_root g)).
Proof.
  intros g. unfold find_root. destruct (g_nodes (sync_children g)) eqn:E; [apply om_sync|].
  destruct (filter _ _) as [|? [|]]; cbn [fst]; apply om_sync.
Qed.
Lemma om_publish : forall g, only_mirror g (publish_structure g).
Proof. intros g. unfold publish_structure. destruct (g_pub g); [apply om_find_root|apply om_refl]. Qed.
Lemma om_HW : forall g g', only_mirror g g' -> HWg g -> HWg g'.
Proof. unfold only_mirror, HWg. intros g g' H W. destruct H as (-> & -> & -> & _). exact W. Qed.
Lemma om_same : forall g g', only_mirror g g' -> same_tree g g'.
Proof.
  unfold only_mirror, same_tree, order, kids, par, cfg, obj. intros g g' H.
  destruct H as (-> & _ & -> & -> & -> & -> & _). tauto.
Qed.
Lemma same_refl : forall g, same_tree g g.
Proof. intros. apply om_same, om_refl. Qed.
Lemma same_trans : forall a b c, same_tree a b -> same_tree b c -> same_tree a c.
Proof. unfold same_tree. intros a b c H H'. intuition congruence. Qed.

Lemma edit_service_cases : forall {A} (f : mgr -> mgr * res A) g g' r, edit_service f g = (g', r) ->
  (g_state g <> EDITABLE /\ g' = g /\ r = Err EGuard) \/
  (g_state g = EDITABLE /\ exists g1, f g = (g1, r) /\ g' = publish_structure g1).
Proof.
  intros A f g g' r H. unfold edit_service in H. destruct (g_state g) eqn:E; cbn [tstate_eqb negb] in H.
  - destruct (f g) as [g1 r1]. injection H as <- <-. right. eauto.
  - all: injection H as <- <-; left; repeat split; discriminate || congruence.
  - injection H as <- <-; left; repeat split; discriminate || congruence.
  - injection H as <- <-; left; repeat split; discriminate || congruence.
  - injection H as <- <-; left; repeat split; discriminate || congruence.
  - injection H as <- <-; left; repeat split; discriminate || congruence.
Qed.
