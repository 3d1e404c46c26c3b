(** Property C87: the part of a tree that is made of given nodes. *)
From Coq Require Import String ZArith Bool Arith Lia Relations Permutation List.
From Verif Require Import Base ModelData ModelEdit ModelMsg ModelGenerate SpecEdit SpecMsg SpecGenerate DemoEdit ProofsEdit ProofsEditOps ProofsEditMove ProofsEditCycle
  ProofsEditWire ProofsEditHist ProofsEditLast ProofsMsg ProofsLoad ProofsReload ProofsGenerate PropertiesEdit PropertiesMsg.
Import ListNotations.
Local Open Scope string_scope.
Local Open Scope list_scope.

(** [shuffle]: the order in which a set is gone through.  [s0] is a manager with a tree,
    [s] the same manager after it has published the tree, as every edit does at its end. *)

(** The answer is the tree made of the named nodes and their parents, with their links and
    wirings, if that is a tree with one root or without nodes, and an error otherwise.
    The tree of the manager is left alone. *)
Theorem C87_generates : forall describe depth shuffle n w req s0 s r, history sane_call true (s_g s0) -> acyclic (s_g s0) -> only_root (s_g s0) r ->
  faithful describe -> length (order (s_g s0)) <= depth -> (forall l, Permutation (shuffle l) l) -> publish_msg describe depth s0 = (s, Ok tt) ->
  exists s' x g', generate_subtree describe depth shuffle n w req s = (s', Some x) /\ same_tree (s_g s0) (s_g s') /\
  part (s_g s0) g' (asked (s_g s0) req) /\ linked g' /\
  (forall r', only_root g' r' -> exists t l, x = Ok t /\ preorder g' r' l /\ NoDup l /\ (forall i, present g' i <-> In i l) /\
     Forall2 (about describe g') l (t_nodes t) /\ t_wires t = g_wires g' /\ t_name t = g_name g') /\
  ((forall i, ~ present g' i) -> exists t, x = Ok t /\ t_nodes t = [] /\ t_wires t = []) /\
  ((exists i, present g' i) -> (~ exists r', only_root g' r') -> exists e, x = Err e).
Proof.
  intros describe depth shuffle n w req s0 s r H. destruct (history_RG _ _ _ H) as (R & _ & P).
  exact (generate_spec describe depth shuffle n w req s0 s r (history_HW _ _ H) R P).
Qed.
Print Assumptions C87_generates.

(** Whoever names the nodes together with everything above them gets a tree of them. *)
Theorem C87_closed : forall describe depth shuffle n w req s0 s r, history sane_call true (s_g s0) -> acyclic (s_g s0) -> only_root (s_g s0) r ->
  faithful describe -> length (order (s_g s0)) <= depth -> (forall l, Permutation (shuffle l) l) -> publish_msg describe depth s0 = (s, Ok tt) ->
  asked (s_g s0) req r -> (forall i p, asked (s_g s0) req i -> par (s_g s0) i = Some p -> asked (s_g s0) req p) ->
  exists s' t l, generate_subtree describe depth shuffle n w req s = (s', Some (Ok t)) /\
    NoDup l /\ map ms_id (t_nodes t) = map uuid_to_ros l /\ (forall i, In i l <-> present (s_g s0) i /\ asked (s_g s0) req i) /\
    (forall v, In v (t_wires t) <-> In v (g_wires (s_g s0)) /\ forall j, mentions v j -> asked (s_g s0) req j) /\
    t_name t = g_name (s_g s0).
Proof.
  intros describe depth shuffle n w req s0 s r H A R Fd D Sh Pb Ar Up.
  destruct (C87_generates describe depth shuffle n w req s0 s r H A R Fd D Sh Pb) as (s' & x & g' & E & _ & (P1 & _ & P3 & _ & (st & St & Ws) & P6) & _ & X & _).
  destruct R as (R1 & R2 & R3).
  destruct (X r) as (t & l & -> & _ & N & Pl & F & Tw & Tn).
  { split; [apply P1; auto|]. split.
    - destruct (par g' r) as [p|] eqn:Ep; [|reflexivity]. apply P3 in Ep. destruct Ep as [Ep _]. congruence.
    - intros j Hj Hp. apply P1 in Hj. destruct Hj as [Hj Ha]. apply R3; [exact Hj|]. destruct (par (s_g s0) j) as [p|] eqn:Ep; [|reflexivity].
      assert (Y : par g' j = Some p) by (apply P3; eauto). congruence. }
  exists s', t, l. split; [exact E|]. split; [exact N|]. split; [|split; [|split; [|congruence]]].
  - clear -F. induction F as [|i m l nodes (Y & _) F IH]; cbn; congruence.
  - intros i. rewrite <- Pl. apply P1.
  - intros v. rewrite Tw, Ws, filter_In. split; intros [Y Z]; split; auto; apply St; auto.
Qed.
Print Assumptions C87_closed.

(** Without a root, or with several, there is an error. *)
Theorem C87_rootless : forall describe depth shuffle n w req s, history sane_call true (s_g s) -> (~ exists r, only_root (s_g s) r) ->
  exists s' e, generate_subtree describe depth shuffle n w req s = (s', Some (Err e)) /\ same_tree (s_g s) (s_g s').
Proof.
  intros describe depth shuffle n w req s H N. destruct (C46_root _ _ H) as (A & B & C & D & T).
  unfold generate_subtree. destruct (find_root (s_g s)) as [g r]. cbn [snd fst] in *.
  assert (X : r = Ok None \/ r = Err ETopo).
  { destruct (g_nodes (s_g s)) as [|x l] eqn:E; [left; auto | right]. clear A.
    destruct (find (fun i => match par (s_g s) i with None => true | _ => false end) (map fst (x :: l))) as [i|] eqn:F.
    - apply find_some in F. destruct F as [I F]. destruct (par (s_g s) i) eqn:Pi; [discriminate|].
      assert (Pr : present (s_g s) i) by (unfold present; rewrite E; now apply nget_present).
      destruct (find (fun j => match par (s_g s) j with None => negb (Nat.eqb j i) | _ => false end) (map fst (x :: l))) as [j|] eqn:F2.
      + apply find_some in F2. destruct F2 as [J F2]. destruct (par (s_g s) j) eqn:Pj; [discriminate|].
        apply (C i j); auto; [unfold present; rewrite E; now apply nget_present | intros ->; rewrite Nat.eqb_refl in F2; discriminate].
      + exfalso. apply N. exists i. split; [exact Pr|]. split; [exact Pi|]. intros j Hj Pj.
        destruct (Nat.eq_dec j i) as [Eq | Ne]; [exact Eq|]. exfalso.
        assert (Z := find_none _ _ F2 j). cbv beta in Z. rewrite Pj in Z. apply Nat.eqb_neq in Ne. rewrite Ne in Z. cbn in Z.
        discriminate Z. unfold present in *; rewrite E in *; now apply (nget_present (x :: l)).
    - apply D; [discriminate|]. intros i Hi Pi. assert (Z := find_none _ _ F i). cbv beta in Z. rewrite Pi in Z. discriminate Z. unfold present in *; rewrite E in *; now apply (nget_present (x :: l)). }
  destruct X as [-> | ->]; eexists; eexists; (split; [reflexivity | exact T]).
Qed.
Print Assumptions C87_rootless.

(** [demo]: 1 has the children 2, 3 and 4, and 4 has the child 5; data flow from 2 to 3. *)
Example C87_example : only_root demo 1 /\ asked demo [id 5; id 2] 1 /\
  (forall i p, asked demo [id 5; id 2] i -> par demo i = Some p -> asked demo [id 5; id 2] p) /\
  match publish_msg plain 100 demo_s with
  | (s, Ok _) =>
      match snd (generate_subtree plain 100 (@rev idtext) 0 demo_world [id 5; id 2] s) with
      | Some (Ok t) => map (fun m => (ms_id m, ms_children m)) (t_nodes t) = [(id 1, [id 2; id 4]); (id 2, []); (id 4, [id 5]); (id 5, [])] /\ t_wires t = []
      | _ => False end /\
      match snd (generate_subtree plain 100 (@rev idtext) 0 demo_world [id 2; id 3] s) with
      | Some (Ok t) => map (fun m => (ms_id m, ms_children m)) (t_nodes t) = [(id 1, [id 2; id 3]); (id 2, []); (id 3, [])] /\ t_wires t = [w23]
      | _ => False end
  | _ => False end.
Proof.
  split; [exact (proj1 C86_example)|].
  assert (B : forall i, askedb demo [id 5; id 2] i = true -> asked demo [id 5; id 2] i) by (exact (fun i => proj1 (askedb_iff demo [id 5; id 2] i))).
  split; [apply B; vm_compute; reflexivity|]. split; [|vm_compute; auto].
  intros i p _ Hp. apply B. pose proof (par_present demo i p Hp) as Pi.
  apply nget_present in Pi. vm_compute in Pi. destruct Pi as [<-|[<-|[<-|[<-|[<-|[]]]]]]; vm_compute in Hp; try discriminate Hp; injection Hp as <-; vm_compute; reflexivity.
Qed.

(** 1 has the children 2, 3, 4 and 6; 4 has the child 5 and 6 the child 7. *)
Definition decos_s : smgr := mkS (session two_decos (empty_mgr true)) [] "" [] [] 10 [].
Lemma decos_acyclic : acyclic (s_g decos_s).
Proof. apply (acyclic_by_search 100); [exact (history_HW _ _ decos_history)|vm_compute; reflexivity]. Qed.
Lemma decos_root : only_root (s_g decos_s) 1.
Proof.
  split; [vm_compute; discriminate|]. split; [reflexivity|].
  intros j P Q. apply nget_present in P. vm_compute in P. destruct P as [<-|[<-|[<-|[<-|[<-|[<-|[<-|[]]]]]]]]; try reflexivity; vm_compute in Q; discriminate.
Qed.

(** The documentation promises that all relevant parents are added, so that the tree can
    be executed and no node is left without parent.  Only direct parents are added: for two
    leaves of one tree the answer is an error. *)
Theorem C87_parents_refuted : exists s0 s, history sane_call true (s_g s0) /\ acyclic (s_g s0) /\ only_root (s_g s0) 1 /\ present (s_g s0) 5 /\ present (s_g s0) 7 /\
  publish_msg plain 100 s0 = (s, Ok tt) /\
  forall shuffle n w, (forall l, Permutation (shuffle l) l) -> exists s' e, generate_subtree plain 100 shuffle n w [id 5; id 7] s = (s', Some (Err e)).
Proof.
  destruct (publish_ok plain 100 decos_s) as [s Es]; [exact (history_HW _ _ decos_history)|vm_compute; lia|].
  exists decos_s, s. split; [exact decos_history|]. split; [exact decos_acyclic|]. split; [exact decos_root|]. split; [vm_compute; discriminate|]. split; [vm_compute; discriminate|].
  split; [exact Es|]. intros shuffle n w Sh.
  destruct (C87_generates plain 100 shuffle n w [id 5; id 7] decos_s s 1 decos_history decos_acyclic decos_root plain_faithful) as (s' & x & g' & E & _ & (P1 & _ & P3 & _) & _ & _ & _ & X);
    [vm_compute; lia|exact Sh|exact Es|].
  assert (In4 : present g' 4). { apply P1. split; [vm_compute; discriminate|]. apply askedb_iff. vm_compute. reflexivity. }
  assert (In6 : present g' 6). { apply P1. split; [vm_compute; discriminate|]. apply askedb_iff. vm_compute. reflexivity. }
  assert (No1 : ~ asked (s_g decos_s) [id 5; id 7] 1). { intros Y. apply askedb_iff in Y. vm_compute in Y. discriminate Y. }
  assert (Root : forall i, par (s_g decos_s) i = Some 1 -> par g' i = None).
  { intros i Hi. destruct (par g' i) as [p|] eqn:Ep; [|reflexivity]. apply P3 in Ep. destruct Ep as (Ep & _ & Ap). exfalso. apply No1. congruence. }
  destruct X as [e ->].
  - exists 4. exact In4.
  - intros (r' & _ & _ & U). assert (4 = 6); [|discriminate]. transitivity r'; [|symmetry]; apply U; auto; apply Root; vm_compute; reflexivity.
  - exists s', e. exact E.
Qed.
Print Assumptions C87_parents_refuted.

(** A node that is named in another spelling of its identifier, which every other request
    understands, is not found: the answer is a tree without nodes. *)
Theorem C87_spelling_refuted : exists s0 s q, history sane_call true (s_g s0) /\ ros_to_uuid q = Some 1 /\ only_root (s_g s0) 1 /\
  publish_msg plain 100 s0 = (s, Ok tt) /\
  forall shuffle n w, (forall l, Permutation (shuffle l) l) -> exists s' t, generate_subtree plain 100 shuffle n w [q] s = (s', Some (Ok t)) /\ t_nodes t = [].
Proof.
  destruct (publish_ok plain 100 decos_s) as [s Es]; [exact (history_HW _ _ decos_history)|vm_compute; lia|].
  exists decos_s, s, (Good 1 1). split; [exact decos_history|]. split; [reflexivity|]. split; [exact decos_root|]. split; [exact Es|]. intros shuffle n w Sh.
  destruct (C87_generates plain 100 shuffle n w [Good 1 1] decos_s s 1 decos_history decos_acyclic decos_root plain_faithful) as (s' & x & g' & E & _ & (P1 & _) & _ & _ & X & _);
    [vm_compute; lia|exact Sh|exact Es|].
  destruct X as (t & -> & Et & _).
  - intros i Hi. apply P1 in Hi. destruct Hi as [_ (q & [<-|[]] & [Y|(c & _ & Y)])]; discriminate Y.
  - exists s', t. auto.
Qed.
Print Assumptions C87_spelling_refuted.
Example C87_rootless_example : history sane_call true (empty_mgr true) /\ ~ exists r, only_root (empty_mgr true) r.
Proof. split; [apply H_new|]. intros (r & P & _). now apply P. Qed.
