(** C100: a Subtree node has the inputs and outputs of its tree.

    In all theorems [u] is how node ids are written, [file] gives the nodes of the tree in a
    file, [finish] is the rest of load_tree, and [load depth p] loads the tree in the file
    [p] if calls may be nested to [depth]; deeper there is a RecursionError ([Raise]). *)
From Coq Require Import String Ascii ZArith Bool Arith Lia List.
From Verif Require Import Base ModelData ModelEdit ModelSubtreeNode ModelSubtreeMake SpecSubtreeNode SpecSubtreeMake
  ProofsSubtreeMake PropertiesSubtreeNode.
Import ListNotations.
Local Open Scope string_scope.

(** Every Subtree node in a loaded tree comes from the file of that tree, and from another
    file, which was loaded, come the nodes below it.  Its inputs and outputs are the
    interface of these nodes (and are as C73 demands). *)
Theorem C100_interface : forall u file finish depth p nodes n ins outs inside,
  uuids_ok u -> load u file finish depth p = Ok nodes -> In (n, MSubtree ins outs inside) nodes ->
  exists l pc q given, file p = Some l /\ In (n, ASubtree pc (Some q) given) l /\
    (exists k, load u file finish k q = Ok inside) /\
    (NoDup (map fst given) -> ~ In "subtree_path" (map fst given) ->
       interface u given inside ins outs /\ dget "subtree_path" ins = Some pc /\ sub_inputs_ok u ins /\ NoDup (map fst outs)).
Proof.
  intros u file finish depth p nodes n ins outs inside U H I.
  destruct (load_inv u file finish _ _ _ H) as (k & l & -> & F & _ & _ & A). destruct (A _ _ I) as (x & J & M).
  destruct x as [c | c | | pc [q|] given]; try discriminate. cbn in M.
  destruct (load u file finish k q) as [t | e |] eqn:L; [| discriminate | discriminate].
  destruct (subtree_ios u pc given t) as [[i o] | e |] eqn:S; [| discriminate | discriminate]. injection M as -> -> ->.
  exists l, pc, q, given. split; [exact F|]. split; [exact J|]. split; [now exists k|]. intros N P.
  destruct (load_inv u file finish _ _ _ L) as (k' & l' & _ & _ & Nd & _).
  destruct (subtree_ios_spec u pc given inside ins outs U Nd N P S) as (A1 & A2 & A3 & A4 & _). now repeat (split; [assumption|]).
Qed.
Print Assumptions C100_interface.

(** A tree is loaded only if the tree of each of its Subtree nodes can be, and has all
    inputs, of compatible types, that the file of the tree gives for the node. *)
Theorem C100_given : forall u file finish depth p nodes l n pc path given,
  uuids_ok u -> load u file finish depth p = Ok nodes -> file p = Some l -> In (n, ASubtree pc path given) l ->
  exists q k inside, path = Some q /\ load u file finish k q = Ok inside /\
    (NoDup (map fst given) -> ~ In "subtree_path" (map fst given) -> known_inputs u given inside).
Proof.
  intros u file finish depth p nodes l n pc path given U H F I.
  destruct (load_inv u file finish _ _ _ H) as (k & l' & -> & F' & _ & A & _). rewrite F in F'. injection F' as <-.
  destruct (A _ _ I) as (m & M). destruct path as [q|]; [|discriminate]. cbn in M.
  destruct (load u file finish k q) as [t | e |] eqn:L; [| discriminate | discriminate].
  destruct (subtree_ios u pc given t) as [[i o] | e |] eqn:S; [| discriminate | discriminate].
  exists q, k, t. split; [reflexivity|]. split; [exact L|]. intros N P.
  destruct (load_inv u file finish _ _ _ L) as (k' & l2 & _ & _ & Nd & _).
  now destruct (subtree_ios_spec u pc given t i o U Nd N P S) as (_ & _ & _ & _ & A5).
Qed.
Print Assumptions C100_given.

(** How deep calls may be nested does not matter once it is deep enough. *)
Theorem C100_depth : forall u file finish j k p nodes,
  load u file finish j p = Ok nodes -> j <= k -> load u file finish k p = Ok nodes.
Proof. intros u file finish j k p nodes H L. induction L as [|k L IH]; [exact H | now apply load_more]. Qed.
Print Assumptions C100_depth.

(** If no tree contains itself and there are finitely many files then loading any tree comes
    to an end without a RecursionError, provided that one call more than there are files
    can be nested. *)
Theorem C100_ends_partial : forall u file finish all depth p,
  (forall q, file q <> None -> In q all) -> (forall q, ~ reaches file q q) -> (forall q l, finish q l <> Raise) ->
  List.length all < depth -> load u file finish depth p <> Raise.
Proof.
  intros u file finish all depth p A C F L. apply (load_ends u file finish all A C F depth p []); [constructor | intros x [] | cbn; lia].
Qed.
Print Assumptions C100_ends_partial.

(** A tree that contains itself, perhaps through others, is never loaded. *)
Theorem C100_cycle : forall u file finish depth p nodes, reaches file p p -> load u file finish depth p <> Ok nodes.
Proof. intros u file finish depth p nodes R. exact (load_cycle u file finish p R depth nodes). Qed.
Print Assumptions C100_cycle.

(** Nothing detects this: there is no error message but a RecursionError, however deep
    calls may be nested. *)
Definition own_file (pc : container) (p q : string) : option (list (nid * desc)) :=
  if String.eqb q p then Some [(0, ASubtree pc (Some p) [])] else None.
Theorem C100_ends_refuted : forall u finish pc p depth,
  load u (own_file pc p) finish depth p = Raise.
Proof.
  intros u finish pc p. induction depth as [|depth IH]; [reflexivity|]. rewrite load_S. unfold own_file at 1. rewrite String.eqb_refl.
  cbn [make_nodes make1]. now rewrite IH.
Qed.
Print Assumptions C100_ends_refuted.

(** ---- Examples ---- *)
(** "inner" has an IOInput (2) and an IOOutput (3); "outer" has a Subtree node for it, with a
    value for the input; "outermost" has a Subtree node for "outer"; "stale" gives an input
    that "inner" does not have. *)
Definition int_c (z : Z) : container := mkC (TInt 0 9) true false false (Some (VInt z)) false.
Definition path_c : container := empty_c.
Definition demo_files (p : string) : option (list (nid * desc)) :=
  if String.eqb p "inner" then Some [(1, Another); (2, AnInput empty_c); (3, AnOutput (int_c 4))]
  else if String.eqb p "outer" then Some [(0, Another); (5, ASubtree path_c (Some "inner") [(public_name du 2 "in", int_c 7)])]
  else if String.eqb p "outermost" then Some [(8, ASubtree path_c (Some "outer") [])]
  else if String.eqb p "stale" then Some [(5, ASubtree path_c (Some "inner") [(public_name du 4 "in", int_c 7)])]
  else None.
Definition fine (p : string) (l : list (nid * made)) : res unit := Ok tt.
Definition demo_inside : list (nid * made) := [(1, MOther); (2, MInput empty_c); (3, MOutput (int_c 4))].

Example C100_interface_example : exists outs,
  load du demo_files fine 2 "outer" =
    Ok [(0, MOther); (5, MSubtree [("subtree_path", path_c); ("ii.in", int_c 7)] outs demo_inside)] /\
  map fst outs = ["iii.out"] /\ NoDup (map fst [(public_name du 2 "in", int_c 7)]) /\
  ~ In "subtree_path" (map fst [(public_name du 2 "in", int_c 7)]).
Proof.
  eexists. split; [vm_compute; reflexivity|]. split; [reflexivity|]. split; [repeat constructor; intros [] | intros [H | []]; discriminate].
Qed.
Example C100_given_example : load du demo_files fine 9 "stale" = Err EConfig /\
  load du demo_files fine 2 "outermost" = Raise /\ is_ok (load du demo_files fine 3 "outermost") = true.
Proof. repeat split; vm_compute; reflexivity. Qed.

Definition demo_rank (p : string) : nat :=
  if String.eqb p "inner" then 0 else if String.eqb p "outermost" then 2 else 1.
Lemma demo_refers : forall p q, refers demo_files p q -> demo_rank q < demo_rank p.
Proof.
  intros p q (l & n & pc & given & F & I). unfold demo_files in F.
  destruct (String.eqb_spec p "inner") as [-> | D1]; [injection F as <-; cbn in I; intuition discriminate|].
  destruct (String.eqb_spec p "outer") as [-> | D2]; [injection F as <-; cbn in I; destruct I as [I | [I | []]]; [discriminate|]; injection I; intros; subst; cbn; lia|].
  destruct (String.eqb_spec p "outermost") as [-> | D3]; [injection F as <-; cbn in I; destruct I as [I | []]; injection I; intros; subst; cbn; lia|].
  destruct (String.eqb_spec p "stale") as [-> | D4]; [injection F as <-; cbn in I; destruct I as [I | []]; injection I; intros; subst; cbn; lia | discriminate].
Qed.
Example C100_ends_example : (forall q, demo_files q <> None -> In q ["inner"; "outer"; "outermost"; "stale"]) /\
  (forall q, ~ reaches demo_files q q) /\ (forall q l, fine q l <> Raise).
Proof.
  split; [|split; [| discriminate]].
  - intros q. unfold demo_files. destruct (String.eqb_spec q "inner") as [-> | _]; [cbn; tauto|]. destruct (String.eqb_spec q "outer") as [-> | _]; [cbn; tauto|].
    destruct (String.eqb_spec q "outermost") as [-> | _]; [cbn; tauto|]. destruct (String.eqb_spec q "stale") as [-> | _]; [cbn; tauto | congruence].
  - intros q H. assert (L : forall a b, reaches demo_files a b -> demo_rank b < demo_rank a).
    { intros a b R. induction R as [b R | b c R IH X]; [now apply demo_refers | apply demo_refers in X; lia]. }
    specialize (L q q H). lia.
Qed.
Example C100_cycle_example : forall pc p, reaches (own_file pc p) p p.
Proof. intros pc p. constructor. exists [(0, ASubtree pc (Some p) [])], 0, pc, []. split; [unfold own_file; now rewrite String.eqb_refl | now left]. Qed.
