(** Properties C37-C46, C62-C64: node configurations and editing of trees. *)
From Coq Require Import String ZArith Bool Arith Lia Relations Permutation List.
From Verif Require Import Base ModelData ModelEdit SpecEdit DemoEdit ProofsEdit ProofsEditOps ProofsEditMove ProofsEditCycle
  ProofsEditWire ProofsEditAdd ProofsEditReplace ProofsEditMorph ProofsEditHist ProofsEditLast.
Import ListNotations.
Local Open Scope string_scope.
Local Open Scope list_scope.

Lemma demo_acyclic : acyclic demo.
Proof. apply (acyclic_by_search 100); [apply (history_HW _ _ demo_history)|vm_compute; reflexivity]. Qed.
Lemma stale_acyclic : acyclic (session stale_edits (empty_mgr false)).
Proof.
  apply (acyclic_by_search 100); [|vm_compute; reflexivity].
  apply (history_HW false). apply session_sane; [apply H_new|vm_compute; reflexivity].
Qed.
Lemma chain_history : history sane_call true (session chain_edits (empty_mgr true)).
Proof. apply session_sane; [apply H_new|vm_compute; reflexivity]. Qed.
Lemma decos_history : history sane_call true (session two_decos (empty_mgr true)).
Proof. apply session_sane; [apply H_new|vm_compute; reflexivity]. Qed.
Lemma loop_history : history sane_call true (session loop_edits (empty_mgr true)).
Proof. apply session_sane; [apply H_new|vm_compute; reflexivity]. Qed.

(** ** C37 Node configurations merge without overwriting *)

(** Dictionaries have every key once. *)
Theorem C37_extend : forall a b c r,
  NoDup (map fst (f_ins b)) -> NoDup (map fst (f_outs b)) -> extend a b = (c, r) ->
  (forall k v, dget k (f_ins a) = Some v -> dget k (f_ins c) = Some v) /\
  (forall k v, dget k (f_outs a) = Some v -> dget k (f_outs c) = Some v) /\
  f_max c = f_max a /\
  (r = Ok tt -> merged (f_ins a) (f_ins b) (f_ins c) /\ merged (f_outs a) (f_outs b) (f_outs c)) /\
  (r = Ok tt \/ exists e, r = Err e) /\
  ((exists e, r = Err e) <-> f_max a <> f_max b \/
     (exists k, dget k (f_ins a) <> None /\ dget k (f_ins b) <> None) \/
     (exists k, dget k (f_outs a) <> None /\ dget k (f_outs b) <> None)).
Proof. exact extend_full. Qed.
Print Assumptions C37_extend.

Example C37_example :
  let i v := mkC (TInt 0 10) true false false (Some (VInt v)) false in
  let a := mkCfg [("x", i 1%Z)] [] (Some 1) in
  let b := mkCfg [("y", i 2%Z)] [("z", i 3%Z)] (Some 1) in
  extend a b = (mkCfg [("x", i 1%Z); ("y", i 2%Z)] [("z", i 3%Z)] (Some 1), Ok tt).
Proof. reflexivity. Qed.

(** An extension that is reported as failed is still carried out for the other keys. *)
Theorem C37_half_done_refuted : exists a b c e,
  NoDup (map fst (f_ins b)) /\ NoDup (map fst (f_outs b)) /\ extend a b = (c, Err e) /\ c <> a.
Proof.
  set (i := mkC (TInt 0 10) true false false None false).
  exists (mkCfg [("x", i)] [] None), (mkCfg [("x", i); ("y", i)] [] None), (mkCfg [("x", i); ("y", i)] [] None), EConfig.
  split; [repeat constructor; cbn; intuition discriminate|]. split; [constructor|]. split; [reflexivity|]. discriminate.
Qed.
Print Assumptions C37_half_done_refuted.

(** ** C38 The tree can only be edited while it is editable *)

Theorem C38_not_editable : forall fuel e g, g_state g <> EDITABLE -> exists err, serve fuel e g = Some (g, Err err).
Proof. intros fuel e g H. exists EGuard. exact (serve_refused fuel e g H). Qed.
Print Assumptions C38_not_editable.

(** The guard refuses nothing that would not change anything anyway: in the editable
    state the same request works. *)
Example C38_example :
  answer 100 (ERemove (id 4) true) (set_tstate demo TICKING) = Err EGuard /\
  answer 100 (ERemove (id 4) true) demo = Ok tt.
Proof. split; vm_compute; reflexivity. Qed.

(** ** C39 Wiring requests are all or nothing *)

Theorem C39_wire : forall P pub g l g' r, history P pub g -> wire_data l false g = (g', r) ->
  (r = Ok tt /\ only_wires g g' /\ g_wires g' = g_wires g ++ l /\ (forall w, In w l -> good_wiring g' w)) \/
  ((exists e, r = Err e) /\ same_tree g g' /\ exists w, In w l /\ ~ good_wiring g w).
Proof. intros P pub g l g' r H E. destruct (history_RG _ _ _ H) as (_ & S & _). exact (wire_spec l g g' r S E). Qed.
Print Assumptions C39_wire.

(** With [ignore_failure] exactly the valid ones are added. *)
Theorem C39_wire_ignore : forall P pub g l g' r, history P pub g -> wire_data l true g = (g', r) ->
  r = Ok tt /\ only_wires g g' /\ exists s ok, g_wires g' = g_wires g ++ s /\
    (forall w, ok w = true <-> good_wiring g w) /\ s = filter ok l.
Proof.
  intros P pub g l g' r H E. destruct (history_RG _ _ _ H) as (_ & S & _).
  destruct (wire_ignore_spec l g g' r S E) as (R & O & s & W & ok & G & F). eauto 10.
Qed.
Print Assumptions C39_wire_ignore.

(** A request that lists every wiring once. *)
Theorem C39_unwire_partial : forall P pub g l g' r, history P pub g -> NoDup l -> unwire_data l false g = (g', r) ->
  (r = Ok tt /\ only_wires g g' /\ (forall w, In w l -> In w (g_wires g)) /\
     (forall w, times w (g_wires g') + times w l = times w (g_wires g)) /\
     (forall p, (forall w, In w l -> p w = false) -> filter p (g_wires g') = filter p (g_wires g))) \/
  ((exists e, r = Err e) /\ same_tree g g' /\ exists w, In w l /\ ~ In w (g_wires g)).
Proof. intros P pub g l g' r H N E. destruct (history_RG _ _ _ H) as (_ & S & _). exact (unwire_once l g g' r S N E). Qed.
Print Assumptions C39_unwire_partial.

(** unwire_data undoes wire_data (any list). *)
Theorem C39_undo : forall P pub g l g1 g2 r, history P pub g ->
  wire_data l false g = (g1, Ok tt) -> unwire_data l false g1 = (g2, r) ->
  r = Ok tt /\ only_wires g g2 /\ Permutation (g_wires g2) (g_wires g) /\
  ((forall w, In w l -> ~ In w (g_wires g)) -> same_tree g g2).
Proof.
  intros P pub g l g1 g2 r H E1 E2. destruct (history_RG _ _ _ H) as (_ & S & _).
  destruct (wire_unwire l g g1 g2 r S E1 E2) as (R & O & Pm & D). split; [exact R|]. split; [exact O|]. split; [exact Pm|].
  intros X. specialize (D X). destruct O as (O1 & O2 & O3 & O4 & O5 & O6). unfold same_tree. auto 10.
Qed.
Print Assumptions C39_undo.

Example C39_example :
  let g := next 100 (EUnwire [w23] false) demo in
  g_wires demo = [w23] /\ g_wires g = [] /\ g_wires (next 100 (EWireD [w23] false) g) = [w23] /\
  answer 100 (EWireD [w23; mkWi (id 3) "i" (id 2) "o"] false) g = Err EWire /\
  g_wires (next 100 (EWireD [w23; mkWi (id 3) "i" (id 2) "o"] false) g) = [] /\
  g_wires (next 100 (EWireD [w23; mkWi (id 3) "i" (id 2) "o"] true) g) = [w23].
Proof. vm_compute. repeat split; reflexivity. Qed.

(** A request that lists a wiring twice raises after the first removal. *)
Theorem C39_unwire_twice_refuted : exists g l, history sane_call true g /\
  snd (unwire_data l false g) = Raise /\ ~ same_tree g (fst (unwire_data l false g)).
Proof.
  exists demo, [w23; w23]. split; [exact demo_history|]. split; [vm_compute; reflexivity|].
  intros (_ & _ & _ & _ & W & _). vm_compute in W. discriminate.
Qed.
Print Assumptions C39_unwire_twice_refuted.

(** ** C40 Removing nodes leaves no dangling references *)

Theorem C40_remove : forall pub g t ch g' r, history sane_call pub g -> remove_node t ch g = (g', r) ->
  (r = Ok tt /\ exists i, ros_to_uuid t = Some i /\ present g i /\
     dropped g g' (fun x => x = i \/ (ch = true /\ below g i x))) \/
  ((exists e, r = Err e) /\ same_tree g g' /\ (forall i, ros_to_uuid t = Some i -> ~ present g i)).
Proof.
  intros pub g t ch g' r H E. destruct (history_RG _ _ _ H) as (R & S & _).
  exact (remove_spec t ch g g' r (history_HW _ _ H) R S E).
Qed.
Print Assumptions C40_remove.

Theorem C40_no_dangling : forall pub g i v ch g', history sane_call pub g -> remove_node (Good i v) ch g = (g', Ok tt) ->
  ~ present g' i /\ (ch = true -> forall x, below g i x -> ~ present g' x) /\
  (forall j c, In c (kids g' j) -> present g' c) /\ (forall j p, par g' j = Some p -> present g' p) /\
  (forall w j, In w (g_wires g') -> mentions w j -> present g' j) /\
  (acyclic g -> acyclic g').
Proof.
  intros pub g i v ch g' H E. destruct (history_RG _ _ _ H) as (R & S & _). pose proof (history_HW _ _ H) as W.
  destruct (remove_spec _ ch g g' _ W R S E) as [(_ & i' & Et & Pi & D)|((e & X) & _)]; [|discriminate].
  cbn in Et. injection Et as <-.
  destruct (dropped_clean _ _ _ (HW_linked _ W) (rg_wires _ R) D) as (G & K & Pa & Wi).
  split; [apply G; auto|]. split; [intros C x B; apply G; auto|]. split; [exact K|]. split; [exact Pa|]. split; [exact Wi|].
  apply (dropped_acyclic _ _ _ D).
Qed.
Print Assumptions C40_no_dangling.

(** Removing 4 with its children; removing 1 without: its children have no parent. *)
Example C40_example :
  look (next 100 (ERemove (id 4) true) demo) =
    ([1; 2; 3], [[]; [2; 3]; []; []; []; []; []; []; []; []],
     [None; None; Some 1; Some 1; None; None; None; None; None; None], [w23]) /\
  look (next 100 (ERemove (id 1) false) demo) =
    ([2; 3; 4; 5], [[]; []; []; []; [5]; []; []; []; []; []],
     [None; None; None; None; None; Some 4; None; None; None; None], [w23]) /\
  g_wires (next 100 (ERemove (id 2) false) demo) = [].
Proof. vm_compute. repeat split; reflexivity. Qed.

(** ** C41 Moving a node keeps the tree a tree *)

(** For managers that publish the structure after each request (the ones the tree node
    makes); a node moved under itself is excepted, see below. *)
Theorem C41_move_partial : forall g t pt k g' r, history sane_call true g -> move_node t pt k g = (g', r) ->
  (r = Ok tt /\ exists i p, ros_to_uuid t = Some i /\ ros_to_uuid pt = Some p /\ may_move g i p /\
     ((p = 0 /\ detached g g' i) \/ (p <> 0 /\ moved g g' i p k)) /\
     (acyclic g -> p <> i -> acyclic g')) \/
  ((exists e, r = Err e) /\ same_tree g g' /\
     ~ exists i p, ros_to_uuid t = Some i /\ ros_to_uuid pt = Some p /\ may_move g i p).
Proof. exact move_full. Qed.
Print Assumptions C41_move_partial.

Example C41_example :
  look (next 100 (EMove (id 4) (id 1) 0) demo) =
    ([1; 2; 3; 4; 5], [[]; [4; 2; 3]; []; []; [5]; []; []; []; []; []],
     [None; None; Some 1; Some 1; Some 1; Some 4; None; None; None; None], [w23]) /\
  look (next 100 (EMove (id 4) (id 0) 0) demo) =
    ([1; 2; 3; 4; 5], [[]; [2; 3]; []; []; [5]; []; []; []; []; []],
     [None; None; Some 1; Some 1; None; Some 4; None; None; None; None], [w23]) /\
  answer 100 (EMove (id 1) (id 4) 0) demo = Err EGuard /\
  answer 100 (EMove (id 1) (id 4) 0) (next 100 (ERemove (id 5) false) demo) = Err ETopo.
Proof. vm_compute. repeat split; reflexivity. Qed.

(** A node can be moved under itself. *)
Theorem C41_self_refuted : exists g i, history sane_call true g /\ acyclic g /\ present g i /\
  snd (move_node (id i) (id i) 0 g) = Ok tt /\ below (fst (move_node (id i) (id i) 0 g)) i i.
Proof.
  exists demo, 1. split; [exact demo_history|]. split; [exact demo_acyclic|]. split; [vm_compute; discriminate|].
  split; [vm_compute; reflexivity|]. apply t_step. vm_compute. auto.
Qed.
Print Assumptions C41_self_refuted.

(** A manager without a callback for the structure does not notice that the new parent
    is inside the node: the list of children it consults is only brought up to date by
    some requests. *)
Theorem C41_stale_refuted : exists g i p, history sane_call false g /\ acyclic g /\ below g i p /\ i <> p /\
  snd (move_node (id i) (id p) 0 g) = Ok tt /\ below (fst (move_node (id i) (id p) 0 g)) i i.
Proof.
  exists (session stale_edits (empty_mgr false)), 1, 3.
  split; [apply session_sane; [apply H_new|vm_compute; reflexivity]|]. split; [exact stale_acyclic|].
  split; [apply (t_trans _ _ _ 2); apply t_step; vm_compute; auto|].
  split; [discriminate|]. split; [vm_compute; reflexivity|].
  apply (t_trans _ _ _ 2); [apply t_step; vm_compute; auto|]. apply (t_trans _ _ _ 3); apply t_step; vm_compute; auto.
Qed.
Print Assumptions C41_stale_refuted.

(** ** C42 A refused add_node changes nothing *)

(** A failed request changes nothing, except in the two cases [leaves_orphan], in which
    the new node stays without parent; a successful one adds exactly the new node. *)
Theorem C42_add_partial : forall pub g fuel u t x k z g' r, history sane_call pub g -> fresh_id g u t ->
  add_node_at_index fuel u t x k z g = Some (g', r) ->
  (r = Ok u /\ exists c, x = Ok c /\ added g g' u c (parent_of t) z) \/
  (is_ok r = false /\ same_tree g g') \/
  (is_ok r = false /\ leaves_orphan g t /\ exists c, x = Ok c /\ added g g' u c None z).
Proof.
  intros pub g fuel u t x k z g' r H F E. destruct (history_RG _ _ _ H) as (R & S & _).
  destruct (add_at_spec fuel u t x k z g g' r (history_HW _ _ H) R S F E) as (_ & [(A & _ & B)|[(A & B & _)|(A & B & C)]]); auto.
Qed.
Print Assumptions C42_add_partial.

(** In a tree without cycles the request returns, and succeeds exactly if the node can
    be built, the parent exists and has room, and no children are named. *)
Theorem C42_accepted : forall pub g fuel u t x k z, history sane_call pub g -> fresh_id g u t -> acyclic g ->
  2 + length (g_nodes g) <= fuel ->
  exists g' r, add_node_at_index fuel u t x k z g = Some (g', r) /\ (r = Ok u <-> addable g t x k) /\ acyclic g'.
Proof.
  intros pub g fuel u t x k z H F A L. destruct (history_RG _ _ _ H) as (R & S & _). pose proof (history_HW _ _ H) as W.
  destruct (add_at_returns fuel u t x k z g W R S F A L) as (g' & r & E). exists g', r. split; [exact E|].
  destruct (add_at_spec fuel u t x k z g g' r W R S F E) as (W' & Cs).
  pose proof (HW_linked _ W) as Lg. pose proof (HW_linked _ W') as Lg'. destruct F as (U0 & Nu & Pu).
  destruct Cs as [(Rr & Ad & c & _ & B)|[(Rr & B & N)|(Rr & Or & c & _ & B)]].
  - split; [tauto|]. apply (added_acyclic g g' u c (parent_of t) z Lg Lg' Nu B); [|exact A].
    unfold parent_of. destruct (ros_to_uuid t) as [[|p]|]; congruence.
  - split; [|apply (same_acyclic _ _ B A)]. split; [intros ->; discriminate|]. intros X. exfalso. apply (N A X).
  - split; [|apply (added_acyclic g g' u c None z Lg Lg' Nu B); [discriminate|exact A]].
    split; [intros ->; discriminate|]. intros (_ & _ & p & Ep & Q). exfalso.
    destruct Or as [O|(p' & Ep' & N0 & _ & Fu)]; [congruence|]. assert (p' = p) by congruence. subst p'.
    destruct Q as [Q|(_ & Q)]; contradiction.
Qed.
Print Assumptions C42_accepted.

(** add_node is add_node_at_index at the end. *)
Theorem C42_add_node : forall pub g fuel u t x k g' r, history sane_call pub g -> fresh_id g u t ->
  add_node fuel u t x k g = Some (g', r) ->
  (r = Ok u /\ exists c, x = Ok c /\ added g g' u c (parent_of t) (-1)) \/
  (is_ok r = false /\ same_tree g g') \/
  (is_ok r = false /\ leaves_orphan g t /\ exists c, x = Ok c /\ added g g' u c None (-1)).
Proof.
  intros pub g fuel u t x k g' r H F E. destruct (history_RG _ _ _ H) as (R & S & _).
  rewrite (add_node_eq _ _ _ _ _ _ S) in E. destruct (add_node_at_index fuel u t x k (-1) g) as [[g1 r1]|] eqn:E1; [|discriminate].
  cbn [option_map fst snd] in E. injection E as <- <-. pose proof (om_publish g1) as M.
  destruct (C42_add_partial _ _ _ _ _ _ _ _ _ _ H F E1) as [(A & c & B & C)|[(A & B)|(A & B & c & C & D)]].
  - left. split; [exact A|]. exists c. split; [exact B|]. apply (added_om _ _ _ _ _ _ _ C M).
  - right. left. split; [exact A|]. apply (same_trans _ _ _ B (om_same _ _ M)).
  - right. right. split; [exact A|]. split; [exact B|]. exists c. split; [exact C|]. apply (added_om _ _ _ _ _ _ _ D M).
Qed.
Print Assumptions C42_add_node.

Example C42_example :
  fresh_id demo 6 (id 1) /\
  answer 100 (EAdd 6 (id 1) (Ok deco) [] 1) demo = Ok tt /\
  look (next 100 (EAdd 6 (id 1) (Ok deco) [] 1) demo) =
    ([1; 2; 3; 4; 5; 6], [[]; [2; 6; 3; 4]; []; []; [5]; []; []; []; []; []],
     [None; None; Some 1; Some 1; Some 1; Some 4; Some 1; None; None; None], [w23]) /\
  answer 100 (EAdd 6 (id 8) (Ok deco) [] 1) demo = Err EKey /\
  look (next 100 (EAdd 6 (id 8) (Ok deco) [] 1) demo) = look demo.
Proof. split; [split; [discriminate|split; [vm_compute; auto|discriminate]]|]. vm_compute. repeat split; reflexivity. Qed.

(** The parent has no room, or its identifier cannot be parsed: failure is reported, the
    node is there. *)
Theorem C42_orphan_refuted : exists g t1 t2 u, history sane_call true g /\ fresh_id g u t1 /\ fresh_id g u t2 /\
  answer 100 (EAdd u t1 (Ok box) [] 0) g = Err EGuard /\ present (next 100 (EAdd u t1 (Ok box) [] 0) g) u /\
  answer 100 (EAdd u t2 (Ok box) [] 0) g = Err EKey /\ present (next 100 (EAdd u t2 (Ok box) [] 0) g) u.
Proof.
  exists demo, (id 4), (Bad 0), 6. split; [exact demo_history|].
  split; [split; [discriminate|split; [vm_compute; auto|discriminate]]|].
  split; [split; [discriminate|split; [vm_compute; auto|discriminate]]|].
  split; [vm_compute; reflexivity|]. split; [vm_compute; discriminate|]. split; [vm_compute; reflexivity|]. vm_compute. discriminate.
Qed.
Print Assumptions C42_orphan_refuted.

(** Naming children in the request is always refused, whatever the tree. *)
Theorem C42_children_refuted : forall pub g fuel u t x c k z g' r, history sane_call pub g -> acyclic g -> fresh_id g u t ->
  add_node_at_index fuel u t x (c :: k) z g = Some (g', r) -> r <> Ok u.
Proof.
  intros pub g fuel u t x c k z g' r H A F E -> . destruct (history_RG _ _ _ H) as (R & S & _).
  destruct (add_at_spec fuel u t x _ z g g' _ (history_HW _ _ H) R S F E) as (_ & [(_ & (_ & X & _) & _)|[(X & _)|(X & _)]]); discriminate X.
Qed.
Print Assumptions C42_children_refuted.

(** ** C43 Parent and child links agree *)

Theorem C43_linked : forall pub g, history sane_call pub g -> linked g.
Proof. intros pub g H. exact (HW_linked g (history_HW pub g H)). Qed.
Print Assumptions C43_linked.

Example C43_example : history sane_call true demo /\
  kids demo 1 = [2; 3; 4] /\ kids demo 4 = [5] /\ par demo 5 = Some 4 /\
  history sane_call true (session [EMorph (id 3) (Ok box); EReplace (id 4) (id 3)] demo) /\
  look (session [EMorph (id 3) (Ok box); EReplace (id 4) (id 3)] demo) =
    ([1; 2; 5; 3], [[]; [2; 3]; []; [5]; []; []; []; []; []; []],
     [None; None; Some 1; Some 1; None; Some 3; None; None; None; None], []).
Proof.
  split; [exact demo_history|]. do 3 (split; [vm_compute; reflexivity|]). split; [|vm_compute; reflexivity].
  apply (session_sane true [EMorph (id 3) (Ok box); EReplace (id 4) (id 3)] demo demo_history). vm_compute. reflexivity.
Qed.

(** The two exceptions.  Morphing a node into one that cannot hold its children fails
    half-way; a message in which a node has two parents is loaded. *)
Theorem C43_morph_refuted : exists g i c, history sane_call true g /\
  is_ok (answer 100 (EMorph i (Ok c)) g) = false /\ ~ linked (next 100 (EMorph i (Ok c)) g).
Proof.
  exists demo, (id 1), deco. split; [exact demo_history|]. split; [vm_compute; reflexivity|].
  intros L. pose proof (li_parent _ L 4 1) as X. vm_compute in X.
  destruct (X eq_refl) as [_ Y]. intuition discriminate.
Qed.
Print Assumptions C43_morph_refuted.
Theorem C43_load_refuted : exists nodes, 
  answer 100 (ELoad nodes [] "") (empty_mgr true) = Ok tt /\ ~ linked (next 100 (ELoad nodes [] "") (empty_mgr true)).
Proof.
  exists [mkM (id 1) (Ok box) [id 2; id 3]; mkM (id 2) (Ok box) [id 3]; mkM (id 3) (Ok box) []].
  split; [vm_compute; reflexivity|]. intros L. pose proof (li_child _ L 1 3) as X. vm_compute in X.
  destruct X as [_ X]; [auto|discriminate].
Qed.
Print Assumptions C43_load_refuted.

(** ** C44 Cycle detection terminates and is right *)

Theorem C44_right : forall pub g fuel r, history sane_call pub g -> find_nodes_in_cycles fuel g = Some r ->
  forall x, In x r <-> below g x x.
Proof. intros pub g fuel r H E. exact (proj1 (find_cycles_correct fuel g r (history_HW _ _ H) E)). Qed.
Print Assumptions C44_right.

(** It terminates exactly if every node is on a cycle or has a root above it; this
    includes every tree without cycles. *)
Theorem C44_terminates_partial : forall pub g, history sane_call pub g ->
  ((exists fuel r, find_nodes_in_cycles fuel g = Some r) <-> (forall i, present g i -> has_root g i \/ below g i i)) /\
  (acyclic g -> forall fuel, 1 + length (g_nodes g) <= fuel -> find_nodes_in_cycles fuel g = Some []).
Proof.
  intros pub g H. pose proof (history_HW _ _ H) as W. split; [|apply (find_cycles_acyclic g W)].
  rewrite (find_cycles_terminates g W). split; intros X i P; destruct (X i P) as [Y|Y]; auto; left;
    apply (grounded_root_iff g i (HW_linked _ W)); exact Y.
Qed.
Print Assumptions C44_terminates_partial.

Example C44_example :
  find_nodes_in_cycles 100 demo = Some [] /\
  find_nodes_in_cycles 100 (session (chain_edits ++ [EMove (id 3) (id 3) 0]) (empty_mgr true)) = Some [3; 3].
Proof. split; vm_compute; reflexivity. Qed.

(** In a tree where 1 is its own parent and has another child 2, the search from 2 does
    not end; the next add_node request hangs. *)
Theorem C44_hangs_refuted : exists g e, history sane_call true g /\ fresh g e /\ forall fuel, serve fuel e g = None.
Proof.
  exists (session loop_edits (empty_mgr true)), (EAdd 6 (id 0) (Ok box) [] 0).
  split; [exact loop_history|]. split; [split; [discriminate|split; [vm_compute; auto|discriminate]]|].
  intros fuel. cbn [serve id]. rewrite (add_hangs _ 6 0 box 0%Z 2); [reflexivity| | | | | |].
  - apply (history_HW _ _ loop_history).
  - vm_compute. reflexivity.
  - vm_compute. auto.
  - vm_compute. discriminate.
  - assert (P1 : par (session loop_edits (empty_mgr true)) 1 = Some 1) by (vm_compute; reflexivity).
    assert (P2 : par (session loop_edits (empty_mgr true)) 2 = Some 1) by (vm_compute; reflexivity).
    assert (U : forall n, up (session loop_edits (empty_mgr true)) n 1 = Some 1).
    { induction n as [|n IH]; [reflexivity|]. cbn [up]. rewrite P1. exact IH. }
    intros [|n]; cbn [up]; [discriminate|]. rewrite P2, U. discriminate.
  - intros B. apply clos_trans_t1n in B.
    assert (X : forall y, ~ child_of (session loop_edits (empty_mgr true)) 2 y) by (intros y; vm_compute; auto).
    inversion B as [y Y|y z Y _]; apply (X y Y).
Qed.
Print Assumptions C44_hangs_refuted.

(** ** C45 replace_node *)

Theorem C45_replace_partial : forall pub g a b old new, history sane_call pub g -> acyclic g ->
  ros_to_uuid a = Some old -> ros_to_uuid b = Some new -> replaceable g old new -> par g old <> Some 0 ->
  exists g', replace_node a b g = (g', Ok tt) /\ replaced g g' old new /\ acyclic g'.
Proof.
  intros pub g a b old new H A Ea Eb R P. destruct (history_RG _ _ _ H) as (_ & S & _). pose proof (history_HW _ _ H) as W.
  destruct (replace_spec a b old new g W S A Ea Eb R P) as (g' & E & Rp). exists g'. split; [exact E|]. split; [exact Rp|].
  apply (replaced_acyclic g g' old new (HW_linked _ W) (HW_linked _ (replace_HW _ _ _ _ _ W E)) R A Rp).
Qed.
Print Assumptions C45_replace_partial.

(** Unknown nodes, or too many children for the new node: nothing changes. *)
Theorem C45_refused : forall pub g a b g' r, history sane_call pub g -> replace_node a b g = (g', r) ->
  (forall old new, ros_to_uuid a = Some old -> ros_to_uuid b = Some new -> present g old -> present g new ->
     exists c m, cfg g new = Some c /\ f_max c = Some m /\ m < length (kids g old)) ->
  (exists e, r = Err e) /\ same_tree g g'.
Proof.
  intros pub g a b g' r H E N. destruct (history_RG _ _ _ H) as (_ & S & _).
  exact (replace_refused a b g g' r (history_HW _ _ H) S E N).
Qed.
Print Assumptions C45_refused.

(** After every replacement, also a failing one, the links agree. *)
Theorem C45_linked : forall pub g a b g' r, history sane_call pub g -> replace_node a b g = (g', r) -> linked g'.
Proof. intros pub g a b g' r H E. exact (HW_linked _ (replace_HW a b g g' r (history_HW _ _ H) E)). Qed.
Print Assumptions C45_linked.

(** 4, with child 5, replaced by 6, which is moved in front of it. *)
Definition six : list edit := [EAdd 6 (id 1) (Ok box) [] 0].
Example C45_example :
  replaceable (session six demo) 4 6 /\
  look (next 100 (EReplace (id 4) (id 6)) (session six demo)) =
    ([1; 2; 3; 5; 6], [[]; [2; 3; 6]; []; []; []; []; [5]; []; []; []],
     [None; None; Some 1; Some 1; None; Some 6; Some 1; None; None; None], [w23]).
Proof.
  split; [|vm_compute; reflexivity].
  assert (N4 : forall y, child_of (session six demo) 4 y -> y = 5) by (intros y H; vm_compute in H; destruct H as [<-|[]]; reflexivity).
  assert (N5 : forall y, ~ child_of (session six demo) 5 y) by (intros y H; vm_compute in H; exact H).
  assert (N6 : forall y, ~ child_of (session six demo) 6 y) by (intros y H; vm_compute in H; exact H).
  split; [vm_compute; discriminate|]. split; [vm_compute; discriminate|]. split; [discriminate|]. split; [|split].
  - intros B. apply clos_trans_t1n in B. inversion B as [y Y|y z Y B2]; subst; apply N4 in Y; [discriminate|]. subst y.
    inversion B2 as [y Y|y ? Y _]; apply (N5 _ Y).
  - intros B. apply clos_trans_t1n in B. inversion B as [y Y|y ? Y _]; apply (N6 _ Y).
  - intros c m C M. vm_compute in C. injection C as <-. discriminate M.
Qed.

(** Replacing a node by itself reports failure and removes it with everything below. *)
Theorem C45_itself_refuted : exists g i, history sane_call true g /\ present g i /\
  is_ok (snd (replace_node (id i) (id i) g)) = false /\ ~ present (fst (replace_node (id i) (id i) g)) i.
Proof. exists demo, 4. split; [exact demo_history|]. split; [vm_compute; discriminate|]. split; [vm_compute; reflexivity|]. vm_compute. auto. Qed.
Print Assumptions C45_itself_refuted.

(** The new node already has a child and no room for that of the old one: failure is
    reported, and the child of the old node has lost its parent. *)
Theorem C45_half_way_refuted : exists g old new c, history sane_call true g /\ old <> new /\ par g c = Some old /\
  snd (replace_node (id old) (id new) g) = Err EGuard /\ par (fst (replace_node (id old) (id new) g)) c = None.
Proof.
  exists (session two_decos (empty_mgr true)), 4, 6, 5. split; [exact decos_history|]. split; [discriminate|].
  split; [vm_compute; reflexivity|]. split; vm_compute; reflexivity.
Qed.
Print Assumptions C45_half_way_refuted.

(** The root replaced by a grandchild: success is reported, the result is a cycle. *)
Theorem C45_cycle_refuted : exists g old new, history sane_call true g /\ acyclic g /\
  snd (replace_node (id old) (id new) g) = Ok tt /\ below (fst (replace_node (id old) (id new) g)) new new.
Proof.
  exists (session chain_edits (empty_mgr true)), 1, 3. split; [exact chain_history|].
  split; [apply (acyclic_by_search 100); [apply (history_HW _ _ chain_history)|vm_compute; reflexivity]|].
  split; [vm_compute; reflexivity|]. apply (t_trans _ _ _ 2); apply t_step; vm_compute; auto.
Qed.
Print Assumptions C45_cycle_refuted.

(** ** C46 find_root finds the unique root *)

Theorem C46_root : forall pub g, history sane_call pub g ->
  (g_nodes g = [] -> snd (find_root g) = Ok None) /\
  (forall i, present g i -> par g i = None -> (forall j, present g j -> par g j = None -> j = i) ->
     exists o, snd (find_root g) = Ok (Some o) /\ n_id (g_heap g o) = i /\ g_root (fst (find_root g)) = Some i) /\
  (forall i j, present g i -> par g i = None -> present g j -> par g j = None -> i <> j -> snd (find_root g) = Err ETopo) /\
  (g_nodes g <> [] -> (forall i, present g i -> par g i <> None) -> snd (find_root g) = Err ETopo) /\
  same_tree g (fst (find_root g)).
Proof.
  intros pub g H. destruct (find_root_spec g (history_HW _ _ H)) as (A & B & C & D).
  split; [exact A|]. split; [exact B|]. split; [exact C|]. split; [exact D|]. apply om_same, om_find_root.
Qed.
Print Assumptions C46_root.

Example C46_example :
  g_root (fst (find_root demo)) = Some 1 /\ is_ok (snd (find_root demo)) = true /\
  snd (find_root (empty_mgr true)) = Ok None /\
  snd (find_root (next 100 (ERemove (id 1) false) demo)) = Err ETopo /\
  snd (find_root (next 100 (EMove (id 1) (id 1) 0) demo)) = Err ETopo.
Proof. vm_compute. repeat split; reflexivity. Qed.

(** ** C62 Loading a tree *)

(** For messages in which no identifier occurs twice and no node has two parents. *)
Theorem C62_load_partial : forall P pub g nodes ws name g', history P pub g -> forest_msg nodes ->
  load_tree nodes ws name g = (g', Ok tt) -> loaded g' nodes ws name /\ linked g' /\ (forall w, In w ws -> good_wiring g' w).
Proof.
  intros P pub g nodes ws name g' H F E. destruct (history_RG _ _ _ H) as (R & S & _).
  destruct (load_spec nodes ws name g g' (Ok tt) S F E) as (W & L). specialize (L eq_refl).
  split; [exact L|]. split; [exact (HW_linked _ W)|]. intros w I.
  destruct (load_keeps _ _ _ _ _ _ E) as [K _]. apply (rg_wires _ (K R)). destruct L as (_ & _ & -> & _). exact I.
Qed.
Print Assumptions C62_load_partial.

Definition demo_msg : list nmsg :=
  [mkM (id 1) (Ok box) [id 2; id 3]; mkM (id 2) (Ok out_leaf) []; mkM (id 3) (Ok in_leaf) []].
Example C62_example : forest_msg demo_msg /\ answer 100 (ELoad demo_msg [w23] "t") demo = Ok tt /\
  look (next 100 (ELoad demo_msg [w23] "t") demo) =
    ([1; 2; 3], [[]; [2; 3]; []; []; []; []; []; []; []; []], [None; None; Some 1; Some 1; None; None; None; None; None; None], [w23]).
Proof.
  split; [|split; vm_compute; reflexivity]. split; cbn; repeat constructor; cbn; intuition discriminate.
Qed.

(** A load that fails has already destroyed the tree that was there. *)
Theorem C62_destroyed_refuted : exists g nodes, history sane_call true g /\ order g <> [] /\ forest_msg nodes /\
  is_ok (answer 100 (ELoad nodes [] "") g) = false /\ order (next 100 (ELoad nodes [] "") g) = [].
Proof.
  exists demo, [mkM (Bad 0) (Ok box) []]. split; [exact demo_history|]. split; [vm_compute; discriminate|].
  split; [split; cbn; repeat constructor; auto|]. split; vm_compute; reflexivity.
Qed.
Print Assumptions C62_destroyed_refuted.

(** A child under two parents: success is reported, the node is in both lists of
    children and has one parent. *)
Theorem C62_two_parents_refuted : exists nodes p q c, p <> q /\
  answer 100 (ELoad nodes [] "t") demo = Ok tt /\
  In c (kids (next 100 (ELoad nodes [] "t") demo) p) /\ In c (kids (next 100 (ELoad nodes [] "t") demo) q) /\
  par (next 100 (ELoad nodes [] "t") demo) c = Some q /\ ~ linked (next 100 (ELoad nodes [] "t") demo).
Proof.
  exists [mkM (id 1) (Ok box) [id 2; id 3]; mkM (id 2) (Ok box) [id 4]; mkM (id 3) (Ok box) [id 4]; mkM (id 4) (Ok out_leaf) []], 2, 3, 4.
  split; [discriminate|]. split; [vm_compute; reflexivity|]. split; [vm_compute; auto|]. split; [vm_compute; auto|].
  split; [vm_compute; reflexivity|]. intros L. pose proof (li_child _ L 2 4) as X.
  assert (I : In 4 (kids (next 100 (ELoad [mkM (id 1) (Ok box) [id 2; id 3]; mkM (id 2) (Ok box) [id 4]; mkM (id 3) (Ok box) [id 4]; mkM (id 4) (Ok out_leaf) []] [] "t") demo) 2)) by (vm_compute; auto).
  destruct (X I) as [_ Y]. vm_compute in Y. discriminate.
Qed.
Print Assumptions C62_two_parents_refuted.

(** An identifier twice: success is reported, the first of the two nodes is gone. *)
Theorem C62_twice_refuted : exists c d nodes, c <> d /\
  In (mkM (id 2) (Ok c) []) nodes /\ In (mkM (id 2) (Ok d) []) nodes /\
  answer 100 (ELoad nodes [] "t") demo = Ok tt /\
  length (order (next 100 (ELoad nodes [] "t") demo)) < length nodes /\
  cfg (next 100 (ELoad nodes [] "t") demo) 2 = Some d.
Proof.
  exists out_leaf, in_leaf, [mkM (id 1) (Ok box) [id 2]; mkM (id 2) (Ok out_leaf) []; mkM (id 2) (Ok in_leaf) []].
  split; [discriminate|]. split; [cbn; auto|]. split; [cbn; auto|]. split; [vm_compute; reflexivity|].
  split; [vm_compute; auto|vm_compute; reflexivity].
Qed.
Print Assumptions C62_twice_refuted.

(** ** C63 Changing a node keeps its place *)

Theorem C63_morph : forall pub g t x g' r, history sane_call pub g -> room_for g t x -> morph_node t x g = (g', r) ->
  linked g' /\
  ((r = Ok tt /\ exists n c, ros_to_uuid t = Some n /\ present g n /\ x = Ok c /\ reconfigured g g' n c /\ order_last g g' n) \/
   (is_ok r = false /\ same_tree g g' /\ (forall n c, ros_to_uuid t = Some n -> present g n -> x = Ok c -> False))).
Proof.
  intros pub g t x g' r H F E. destruct (history_RG _ _ _ H) as (R & S & _).
  destruct (morph_spec t x g g' r (history_HW _ _ H) R S F E) as (W & C). split; [exact (HW_linked _ W)|exact C].
Qed.
Print Assumptions C63_morph.

Theorem C63_set_options : forall pub g t x g' r, history sane_call pub g -> room_for g t x -> set_options t x g = (g', r) ->
  linked g' /\
  ((r = Ok tt /\ exists n c, ros_to_uuid t = Some n /\ present g n /\ x = Ok c /\ reconfigured g g' n c /\ order g' = order g) \/
   (is_ok r = false /\ same_tree g g' /\ (forall n c, ros_to_uuid t = Some n -> present g n -> x = Ok c -> False))).
Proof.
  intros pub g t x g' r H F E. destruct (history_RG _ _ _ H) as (R & S & _).
  destruct (options_spec t x g g' r (history_HW _ _ H) R S F E) as (W & C). split; [exact (HW_linked _ W)|exact C].
Qed.
Print Assumptions C63_set_options.

Example C63_example : room_for demo (id 2) (Ok in_leaf) /\ room_for demo (id 4) (Ok box) /\
  look (next 100 (EMorph (id 2) (Ok in_leaf)) demo) =
    ([1; 3; 4; 5; 2], [[]; [2; 3; 4]; []; []; [5]; []; []; []; []; []],
     [None; None; Some 1; Some 1; Some 1; Some 4; None; None; None; None], []) /\
  look (next 100 (EOptions (id 4) (Ok box)) demo) = look demo /\
  cfg (next 100 (EOptions (id 4) (Ok box)) demo) 4 = Some box.
Proof.
  split; [intros n c m E X M; injection E as <-; injection X as <-; vm_compute in M; injection M as <-; vm_compute; auto|].
  split; [intros n c m E X M; injection E as <-; injection X as <-; discriminate M|]. vm_compute. repeat split; reflexivity.
Qed.

(** ** C64 All wirings stay valid *)

(** Through every sequence of requests whatsoever. *)
Theorem C64_wirings_valid : forall pub g, history any_call pub g -> forall w, In w (g_wires g) -> good_wiring g w.
Proof. intros pub g H. exact (rg_wires _ (proj1 (history_RG _ _ _ H))). Qed.
Print Assumptions C64_wirings_valid.

Example C64_example : history any_call true (session (demo_edits ++ [EMorph (id 1) (Ok deco)]) (empty_mgr true)) /\
  g_wires (session (demo_edits ++ [EMorph (id 1) (Ok deco)]) (empty_mgr true)) = [w23].
Proof. split; [apply session_any; [apply H_new|vm_compute; reflexivity]|vm_compute; reflexivity]. Qed.
