(** Properties C62 (completeness), C83-C86: trees as messages and files. *)
From Coq Require Import String ZArith Bool Arith Lia Relations List.
From Verif Require Import Base ModelData ModelEdit ModelMsg SpecEdit SpecMsg DemoEdit ProofsEdit ProofsEditOps ProofsEditMove ProofsEditCycle
  ProofsEditWire ProofsEditHist ProofsEditLast ProofsMsg ProofsLoad ProofsReload PropertiesEdit.
Import ListNotations.
Local Open Scope string_scope.
Local Open Scope list_scope.

(** [describe]: what Node.from_msg makes of the message of a node; [depth]: how deep calls
    may be nested in Python; [world]: files, packages and the installed version. *)

(** ** C62 Loading a tree: exactly the messages that describe one are accepted *)

Theorem C62_accepts : forall P pub g nodes ws name, history P pub g -> forest_msg nodes ->
  ((exists g', load_tree nodes ws name g = (g', Ok tt)) <-> loadable nodes ws).
Proof.
  intros P pub g nodes ws name H F. destruct (history_RG _ _ _ H) as (_ & S & _). split.
  - intros [g' E]. destruct (C62_load_partial _ _ _ _ _ _ _ H F E) as (Ld & L & Wi). exact (loaded_loadable _ _ _ _ L F Ld Wi).
  - intros L. apply load_complete; assumption.
Qed.
Print Assumptions C62_accepts.

Lemma demo_msg_loadable : loadable demo_msg [w23].
Proof.
  apply (proj1 (C62_accepts _ _ _ _ _ "t" demo_history (proj1 C62_example))).
  exists (next 100 (ELoad demo_msg [w23] "t") demo). vm_compute. reflexivity.
Qed.
Example C62_accepts_example : loadable demo_msg [w23] /\ ~ loadable demo_msg [mkWi (id 3) "o" (id 2) "i"].
Proof.
  split; [exact demo_msg_loadable|]. intros X. apply (proj2 (C62_accepts _ _ _ _ _ "t" demo_history (proj1 C62_example))) in X.
  destruct X as [g' E]. vm_compute in E. discriminate.
Qed.

(** ** C83 Loading a tree from a file *)

(** After a success the manager has the tree of a file that the path names. *)
Theorem C83_source_partial : forall describe depth P pub n w p s s', history P pub (s_g s) ->
  load_tree_from_path describe depth n w p s = Some (s', Ok tt) ->
  exists k t, yields w k p t /\ s_path s' = p /\
    (forest_msg (t_nodes t) -> loaded (s_g s') (t_nodes t) (t_wires t) (t_name t) /\ linked (s_g s') /\
       (forall x, In x (t_wires t) -> good_wiring (s_g s') x)).
Proof.
  intros describe depth P pub n w p s s' H E. destruct (history_RG _ _ _ H) as (_ & S & _).
  destruct (from_path_inv _ _ _ _ _ _ _ S E) as (k & t & g1 & Y & El & M & Pa). exists k, t. split; [exact Y|]. split; [exact Pa|].
  intros F. destruct (C62_load_partial _ _ _ _ _ _ _ H F El) as (Ld & L & Wi).
  destruct (load_spec _ _ _ _ _ _ S F El) as (W & _). split; [eapply loaded_om; eauto|]. split; [apply HW_linked; eapply om_HW; eauto|].
  intros x Hx. specialize (Wi x Hx). destruct Wi as (a & b & sc & tc & so & ti & B1 & B2 & B3 & B4 & B5).
  destruct (om_same _ _ M) as (_ & _ & _ & Cf & _). exists a, b, sc, tc, so, ti. rewrite !Cf. auto 8.
Qed.
Print Assumptions C83_source_partial.

(** Without such a tree the request is refused and nothing changes. *)
Theorem C83_kept : forall describe depth P pub n w p s s' r, history P pub (s_g s) -> (forall k t, ~ yields w k p t) ->
  load_tree_from_path describe depth n w p s = Some (s', r) -> is_ok r = false /\ untouched s s'.
Proof.
  intros describe depth P pub n w p s s' r H N E. destruct (history_RG _ _ _ H) as (_ & S & _). exact (from_path_kept _ _ _ _ _ _ _ _ S N E).
Qed.
Print Assumptions C83_kept.

(** A file with one document, which describes a tree in a supported version, is loaded. *)
Theorem C83_loads : forall describe depth P pub n w p f v t s, history P pub (s_g s) ->
  names_file w p f -> w_file w 0 f = FText [DTree v (Some t)] YEnd -> supported (w_version w) v ->
  t_nodes t <> [] -> loadable (t_nodes t) (t_wires t) -> length (t_nodes t) <= depth ->
  exists s', load_tree_from_path describe depth (S n) w p s = Some (s', Ok tt) /\ linked (s_g s') /\
    loaded (s_g s') (t_nodes t) (t_wires t) (t_name t) /\ s_path s' = p.
Proof.
  intros describe depth P pub n w p f v t s H Nf Ef Su Nn L D. destruct (history_RG _ _ _ H) as (_ & S & _).
  destruct (from_path_total describe depth n w p f t s S Nf) as (s' & E & W & Ld & Ps); auto.
  - exists v, YEnd, []. auto.
  - exists s'. split; [exact E|]. split; [apply HW_linked; exact W|auto].
Qed.
Print Assumptions C83_loads.

(** When files do not change meanwhile, the call returns iff there is a node in the file
    or the file is not well-formed. *)
Theorem C83_returns : forall describe depth P pub w p s, history P pub (s_g s) -> steady_files w ->
  ((exists n, load_tree_from_path describe depth n w p s <> None) <->
   ~ exists f docs e, names_file w p f /\ w_file w 0 f = FText docs e /\ nodeless (w_version w) docs e).
Proof.
  intros describe depth P pub w p s H St. destruct (history_RG _ _ _ H) as (_ & S & _). split.
  - intros [n X] (f & docs & e & Nf & Ef & Nl). apply X. apply from_path_none; [exact S|].
    exact (loop_hangs w p f docs e St Nf Ef Nl n 0 (with_path no_tree p) true eq_refl eq_refl).
  - intros X. exists 1. intros Y. apply from_path_none in Y; [|exact S].
    destruct (loop_returns w p St) with (n := 0) (k := 0) (t := with_path no_tree p) (own := true) as [x Z]; [|reflexivity|congruence].
    intros f docs e A B C. apply X. eauto 6.
Qed.
Print Assumptions C83_returns.

(** Files for the examples: a tree; nothing; a tree of version 0; two trees. *)
Definition demo_tree : tmsg := mkT "t" "" demo_msg [w23] 10 [] [].
Definition small_tree : tmsg := mkT "u" "" [mkM (id 7) (Ok box) []] [] 10 [] [].
Definition demo_world : world :=
  mkWorld (1, 0, 0) (fun p => if String.eqb p "pkg" then Some "/share/pkg" else None)
    (fun _ f => if String.eqb f "/share/pkg/t.yaml" then FText [DTree (VNum (1, 0, 0)) (Some demo_tree)] YEnd
                else if String.eqb f "/empty" then FText [] YEnd
                else if String.eqb f "/old" then FText [DTree (VNum (0, 9, 0)) (Some demo_tree)] YEnd
                else if String.eqb f "/two" then FText [DTree (VNum (1, 0, 0)) (Some demo_tree); DTree (VNum (1, 0, 0)) (Some small_tree)] YEnd
                else if String.eqb f "/text" then FText [DOther] YEnd
                else FNone).
Definition plain (x : nobj) : instance := Ok (n_cfg x).
Lemma plain_faithful : faithful plain.
Proof. intros x. exists (n_cfg x). split; [reflexivity|]. split; [reflexivity|]. split; intros k; reflexivity. Qed.
Definition demo_s : smgr := mkS demo [] "file:///x" [] [] 10 [].

Example C83_loads_example : names_file demo_world "package://pkg/t.yaml" "/share/pkg/t.yaml" /\ supported (w_version demo_world) (VNum (1, 0, 0)) /\
  loadable (t_nodes demo_tree) (t_wires demo_tree) /\
  match load_tree_from_path plain 100 5 demo_world "package://pkg/t.yaml" demo_s with
  | Some (s, r) => r = Ok tt /\ s_path s = "package://pkg/t.yaml" /\ g_name (s_g s) = "t" /\
      look (s_g s) = ([1; 2; 3], [[]; [2; 3]; []; []; []; []; []; []; []; []], [None; None; Some 1; Some 1; None; None; None; None; None; None], [w23])
  | None => False
  end.
Proof.
  split.
  { right. exists "pkg", "/t.yaml", "/share/pkg". repeat split; auto.
    - intros a b X. destruct a as [|c1 [|c2 [|c3 [|c4 a]]]]; discriminate X.
    - right. exists "t.yaml". reflexivity. }
  split; [exists (1, 0, 0); split; [reflexivity|intros X; vm_compute in X; discriminate]|]. split; [exact demo_msg_loadable|].
  vm_compute. auto.
Qed.

Example C83_kept_example : (forall k t, ~ yields demo_world k "file:///text" t) /\
  match load_tree_from_path plain 100 5 demo_world "file:///text" demo_s with Some (s, r) => r = Raise /\ look (s_g s) = look demo | None => False end.
Proof.
  split; [|vm_compute; auto]. intros k t (f & docs & e & Nf & Ef & Ft & _). apply file_path_names in Nf. vm_compute in Nf. injection Nf as <-.
  vm_compute in Ef. injection Ef as <- <-. destruct Ft as (a & v & r & X & Fa & _). destruct a as [|d a]; [discriminate X|].
  injection X as X _. inversion Fa as [|? ? Y]. congruence.
Qed.

(** An empty file, or a tree of an old version: the handler reads it again and again and
    never answers.  It holds the lock for edits meanwhile. *)
Theorem C83_hangs_refuted : exists w s, steady_files w /\ history sane_call true (s_g s) /\
  w_file w 0 "/empty" = FText [] YEnd /\
  (exists t, w_file w 0 "/old" = FText [DTree (VNum (0, 9, 0)) (Some t)] YEnd /\ loadable (t_nodes t) (t_wires t)) /\
  forall describe depth n, load_tree_from_path describe depth n w "file:///empty" s = None /\
    load_tree_from_path describe depth n w "file:///old" s = None.
Proof.
  exists demo_world, demo_s. assert (St : steady_files demo_world) by (intros j k f; reflexivity). split; [exact St|]. split; [exact demo_history|].
  split; [reflexivity|]. split; [exists demo_tree; split; [reflexivity|exact demo_msg_loadable]|]. intros describe depth n.
  split; (apply from_path_none; [apply (history_RG _ _ _ demo_history)|]).
  - apply (loop_hangs demo_world "file:///empty" "/empty" [] YEnd St); auto; [left; reflexivity|left; auto].
  - apply (loop_hangs demo_world "file:///old" "/old" [DTree (VNum (0, 9, 0)) (Some demo_tree)] YEnd St); auto; [left; reflexivity|].
    right. left. exists [], (VNum (0, 9, 0)), (Some demo_tree), []. repeat split; auto; try discriminate.
    intros (v & X & Y). injection X as <-. specialize (Y eq_refl). discriminate Y.
Qed.
Print Assumptions C83_hangs_refuted.

(** A file with two trees is said to be an error, but the first tree is loaded. *)
Theorem C83_two_documents_refuted : exists w s v t v' t', history sane_call true (s_g s) /\
  w_file w 0 "/two" = FText [DTree v (Some t); DTree v' (Some t')] YEnd /\ t_nodes t <> [] /\ t_nodes t' <> [] /\
  exists s', load_tree_from_path plain 100 5 w "file:///two" s = Some (s', Ok tt) /\ loaded (s_g s') (t_nodes t) (t_wires t) (t_name t).
Proof.
  exists demo_world, demo_s, (VNum (1, 0, 0)), demo_tree, (VNum (1, 0, 0)), small_tree. split; [exact demo_history|]. split; [reflexivity|].
  split; [discriminate|]. split; [discriminate|].
  assert (E : exists s', load_tree_from_path plain 100 5 demo_world "file:///two" demo_s = Some (s', Ok tt)).
  { destruct (load_tree_from_path plain 100 5 demo_world "file:///two" demo_s) as [[s' r]|] eqn:E.
    - exists s'. f_equal. f_equal. apply (f_equal (option_map snd)) in E. vm_compute in E. congruence.
    - exfalso. apply (f_equal (option_map snd)) in E. vm_compute in E. discriminate. }
  destruct E as [s' E]. exists s'. split; [exact E|].
  destruct (C83_source_partial plain 100 sane_call true 5 demo_world "file:///two" demo_s s' demo_history E) as (k & t & (f & docs & e & Nf & Ef & Ft & _) & _ & Ld).
  apply file_path_names in Nf. vm_compute in Nf. injection Nf as <-. vm_compute in Ef. injection Ef as <- <-.
  destruct Ft as (a & v & r & X & Fa & _). destruct a as [|d a].
  - injection X as _ <- _. apply Ld. exact (proj1 C62_example).
  - injection X as <- _. inversion Fa. discriminate.
Qed.
Print Assumptions C83_two_documents_refuted.

(** ** C84 Reloading keeps the tree *)

(** With a publisher for the structure - the only configuration tree_node.py makes -
    reloading erases the tree and answers success: for every tree with nodes. *)
Theorem C84_erased_refuted : forall describe depth n w s, history sane_call true (s_g s) -> order (s_g s) <> [] -> length (order (s_g s)) <= depth ->
  exists s', reload_tree describe depth n w s = Some (s', Ok tt) /\
    order (s_g s') = [] /\ g_wires (s_g s') = [] /\ g_name (s_g s') = "UNKNOWN TREE" /\ s_path s' = "".
Proof.
  intros describe depth n w s H Ne D. destruct (history_RG _ _ _ H) as (_ & S & Pb).
  destruct (reload_spec describe depth n w s (history_HW _ _ H) S D Ne) as (s1 & _ & _ & R & _). rewrite Pb in R.
  destruct (R loadable_nil) as (s' & E & _ & (O & _ & Wi & Nm) & P). exists s'. split; [exact E|]. split; [destruct (order (s_g s')); [reflexivity|discriminate]|auto].
Qed.
Print Assumptions C84_erased_refuted.

Example C84_example : match reload_tree plain 100 5 demo_world demo_s with
  | Some (s, r) => r = Ok tt /\ order (s_g s) = [] /\ order demo = [1; 2; 3; 4; 5]
  | None => False end.
Proof. vm_compute. auto. Qed.

(** Without a publisher the nodes and their places are kept.  What is missing: wirings,
    the name and the path are lost. *)
Theorem C84_nodes_partial : forall describe depth n w s r, history sane_call false (s_g s) -> acyclic (s_g s) -> only_root (s_g s) r ->
  faithful describe -> length (order (s_g s)) <= depth ->
  exists s', reload_tree describe depth n w s = Some (s', Ok tt) /\
    (forall i, present (s_g s') i <-> present (s_g s) i) /\ (forall i, kids (s_g s') i = kids (s_g s) i) /\ (forall i, par (s_g s') i = par (s_g s) i) /\
    (forall i c, cfg (s_g s) i = Some c -> exists c', cfg (s_g s') i = Some c' /\ same_shape c' c) /\
    g_wires (s_g s') = [] /\ g_name (s_g s') = "UNKNOWN TREE" /\ s_path s' = "".
Proof.
  intros describe depth n w s r H A R Fd D. destruct (history_RG _ _ _ H) as (RG & S & Pb). pose proof (history_HW _ _ H) as W.
  assert (Ne : order (s_g s) <> []) by (intros X; destruct R as (R & _); apply nget_present in R; unfold order in X; rewrite X in R; contradiction).
  destruct (reload_spec describe depth n w s W S D Ne) as (s1 & E1 & _ & Re & _). rewrite Pb in Re.
  destruct (tree_message describe depth s W D A r R) as (s1' & t & l & E1' & -> & M & Pre & N & F & Pl & _).
  rewrite E1 in E1'. injection E1' as <-. cbn [own_msg t_nodes] in F.
  assert (Wr : forall x, In x (g_wires (s_g s)) -> good_wiring (s_g s) x) by (intros x Hx; apply (rg_wires _ RG); exact Hx).
  destruct (tree_message_loadable describe _ _ _ W Wr Fd N F Pl) as [_ Lo]. destruct (Re Lo) as (s' & E & W' & Ld & P).
  pose proof Ld as (_ & _ & Wi & Nm). exists s'. split; [exact E|].
  assert (Ld' : loaded (s_g s') (s_nodes s1) [] "UNKNOWN TREE") by exact Ld.
  destruct (loaded_copied describe _ _ _ _ _ _ (HW_linked _ W) (HW_linked _ W') Fd F Pl Ld') as (C1 & C2 & C3 & C4 & _). auto 10.
Qed.
Print Assumptions C84_nodes_partial.

(** A tree without nodes is read from its file. *)
Theorem C84_empty : forall describe depth pub n w s s' r, history sane_call pub (s_g s) -> order (s_g s) = [] ->
  reload_tree describe depth n w s = Some (s', r) ->
  (r = Ok tt -> exists k t, yields w k (s_path s) t /\ s_path s' = s_path s /\
     (forest_msg (t_nodes t) -> loaded (s_g s') (t_nodes t) (t_wires t) (t_name t) /\ linked (s_g s'))) /\
  ((forall k t, ~ yields w k (s_path s) t) -> is_ok r = false /\ untouched s s').
Proof.
  intros describe depth pub n w s s' r H Ne E. destruct (history_RG _ _ _ H) as (_ & S & _).
  destruct (reload_empty describe depth n w s s' r (history_HW _ _ H) S Ne E) as [A B]. split; [|exact B].
  intros Er. destruct (A Er) as (k & t & g1 & Y & El & M & Pa). exists k, t. split; [exact Y|]. split; [exact Pa|]. intros F.
  destruct (load_spec _ _ _ _ _ _ S F El) as (W & Ld). split; [eapply loaded_om; eauto|apply HW_linked; eapply om_HW; eauto].
Qed.
Print Assumptions C84_empty.

Definition empty_s : smgr := mkS (empty_mgr true) [] "file:///two" [] [] 10 [].
Example C84_empty_example : history sane_call true (s_g empty_s) /\
  match reload_tree plain 100 5 demo_world empty_s with Some (s, r) => r = Ok tt /\ order (s_g s) = [1; 2; 3] | None => False end.
Proof. split; [apply H_new|vm_compute; auto]. Qed.

(** ** C85 The structure a tree tells about itself *)

(** The message about a node lists what is below it, parents before children and children
    in their order, each node once, with its identifier, its children and its description. *)
Theorem C85_subtree_partial : forall describe depth pub g i t, history sane_call pub g -> get_subtree describe depth i g = Ok t ->
  exists n l, ros_to_uuid i = Some n /\ present g n /\ preorder g n l /\ (grounded g n -> NoDup l) /\
    (forall x, In x l <-> (x = n \/ below g n x)) /\ Forall2 (about describe g) l (t_nodes t).
Proof.
  intros describe depth pub g i t H E. pose proof (history_HW _ _ H) as W.
  destruct (get_subtree_ok describe depth g i t W E) as (n & l & En & P & Pre & F & _). exists n, l.
  split; [exact En|]. split; [exact P|]. split; [exact Pre|]. split; [apply preorder_NoDup; [apply HW_linked; exact W|exact Pre]|].
  split; [exact (preorder_In _ _ _ Pre)|exact F].
Qed.
Print Assumptions C85_subtree_partial.

Theorem C85_subtree_answers : forall describe depth pub g i n, history sane_call pub g -> ros_to_uuid i = Some n -> present g n ->
  length (order g) <= depth ->
  (acyclic g -> exists t, get_subtree describe depth i g = Ok t) /\ (below g n n -> get_subtree describe depth i g = Raise).
Proof.
  intros describe depth pub g i n H En P D. pose proof (history_HW _ _ H) as W. split.
  - intros A. apply (get_subtree_total describe depth g i n W En P); [|exact D]. apply acyclic_grounded; [apply HW_linked; exact W|exact A].
  - apply get_subtree_cycle; assumption.
Qed.
Print Assumptions C85_subtree_answers.
(** An id that no node has, or that is none, is answered with an error. *)
Theorem C85_unknown : forall describe depth g i, (forall n, ros_to_uuid i = Some n -> ~ present g n) ->
  exists e, get_subtree describe depth i g = Err e.
Proof.
  intros describe depth g i H. unfold get_subtree. destruct (ros_to_uuid i) as [n|]; [|eexists; reflexivity].
  specialize (H n eq_refl). unfold present in H. destruct (nget n (g_nodes g)); [|eexists; reflexivity]. exfalso. apply H. discriminate.
Qed.
Print Assumptions C85_unknown.
Example C85_unknown_example : ros_to_uuid (id 77) = Some 77 /\ ~ present demo 77 /\ exists e, get_subtree plain 100 (id 77) demo = Err e.
Proof. split; [reflexivity|]. split; [intros H; apply H; vm_compute; reflexivity|]. eexists. vm_compute. reflexivity. Qed.

(** The published message: the nodes of a tree with one root, in that order; of anything
    else, all nodes. *)
Theorem C85_published : forall describe depth s, history sane_call true (s_g s) -> acyclic (s_g s) -> length (order (s_g s)) <= depth ->
  exists s' t, publish_msg describe depth s = (s', Ok tt) /\ s_log s' = t :: s_log s /\ same_tree (s_g s) (s_g s') /\
    t_wires t = g_wires (s_g s) /\ t_name t = g_name (s_g s) /\ t_path t = s_path s /\
    ((exists r l, only_root (s_g s) r /\ preorder (s_g s) r l /\ NoDup l /\ (forall i, In i l <-> present (s_g s) i) /\
        Forall2 (about describe (s_g s)) l (t_nodes t)) \/
     ((~ exists r, only_root (s_g s) r) /\ Forall2 (about describe (s_g s)) (order (s_g s)) (t_nodes t))).
Proof.
  intros describe depth s H A D. pose proof (history_HW _ _ H) as W. destruct (history_RG _ _ _ H) as (_ & _ & Pb).
  destruct (structure_spec describe depth s W) as (s1 & t & E & -> & Eg & Ep & _ & El & C).
  { intros _ _. unfold order in D. rewrite map_length in D. exact D. }
  assert (M : only_mirror (s_g s) (s_g s1)) by (rewrite Eg; apply om_find_root).
  destruct (om_same _ _ M) as (_ & _ & _ & _ & Wi & Nm & _).
  unfold publish_msg. rewrite Pb, E. exists (mkS (s_g s1) (s_nodes s1) (s_path s1) (s_ins s1) (s_outs s1) (s_freq s1) (own_msg s1 :: s_log s1)), (own_msg s1). split; [reflexivity|]. cbn. rewrite El, Ep, Wi, Nm.
  split; [reflexivity|]. split; [apply om_same; exact M|]. do 3 (split; [reflexivity|]).
  destruct C as [(r & l & R & Pre & N & F & _)|(R & F & _)]; [left|right; auto]. exists r, l. split; [exact R|]. split; [exact Pre|]. split; [exact N|].
  split; [|exact F]. intros i. rewrite (preorder_In _ _ _ Pre). symmetry. apply all_under_root; auto. apply HW_linked; exact W.
Qed.
Print Assumptions C85_published.

Example C85_example : acyclic demo /\
  match publish_msg plain 100 demo_s with
  | (s, Ok _) => map (fun t => map ms_id (t_nodes t)) (s_log s) = [map uuid_to_ros [1; 2; 3; 4; 5]]
  | _ => False end /\
  match get_subtree plain 100 (id 4) demo with Ok t => map ms_id (t_nodes t) = map uuid_to_ros [4; 5] | _ => False end.
Proof. split; [exact demo_acyclic|]. split; vm_compute; auto. Qed.

(** The wirings inside a subtree are not in its message. *)
Theorem C85_wirings_refuted : exists g i t w l, history sane_call true g /\ get_subtree plain 100 i g = Ok t /\
  Forall2 (about plain g) l (t_nodes t) /\ In w (g_wires g) /\ within l w /\ ~ In w (t_wires t).
Proof.
  destruct (C85_subtree_answers plain 100 true demo (id 1) 1 demo_history eq_refl) as [E _]; [vm_compute; discriminate|vm_compute; lia|].
  destruct (E demo_acyclic) as [t Et]. destruct (C85_subtree_partial _ _ _ _ _ _ demo_history Et) as (n & l & En & _ & Pre & _ & Il & F).
  exists demo, (id 1), t, w23, l. split; [exact demo_history|]. split; [exact Et|]. split; [exact F|]. split; [vm_compute; auto|].
  injection En as <-. split.
  - exists 2, 3. split; [reflexivity|]. split; [reflexivity|]. split; apply Il; right; apply t_step; vm_compute; auto.
  - destruct (get_subtree_ok plain 100 demo (id 1) t (history_HW _ _ demo_history) Et) as (_ & _ & _ & _ & _ & _ & -> & _). intros [].
Qed.
Print Assumptions C85_wirings_refuted.

(** Publishing forgets which inputs and outputs of the tree are public. *)
Theorem C85_public_refuted : forall describe depth s r, history sane_call true (s_g s) -> only_root (s_g s) r -> length (order (s_g s)) <= depth ->
  exists s' t, publish_msg describe depth s = (s', Ok tt) /\ s_log s' = t :: s_log s /\ t_ins t = [] /\ t_outs t = [] /\ s_ins s' = [] /\ s_outs s' = [].
Proof.
  intros describe depth s r H R D. pose proof (history_HW _ _ H) as W. destruct (history_RG _ _ _ H) as (_ & _ & Pb).
  destruct (structure_spec describe depth s W) as (s1 & t & E & -> & _ & _ & _ & El & C).
  { intros _ _. unfold order in D. rewrite map_length in D. exact D. }
  destruct C as [(_ & _ & _ & _ & _ & _ & Ei & Eo)|(X & _)]; [|elim X; eauto].
  unfold publish_msg. rewrite Pb, E. exists (mkS (s_g s1) (s_nodes s1) (s_path s1) (s_ins s1) (s_outs s1) (s_freq s1) (own_msg s1 :: s_log s1)), (own_msg s1). split; [reflexivity|]. cbn. rewrite El, Ei, Eo. auto 6.
Qed.
Print Assumptions C85_public_refuted.

(** ** C86 A tree survives the way through its message *)

(** Take the message of a tree with one root and load it into any manager, directly or
    written to a file: there is the same tree, with the same wirings and the same name. *)
Theorem C86_roundtrip : forall describe depth pub P2 pub2 s s2 r, history sane_call pub (s_g s) -> history P2 pub2 (s_g s2) ->
  acyclic (s_g s) -> only_root (s_g s) r -> faithful describe -> length (order (s_g s)) <= depth ->
  exists s1 t, structure_to_msg describe depth s = (s1, Ok t) /\
  (forall n w, exists s', load_tree_msg describe depth n w (Given t) s2 = Some (s', Ok tt) /\ copied (s_g s) (s_g s') /\
     preorder (s_g s) r (order (s_g s')) /\ s_path s' = s_path s) /\
  (forall n w p f v, names_file w p f -> w_file w 0 f = FText [DTree v (Some t)] YEnd -> supported (w_version w) v ->
     exists s', load_tree_from_path describe depth (S n) w p s2 = Some (s', Ok tt) /\ copied (s_g s) (s_g s') /\
       preorder (s_g s) r (order (s_g s')) /\ s_path s' = p).
Proof.
  intros describe depth pub P2 pub2 s s2 r H H2 A R Fd D. destruct (history_RG _ _ _ H) as (RG & _). destruct (history_RG _ _ _ H2) as (_ & S2 & _).
  apply roundtrip; auto; [exact (history_HW _ _ H)|]. intros x Hx. apply (rg_wires _ RG). exact Hx.
Qed.
Print Assumptions C86_roundtrip.

Example C86_example : only_root demo 1 /\ faithful plain /\
  match structure_to_msg plain 100 demo_s with
  | (_, Ok t) => match load_tree_msg plain 100 0 demo_world (Given t) empty_s with
                 | Some (s, r) => r = Ok tt /\ look (s_g s) = look demo
                 | None => False end
  | _ => False end.
Proof.
  split; [|split; [exact plain_faithful|vm_compute; auto]]. split; [vm_compute; discriminate|]. split; [reflexivity|].
  intros j P Q. apply nget_present in P. vm_compute in P. destruct P as [<-|[<-|[<-|[<-|[<-|[]]]]]]; try reflexivity; vm_compute in Q; discriminate.
Qed.
