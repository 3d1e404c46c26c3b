(** Properties of the Subtree node (C72-C74). *)
From Coq Require Import String Ascii ZArith Bool Arith List.
From Verif Require Import Base ModelData ModelUtility ModelTree ModelSubtreeNode SpecTree SpecFlow SpecSubtreeNode SpecSubtreeOut
  Demo ProofsTree ProofsLife ProofsWhole ProofsFlow ProofsSubtreeNode ProofsSubtreeOut.
From Verif Require SpecUtility ProofsUtility.
Import ListNotations.
Local Open Scope string_scope.

(** ---- C72 ---- *)

(** Every operation the node accepts is passed on, once, to the root of its tree, and the
    node answers what the root answers and takes that state; the only exceptions are that
    the inner tree could not be prepared (a wiring that is no wiring, an input value of the
    wrong type) and then the inner nodes are untouched and the node is broken. *)
Theorem C72_call : forall X F (ev : env F) u d n name t o (w w' : world (X * sub F)) r,
  sd_found d = Ok (Some t) -> NoDup (ids t) ->
  (o = OSetup \/ sb_root (inner w) = Some t) -> accepted w n o ->
  call o (subtree_obj ev u d n name) w = (w', r) ->
  sb_root (inner w') = Some t /\
  ((exists wi ri, same_nodes wi (below w) /\ call o (obj_of ev t) wi = (below w', ri) /\ node_ends n o w' ri r) \/
   (((o = OSetup /\ bad_wiring d) \/ (o = OTick /\ refused_input u w n)) /\ same_nodes (below w') (below w) /\
    (r = Raise \/ exists e, r = Err e /\ w_st w' n = BROKEN))).
Proof. intros X F ev u d n name t o w w' r Hf Hn Hr Ha H. exact (sub_call ev u d n name t Hf o w w' r Hn Hr Ha H). Qed.
Print Assumptions C72_call.

(** An operation the node does not accept does not reach its tree. *)
Theorem C72_refused : forall X F (ev : env F) u d n name o (w w' : world (X * sub F)) r,
  ~ accepted w n o -> call o (subtree_obj ev u d n name) w = (w', r) -> below w' = below w.
Proof.
  intros X F ev u d n name o w w' r Ha H. destruct (refused_call ev u d n name o w w' r Ha H) as [A _].
  unfold below. rewrite A. reflexivity.
Qed.
Print Assumptions C72_refused.

(** In every history without an uncaught exception: a Subtree node that is not broken has
    the state of the root of its tree (or it was shut down before its first setup). *)
Theorem C72_state : forall X F (ev : env F) u d n name t (w0 w : world (X * sub F)) l,
  sd_found d = Ok (Some t) -> NoDup (ids t) -> sub_fresh n t w0 ->
  sub_history ev u d n name any_data (fun _ => True) w0 l w ->
  (forall o, ~ In (o, Raise) l) -> w_st w n <> BROKEN ->
  w_st w n = w_st (below w) (t_id t) \/ (w_st w n = SHUTDOWN /\ w_st (below w) (t_id t) = UNINITIALIZED).
Proof.
  intros X F ev u d n name t w0 w l Hf Hn H0 Hh Hr Hb.
  exact (sub_follows ev u d n name t Hf Hn any_data (fun _ => True) w0 w l Hh H0 Hr Hb).
Qed.
Print Assumptions C72_state.

(** Shutting down the node shuts down everything in its tree. *)
Theorem C72_shutdown : forall X F (ev : env F) u d n name t (w w' : world (X * sub F)) r,
  sd_found d = Ok (Some t) -> wf t -> sb_root (inner w) = Some t -> w_st w n <> SHUTDOWN ->
  (forall m nm cs wi, In (T m KLeaf nm cs) (subtrees t) -> snd (leaf_act ev OShutdown m wi) = Ok SHUTDOWN) ->
  call OShutdown (subtree_obj ev u d n name) w = (w', r) ->
  r = Ok SHUTDOWN /\ w_st w' n = SHUTDOWN /\ forall m, In m (ids t) -> w_st (below w') m = SHUTDOWN.
Proof.
  intros X F ev u d n name t w w' r Hf Hwf Hr Hs Hl H.
  destruct (sub_call ev u d n name t Hf OShutdown w w' r (proj1 Hwf) (or_intror Hr) Hs H) as [_ [(wi & ri & _ & A & B)|([[A _]|[A _]] & _)]]; try discriminate.
  destruct (shutdown_tree_ok F ev t Hwf) with (w := wi) as (w2 & B1 & B2).
  { intros m k nm cs Hin -> w2. eapply Hl; eauto. }
  change (o_shutdown (obj_of ev t) wi) with (call OShutdown (obj_of ev t) wi) in B1. rewrite B1 in A. injection A as A <-. subst w2.
  destruct B as [[B ->]|[B _]]; [auto|discriminate].
Qed.
Print Assumptions C72_shutdown.

(** A Subtree whose tree has no nodes can be set up, reset and shut down, but not ticked. *)
Theorem C72_empty : forall X F (ev : env F) u d n name o (w w' : world (X * sub F)) r,
  sd_found d = Ok None -> (o = OSetup \/ sb_root (inner w) = None) -> accepted w n o ->
  call o (subtree_obj ev u d n name) w = (w', r) ->
  sb_root (inner w') = None /\ below w' = below w /\
  match o with
  | OSetup | OReset => r = Ok IDLE /\ w_st w' n = IDLE
  | OShutdown => r = Ok SHUTDOWN /\ w_st w' n = SHUTDOWN
  | OTick | OUntick => (exists e, r = Err e) /\ w_st w' n = BROKEN
  end.
Proof. exact empty_call. Qed.
Print Assumptions C72_empty.

(** ---- C28 for Subtree nodes ---- *)

(** The bounds of a Subtree node are those of its tree: they enclose the cost of every way
    the tree can succeed or fail.  Without a tree it cannot execute and claims no bound. *)
Theorem C28_subtree : forall X F (ev : env F) u d n name t (w : world (X * sub F)),
  let leaf := fun n => ev_util ev n (w_ins (below w) n) (w_ext (below w)) in
  sd_found d = Ok (Some t) -> SpecUtility.executable leaf t ->
  exists b, o_util (subtree_obj ev u d n name) w = Ok b /\ can_execute b = true /\
    forall q, (SpecUtility.costs leaf t true q -> SpecUtility.success_cost b q) /\
              (SpecUtility.costs leaf t false q -> SpecUtility.failure_cost b q).
Proof.
  intros X F ev u d n name t w leaf H L. destruct (ProofsUtility.whole_sound ev (below w) t L) as (b & B & C).
  exists b. split; [|exact C]. cbn [o_util subtree_obj]. unfold sub_util. rewrite H. exact B.
Qed.
Print Assumptions C28_subtree.
Theorem C28_subtree_bounds : forall X F (ev : env F) u d n name (w : world (X * sub F)),
  (forall t, sd_found d = Ok (Some t) -> o_util (subtree_obj ev u d n name) w = o_util (obj_of ev t) (below w)) /\
  ((forall t, sd_found d <> Ok (Some t)) -> exists b, o_util (subtree_obj ev u d n name) w = Ok b /\ can_execute b = false /\
     has_ls b = false /\ has_us b = false /\ has_lf b = false /\ has_uf b = false).
Proof.
  intros X F ev u d n name w. cbn [o_util subtree_obj]. unfold sub_util. split.
  - intros t ->. reflexivity.
  - intros N. exists bounds0. destruct (sd_found d) as [[t|]| |]; [destruct (N t eq_refl)| | |]; repeat split; reflexivity.
Qed.
Print Assumptions C28_subtree_bounds.

(** ---- C73 ---- *)

(** At every tick of a Subtree node that reaches its tree, each input inside that is a
    public input holds the value of the input of the node, when new data arrive flagged as
    updated. *)
Theorem C73_inputs_partial : forall X F (ev : env F) u d n name t (w0 w w' : world (X * sub F)) l r,
  sd_found d = Ok (Some t) -> NoDup (ids t) -> uuids_ok u -> sub_inputs_ok u (w_ins w0 n) ->
  sub_fresh n t w0 ->
  (forall m, public_input u d (w_ins w0 n) m -> exists ti, input (below w0) m "in" = Some ti /\ c_static ti = false) ->
  sub_history ev u d n name flagged (not_wired_to_itself n) w0 l w ->
  accepted w n OTick -> call OTick (subtree_obj ev u d n name) w = (w', r) ->
  (exists wi ri, same_nodes wi (below w) /\ call OTick (obj_of ev t) wi = (below w', ri) /\ node_ends n OTick w' ri r /\
     forall m c v, public_input u d (w_ins w0 n) m ->
       dget (public_name u m "in") (w_ins w n) = Some c -> c_val c = Some v -> holds wi m v) \/
  (refused_input u w n /\ same_nodes (below w') (below w) /\ (r = Raise \/ exists e, r = Err e /\ w_st w' n = BROKEN)).
Proof.
  intros X F ev u d n name t w0 w w' l r Hf Hn Hu Hk H0 Hd Hh Ha H.
  exact (sub_inputs_reach ev u d n name t Hf Hn Hu (map fst (w_ins w0 n)) Hk w0 w w' l r H0 eq_refl Hd Hh Ha H).
Qed.
Print Assumptions C73_inputs_partial.

(** ---- C74 ---- *)

(** However often the node is ticked and unticked, and whatever its inputs are in between:
    what the IOOutput node [m] inside has written since it was last set up or reset is what
    the output of the Subtree node for it shows. *)
Theorem C74_ticks : forall X F (ev : env F) u d n name t m gi ok (w0 w : world (X * sub F)) l,
  uuids_ok u -> io_output ev m -> leaf_only m t ->
  sub_history ev u d n name gi ok w0 l w -> (forall o r, In (o, r) l -> o = OTick \/ o = OUntick) ->
  sb_root (inner w0) = Some t -> public_output u d n m w0 -> w_conns (below w0) m <> None ->
  (forall v, ~ written w0 m v) ->
  forall v, written w m v -> shown u n m w v.
Proof.
  intros X F ev u d n name t m gi ok w0 w l Hu Hio Hl H Ho Hr Hp Hc Hw.
  exact (ticks_show ev u d n name t m Hio Hl Hu gi ok w0 w l H Hr Hp Hc Hw Ho).
Qed.
Print Assumptions C74_ticks.

(** The same for every history of operations from its construction on, whenever the node is
    neither broken nor shut down, if setting up or resetting the tree inside reaches all
    nodes of it. *)
Theorem C74_history : forall X F (ev : env F) u d n name t m gi ok (w0 w : world (X * sub F)) l,
  uuids_ok u -> io_output ev m -> leaf_only m t -> In m (ids t) -> wf t -> resets_all t ->
  sd_found d = Ok (Some t) -> sub_fresh n t w0 -> public_output u d n m w0 ->
  sub_history ev u d n name gi ok w0 l w -> ~ In (OReset, Raise) l -> live (w_st w n) ->
  forall v, written w m v -> shown u n m w v.
Proof.
  intros X F ev u d n name t m gi ok w0 w l Hu Hio Hl Hm Hwf Hra Hf Hfr Hp H Hr Hlv.
  destruct Hp as (P1 & P2 & P3 & P4).
  exact (history_shows ev u d n name t m Hio Hl Hu Hf Hwf Hra Hm P3 P4 gi ok w0 w l H Hfr (conj P1 (conj P2 (conj P3 P4))) Hr Hlv).
Qed.
Print Assumptions C74_history.

(** What a node inside has written in a tick is in the outgoing data of its tree ... *)
Theorem C74_written_partial : forall F (ev : env F) m k name cs (w w' : world F) s key c v,
  call OTick (obj_of ev (T m k name cs)) w = (w', Ok s) ->
  NoDup (map fst (w_outs w' m)) -> output w' m key = Some c -> c_upd c = true -> c_val c = Some v ->
  (exists c0, og_get m key (w_outg w) = Some c0 /\ c_static c0 = false) ->
  exists c', og_get m key (w_outg w') = Some c' /\ given c' v.
Proof. exact node_outgoing. Qed.
Print Assumptions C74_written_partial.

(** ... where the ticks of other nodes leave it alone ... *)
Theorem C74_kept_partial : forall F (ev : env F) t o (w : world F) m key, ~ In m (ids t) ->
  og_get m key (w_outg (fst (call o (obj_of ev t) w))) = og_get m key (w_outg w).
Proof. exact outgoing_kept. Qed.
Print Assumptions C74_kept_partial.

(** ... and the outputs of the Subtree node are exactly these data. *)
Theorem C74_outputs_partial : forall X F (ev : env F) u d n name (w w' : world (X * sub F)) s m c0,
  uuids_ok u -> call OTick (subtree_obj ev u d n name) w = (w', Ok s) ->
  dget (public_name u m "out") (w_outs w n) = Some c0 ->
  forall c, og_get m "out" (w_outg (below w')) = Some c ->
  dget (public_name u m "out") (w_outs w' n) = Some c.
Proof.
  intros X F ev u d n name w w' s m c0 Hu H Ho c Hc. eapply sub_outputs; eauto. simpl. intuition discriminate.
Qed.
Print Assumptions C74_outputs_partial.

(** ---- Examples ---- *)

(** UUIDs written as strokes. *)
Fixpoint strokes (n : nat) : string := match n with 0 => "" | S k => String "i" (strokes k) end.
Fixpoint count (s : string) : option nat :=
  match s with
  | "" => Some 0
  | String c r => if Ascii.eqb c "i" then option_map S (count r) else None
  end.
Definition du : uuids := mkU strokes count.
Lemma du_ok : uuids_ok du.
Proof.
  intros n. simpl. induction n as [|n [A B]]; simpl; [auto|]. rewrite A. split; auto.
  intros [H|H]; [discriminate|auto].
Qed.

(** The tree inside: a Sequence (1) of an IOInput (2) wired to an IOOutput (3); both leaves
    copy their input "in" to their output "out". *)
Definition senv : env unit := mkEnv unit
  (fun o n _ ins e => match o with
     | OTick => (e, match dget "in" ins with Some c => match c_val c with Some v => [("out", v)] | None => [] end | None => [] end, Ok SUCCEEDED)
     | OShutdown => (e, [], Ok SHUTDOWN)
     | _ => (e, [], Ok IDLE)
     end)
  (fun _ _ _ => Ok bounds_free) (fun e => (e, 0%Z)).
Definition stree : tree := T 1 KSequence "seq" [leaf 2; leaf 3].
Definition sdef : subdef := mkSD (Ok (Some stree)) [1; 2; 3] [mkIW (Some 2) "out" (Some 3) "in"].
Definition empty_c : container := mkC (TInt 0 9) true false false None false.
Definition sinner : world unit :=
  mkW (all_st UNINITIALIZED) (fun _ => attrs0)
    (fun n => if Nat.eqb n 2 || Nat.eqb n 3 then [("in", empty_c)] else [])
    (fun n => if Nat.eqb n 2 || Nat.eqb n 3 then [("out", empty_c)] else [])
    (fun _ => Some []) [] tt.

(** Outside, the Subtree node is node 0. *)
Definition souter (x : bool) (wires : nid -> list conn) : world (bool * sub unit) :=
  mkW (all_st UNINITIALIZED) (fun _ => attrs0)
    (fun n => if Nat.eqb n 0 then [("ii.in", empty_c)] else [])
    (fun n => if Nat.eqb n 0 then [("iii.out", empty_c)] else if Nat.eqb n 11 then [("out", empty_c)] else [])
    (fun n => Some (wires n)) [] (x, mkSub None sinner).
Definition snode : obj (bool * sub unit) := subtree_obj senv du sdef 0 "sub".

Lemma call_is' : forall E (c : obj E) o w r, snd (call o c w) = r -> call o c w = (fst (call o c w), r).
Proof. intros E c o w r H. rewrite <- H. apply surjective_pairing. Qed.

(** Set up, give it the value 7, tick it. *)
Definition given7 (w : world (bool * sub unit)) : world (bool * sub unit) :=
  set_ins w 0 [("ii.in", mkC (TInt 0 9) true false false (Some (VInt 7)) true)].
Definition s1 : world (bool * sub unit) := fst (call OSetup snode (souter true (fun _ => []))).
Definition s2 : world (bool * sub unit) := given7 s1.
Definition s3 : world (bool * sub unit) := fst (call OTick snode s2).

Lemma s1_call : call OSetup snode (souter true (fun _ => [])) = (s1, Ok IDLE).
Proof. apply call_is'. vm_compute. reflexivity. Qed.
Lemma s3_call : call OTick snode s2 = (s3, Ok SUCCEEDED).
Proof. apply call_is'. vm_compute. reflexivity. Qed.
Lemma s_fresh : sub_fresh 0 stree (souter true (fun _ => [])).
Proof. vm_compute. auto. Qed.
Lemma s_not_self : forall w, w_conns w 0 = Some [] -> not_wired_to_itself (E := bool * sub unit) 0 w.
Proof. intros w H k (l & Hl & Hk). rewrite H in Hl. inversion Hl; subst. destruct Hk. Qed.
Lemma given7_ins : forall w, w_ins (given7 w) 0 = [("ii.in", mkC (TInt 0 9) true false false (Some (VInt 7)) true)].
Proof. reflexivity. Qed.
Lemma given7_history : forall w0 l w, map fst (w_ins w 0) = ["ii.in"] ->
  sub_history senv du sdef 0 "sub" flagged (not_wired_to_itself 0) w0 l w ->
  sub_history senv du sdef 0 "sub" flagged (not_wired_to_itself 0) w0 l (given7 w).
Proof.
  intros w0 l w Hk H. apply (sh_env _ _ _ _ _ _ _ _ _ w (given7 w) tt); auto.
  - split; [rewrite Hk; reflexivity|]. intros key c Hc. right. rewrite given7_ins in Hc.
    cbn [dget] in Hc. destruct (String.eqb key "ii.in"); [|discriminate]. inversion Hc; subst. auto.
  - destruct w as [a b c d e f [x [rt wi]]]. unfold below, inner. simpl. f_equal. destruct wi as [a1 b1 c1 d1 e1 f1 []]. reflexivity.
Qed.
Lemma s2_history : sub_history senv du sdef 0 "sub" flagged (not_wired_to_itself 0) (souter true (fun _ => [])) [(OSetup, Ok IDLE)] s2.
Proof.
  apply given7_history; [vm_compute; reflexivity|].
  refine (sh_call _ _ _ _ _ _ _ _ OSetup (Ok IDLE) (souter true (fun _ => [])) [] s1 (sh_nil _ _ _ _ _ _ _ _) _ s1_call).
  apply s_not_self. reflexivity.
Qed.

Example C72_example : sd_found sdef = Ok (Some stree) /\ NoDup (ids stree) /\ sub_fresh 0 stree (souter true (fun _ => [])) /\
  sb_root (inner s2) = Some stree /\ accepted s2 0 OTick /\ call OTick snode s2 = (s3, Ok SUCCEEDED) /\
  w_st s3 0 = SUCCEEDED /\ w_st (below s3) 1 = SUCCEEDED /\ w_st (below s3) 3 = SUCCEEDED.
Proof.
  split; [reflexivity|]. split; [repeat constructor; simpl; intuition discriminate|]. split; [exact s_fresh|].
  split; [vm_compute; reflexivity|]. split.
  - split; [vm_compute; intuition discriminate|]. intros key c H. unfold s2 in H. rewrite given7_ins in H.
    destruct H as [H|[]]. inversion H; subst. discriminate.
  - split; [exact s3_call|]. vm_compute. auto.
Qed.

Example C73_example : uuids_ok du /\ sub_inputs_ok du (w_ins (souter true (fun _ => [])) 0) /\
  public_input du sdef (w_ins (souter true (fun _ => [])) 0) 2 /\
  sub_history senv du sdef 0 "sub" flagged (not_wired_to_itself 0) (souter true (fun _ => [])) [(OSetup, Ok IDLE)] s2 /\
  option_map c_val (dget (public_name du 2 "in") (w_ins s2 0)) = Some (Some (VInt 7)) /\
  option_map c_val (input (below s3) 2 "in") = Some (Some (VInt 7)).
Proof.
  split; [exact du_ok|]. split.
  { split; [repeat constructor; simpl; tauto|]. intros k [<-|[]]. vm_compute. reflexivity. }
  split.
  { split; [simpl; auto|]. split; [left; reflexivity|]. intros x [<-|[]] [H _]. discriminate. }
  split; [exact s2_history|]. vm_compute. auto.
Qed.

Example C74_example : option_map c_val (dget (public_name du 3 "out") (w_outs s2 0)) = Some None /\
  option_map c_val (og_get 3 "out" (w_outg (below s3))) = Some (Some (VInt 7)) /\
  option_map c_val (dget (public_name du 3 "out") (w_outs s3 0)) = Some (Some (VInt 7)).
Proof. vm_compute. auto. Qed.

Lemma s_history_start : sub_history senv du sdef 0 "sub" flagged (not_wired_to_itself 0) s2 [(OTick, Ok SUCCEEDED)] s3.
Proof.
  refine (sh_call _ _ _ _ _ _ _ _ OTick (Ok SUCCEEDED) s2 [] s3 (sh_nil _ _ _ _ _ _ _ _) _ s3_call).
  apply s_not_self. reflexivity.
Qed.
Lemma s_history_all : sub_history senv du sdef 0 "sub" flagged (not_wired_to_itself 0) (souter true (fun _ => []))
  [(OSetup, Ok IDLE); (OTick, Ok SUCCEEDED)] s3.
Proof.
  refine (sh_call _ _ _ _ _ _ _ _ OTick (Ok SUCCEEDED) s2 [(OSetup, Ok IDLE)] s3 s2_history _ s3_call).
  apply s_not_self. reflexivity.
Qed.
Lemma s_io : io_output senv 3.
Proof.
  intros o s ins e. destruct o; simpl; auto. destruct (dget "in" ins) as [c|]; auto. destruct (c_val c) as [v|]; auto.
  right. split; auto. split; auto. exists v. reflexivity.
Qed.
Lemma s_leaf : leaf_only 3 stree.
Proof. intros k name cs H. simpl in H. destruct H as [H|[H|[H|[]]]]; inversion H; auto. Qed.
Lemma s_public : forall w, w_outs (below w) 3 = [("out", empty_c)] -> w_outs w 0 = [("iii.out", empty_c)] ->
  w_conns (below w) 3 = Some [] -> public_output (X := bool) (F := unit) du sdef 0 3 w.
Proof.
  intros w H1 H2 H3. split; [|split; [auto|split; [simpl; auto|]]].
  - exists empty_c, empty_c. split; auto. split; auto. split; [unfold output; rewrite H2; reflexivity|auto].
  - intros x [<-|[]]. discriminate.
Qed.

Example C74_ticks_example : uuids_ok du /\ io_output senv 3 /\ leaf_only 3 stree /\
  sub_history senv du sdef 0 "sub" flagged (not_wired_to_itself 0) s2 [(OTick, Ok SUCCEEDED)] s3 /\
  sb_root (inner s2) = Some stree /\ public_output du sdef 0 3 s2 /\ w_conns (below s2) 3 <> None /\
  (forall v, ~ written s2 3 v) /\ written s3 3 (VInt 7) /\ shown du 0 3 s3 (VInt 7).
Proof.
  split; [exact du_ok|]. split; [exact s_io|]. split; [exact s_leaf|]. split; [exact s_history_start|].
  split; [vm_compute; reflexivity|]. split; [apply s_public; vm_compute; reflexivity|]. split; [vm_compute; discriminate|]. split.
  - intros v (o & H1 & H2). assert (E : output (below s2) 3 "out" = Some empty_c) by (vm_compute; reflexivity).
    rewrite E in H1. inversion H1; subst. discriminate.
  - split.
    + eexists. split; vm_compute; reflexivity.
    + eexists. eexists. split; [vm_compute; reflexivity|]. split; [vm_compute; reflexivity|]. left. reflexivity.
Qed.

Example C74_history_example : In 3 (ids stree) /\ wf stree /\ resets_all stree /\ sd_found sdef = Ok (Some stree) /\
  sub_fresh 0 stree (souter true (fun _ => [])) /\ public_output du sdef 0 3 (souter true (fun _ => [])) /\
  sub_history senv du sdef 0 "sub" flagged (not_wired_to_itself 0) (souter true (fun _ => [])) [(OSetup, Ok IDLE); (OTick, Ok SUCCEEDED)] s3 /\
  live (w_st s3 0) /\ written s3 3 (VInt 7).
Proof.
  split; [simpl; auto|]. split.
  { split; [repeat constructor; simpl; intuition discriminate|]. intros n k name cs H. simpl in H.
    destruct H as [H|[H|[H|[]]]]; inversion H; simpl; auto. }
  split. { intros n k name cs H. simpl in H. destruct H as [H|[H|[H|[]]]]; inversion H; split; discriminate. }
  split; [reflexivity|]. split; [exact s_fresh|]. split; [apply s_public; vm_compute; reflexivity|].
  split; [exact s_history_all|]. split; [vm_compute; intuition discriminate|]. eexists. split; vm_compute; reflexivity.
Qed.

(** Without that condition C73 is false, in an ordinary tree: a Sequence of a leaf that
    writes 7 to the input of the Subtree node, a leaf that fails the first time, and the
    Subtree node.  In the second tick 7 is written again, which unflags the input before
    the Subtree node has ever seen it: its input holds 7, the input inside has no value,
    and the inner tree breaks. *)
Definition oenv : env (bool * sub unit) := mkEnv (bool * sub unit)
  (fun o n _ _ e => match o with
     | OTick => if Nat.eqb n 11 then (e, [("out", VInt 7)], Ok SUCCEEDED)
                else ((true, snd e), [], if fst e then Ok SUCCEEDED else Ok FAILED)
     | OShutdown => (e, [], Ok SHUTDOWN)
     | _ => (e, [], Ok IDLE)
     end)
  (fun _ _ _ => Ok bounds_free) (fun e => (e, 0%Z)).
Definition oseq : obj (bool * sub unit) :=
  make_obj oenv 10 KSequence "seq" [make_obj oenv 11 KLeaf "constant" []; make_obj oenv 12 KLeaf "later" []; snode].

Theorem C73_inputs_refuted : exists w0 w1 w2 w3 e,
  sub_fresh 0 stree w0 /\ not_wired_to_itself 0 w0 /\
  call OSetup oseq w0 = (w1, Ok IDLE) /\ call OTick oseq w1 = (w2, Ok FAILED) /\ call OTick oseq w2 = (w3, Err e) /\
  option_map c_val (input w3 0 (public_name du 2 "in")) = Some (Some (VInt 7)) /\
  option_map c_val (input (below w3) 2 "in") = Some None /\ w_st (below w3) 2 = BROKEN.
Proof.
  set (w0 := souter false (fun n => if Nat.eqb n 11 then [mkConn "out" 0 "ii.in"] else [])).
  exists w0, (fst (call OSetup oseq w0)), (fst (call OTick oseq (fst (call OSetup oseq w0)))),
    (fst (call OTick oseq (fst (call OTick oseq (fst (call OSetup oseq w0)))))), EUnset.
  split; [vm_compute; auto|]. split; [apply s_not_self; reflexivity|].
  split; [apply call_is'; vm_compute; reflexivity|].
  split; [apply call_is'; vm_compute; reflexivity|].
  split; [apply call_is'; vm_compute; reflexivity|].
  vm_compute. auto.
Qed.
Print Assumptions C73_inputs_refuted.

From Coq Require Import QArith_base.
(** Leaves that cost between 1 and 2 to succeed and between 3 and 4 to fail. *)
Definition sutil : env unit := mkEnv unit (fun _ _ _ _ e => (e, [], Ok IDLE))
  (fun _ _ _ => Ok (mkBounds true true 1%Q true 2%Q true 3%Q true 4%Q)) (fun e => (e, 0%Z)).
Example C28_subtree_example : exists b,
  let w := souter true (fun _ => []) in
  let leaf := fun n => ev_util sutil n (w_ins (below w) n) (w_ext (below w)) in
  SpecUtility.executable leaf stree /\ o_util (subtree_obj sutil du sdef 0%nat "sub") w = Ok b /\
  Qeq_bool (ls b) 2%Q = true /\ Qeq_bool (us b) 4%Q = true /\ Qeq_bool (lf b) 3%Q = true /\ Qeq_bool (uf b) 6%Q = true.
Proof. eexists. split; [cbn; repeat split; eexists; split; reflexivity|]. split; [reflexivity|]. vm_compute. auto. Qed.
