(** Proofs about trees as messages: get_subtree and structure_to_msg. *)
From Coq Require Import String ZArith Bool Arith Lia Relations List.
From Verif Require Import Base ModelData ModelEdit ModelMsg SpecEdit SpecMsg ProofsEdit ProofsEditOps ProofsEditMove ProofsEditCycle ProofsEditWire ProofsEditHist ProofsEditLast.
Import ListNotations.

(** ** The list of nodes below a node *)

Fixpoint all_below (d : nat) (h : oid -> nobj) (l : list oid) : option (list oid) :=
  match l with
  | [] => Some []
  | c :: r => match children_recursive d h c, all_below d h r with
              | Some a, Some b => Some (a ++ b)%list
              | _, _ => None
              end
  end.
Lemma children_recursive_S : forall d h o,
  children_recursive (S d) h o = option_map (cons o) (all_below d h (n_children (h o))).
Proof. intros d h o. cbn [children_recursive]. f_equal. induction (n_children (h o)) as [|c r IH]; [reflexivity|]. cbn. rewrite IH. reflexivity. Qed.

Lemma children_preorder : forall g, HWg g -> forall d o l, reg (g_nodes g) (g_heap g) o ->
  children_recursive d (g_heap g) o = Some l ->
  preorder g (n_id (g_heap g o)) (ids_of (g_heap g) l) /\ Forall (reg (g_nodes g) (g_heap g)) l.
Proof.
  intros g W. induction d as [|d IH]; intros o l R H; [discriminate|].
  rewrite children_recursive_S in H. destruct (all_below d (g_heap g) (n_children (g_heap g o))) as [b|] eqn:E; [|discriminate].
  injection H as <-.
  assert (X : exists ls, Forall2 (preorder g) (ids_of (g_heap g) (n_children (g_heap g o))) ls /\ concat ls = ids_of (g_heap g) b /\
    Forall (reg (g_nodes g) (g_heap g)) b).
  { assert (Rc : forall c, In c (n_children (g_heap g o)) -> reg (g_nodes g) (g_heap g) c) by (intros c Hc; apply (hw_child _ _ _ W _ _ R Hc)).
    revert b E Rc. induction (n_children (g_heap g o)) as [|c r IHl]; intros b E Rc; cbn [all_below] in E.
    - injection E as <-. exists []. split; [constructor|]. split; [reflexivity|constructor].
    - destruct (children_recursive d (g_heap g) c) as [a|] eqn:Ea; [|discriminate].
      destruct (all_below d (g_heap g) r) as [b'|] eqn:Eb; [|discriminate]. injection E as <-.
      destruct (IH c a (Rc c (or_introl eq_refl)) Ea) as [P1 F1].
      destruct (IHl b' eq_refl (fun x Hx => Rc x (or_intror Hx))) as (ls & P2 & C2 & F2).
      exists (ids_of (g_heap g) a :: ls). split; [constructor; auto|]. cbn [concat]. rewrite C2. unfold ids_of. rewrite map_app. split; [reflexivity|].
      apply Forall_app. auto. }
  destruct X as (ls & P & C & F). split; [|constructor; auto].
  cbn [ids_of map]. fold (ids_of (g_heap g) b). rewrite <- C. apply Pre. rewrite kids_reg by exact R. exact P.
Qed.

(** A path from a node without parent. *)
Inductive rpath (h : oid -> nobj) (nodes : list (nid * oid)) : list oid -> oid -> Prop :=
| RP_root y : reg nodes h y -> n_parent (h y) = None -> rpath h nodes [y] y
| RP_step l o c : rpath h nodes l o -> In c (n_children (h o)) -> rpath h nodes (c :: l) c.

Lemma rpath_head : forall h nodes l o, rpath h nodes l o -> exists r, l = o :: r.
Proof. intros h nodes l o H. destruct H; eexists; reflexivity. Qed.
Lemma rpath_reg : forall nodes next h l o, HW nodes next h -> rpath h nodes l o -> reg nodes h o /\ Forall (reg nodes h) l.
Proof.
  intros nodes next h l o W H. induction H as [y R P|l o c H [R F] I]; [split; auto|].
  destruct (hw_child _ _ _ W _ _ R I) as [Rc _]. split; auto.
Qed.
(** The parent of a member of the path, other than the last, is the next one. *)
Lemma rpath_parent : forall nodes next h l o, HW nodes next h -> rpath h nodes l o -> forall a x b, l = (a ++ x :: b)%list ->
  match b with [] => n_parent (h x) = None | y :: _ => n_parent (h x) = Some y end.
Proof.
  intros nodes next h l o W H. induction H as [y R P|l o c H IH I]; intros a x b E.
  - destruct a as [|a0 a]; [|destruct a; discriminate]. injection E as <- <-. exact P.
  - destruct a as [|a0 a]; cbn in E.
    + injection E as <- <-. destruct (rpath_head _ _ _ _ H) as [r ->]. apply (hw_child _ _ _ W _ _ (proj1 (rpath_reg _ _ _ _ _ W H)) I).
    + injection E as _ E. eapply IH. exact E.
Qed.
Lemma rpath_NoDup : forall nodes next h l o, HW nodes next h -> rpath h nodes l o -> NoDup l.
Proof.
  intros nodes next h l o W H. pose proof H as H0. induction H as [y R P|l o c H IH I]; [repeat constructor; auto|].
  specialize (IH H). constructor; [|exact IH]. intros X. apply in_split in X. destruct X as (a & b & E).
  destruct (rpath_head _ _ _ _ H) as [r Er].
  assert (Pc : n_parent (h c) = Some o) by (apply (hw_child _ _ _ W _ _ (proj1 (rpath_reg _ _ _ _ _ W H)) I)).
  pose proof (rpath_parent _ _ _ _ _ W H _ _ _ E) as Q. destruct b as [|y b]; [congruence|].
  assert (y = o) by congruence. subst y. rewrite Er in E. rewrite Er in IH.
  destruct a as [|a0 a]; cbn in E.
  - injection E as -> ->. inversion IH as [|? ? N _]. apply N. left. reflexivity.
  - injection E as <- E. inversion IH as [|? ? N _]. apply N. rewrite E. apply in_or_app. right. right. left. reflexivity.
Qed.
Lemma rpath_length : forall nodes next h l o, HW nodes next h -> rpath h nodes l o -> length l <= length nodes.
Proof.
  intros nodes next h l o W H. pose proof (rpath_NoDup _ _ _ _ _ W H) as N. destruct (rpath_reg _ _ _ _ _ W H) as [_ F].
  rewrite <- (map_length snd nodes). apply NoDup_incl_length; [exact N|]. intros x Hx.
  rewrite Forall_forall in F. specialize (F x Hx). apply nget_In in F. apply (in_map snd) in F. exact F.
Qed.

Lemma children_total : forall nodes next h, HW nodes next h -> forall d l o, rpath h nodes l o -> length nodes < d + length l ->
  exists r, children_recursive d h o = Some r.
Proof.
  intros nodes next h W. induction d as [|d IH]; intros l o P L.
  - pose proof (rpath_length _ _ _ _ _ W P). lia.
  - rewrite children_recursive_S.
    assert (X : exists b, all_below d h (n_children (h o)) = Some b); [|destruct X as [b ->]; eexists; reflexivity].
    assert (Q : forall c, In c (n_children (h o)) -> exists r, children_recursive d h c = Some r).
    { intros c Hc. apply (IH (c :: l)); [econstructor; eauto|]. cbn. lia. }
    induction (n_children (h o)) as [|c r IHl]; [eexists; reflexivity|]. cbn [all_below].
    destruct (Q c (or_introl eq_refl)) as [a ->]. destruct IHl as [b ->]; [intros; apply Q; right; assumption|]. eexists. reflexivity.
Qed.

Lemma grounded_rpath : forall g, HWg g -> forall n o, reg (g_nodes g) (g_heap g) o -> up g n (n_id (g_heap g o)) = None ->
  exists l, rpath (g_heap g) (g_nodes g) l o.
Proof.
  intros g W. induction n as [|n IH]; intros o R U.
  - discriminate.
  - cbn [up] in U. rewrite par_reg in U by exact R. destruct (n_parent (g_heap g o)) as [p|] eqn:E.
    + cbn [option_map] in U. destruct (hw_par _ _ _ W _ _ R E) as [Rp Ip].
      destruct (IH p Rp U) as [l P]. exists (o :: l). econstructor; eauto.
    + exists [o]. constructor; auto.
Qed.

(** ** Facts about preorder lists *)

Lemma below_inv : forall g i x, below g i x -> exists c, In c (kids g i) /\ (x = c \/ below g c x).
Proof.
  intros g i x H. apply clos_trans_t1n_iff in H. destruct H as [x H|c x H T]; [exists x; auto|].
  exists c. split; [exact H|]. right. apply clos_trans_t1n_iff. exact T.
Qed.
Lemma below_step : forall g i c x, In c (kids g i) -> (x = c \/ below g c x) -> below g i x.
Proof. intros g i c x H [->|B]; [apply t_step; exact H|]. eapply t_trans; [apply t_step; exact H|exact B]. Qed.

Lemma Forall2_In_r : forall {A B} (R : A -> B -> Prop) l m, Forall2 R l m -> forall y, In y m -> exists x, In x l /\ R x y.
Proof.
  intros A B R l m F. induction F as [|x y l m H F IH]; intros z Hz; [contradiction|].
  destruct Hz as [<-|Hz]; [exists x; split; [left|]; auto|]. destruct (IH z Hz) as (x' & I & H'). exists x'. split; [right|]; auto.
Qed.
Lemma Forall2_In_l : forall {A B} (R : A -> B -> Prop) l m, Forall2 R l m -> forall x, In x l -> exists y, In y m /\ R x y.
Proof.
  intros A B R l m F. induction F as [|x y l m H F IH]; intros z Hz; [contradiction|].
  destruct Hz as [<-|Hz]; [exists y; split; [left|]; auto|]. destruct (IH z Hz) as (y' & I & H'). exists y'. split; [right|]; auto.
Qed.
Lemma preorder_ind' : forall g (P : nid -> list nid -> Prop),
  (forall i ls, Forall2 (fun c l => preorder g c l /\ P c l) (kids g i) ls -> P i (i :: concat ls)) ->
  forall i l, preorder g i l -> P i l.
Proof.
  intros g P Step. fix IH 3. intros i l H. destruct H as [i ls F]. apply Step.
  induction F as [|c l' cs ls' Hc F IHF]; constructor; [split; [exact Hc|apply IH; exact Hc]|exact IHF].
Qed.

Lemma preorder_In : forall g i l, preorder g i l -> forall x, In x l <-> (x = i \/ below g i x).
Proof.
  intros g. apply (preorder_ind' g (fun i l => forall x, In x l <-> (x = i \/ below g i x))). intros i ls F x. cbn [In]. split.
  - intros [->|X]; [auto|]. right. apply in_concat in X. destruct X as (l & Il & Ix).
    destruct (Forall2_In_r _ _ _ F _ Il) as (c & Ic & _ & H). eapply below_step; [exact Ic|]. apply H. exact Ix.
  - intros [->|B]; [auto|]. right. destruct (below_inv _ _ _ B) as (c & Ic & Hx).
    destruct (Forall2_In_l _ _ _ F _ Ic) as (l & Il & _ & H). apply in_concat. exists l. split; [exact Il|]. apply H. exact Hx.
Qed.

Lemma le_below_up : forall g, linked g -> forall x y, x = y \/ below g y x -> exists n, up g n x = Some y.
Proof. intros g L x y [->|B]; [exists 0; reflexivity|]. destruct (below_up g L _ _ B) as [n H]. eauto. Qed.
Lemma up_le_below : forall g, linked g -> forall n x y, up g n x = Some y -> x = y \/ below g y x.
Proof. intros g L [|n] x y H; [injection H as ->; auto|]. right. eapply up_below; eauto. Qed.

Lemma siblings_apart : forall g i c c' x, linked g -> grounded g i -> In c (kids g i) -> In c' (kids g i) ->
  (x = c \/ below g c x) -> (x = c' \/ below g c' x) -> c = c'.
Proof.
  intros g i c c' x L G I I' B B'.
  assert (Half : forall n m a b, In a (kids g i) -> In b (kids g i) -> up g n x = Some a -> up g m x = Some b -> n <= m -> a = b).
  { intros n m a b Ia Ib Ua Ub Le. replace m with (n + (m - n)) in Ub by lia. rewrite (up_add g (m - n) n x a Ua) in Ub.
    destruct (m - n) as [|k]; [injection Ub as ->; reflexivity|]. exfalso.
    cbn [up] in Ub. assert (Pa : par g a = Some i) by (apply child_par; auto). rewrite Pa in Ub.
    apply (grounded_acyclic g i L G). apply (below_step g i b); [exact Ib|]. apply (up_le_below g L _ _ _ Ub). }
  destruct (le_below_up g L _ _ B) as [n U]. destruct (le_below_up g L _ _ B') as [m U'].
  destruct (Nat.le_ge_cases n m); [eapply (Half n m)|symmetry; eapply (Half m n)]; eauto.
Qed.

Lemma NoDup_app_intro : forall {A} (l m : list A), NoDup l -> NoDup m -> (forall x, In x l -> ~ In x m) -> NoDup (l ++ m).
Proof.
  intros A l m. induction l as [|a l IH]; intros Hl Hm D; [exact Hm|]. apply NoDup_cons_iff in Hl. destruct Hl as [N Hl]. cbn. constructor.
  - intros X. apply in_app_or in X. destruct X; [auto|]. apply (D a); [left; reflexivity|assumption].
  - apply IH; auto. intros x Hx. apply D. right. exact Hx.
Qed.

Lemma preorder_NoDup : forall g i l, linked g -> preorder g i l -> grounded g i -> NoDup l.
Proof.
  intros g i l L H. revert i l H. apply (preorder_ind' g (fun i l => grounded g i -> NoDup l)). intros i ls F G.
  assert (Gc : forall c, In c (kids g i) -> grounded g c).
  { intros c Hc. apply (grounded_par g c i); [|exact G]. apply child_par; auto. }
  constructor.
  - intros X. apply in_concat in X. destruct X as (l & Il & Ix). destruct (Forall2_In_r _ _ _ F _ Il) as (c & Ic & P & _).
    apply (grounded_acyclic g i L G). eapply below_step; [exact Ic|]. apply (preorder_In g c l P). exact Ix.
  - assert (Nk : NoDup (kids g i)) by apply (li_nodup g L).
    assert (Ap : forall c c' x, In c (kids g i) -> In c' (kids g i) -> (x = c \/ below g c x) -> (x = c' \/ below g c' x) -> c = c')
      by (intros; eapply siblings_apart; eauto).
    revert Nk Gc Ap. induction F as [|c l cs ls [P Hl] F IH]; intros Nk Gc Ap; [constructor|]. cbn [concat].
    apply NoDup_cons_iff in Nk. destruct Nk as [Nc Nk]. apply NoDup_app_intro.
    + apply Hl, Gc. left. reflexivity.
    + apply IH; auto; [intros d Hd; apply Gc; right; exact Hd|]. intros d d' x Hd Hd'. apply Ap; right; assumption.
    + intros x Hx X. apply in_concat in X. destruct X as (l' & Il & Ix). destruct (Forall2_In_r _ _ _ F _ Il) as (d & Id & P' & _).
      apply Nc. replace c with d; [exact Id|]. apply (Ap d c x); [right; exact Id|left; reflexivity| |].
      * apply (preorder_In g d l' P'). exact Ix.
      * apply (preorder_In g c l P). exact Hx.
Qed.

(** A node that is below itself has no finite list of nodes below it. *)
Lemma preorder_acc : forall g i l, preorder g i l -> Acc (fun c p => child_of g p c) i.
Proof.
  intros g. apply (preorder_ind' g (fun i _ => Acc (fun c p => child_of g p c) i)). intros i ls F. constructor. intros c Hc.
  destruct (Forall2_In_l _ _ _ F _ Hc) as (l & _ & _ & H). exact H.
Qed.
Lemma acc_below : forall g i, Acc (fun c p => child_of g p c) i -> ~ below g i i.
Proof.
  intros g i H. induction H as [i _ IH]. intros B. destruct (below_inv _ _ _ B) as (c & Ic & [->|Bc]).
  - exact (IH c Ic B).
  - apply (IH c Ic). eapply t_trans; [exact Bc|]. apply t_step. exact Ic.
Qed.

(** ** get_subtree *)

Section WithMessages.
Variable describe : nobj -> instance.
Variable depth : nat.

Lemma about_reg : forall g o, reg (g_nodes g) (g_heap g) o ->
  about describe g (n_id (g_heap g o)) (to_structure_msg describe (g_heap g) o).
Proof.
  intros g o R. unfold about. cbn. split; [reflexivity|]. split; [rewrite kids_reg by exact R; reflexivity|].
  exists (g_heap g o). split; [|reflexivity]. unfold obj. unfold reg in R. rewrite R. reflexivity.
Qed.
Lemma about_list : forall g l, Forall (reg (g_nodes g) (g_heap g)) l ->
  Forall2 (about describe g) (ids_of (g_heap g) l) (map (to_structure_msg describe (g_heap g)) l).
Proof. intros g l F. induction F as [|o l R F IH]; cbn; constructor; auto. apply about_reg. exact R. Qed.

Lemma subtree_msg_ok : forall g o t, HWg g -> reg (g_nodes g) (g_heap g) o -> get_subtree_msg describe depth (g_heap g) o = Ok t ->
  exists l, preorder g (n_id (g_heap g o)) l /\ Forall2 (about describe g) l (t_nodes t) /\ t_wires t = [] /\ t_ins t = [] /\ t_outs t = [].
Proof.
  intros g o t W R H. unfold get_subtree_msg in H. destruct (children_recursive depth (g_heap g) o) as [l|] eqn:E; [|discriminate].
  injection H as <-. destruct (children_preorder g W _ _ _ R E) as [P F]. exists (ids_of (g_heap g) l). cbn.
  split; [exact P|]. split; [apply about_list; exact F|auto].
Qed.
Lemma subtree_msg_total : forall g o, HWg g -> reg (g_nodes g) (g_heap g) o -> grounded g (n_id (g_heap g o)) ->
  length (g_nodes g) <= depth -> exists t, get_subtree_msg describe depth (g_heap g) o = Ok t.
Proof.
  intros g o W R [n U] D. destruct (grounded_rpath g W n o R U) as [l P].
  destruct (children_total _ _ _ W depth l o P) as [r E].
  - destruct (rpath_head _ _ _ _ P) as [x ->]. cbn. lia.
  - unfold get_subtree_msg. rewrite E. eexists. reflexivity.
Qed.

Lemma get_subtree_ok : forall g i t, HWg g -> get_subtree describe depth i g = Ok t ->
  exists n l, ros_to_uuid i = Some n /\ present g n /\ preorder g n l /\ Forall2 (about describe g) l (t_nodes t) /\
    t_wires t = [] /\ t_ins t = [] /\ t_outs t = [].
Proof.
  intros g i t W H. unfold get_subtree in H. destruct (ros_to_uuid i) as [n|] eqn:En; [|discriminate].
  destruct (nget n (g_nodes g)) as [o|] eqn:Eo; [|discriminate]. destruct (HWg_ids _ _ _ W Eo) as (R & I & _).
  destruct (subtree_msg_ok g o t W R H) as (l & P & F & X). exists n, l. rewrite I in P.
  split; [reflexivity|]. split; [unfold present; rewrite Eo; discriminate|]. auto.
Qed.
Lemma get_subtree_total : forall g i n, HWg g -> ros_to_uuid i = Some n -> present g n -> grounded g n ->
  length (order g) <= depth -> exists t, get_subtree describe depth i g = Ok t.
Proof.
  intros g i n W En P G D. unfold get_subtree. rewrite En. unfold present in P. destruct (nget n (g_nodes g)) as [o|] eqn:Eo; [|contradiction].
  destruct (HWg_ids _ _ _ W Eo) as (R & I & _). apply subtree_msg_total; auto; [rewrite I; exact G|].
  unfold order in D. rewrite map_length in D. exact D.
Qed.
Lemma get_subtree_cycle : forall g i n, HWg g -> ros_to_uuid i = Some n -> below g n n -> get_subtree describe depth i g = Raise.
Proof.
  intros g i n W En B. pose proof (get_subtree_ok g i) as X. unfold get_subtree in *. rewrite En in *.
  destruct (nget n (g_nodes g)) as [o|] eqn:Eo.
  - unfold get_subtree_msg in *. destruct (children_recursive depth (g_heap g) o) as [l|]; [|reflexivity]. exfalso.
    destruct (X _ W eq_refl) as (n' & l' & E & _ & P & _). injection E as <-. exact (acc_below g n (preorder_acc g n l' P) B).
  - exfalso. destruct (below_inv _ _ _ B) as (c & Ic & _). rewrite kids_nil in Ic; [contradiction|]. unfold present. rewrite Eo. auto.
Qed.

(** ** structure_to_msg *)

Definition list_all (g : mgr) (l : list nmsg) : Prop := Forall2 (about describe g) (order g) l.

Lemma list_all_ok : forall g, HWg g -> list_all g (map (fun io => to_structure_msg describe (g_heap g) (snd io)) (g_nodes g)).
Proof.
  intros g W. unfold list_all, order.
  assert (X : forall io, In io (g_nodes g) -> reg (g_nodes g) (g_heap g) (snd io) /\ n_id (g_heap g (snd io)) = fst io).
  { intros [i o] H. apply In_nget in H; [|apply (hw_keys _ _ _ W)]. destruct (HWg_ids _ _ _ W H) as (R & I & _). auto. }
  assert (Y : forall l, incl l (g_nodes g) ->
    Forall2 (about describe g) (map fst l) (map (fun io => to_structure_msg describe (g_heap g) (snd io)) l)).
  { intros l. induction l as [|io l IH]; intros I; cbn; constructor.
    - destruct (X io (I io (or_introl eq_refl))) as [R <-]. apply about_reg. exact R.
    - apply IH. intros z Hz. apply I. right. exact Hz. }
  apply Y. apply incl_refl.
Qed.

Lemma om_view : forall g g', only_mirror g g' -> g_nodes g' = g_nodes g /\ g_heap g' = g_heap g.
Proof. unfold only_mirror. intros g g' H. tauto. Qed.
Lemma about_om : forall g g' n m, g_nodes g' = g_nodes g -> g_heap g' = g_heap g -> about describe g' n m -> about describe g n m.
Proof.
  intros g g' n m E1 E2 (A & B & x & C & D). unfold about, kids, obj in *. rewrite E1, E2 in *. repeat split; auto. exists x. auto.
Qed.
Lemma preorder_om : forall g g' i l, g_nodes g' = g_nodes g -> g_heap g' = g_heap g -> preorder g' i l -> preorder g i l.
Proof.
  intros g g' i l E1 E2. revert i l. apply (preorder_ind' g' (fun i l => preorder g i l)). intros i ls F. constructor.
  assert (K : kids g i = kids g' i) by (unfold kids, obj; rewrite E1, E2; reflexivity). rewrite K. clear K.
  induction F as [|c l cs ls [_ H] F IH]; constructor; auto.
Qed.

(** What structure_to_msg leaves in the manager's message. *)
Lemma structure_spec : forall s, HWg (s_g s) -> (forall r, par (s_g s) r = None -> length (g_nodes (s_g s)) <= depth) ->
  exists s' t, structure_to_msg describe depth s = (s', Ok t) /\ t = own_msg s' /\
  s_g s' = fst (find_root (s_g s)) /\ s_path s' = s_path s /\ s_freq s' = s_freq s /\ s_log s' = s_log s /\
  ((exists r l, only_root (s_g s) r /\ preorder (s_g s) r l /\ NoDup l /\ Forall2 (about describe (s_g s)) l (s_nodes s') /\
      s_ins s' = [] /\ s_outs s' = []) \/
   ((~ exists r, only_root (s_g s) r) /\ list_all (s_g s) (s_nodes s') /\ s_ins s' = s_ins s /\ s_outs s' = s_outs s)).
Proof.
  intros s W D. unfold structure_to_msg.
  pose proof (om_find_root (s_g s)) as M. destruct (om_view _ _ M) as [En Eh].
  destruct (find_root_spec (s_g s) W) as (Z1 & Z2 & Z3 & Z4).
  pose proof (HW_linked _ W) as L.
  destruct (find_root (s_g s)) as [g r] eqn:E. cbn [fst snd] in *.
  assert (Wg : HWg g) by (eapply om_HW; [exact M|exact W]).
  assert (All : list_all (s_g s) (map (fun io => to_structure_msg describe (g_heap g) (snd io)) (g_nodes g)))
    by (rewrite En, Eh; apply list_all_ok; exact W).
  destruct (g_nodes (s_g s)) as [|io nodes] eqn:Enodes.
  { rewrite (Z1 eq_refl). do 2 eexists. split; [reflexivity|]. split; [reflexivity|]. cbn. repeat (split; [reflexivity|]). right.
    split; [intros (y & P & _); unfold present in P; rewrite Enodes in P; apply P; reflexivity|].
    split; [unfold list_all, order; rewrite Enodes; constructor|auto]. }
  rewrite <- Enodes in *.
  destruct (roots (s_g s)) as [|y [|z rest]] eqn:Er.
  - (* no root *)
    assert (N : forall i, present (s_g s) i -> par (s_g s) i <> None).
    { intros i Hi Hp. assert (X : In i (roots (s_g s))) by (apply filter_In; split; [apply nget_present; exact Hi|rewrite Hp; reflexivity]).
      rewrite Er in X. contradiction. }
    rewrite Z4; auto; [|rewrite Enodes; discriminate]. do 2 eexists. split; [reflexivity|]. split; [reflexivity|]. cbn. repeat (split; [reflexivity|]). right.
    split; [intros (y & P & Q & _); exact (N y P Q)|auto].
  - (* one root *)
    assert (Iy : In y (roots (s_g s))) by (rewrite Er; left; reflexivity).
    apply filter_In in Iy. destruct Iy as [Iy Py]. destruct (par (s_g s) y) eqn:Ey; [discriminate|]. clear Py.
    assert (Py : present (s_g s) y) by (apply nget_present; exact Iy).
    assert (U : forall j, present (s_g s) j -> par (s_g s) j = None -> j = y).
    { intros j Hj Hp. assert (X : In j (roots (s_g s))) by (apply filter_In; split; [apply nget_present; exact Hj|rewrite Hp; reflexivity]).
      rewrite Er in X. destruct X as [<-|[]]. reflexivity. }
    destruct (Z2 y Py Ey U) as (o & -> & Io & _). cbn [fst snd] in *.
    assert (R : reg (g_nodes g) (g_heap g) o).
    { destruct (HW_present _ _ W Py) as (o' & Eo' & _). destruct (HWg_ids _ _ _ W Eo') as (R' & I' & _).
      assert (o = o'); [|subst; rewrite En, Eh; exact R'].
      clear -E Io I' R' W Eo' En Eh. unfold find_root in E. cbv zeta in E. destruct (g_nodes (sync_children (s_g s))) eqn:X; [discriminate|].
      rewrite <- X in E. destruct (filter _ _) as [|a [|]] eqn:Ef; try discriminate. injection E as _ <-.
      assert (In a (map snd (g_nodes (sync_children (s_g s))))) as Ia.
      { eapply (proj1 (filter_In _ _ _)). rewrite Ef. left. reflexivity. }
      apply in_map_iff in Ia. destruct Ia as ([j b] & <- & Ib). cbn in *. change (g_nodes (sync_children (s_g s))) with (g_nodes (s_g s)) in Ib.
      apply In_nget in Ib; [|apply (hw_keys _ _ _ W)]. destruct (HWg_ids _ _ _ W Ib) as (Rb & Jb & _). congruence. }
    assert (G : grounded g (n_id (g_heap g o))).
    { apply grounded_root. rewrite Eh, Io. unfold par, obj in *. rewrite En, Eh. exact Ey. }
    destruct (subtree_msg_total g o Wg R G) as [t Et]; [rewrite En; apply (D y Ey)|].
    rewrite Et. destruct (subtree_msg_ok g o t Wg R Et) as (l & P & F & T1 & T2 & T3).
    rewrite T2, T3.
    do 2 eexists. split; [reflexivity|]. split; [reflexivity|]. cbn. repeat (split; [reflexivity|]). left.
    exists y, l. rewrite Eh, Io in P. split; [split; [exact Py|split; [exact Ey|exact U]]|].
    assert (P' : preorder (s_g s) y l) by (eapply preorder_om; [exact En|exact Eh|exact P]).
    split; [exact P'|]. split; [eapply preorder_NoDup; [exact L|exact P'|apply grounded_root; exact Ey]|]. split; [|auto].
    clear -F En Eh. induction F; constructor; auto. eapply about_om; eauto.
  - (* several *)
    assert (N : NoDup (roots (s_g s))) by (apply NoDup_filter'; apply (li_once _ L)).
    assert (X : forall j, In j (roots (s_g s)) -> present (s_g s) j /\ par (s_g s) j = None).
    { intros j Hj. apply filter_In in Hj. destruct Hj as [Hj Q]. split; [apply nget_present; exact Hj|]. destruct (par (s_g s) j); [discriminate|reflexivity]. }
    rewrite Er in N, X. destruct (X y (or_introl eq_refl)) as [Py Qy]. destruct (X z (or_intror (or_introl eq_refl))) as [Pz Qz].
    assert (y <> z) by (inversion N as [|? ? N1 _]; intros ->; apply N1; left; reflexivity).
    rewrite (Z3 y z) by auto. do 2 eexists. split; [reflexivity|]. split; [reflexivity|]. cbn. repeat (split; [reflexivity|]). right.
    split; [intros (q & _ & _ & Q); apply H; rewrite (Q y Py Qy), (Q z Pz Qz); reflexivity|auto].
Qed.
End WithMessages.
