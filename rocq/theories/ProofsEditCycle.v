(** Proofs about editing, part 4: the search for cycles and for the root. *)
From Coq Require Import String ZArith Bool Arith Lia Relations List.
From Verif Require Import Base ModelData ModelEdit SpecEdit ProofsEdit ProofsEditOps.
Import ListNotations.

(** The [n]-th ancestor. *)
Fixpoint up (g : mgr) (n : nat) (x : nid) : option nid :=
  match n with 0 => Some x | S m => match par g x with None => None | Some p => up g m p end end.

Lemma child_par : forall g a b, linked g -> (child_of g a b <-> par g b = Some a).
Proof. intros g a b L. split; intros H; [apply (li_child _ L a b H)|apply (li_parent _ L b a H)]. Qed.

Lemma up_below : forall g, linked g -> forall n x y, up g (S n) x = Some y -> below g y x.
Proof.
  intros g L. induction n as [|n IH]; intros x y H; cbn [up] in H; destruct (par g x) as [p|] eqn:E; try discriminate.
  - cbn in H. injection H as <-. apply t_step. apply child_par; auto.
  - eapply t_trans; [apply IH; exact H|]. apply t_step. apply child_par; auto.
Qed.
Lemma up_add : forall g m n x y, up g n x = Some y -> up g (n + m) x = up g m y.
Proof.
  induction n as [|n IH]; intros x y H; cbn [up plus] in *; [congruence|]. destruct (par g x); [auto|discriminate].
Qed.
Lemma below_up : forall g, linked g -> forall x y, below g y x -> exists n, up g (S n) x = Some y.
Proof.
  intros g L x y H. induction H as [a b H|a b c _ [n IH1] _ [m IH2]].
  - exists 0. cbn [up]. apply child_par in H; auto. rewrite H. reflexivity.
  - exists (m + S n). change (up g (S m + S n) c = Some a). rewrite (up_add _ _ _ _ _ IH2). exact IH1.
Qed.

Definition grounded (g : mgr) (x : nid) : Prop := exists n, up g n x = None.
Lemma grounded_par : forall g x p, par g x = Some p -> (grounded g x <-> grounded g p).
Proof.
  intros g x p E. split; intros [n H].
  - destruct n as [|n]; cbn [up] in H; [discriminate|]. rewrite E in H. exists n. exact H.
  - exists (S n). cbn [up]. rewrite E. exact H.
Qed.
Lemma grounded_root : forall g x, par g x = None -> grounded g x.
Proof. intros g x E. exists 1. cbn. rewrite E. reflexivity. Qed.
Lemma grounded_up : forall g n x y, up g n x = Some y -> (grounded g x <-> grounded g y).
Proof.
  induction n as [|n IH]; intros x y H; cbn [up] in H; [injection H as <-; tauto|].
  destruct (par g x) as [p|] eqn:E; [|discriminate]. rewrite (grounded_par _ _ _ E). apply IH. exact H.
Qed.
Lemma grounded_acyclic : forall g x, linked g -> grounded g x -> ~ below g x x.
Proof.
  intros g x L [n H] B. apply below_up in B; auto. destruct B as [m B].
  assert (X : forall k, up g (k * S m) x = Some x).
  { induction k as [|k IH]; [reflexivity|]. cbn [mult]. rewrite Nat.add_comm. rewrite (up_add _ _ _ _ _ IH). exact B. }
  assert (Y : forall a b y, up g a y = None -> up g (a + b) y = None).
  { induction a as [|a IHa]; intros b y E; cbn [up plus] in *; [discriminate|]. destruct (par g y); auto. }
  specialize (X n). replace (n * S m) with (n + n * m) in X by lia. rewrite (Y _ _ _ H) in X. discriminate.
Qed.

(** In a finite acyclic tree every chain of parents ends. *)
Lemma up_path : forall g, linked g -> acyclic g -> forall n x y, up g n x = Some y ->
  exists l, length l = n /\ NoDup l /\ (forall z, In z l -> present g z) /\ (forall z, In z l -> z = x \/ below g z x).
Proof.
  intros g L A. induction n as [|n IH]; intros x y H; cbn [up] in H.
  - exists []. split; auto. split; [constructor|]. split; intros z [].
  - destruct (par g x) as [p|] eqn:E; [|discriminate]. destruct (IH _ _ H) as (l & Hl & Hn & Hp & Hb).
    assert (Cpx : below g p x) by (apply t_step, child_par; auto).
    assert (Hz : forall z, In z l -> below g z x).
    { intros z Hz. destruct (Hb z Hz) as [->|B]; auto. eapply t_trans; eauto. }
    exists (x :: l). split; [cbn; congruence|]. split; [constructor; auto; intros Hx; exact (A x (Hz x Hx))|]. split.
    + intros z [<-|Hi]; auto. destruct (present_dec g x) as [P|P]; auto. rewrite par_none in E by auto. discriminate.
    + intros z [<-|Hi]; auto.
Qed.
Lemma acyclic_up : forall g, linked g -> acyclic g -> forall x, up g (S (length (g_nodes g))) x = None.
Proof.
  intros g L A x. destruct (up g (S (length (g_nodes g))) x) as [y|] eqn:E; auto. exfalso.
  destruct (up_path g L A _ _ _ E) as (l & Hl & Hn & Hp & _).
  assert (I : incl l (order g)) by (intros z Hz; apply nget_present, Hp; auto).
  pose proof (NoDup_incl_length Hn I) as X. unfold order in X. rewrite map_length in X. lia.
Qed.
Lemma acyclic_grounded : forall g, linked g -> acyclic g -> forall x, grounded g x.
Proof. intros g L A x. eexists. apply acyclic_up; auto. Qed.

(** ** One chain *)

Lemma chain_correct : forall g, HWg g -> forall fuel start safe cands cur safe' c so,
  reg (g_nodes g) (g_heap g) cur -> nget start (g_nodes g) = Some so ->
  (forall x, In x safe -> grounded g x) ->
  (forall x, In x cands -> exists n, up g n x = Some (n_id (g_heap g cur))) ->
  (forall x, In x cands -> exists n, up g n start = Some x) ->
  In start cands ->
  (n_id (g_heap g cur) = start \/ n_parent (g_heap g so) <> None) ->
  chain fuel g start safe cands cur = Some (safe', c) ->
  (forall x, In x safe' -> grounded g x) /\
  ((c = [] /\ grounded g start) \/ (In start c /\ (forall x, In x c -> below g x x))).
Proof.
  intros g W. pose proof (HW_linked _ W) as L.
  induction fuel as [|f IH]; intros start safe cands cur safe' c so Rc Es Hs Hup Hfrom Hin Hstart H; [discriminate|].
  cbn [chain] in H. set (h := g_heap g) in *.
  assert (Gr : forall x, In x cands -> grounded g (n_id (h cur)) -> grounded g x).
  { intros x Hx G. destruct (Hup x Hx) as [n En]. apply (grounded_up _ _ _ _ En). exact G. }
  pose proof (par_reg g cur Rc) as Pc. fold h in Pc.
  destruct (n_parent (h cur)) as [p|] eqn:Ep.
  - destruct (hw_par _ _ _ W _ _ Rc Ep) as [Rp Ip]. pose proof Rp as Rp'. unfold reg in Rp'. fold h in Rp'. rewrite Rp' in H.
    cbn [option_map] in Pc. fold h in Pc.
    set (pi := n_id (h p)) in *.
    assert (Hup' : forall x, In x (cands ++ [pi]) -> exists n, up g n x = Some pi).
    { intros x Hx. apply in_app_or in Hx. destruct Hx as [Hx|[<-|[]]]; [|exists 0; reflexivity].
      destruct (Hup x Hx) as [n En]. exists (n + 1). rewrite (up_add _ _ _ _ _ En). cbn [up]. rewrite Pc. reflexivity. }
    assert (Hfrom' : forall x, In x (cands ++ [pi]) -> exists n, up g n start = Some x).
    { intros x Hx. apply in_app_or in Hx. destruct Hx as [Hx|[<-|[]]]; [auto|].
      destruct (Hup start Hin) as [n En]. exists (n + 1). rewrite (up_add _ _ _ _ _ En). cbn [up]. rewrite Pc. reflexivity. }
    assert (Es' : n_id (h so) = start) by (destruct (hw_id _ _ _ W _ _ Es); auto).
    assert (NotRoot : n_parent (h so) <> None).
    { destruct Hstart as [E|E]; [|exact E]. assert (so = cur) by (eapply reg_eq; eauto; [eapply nget_reg; eauto|fold h; congruence]). subst so. congruence. }
    destruct (Nat.eqb_spec pi start) as [Epi|Epi].
    + assert (X : p = so) by (eapply reg_eq; eauto; [eapply nget_reg; eauto|unfold pi in Epi; fold h; congruence]). subst p.
      destruct (n_parent (h so)) eqn:Eso; [|congruence]. injection H as <- <-. split; [exact Hs|]. right.
      split; [apply in_or_app; auto|]. intros x Hx.
      apply in_app_or in Hx. destruct Hx as [Hx|[<-|[]]].
      * destruct (Hup x Hx) as [n En]. destruct (Hfrom x Hx) as [m Em].
        assert (X : up g (S (n + m)) x = Some x).
        { replace (S (n + m)) with (n + (1 + m)) by lia. rewrite (up_add _ _ _ _ _ En). cbn [up plus]. rewrite Pc.
          fold pi. rewrite Epi. exact Em. }
        apply (up_below g L (n + m)). exact X.
      * rewrite Epi. destruct (Hup start Hin) as [n En].
        assert (X : up g (S n) start = Some start).
        { replace (S n) with (n + 1) by lia. rewrite (up_add _ _ _ _ _ En). cbn [up]. rewrite Pc. fold pi. congruence. }
        apply (up_below g L n). exact X.
    + destruct (mem pi safe) eqn:Em.
      * apply mem_In in Em. assert (G : grounded g (n_id (h cur))) by (apply (grounded_par _ _ _ Pc); apply Hs; auto).
        assert (G' : forall x, In x (cands ++ [pi]) -> grounded g x).
        { intros x Hx. apply in_app_or in Hx. destruct Hx as [Hx|[<-|[]]]; auto. }
        injection H as <- <-. split; [|left; split; auto].
        intros x Hx. destruct (n_parent (h p)).
        -- apply in_app_or in Hx. destruct Hx as [Hx|Hx]; auto.
        -- apply in_app_or in Hx. destruct Hx as [Hx|Hx]; auto. apply in_app_or in Hx. destruct Hx as [Hx|Hx]; auto.
      * eapply (IH start safe (cands ++ [pi])%list p); eauto. apply in_or_app. auto.
  - assert (G : grounded g (n_id (h cur))) by (apply grounded_root; exact Pc).
    injection H as <- <-. split; [|left; split; auto].
    intros x Hx. apply in_app_or in Hx. destruct Hx; auto.
Qed.

Lemma chain_start : forall g, HWg g -> forall fuel i o safe safe' c,
  nget i (g_nodes g) = Some o -> (forall x, In x safe -> grounded g x) ->
  chain fuel g i safe [i] o = Some (safe', c) ->
  (forall x, In x safe' -> grounded g x) /\ ((c = [] /\ grounded g i) \/ (In i c /\ (forall x, In x c -> below g x x))).
Proof.
  intros g W fuel i o safe safe' c E Hs H. destruct (HWg_ids _ _ _ W E) as (R & Ei & _).
  eapply (chain_correct g W fuel i safe [i] o safe' c o); eauto.
  - intros x [<-|[]]. exists 0. cbn. congruence.
  - intros x [<-|[]]. exists 0. reflexivity.
  - left. auto.
Qed.

Lemma cycles_correct : forall g, HWg g -> forall fuel l safe cyc r,
  (forall i o, In (i, o) l -> nget i (g_nodes g) = Some o) -> (forall x, In x safe -> grounded g x) ->
  (forall x, In x cyc -> below g x x) ->
  cycles_from fuel g l safe cyc = Some r ->
  (forall x, In x r -> below g x x) /\ incl cyc r /\
  (forall i, In i (map fst l) -> (grounded g i \/ below g i i) /\ (below g i i -> In i r)).
Proof.
  intros g W fuel. induction l as [|[i o] l IH]; intros safe cyc r Hl Hs Hc H; cbn [cycles_from] in H.
  - injection H as <-. split; auto. split; [apply incl_refl|]. intros i [].
  - destruct (chain fuel g i safe [i] o) as [[safe' c]|] eqn:E; [|discriminate].
    destruct (chain_start g W _ _ _ _ _ _ (Hl _ _ (or_introl eq_refl)) Hs E) as [Hs' Hr].
    destruct (IH safe' (cyc ++ c)%list r) as (A & B & C); auto.
    + intros; apply Hl; right; auto.
    + intros x Hx. apply in_app_or in Hx. destruct Hx as [Hx|Hx]; auto. destruct Hr as [[-> _]|[_ Hr]]; [destruct Hx|auto].
    + split; auto. split; [intros x Hx; apply B, in_or_app; auto|].
      intros j [<-|Hj]; [|apply C; auto]. destruct Hr as [[-> G]|[Hi Hr]].
      * split; auto. intros X. cbn [fst] in *. exfalso. eapply grounded_acyclic; eauto. apply HW_linked; auto.
      * split; [right; apply Hr; exact Hi|]. intros _. apply B, in_or_app. auto.
Qed.

Theorem find_cycles_correct : forall fuel g r, HWg g -> find_nodes_in_cycles fuel g = Some r ->
  (forall x, In x r <-> below g x x) /\ (forall i, present g i -> grounded g i \/ below g i i).
Proof.
  intros fuel g r W H. unfold find_nodes_in_cycles in H.
  destruct (cycles_correct g W fuel (g_nodes g) [] [] r) as (A & B & C); auto.
  - intros i o Hi. apply In_nget; auto. apply W.
  - intros x [].
  - intros x [].
  - split.
    + intros x. split; auto. intros Hb. apply C; auto.
      assert (P : present g x).
      { destruct (present_dec g x) as [P|P]; auto. exfalso.
        apply below_up in Hb; [|apply HW_linked; auto]. destruct Hb as [n Hb]. cbn [up] in Hb. rewrite par_none in Hb by auto. discriminate. }
      apply nget_present. exact P.
    + intros i P. apply C. apply nget_present. exact P.
Qed.

(** ** Termination *)

Lemma chain_terminates : forall g, HWg g -> forall n fuel start safe cands cur,
  reg (g_nodes g) (g_heap g) cur -> n <= fuel ->
  (up g n (n_id (g_heap g cur)) = None \/ (exists k, S k <= n /\ up g (S k) (n_id (g_heap g cur)) = Some start)) ->
  exists x, chain fuel g start safe cands cur = Some x.
Proof.
  intros g W. induction n as [|n IH]; intros fuel start safe cands cur R Hf H.
  - destruct H as [H|(k & Hk & _)]; [discriminate|lia].
  - destruct fuel as [|f]; [lia|]. cbn [chain]. pose proof (par_reg g cur R) as Pc.
    destruct (n_parent (g_heap g cur)) as [p|] eqn:Ep; [|eauto].
    destruct (hw_par _ _ _ W _ _ R Ep) as [Rp Ip]. pose proof Rp as Rp'. unfold reg in Rp'. rewrite Rp'. cbn [option_map] in Pc.
    destruct (Nat.eqb_spec (n_id (g_heap g p)) start) as [E|E]; [eauto|].
    destruct (mem _ safe); [eauto|]. apply IH; auto; [lia|].
    destruct H as [H|(k & Hk & H)]; cbn [up] in H; rewrite Pc in H.
    + left. exact H.
    + right. destruct k as [|k]; cbn [up] in H; [congruence|]. exists k. split; [lia|]. exact H.
Qed.

Lemma cycles_terminate : forall g, HWg g -> forall l N,
  (forall i o, In (i, o) l -> nget i (g_nodes g) = Some o) ->
  (forall i, In i (map fst l) -> up g N i = None \/ exists k, S k <= N /\ up g (S k) i = Some i) ->
  forall fuel safe cyc, N <= fuel -> exists r, cycles_from fuel g l safe cyc = Some r.
Proof.
  intros g W. induction l as [|[i o] l IH]; intros N Hl Hg fuel safe cyc Hf; cbn [cycles_from]; [eauto|].
  destruct (HWg_ids _ _ _ W (Hl _ _ (or_introl eq_refl))) as (R & Ei & _).
  destruct (chain_terminates g W N fuel i safe [i] o) as [[safe' c] ->]; auto.
  - rewrite Ei. apply Hg. left. reflexivity.
  - eapply IH; eauto; intros; [apply Hl|apply Hg]; right; auto.
Qed.

Theorem find_cycles_acyclic : forall g, HWg g -> acyclic g -> forall fuel, S (length (g_nodes g)) <= fuel ->
  find_nodes_in_cycles fuel g = Some [].
Proof.
  intros g W A fuel Hf. pose proof (HW_linked _ W) as L.
  destruct (cycles_terminate g W (g_nodes g) (S (length (g_nodes g)))) with (fuel := fuel) (safe := @nil nid) (cyc := @nil nid) as [r E]; auto.
  - intros i o Hi. apply In_nget; auto. apply W.
  - intros i _. left. apply acyclic_up; auto.
  - unfold find_nodes_in_cycles. rewrite E. destruct (find_cycles_correct fuel g r W E) as [H _].
    destruct r as [|x r]; [reflexivity|]. exfalso. apply (A x), H. left. reflexivity.
Qed.

Lemma up_grounded_ge : forall g n m x, up g n x = None -> n <= m -> up g m x = None.
Proof.
  induction n as [|n IH]; intros m x H Hm; cbn [up] in H; [discriminate|]. destruct m as [|m]; [lia|]. cbn [up].
  destruct (par g x); auto. apply IH; auto. lia.
Qed.

(** The search ends exactly when no chain of parents runs into a cycle it did not
    start on. *)
Theorem find_cycles_terminates : forall g, HWg g ->
  ((exists fuel r, find_nodes_in_cycles fuel g = Some r) <-> (forall i, present g i -> grounded g i \/ below g i i)).
Proof.
  intros g W. pose proof (HW_linked _ W) as L. split.
  - intros (fuel & r & H). apply (find_cycles_correct fuel g r W H).
  - intros H.
    assert (X : forall l, (forall i, In i l -> present g i) -> exists N, forall i, In i l ->
       up g N i = None \/ exists k, S k <= N /\ up g (S k) i = Some i).
    { induction l as [|i l IH]; intros Hl; [exists 0; intros i []|].
      destruct IH as [N HN]; [intros; apply Hl; right; auto|].
      destruct (H i (Hl i (or_introl eq_refl))) as [[n Hn]|B].
      - exists (N + n). intros j [<-|Hj].
        + left. eapply up_grounded_ge; eauto. lia.
        + destruct (HN j Hj) as [E|(k & Hk & E)]; [left; eapply up_grounded_ge; eauto; lia|right; exists k; split; auto; lia].
      - apply below_up in B; auto. destruct B as [n Hn]. exists (N + S n). intros j [<-|Hj].
        + right. exists n. split; auto. lia.
        + destruct (HN j Hj) as [E|(k & Hk & E)]; [left; eapply up_grounded_ge; eauto; lia|right; exists k; split; auto; lia]. }
    destruct (X (order g)) as [N HN]; [intros i Hi; apply nget_present; exact Hi|].
    exists N. apply (cycles_terminate g W (g_nodes g) N); auto. intros i o Hi. apply In_nget; auto. apply W.
Qed.

(** ** The root *)

Lemma kids_all : forall g x, HWg g -> (In x (flat_map snd (g_kids (sync_children g))) <-> exists p, par g x = Some p).
Proof.
  intros g x W. unfold sync_children. cbn [g_kids set_kids]. rewrite in_flat_map. split.
  - intros ((i & l) & Hi & Hx). apply in_map_iff in Hi. destruct Hi as ((j & o) & E & Ho). injection E as <- <-. cbn [snd fst] in *.
    assert (Eo : nget j (g_nodes g) = Some o) by (apply In_nget; auto; apply W).
    destruct (HWg_ids _ _ _ W Eo) as (R & Ej & _). exists (n_id (g_heap g o)). apply (li_child _ (HW_linked _ W)).
    rewrite kids_reg by auto. exact Hx.
  - intros [p Hp]. destruct (li_parent _ (HW_linked _ W) _ _ Hp) as [P I].
    destruct (HW_present _ _ W P) as (o & E & R & Ei).
    exists (p, ids_of (g_heap g) (n_children (g_heap g o))). split.
    + apply in_map_iff. exists (p, o). split; auto. apply nget_In. exact E.
    + cbn [snd]. rewrite <- kids_reg by auto. rewrite Ei. exact I.
Qed.

Definition roots (g : mgr) : list nid := filter (fun i => match par g i with None => true | Some _ => false end) (order g).

Lemma find_root_roots : forall g, HWg g ->
  snd (find_root g) = match roots g with
    | [] => match g_nodes g with [] => Ok None | _ => Err ETopo end
    | [i] => Ok (nget i (g_nodes g))
    | _ => Err ETopo
    end /\
  (forall i, roots g = [i] -> g_root (fst (find_root g)) = Some i).
Proof.
  intros g W. unfold find_root. change (g_nodes (sync_children g)) with (g_nodes g). change (g_heap (sync_children g)) with (g_heap g).
  assert (X : map (fun o => n_id (g_heap g o)) (filter (fun o => negb (mem (n_id (g_heap g o)) (flat_map snd (g_kids (sync_children g))))) (map snd (g_nodes g))) = roots g).
  { unfold roots, order.
    rewrite <- (filter_map (fun o => n_id (g_heap g o)) (fun i => negb (mem i (flat_map snd (g_kids (sync_children g)))))). rewrite map_map.
    assert (E : map (fun x => n_id (g_heap g (snd x))) (g_nodes g) = map fst (g_nodes g)).
    { apply map_ext_in. intros [i o] Hi. cbn [fst snd]. eapply hw_id; eauto. apply In_nget; auto. apply W. }
    assert (E2 : filter (fun i => negb (mem i (flat_map snd (g_kids (sync_children g))))) (map (fun x => n_id (g_heap g (snd x))) (g_nodes g)) =
                 filter (fun i => match par g i with None => true | Some _ => false end) (map fst (g_nodes g))).
    { rewrite E. apply filter_ext. intros i. pose proof (kids_all g i W) as K. destruct (par g i) eqn:Ep.
      - apply negb_false_iff, mem_In. apply K. eauto.
      - apply negb_true_iff, mem_nIn. intros Hi. apply K in Hi. destruct Hi. discriminate. }
    exact E2. }
  set (F := filter (fun o => negb (mem (n_id (g_heap g o)) (flat_map snd (g_kids (sync_children g))))) (map snd (g_nodes g))) in *.
  assert (Reg : forall o, In o F -> nget (n_id (g_heap g o)) (g_nodes g) = Some o).
  { intros o Ho. apply filter_In in Ho. destruct Ho as [Ho _]. apply in_map_iff in Ho. destruct Ho as ((i & o') & E & Hi). cbn [snd] in E. subst o'.
    apply In_nget in Hi; [|apply W]. destruct (HWg_ids _ _ _ W Hi) as (R & Ei & _). exact R. }
  rewrite <- X. destruct (g_nodes g) as [|a l] eqn:En.
  - cbn in F. subst F. cbn. split; auto. discriminate.
  - destruct F as [|o [|o2 F']]; cbn [map fst snd].
    + split; [reflexivity|discriminate].
    + split; [rewrite (Reg o) by (left; auto); reflexivity|]. intros i E. injection E as <-. reflexivity.
    + split; [reflexivity|discriminate].
Qed.
