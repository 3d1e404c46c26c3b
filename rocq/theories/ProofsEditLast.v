(** Proofs about editing, part 10: merging configurations, refusals, wiring, removal,
    requests that hang, the root. *)
From Coq Require Import String ZArith Bool Arith Lia Relations Permutation List.
From Verif Require Import Base ModelData ModelEdit SpecEdit ProofsEdit ProofsEditOps ProofsEditMove ProofsEditCycle ProofsEditWire ProofsEditAdd ProofsEditReplace ProofsEditMorph ProofsEditHist.
Import ListNotations.

(** ** NodeConfig.extend *)

Lemma dget_dset : forall {A} k (v : A) l j, dget j (dset k v l) = if String.eqb j k then Some v else dget j l.
Proof.
  intros A k v l j. induction l as [|[k1 v1] l IH]; cbn.
  - destruct (String.eqb j k); reflexivity.
  - destruct (String.eqb_spec k k1) as [E|N]; cbn.
    + subst k1. destruct (String.eqb_spec j k); reflexivity.
    + destruct (String.eqb_spec j k1) as [E|N']; [|apply IH]. subst j.
      destruct (String.eqb_spec k1 k); [congruence|reflexivity].
Qed.
Lemma dget_nIn : forall {A} k (l : list (string * A)), dget k l = None <-> ~ In k (map fst l).
Proof.
  intros A k l. induction l as [|[k1 v'] l IH]; cbn.
  - split; auto.
  - destruct (String.eqb_spec k k1) as [E|N].
    + subst k1. split; [discriminate|]. intros H. exfalso. apply H. left. reflexivity.
    + rewrite IH. split; intros H; [intros [E|I]; [congruence|auto]|intros I; apply H; right; exact I].
Qed.

Lemma extend_io_spec : forall b a c d, NoDup (map fst b) -> extend_io a b = (c, d) ->
  merged a b c /\ (d = [] <-> disjoint a b).
Proof.
  induction b as [|[k v] b IH]; intros a c d N E; cbn in E.
  - injection E as <- <-. split; [intros j; destruct (dget j a); reflexivity|].
    split; [intros _ j _; reflexivity|reflexivity].
  - inversion N as [|x l Nk Nb]; subst x l. unfold has_key in E. destruct (dget k a) as [w|] eqn:Ek.
    + destruct (extend_io a b) as [s' d'] eqn:E'. injection E as <- <-.
      destruct (IH a s' d' Nb E') as [M D]. split.
      * intros j. rewrite M. destruct (dget j a) eqn:Ej; [reflexivity|].
        cbn. destruct (String.eqb_spec j k); [congruence|reflexivity].
      * split; [discriminate|]. intros H. exfalso. specialize (H k). rewrite Ek in H. cbn in H.
        rewrite String.eqb_refl in H. discriminate H. discriminate.
    + destruct (IH (dset k v a) c d Nb E) as [M D]. split.
      * intros j. rewrite M, dget_dset. cbn. destruct (String.eqb_spec j k) as [E1|N1].
        -- subst j. rewrite Ek. reflexivity.
        -- reflexivity.
      * rewrite D. split; intros H j Hj.
        -- cbn. destruct (String.eqb_spec j k) as [E1|N1]; [subst j; congruence|].
           apply H. rewrite dget_dset. destruct (String.eqb_spec j k); congruence.
        -- rewrite dget_dset in Hj. destruct (String.eqb_spec j k) as [E1|N1].
           ++ subst j. apply dget_nIn. exact Nk.
           ++ specialize (H j Hj). cbn in H. destruct (String.eqb_spec j k); congruence.
Qed.

Lemma opt_nat_eqb_eq : forall a b, opt_nat_eqb a b = true <-> a = b.
Proof.
  intros [a|] [b|]; cbn; try (split; congruence).
  rewrite Nat.eqb_eq. split; congruence.
Qed.

Lemma extend_spec : forall a b c r, NoDup (map fst (f_ins b)) -> NoDup (map fst (f_outs b)) -> extend a b = (c, r) ->
  f_max c = f_max a /\ (r = Ok tt \/ exists e, r = Err e) /\
  ((f_max a = f_max b /\ merged (f_ins a) (f_ins b) (f_ins c) /\ merged (f_outs a) (f_outs b) (f_outs c)) \/
   (f_max a <> f_max b /\ c = a)) /\
  (r = Ok tt <-> f_max a = f_max b /\ disjoint (f_ins a) (f_ins b) /\ disjoint (f_outs a) (f_outs b)).
Proof.
  intros a b c r Ni No E. unfold extend in E. destruct (opt_nat_eqb (f_max a) (f_max b)) eqn:Em; cbn in E.
  - apply opt_nat_eqb_eq in Em.
    destruct (extend_io (f_ins a) (f_ins b)) as [i di] eqn:Ei. destruct (extend_io (f_outs a) (f_outs b)) as [o do] eqn:Eo.
    injection E as <- Er. cbn. destruct (extend_io_spec _ _ _ _ Ni Ei) as [Mi Di].
    destruct (extend_io_spec _ _ _ _ No Eo) as [Mo Do].
    split; [reflexivity|]. split; [subst r; destruct di; destruct do; eauto|].
    split; [left; auto|]. rewrite <- Di, <- Do. subst r.
    destruct di; destruct do; split; intros H; try discriminate H; auto;
      destruct H as (_ & H1 & H2); try discriminate H1; discriminate H2.
  - injection E as <- <-. assert (Em' : f_max a <> f_max b).
    { intros H. apply opt_nat_eqb_eq in H. congruence. }
    split; [reflexivity|]. split; [eauto|]. split; [auto|]. split; [discriminate|]. intros (H & _). contradiction.
Qed.

(** ** Refusal outside EDITABLE *)

Lemma not_editable : forall g, g_state g <> EDITABLE -> tstate_eqb (g_state g) EDITABLE = false.
Proof. intros g. destruct (g_state g); cbn; congruence. Qed.

Lemma serve_refused : forall fuel e g, g_state g <> EDITABLE -> serve fuel e g = Some (g, Err EGuard).
Proof.
  intros fuel e g H. apply not_editable in H.
  destruct e; cbn [serve];
    try (unfold add_node_at_index; rewrite H; reflexivity);
    try (unfold add_node; rewrite H; reflexivity);
    cbv [remove_node move_node replace_node morph_node set_options wire_data unwire_data change_tree_name clear load_tree edit_service];
    rewrite H; reflexivity.
Qed.

(** ** Wiring *)

Lemma only_wires_set : forall g l, only_wires g (set_wires g l).
Proof. intros g l. repeat split. Qed.
Lemma only_wires_om : forall a b c, only_wires a b -> only_mirror b c -> only_wires a c.
Proof.
  intros a b c (O & K & P & C & N & St) M. destruct (om_same _ _ M) as (O' & K' & P' & C' & W' & N' & S').
  unfold only_wires. split; [congruence|]. split; [intros i; rewrite K'; apply K|].
  split; [intros i; rewrite P'; apply P|]. split; [intros i; rewrite C'; apply C|]. split; congruence.
Qed.

Lemma check_wirings_all : forall g l, match check_wirings g false l with
  | Some s => s = l /\ (forall w, In w l -> good_wiring g w)
  | None => exists w, In w l /\ ~ good_wiring g w end.
Proof.
  intros g. induction l as [|w l IH]; cbn.
  - split; [reflexivity|intros w []].
  - destruct (validate_wiring g w) eqn:V.
    + destruct (check_wirings g false l) as [s|]; cbn.
      * destruct IH as [-> H]. split; [reflexivity|]. intros x [<-|I]; [apply validate_good; exact V|auto].
      * destruct IH as (x & I & H). exists x. auto.
    + exists w. split; [left; reflexivity|]. intros H. apply validate_good in H. congruence.
Qed.

Lemma wire_spec : forall l g g' r, g_state g = EDITABLE -> wire_data l false g = (g', r) ->
  (r = Ok tt /\ only_wires g g' /\ g_wires g' = (g_wires g ++ l)%list /\ (forall w, In w l -> good_wiring g' w)) \/
  ((exists e, r = Err e) /\ same_tree g g' /\ exists w, In w l /\ ~ good_wiring g w).
Proof.
  intros l g g' r Ed H. unfold wire_data in H. destruct (edit_service_cases _ _ _ _ H) as [(X & _)|(_ & g1 & F & ->)]; [contradiction|].
  pose proof (check_wirings_all g l) as C. destruct (check_wirings g false l) as [s|]; injection F as <- <-.
  - destruct C as [-> C]. left. split; [reflexivity|].
    assert (OW : only_wires g (publish_structure (set_wires g (g_wires g ++ l)%list))).
    { apply (only_wires_om _ _ _ (only_wires_set g _) (om_publish _)). }
    split; [exact OW|]. split; [rewrite (proj1 (proj2 (proj2 (proj2 (om_publish _))))); reflexivity|].
    intros w I. apply (good_ext g _ w); [|apply C; exact I]. intros i _. apply OW.
  - right. split; [eauto|]. split; [apply om_same, om_publish|exact C].
Qed.

Lemma wire_ignore_spec : forall l g g' r, g_state g = EDITABLE -> wire_data l true g = (g', r) ->
  r = Ok tt /\ only_wires g g' /\ exists s, g_wires g' = (g_wires g ++ s)%list /\
    (exists ok, (forall w, ok w = true <-> good_wiring g w) /\ s = filter ok l).
Proof.
  intros l g g' r Ed H. rewrite (wire_ignoring g l Ed) in H. injection H as <- <-. split; [reflexivity|].
  split; [apply (only_wires_om _ _ _ (only_wires_set g _) (om_publish _))|].
  exists (filter (validate_wiring g) l). split; [rewrite (proj1 (proj2 (proj2 (proj2 (om_publish _))))); reflexivity|].
  exists (validate_wiring g). split; [intros w; apply validate_good|reflexivity].
Qed.

Lemma wiring_eqb_refl : forall w, wiring_eqb w w = true.
Proof. intros w. apply wiring_eqb_eq. reflexivity. Qed.
Lemma wiring_eqb_neq : forall a b, a <> b -> wiring_eqb a b = false.
Proof. intros a b N. destruct (wiring_eqb a b) eqn:E; [|reflexivity]. apply wiring_eqb_eq in E. contradiction. Qed.
Lemma times_cons : forall w x l, times w (x :: l) = (if wiring_eqb w x then 1 else 0) + times w l.
Proof. intros. unfold times. cbn. destruct (wiring_eqb w x); reflexivity. Qed.
Lemma times_app : forall w a b, times w (a ++ b) = times w a + times w b.
Proof. intros. unfold times. rewrite filter_app, app_length. reflexivity. Qed.
Lemma times_In : forall w l, In w l <-> 0 < times w l.
Proof.
  intros w l. induction l as [|x l IH]; [cbn; split; [intros []|lia]|].
  rewrite times_cons. cbn. destruct (wiring_eqb w x) eqn:E.
  - apply wiring_eqb_eq in E. subst x. split; [lia|auto].
  - rewrite <- (Nat.add_0_l (times w l)) in IH. split.
    + intros [->|I]; [rewrite wiring_eqb_refl in E; discriminate|]. apply IH in I. lia.
    + intros L. right. apply IH. lia.
Qed.

Lemma wremove_times : forall w l, match wremove w l with
  | Some l' => 0 < times w l /\ forall x, times x l = times x l' + (if wiring_eqb x w then 1 else 0)
  | None => times w l = 0 end.
Proof.
  intros w l. induction l as [|y l IH]; cbn [wremove]; [reflexivity|].
  destruct (wiring_eqb y w) eqn:E.
  - apply wiring_eqb_eq in E. subst y. rewrite times_cons, wiring_eqb_refl. split; [lia|]. intros x. rewrite times_cons. lia.
  - assert (E' : wiring_eqb w y = false).
    { apply wiring_eqb_neq. intros ->. rewrite wiring_eqb_refl in E. discriminate. }
    destruct (wremove w l) as [l'|]; cbn [option_map].
    + destruct IH as [P H]. rewrite times_cons, E'. split; [lia|]. intros x. rewrite !times_cons. rewrite (H x). lia.
    + rewrite times_cons, E', IH. reflexivity.
Qed.

Lemma wremove_order : forall w l l', wremove w l = Some l' -> forall p, p w = false -> filter p l' = filter p l.
Proof.
  intros w l. induction l as [|y l IH]; cbn; intros l' H p Pw; [discriminate|].
  destruct (wiring_eqb y w) eqn:E.
  - apply wiring_eqb_eq in E. subst y. injection H as <-. rewrite Pw. reflexivity.
  - destruct (wremove w l) as [l1|]; [|discriminate]. injection H as <-. cbn. rewrite (IH l1 eq_refl p Pw). reflexivity.
Qed.

Lemma wremove_all_spec : forall s g g' r, wremove_all s g = (g', r) ->
  (exists l, g' = set_wires g l) /\ (r = Ok tt \/ r = Raise) /\
  (r = Ok tt <-> forall w, times w s <= times w (g_wires g)) /\
  (r = Ok tt -> (forall w, times w (g_wires g') + times w s = times w (g_wires g)) /\
                (forall p, (forall w, In w s -> p w = false) -> filter p (g_wires g') = filter p (g_wires g))).
Proof.
  induction s as [|w s IH]; intros g g' r H; cbn in H.
  - injection H as <- <-. split; [exists (g_wires g); destruct g; reflexivity|]. split; [auto|].
    split; [split; [intros _ w; cbn; lia|reflexivity]|]. intros _. split; [intros w; cbn; lia|reflexivity].
  - pose proof (wremove_times w (g_wires g)) as T. destruct (wremove w (g_wires g)) as [l'|] eqn:Wr.
    + destruct T as [Tp T]. destruct (IH _ _ _ H) as ((l & ->) & Rr & Hok & Heff).
      split; [exists l; reflexivity|]. split; [exact Rr|]. split.
      * rewrite Hok. cbn [g_wires set_wires]. split; intros X x; specialize (X x); rewrite (T x) in *; rewrite times_cons in *; lia.
      * intros R. destruct (Heff R) as [E1 E2]. cbn [g_wires set_wires] in *. split.
        -- intros x. rewrite (T x), times_cons, <- (E1 x). lia.
        -- intros p Hp. rewrite (E2 p); [|intros x I; apply Hp; right; exact I].
           apply (wremove_order w (g_wires g) l' Wr). apply Hp. left. reflexivity.
    + injection H as <- <-. split; [exists (g_wires g); destruct g; reflexivity|]. split; [auto|].
      split; [|discriminate]. split; [discriminate|]. intros X. specialize (X w). rewrite times_cons, wiring_eqb_refl in X. lia.
Qed.

Lemma check_unwirings_some : forall g l, match check_unwirings g false l with
  | Some s => s = l /\ (forall w, In w l -> In w (g_wires g))
  | None => exists w, In w l /\ ~ In w (g_wires g) end.
Proof.
  intros g. induction l as [|w l IH]; cbn.
  - split; [reflexivity|intros w []].
  - destruct (wmem w (g_wires g)) eqn:V.
    + apply wmem_In in V. destruct (check_unwirings g false l) as [s|]; cbn.
      * destruct IH as [-> H]. split; [reflexivity|]. intros x [<-|I]; auto.
      * destruct IH as (x & I & H). exists x. auto.
    + exists w. split; [left; reflexivity|]. intros H. apply wmem_In in H. congruence.
Qed.

Lemma unwire_spec : forall l g g' r, g_state g = EDITABLE -> unwire_data l false g = (g', r) ->
  (r = Ok tt /\ only_wires g g' /\ (forall w, times w (g_wires g') + times w l = times w (g_wires g)) /\
     (forall p, (forall w, In w l -> p w = false) -> filter p (g_wires g') = filter p (g_wires g))) \/
  ((exists e, r = Err e) /\ same_tree g g' /\ exists w, In w l /\ ~ In w (g_wires g)) \/
  (r = Raise /\ (forall w, In w l -> In w (g_wires g)) /\ exists w, times w (g_wires g) < times w l).
Proof.
  intros l g g' r Ed H. unfold unwire_data in H. destruct (edit_service_cases _ _ _ _ H) as [(X & _)|(_ & g1 & F & ->)]; [contradiction|].
  pose proof (check_unwirings_some g l) as C. destruct (check_unwirings g false l) as [s|].
  - destruct C as [-> C]. destruct (wremove_all_spec _ _ _ _ F) as ((l1 & E1) & Rr & Hok & Heff).
    destruct Rr as [R|R].
    + left. destruct (Heff R) as [T O]. split; [exact R|].
      pose proof (proj1 (proj2 (proj2 (proj2 (om_publish g1))))) as Wp.
      split; [subst g1; apply (only_wires_om _ _ _ (only_wires_set g _) (om_publish _))|].
      split; [intros w; rewrite Wp; apply T|intros p Hp; rewrite Wp; apply O; exact Hp].
    + right. right. split; [exact R|]. split; [exact C|].
      destruct (Forall_Exists_dec (fun w => times w l <= times w (g_wires g)) (fun w => le_dec _ _) l) as [A|E].
      * exfalso. assert (r = Ok tt); [|congruence]. apply Hok. intros w.
        destruct (times w l) eqn:Z; [lia|]. rewrite <- Z. rewrite Forall_forall in A. apply A. apply times_In. lia.
      * apply Exists_exists in E. destruct E as (w & _ & N). exists w. lia.
  - injection F as <- <-. right. left. split; [eauto|]. split; [apply om_same, om_publish|exact C].
Qed.

Lemma times_perm : forall a b, (forall w, times w a = times w b) -> Permutation a b.
Proof.
  induction a as [|x a IH]; intros b H.
  - destruct b as [|y b]; [constructor|]. specialize (H y). rewrite times_cons, wiring_eqb_refl in H. cbn in H. lia.
  - assert (I : In x b). { apply times_In. rewrite <- H, times_cons, wiring_eqb_refl. lia. }
    apply in_split in I. destruct I as (b1 & b2 & ->). apply Permutation_cons_app. apply IH. intros w.
    specialize (H w). rewrite times_cons, times_app, times_cons in H. rewrite times_app. lia.
Qed.

Lemma filter_none : forall {A} (p : A -> bool) l, (forall x, In x l -> p x = false) -> filter p l = [].
Proof.
  intros A p l. induction l as [|x l IH]; intros H; cbn; [reflexivity|].
  rewrite (H x (or_introl eq_refl)). apply IH. intros y I. apply H. right. exact I.
Qed.
Lemma filter_every : forall {A} (p : A -> bool) l, (forall x, In x l -> p x = true) -> filter p l = l.
Proof.
  intros A p l. induction l as [|x l IH]; intros H; cbn; [reflexivity|].
  rewrite (H x (or_introl eq_refl)), IH; [reflexivity|]. intros y I. apply H. right. exact I.
Qed.

Lemma wire_unwire : forall l g g1 g2 r, g_state g = EDITABLE -> wire_data l false g = (g1, Ok tt) ->
  unwire_data l false g1 = (g2, r) ->
  r = Ok tt /\ only_wires g g2 /\ Permutation (g_wires g2) (g_wires g) /\
  ((forall w, In w l -> ~ In w (g_wires g)) -> g_wires g2 = g_wires g).
Proof.
  intros l g g1 g2 r Ed H1 H2.
  destruct (wire_spec _ _ _ _ Ed H1) as [(_ & OW1 & W1 & _)|((e & X) & _)]; [|discriminate].
  assert (Ed1 : g_state g1 = EDITABLE). { destruct OW1 as (_ & _ & _ & _ & _ & St). congruence. }
  destruct (unwire_spec _ _ _ _ Ed1 H2) as [(R & OW2 & T & O)|[(_ & _ & w & I & N)|(_ & _ & w & L)]].
  - split; [exact R|]. split.
    + destruct OW1 as (A1 & A2 & A3 & A4 & A5 & A6). destruct OW2 as (B1 & B2 & B3 & B4 & B5 & B6).
      split; [congruence|]. split; [intros i; rewrite B2; apply A2|]. split; [intros i; rewrite B3; apply A3|].
      split; [intros i; rewrite B4; apply A4|]. split; congruence.
    + split.
      * apply times_perm. intros w. specialize (T w). rewrite W1, times_app in T. lia.
      * intros D. specialize (O (fun w => negb (wmem w l))).
        assert (P : forall w, In w l -> negb (wmem w l) = false). { intros w I. apply wmem_In in I. rewrite I. reflexivity. }
        specialize (O P). rewrite W1, filter_app, (filter_none _ l P), app_nil_r in O.
        assert (K1 : filter (fun w => negb (wmem w l)) (g_wires g) = g_wires g).
        { apply filter_every. intros w I. destruct (wmem w l) eqn:M; [|reflexivity]. apply wmem_In in M. exfalso. apply (D w M I). }
        assert (K2 : filter (fun w => negb (wmem w l)) (g_wires g2) = g_wires g2).
        { apply filter_every. intros w I. destruct (wmem w l) eqn:M; [|reflexivity]. apply wmem_In in M. exfalso.
          specialize (T w). rewrite W1, times_app in T. apply times_In in I. apply times_In in M.
          assert (Z : ~ 0 < times w (g_wires g)); [|lia]. intros Z. apply times_In in Z.
          apply (D w); [apply times_In; exact M|exact Z]. }
        rewrite K1, K2 in O. exact O.
  - exfalso. apply N. rewrite W1. apply in_or_app. right. exact I.
  - exfalso. rewrite W1, times_app in L. lia.
Qed.

(** ** Removal *)

Lemma remove_spec : forall t ch g g' r, HWg g -> RG g -> g_state g = EDITABLE -> remove_node t ch g = (g', r) ->
  (r = Ok tt /\ exists i, ros_to_uuid t = Some i /\ present g i /\
     dropped g g' (fun x => x = i \/ (ch = true /\ below g i x))) \/
  ((exists e, r = Err e) /\ same_tree g g' /\ (forall i, ros_to_uuid t = Some i -> ~ present g i)).
Proof.
  intros t ch g g' r W R Ed H. destruct (remove_node_cases _ _ _ _ _ H) as [(Rr & _ & i & Et & Pi & Eg)|(M & e & Er & N)].
  - left. split; [exact Rr|]. exists i. split; [exact Et|]. split; [exact Pi|].
    set (rm := to_remove (sync_children g) i ch) in *.
    pose proof (om_HW _ _ (om_sync g) W) as Ws. destruct (sync_view g) as (Sk & Sp & Sc & So & Spr).
    destruct (drop_view (sync_children g) rm Ws) as (Vo & Vk & Vp & Vc).
    pose proof (om_publish (drop_nodes (sync_children g) rm)) as Mp.
    destruct (om_same _ _ Mp) as (O' & K' & P' & C' & W' & N' & S'). rewrite <- Eg in *.
    assert (G : forall j, outside rm j = false <-> j = i \/ (ch = true /\ below g i j)).
    { intros j. unfold outside. rewrite negb_false_iff, mem_In. unfold rm. destruct ch.
      - rewrite (to_remove_all (sync_children g) i Ws (mirrored_sync g)); [|apply Spr; exact Pi].
        rewrite sync_below. tauto.
      - cbn [to_remove In]. split; [intros [X|[]]; auto|]. intros [X|[X _]]; [auto|discriminate]. }
    exists (outside rm). split; [exact G|]. split; [rewrite O', Vo, So; reflexivity|].
    split; [intros j; rewrite C', Vc, Sc; reflexivity|]. split; [intros j; rewrite K', Vk, Sk; reflexivity|].
    split; [intros j; rewrite P', Vp, Sp; reflexivity|]. split.
    + exists (fun w => negb (touches rm w)). split; [|rewrite W', drop_wires; reflexivity].
      intros w I. unfold touches. rewrite negb_false_iff, existsb_exists.
      pose proof (rg_wires _ R w I) as Gw. split.
      * intros (j & Ij & Hj). exists j. split; [apply (good_has_id g w j Gw); exact Hj|]. apply G. unfold outside.
        apply negb_false_iff, mem_In. exact Ij.
      * intros (j & Mj & Gj). exists j. split; [apply G in Gj; unfold outside in Gj; apply negb_false_iff, mem_In in Gj; exact Gj|].
        apply (good_has_id g w j Gw). exact Mj.
    + split; [rewrite N'; reflexivity|rewrite S'; reflexivity].
  - right. split; [eauto|]. split; [apply om_same; exact M|]. apply N. exact Ed.
Qed.

Lemma dropped_clean : forall g g' gone, linked g -> (forall w, In w (g_wires g) -> good_wiring g w) -> dropped g g' gone ->
  (forall j, gone j -> ~ present g' j) /\
  (forall j c, In c (kids g' j) -> present g' c) /\ (forall j p, par g' j = Some p -> present g' p) /\
  (forall w j, In w (g_wires g') -> mentions w j -> present g' j).
Proof.
  intros g g' gone L Gw (keep & K & O & C & Kd & P & (stays & St & Ws) & _).
  assert (Pr : forall j, present g' j <-> present g j /\ keep j = true).
  { intros j. unfold present. rewrite !nget_present. change (map fst (g_nodes g')) with (order g').
    change (map fst (g_nodes g)) with (order g). rewrite O. apply filter_In. }
  split; [intros j Gj X; apply Pr in X; apply K in Gj; destruct X; congruence|].
  split.
  - intros j c I. rewrite Kd in I. destruct (keep j); [|destruct I]. apply filter_In in I. apply Pr.
    split; [apply (li_child _ L j c); apply I|apply I].
  - split.
    + intros j p E. rewrite P in E. destruct (keep j); [|discriminate]. destruct (par g j) as [q|] eqn:Eq; [|discriminate].
      destruct (keep q) eqn:Kq; [|discriminate]. injection E as <-. apply Pr. split; [apply (li_parent _ L j q Eq)|exact Kq].
    + intros w j I M. rewrite Ws in I. apply filter_In in I. destruct I as [I S1]. apply Pr.
      split; [apply (good_present g w j (Gw w I) M)|].
      destruct (keep j) eqn:Kj; [reflexivity|]. exfalso. apply K in Kj.
      assert (stays w = false); [|congruence]. apply (St w I). exists j. auto.
Qed.

Lemma dropped_acyclic : forall g g' gone, dropped g g' gone -> acyclic g -> acyclic g'.
Proof.
  intros g g' gone (keep & K & O & C & Kd & _) A i B. apply (A i).
  assert (X : forall a b, below g' a b -> below g a b).
  { intros a b H. induction H as [a b H|a b c _ IH1 _ IH2].
    - apply t_step. unfold child_of in *. rewrite Kd in H. destruct (keep a); [|destruct H]. apply filter_In in H. apply H.
    - apply (t_trans _ _ _ _ _ IH1 IH2). }
  apply X. exact B.
Qed.

Lemma detached_acyclic : forall g g' i, detached g g' i -> acyclic g -> acyclic g'.
Proof.
  intros g g' i (_ & K & _) A j B. apply (A j).
  assert (X : forall a b, below g' a b -> below g a b).
  { intros a b H. induction H as [a b H|a b c _ IH1 _ IH2].
    - apply t_step. unfold child_of in *. rewrite K in H. apply In_without in H. apply H.
    - apply (t_trans _ _ _ _ _ IH1 IH2). }
  apply X. exact B.
Qed.

(** ** Requests that never return *)

Lemma add_hangs : forall g u v c z y, HWg g -> g_state g = EDITABLE -> ~ present g u ->
  present g y -> (forall n, up g n y <> None) -> ~ below g y y ->
  forall fuel, add_node_at_index fuel u (Good 0 v) (Ok c) [] z g = None.
Proof.
  intros g u v c z y W Ed Nu Py Up Nb fuel. unfold add_node_at_index. rewrite Ed. cbn [tstate_eqb negb].
  unfold instantiate. cbn [ros_to_uuid uuid_to_ros]. rewrite (register_fst g u c).
  pose proof (register_HW g u c W Nu) as W1. destruct (register_view g u c W Nu) as (Ro & Rk & Rp & Rc).
  set (g1 := fst (register g u c)) in *. cbn [Nat.eqb negb andb].
  assert (Eg : set_heap g1 (g_heap g1) = g1) by (destruct g1; reflexivity). rewrite Eg.
  destruct (find_nodes_in_cycles fuel g1) as [r|] eqn:F; [exfalso|reflexivity].
  destruct (find_cycles_correct fuel g1 r W1 F) as [_ H].
  assert (P1 : present g1 y).
  { unfold present. rewrite nget_present. change (In y (order g1)). rewrite Ro. apply in_or_app. left.
    unfold present in Py. rewrite nget_present in Py. exact Py. }
  destruct (H y P1) as [(n & G)|B].
  - apply (Up n). rewrite <- G. clear G. revert y Py Up Nb P1. induction n as [|n IH]; intros y Py Up Nb P1; [reflexivity|].
    cbn [up]. rewrite Rp. destruct (par g y) as [q|] eqn:Eq; [|reflexivity].
    clear - Rp. revert q. induction n as [|n IH]; intros q; [reflexivity|]. cbn [up]. rewrite Rp.
    destruct (par g q); [apply IH|reflexivity].
  - apply Nb. assert (X : forall a b, below g1 a b -> below g a b); [|apply X; exact B].
    clear - Rk. intros a b B. induction B as [a b E|a b d _ IH1 _ IH2].
    + apply t_step. unfold child_of in *. rewrite Rk in E. exact E.
    + apply (t_trans _ _ _ _ _ IH1 IH2).
Qed.

(** ** The root *)

Lemma find_root_spec : forall g, HWg g ->
  (g_nodes g = [] -> snd (find_root g) = Ok None) /\
  (forall i, present g i -> par g i = None -> (forall j, present g j -> par g j = None -> j = i) ->
     exists o, snd (find_root g) = Ok (Some o) /\ n_id (g_heap g o) = i /\ g_root (fst (find_root g)) = Some i) /\
  (forall i j, present g i -> par g i = None -> present g j -> par g j = None -> i <> j -> snd (find_root g) = Err ETopo) /\
  (g_nodes g <> [] -> (forall i, present g i -> par g i <> None) -> snd (find_root g) = Err ETopo).
Proof.
  intros g W. destruct (find_root_roots g W) as [E R].
  assert (In_roots : forall i, In i (roots g) <-> present g i /\ par g i = None).
  { intros i. unfold roots. rewrite filter_In. unfold present. rewrite nget_present. fold (order g).
    destruct (par g i); split; intros [A B]; try discriminate; auto. }
  assert (ND : NoDup (roots g)) by (apply NoDup_filter, (li_once _ (HW_linked _ W))).
  split; [|split; [|split]].
  - intros Z. rewrite E. unfold roots, order. rewrite Z. reflexivity.
  - intros i Pi Ni U. assert (RR : roots g = [i]).
    { assert (I : In i (roots g)) by (apply In_roots; auto).
      destruct (roots g) as [|x [|y l]]; [destruct I| |].
      - destruct I as [->|[]]. reflexivity.
      - exfalso. assert (x = i) by (apply U; apply (In_roots x); left; reflexivity).
        assert (y = i) by (apply U; apply (In_roots y); right; left; reflexivity).
        inversion ND as [|? ? N _]; subst. apply N. left. reflexivity. }
    destruct (HW_present g i W Pi) as (o & Eo & _ & Eid). exists o. rewrite E, RR, Eo.
    split; [reflexivity|]. split; [exact Eid|]. apply R. exact RR.
  - intros i j Pi Ni Pj Nj D. rewrite E.
    assert (I : In i (roots g)) by (apply In_roots; auto). assert (J : In j (roots g)) by (apply In_roots; auto).
    destruct (roots g) as [|x [|y l]]; [destruct I| |reflexivity].
    destruct I as [<-|[]]. destruct J as [<-|[]]. contradiction.
  - intros Nn Al. rewrite E. destruct (roots g) as [|x l] eqn:RR.
    + destruct (g_nodes g); [contradiction|reflexivity].
    + exfalso.
      destruct (proj1 (In_roots x) (or_introl eq_refl)) as [P N]. apply (Al x P N).
Qed.

(** ** For the property statements *)

Lemma disjoint_dec : forall a b : ios, disjoint a b \/ exists k, dget k a <> None /\ dget k b <> None.
Proof.
  intros a b. induction a as [|[k v] a [D|(j & A & B)]].
  - left. intros k H. cbn in H. congruence.
  - destruct (dget k b) as [w|] eqn:E.
    + right. exists k. cbn. rewrite String.eqb_refl. split; congruence.
    + left. intros j H. cbn in H. destruct (String.eqb_spec j k); [subst j; exact E|]. apply D. exact H.
  - right. exists j. cbn. destruct (String.eqb j k); split; congruence.
Qed.

Lemma extend_full : forall a b c r,
  NoDup (map fst (f_ins b)) -> NoDup (map fst (f_outs b)) -> extend a b = (c, r) ->
  (forall k v, dget k (f_ins a) = Some v -> dget k (f_ins c) = Some v) /\
  (forall k v, dget k (f_outs a) = Some v -> dget k (f_outs c) = Some v) /\
  f_max c = f_max a /\
  (r = Ok tt -> merged (f_ins a) (f_ins b) (f_ins c) /\ merged (f_outs a) (f_outs b) (f_outs c)) /\
  (r = Ok tt \/ exists e, r = Err e) /\
  ((exists e, r = Err e) <-> f_max a <> f_max b \/
     (exists k, dget k (f_ins a) <> None /\ dget k (f_ins b) <> None) \/
     (exists k, dget k (f_outs a) <> None /\ dget k (f_outs b) <> None)).
Proof.
  intros a b c r Ni No E. destruct (extend_spec a b c r Ni No E) as (Mx & Rr & Cs & Ok_iff).
  assert (K : forall x y z : ios, merged x y z -> forall k v, dget k x = Some v -> dget k z = Some v).
  { intros x y z M k v H. rewrite (M k), H. reflexivity. }
  split; [|split; [|split; [|split; [|split]]]].
  - destruct Cs as [(_ & Mi & _)|(_ & ->)]; [apply (K _ _ _ Mi)|auto].
  - destruct Cs as [(_ & _ & Mo)|(_ & ->)]; [apply (K _ _ _ Mo)|auto].
  - exact Mx.
  - intros R. destruct Cs as [(_ & Mi & Mo)|(N & _)]; [auto|]. apply Ok_iff in R. destruct R as [R _]. contradiction.
  - exact Rr.
  - split.
    + intros (e & ->). destruct (disjoint_dec (f_ins a) (f_ins b)) as [Di|X]; [|auto].
      destruct (disjoint_dec (f_outs a) (f_outs b)) as [Do|X]; [|auto]. left. intros M.
      assert (@Err unit e = Ok tt) by (apply Ok_iff; auto). discriminate.
    + intros H. destruct Rr as [R|R]; [|exact R]. exfalso. apply Ok_iff in R. destruct R as (M & Di & Do).
      destruct H as [N|[(k & A & B)|(k & A & B)]]; [contradiction|apply B, (Di k A)|apply B, (Do k A)].
Qed.

Lemma times_once : forall l w, NoDup l -> times w l <= 1.
Proof.
  induction l as [|x l IH]; intros w N; [cbn; lia|]. inversion N as [|? ? Nx Nl]; subst. rewrite times_cons.
  destruct (wiring_eqb w x) eqn:E; [|apply IH; exact Nl]. apply wiring_eqb_eq in E. subst x.
  destruct (times w l) eqn:T; [lia|]. exfalso. apply Nx. apply times_In. lia.
Qed.

Lemma unwire_once : forall l g g' r, g_state g = EDITABLE -> NoDup l -> unwire_data l false g = (g', r) ->
  (r = Ok tt /\ only_wires g g' /\ (forall w, In w l -> In w (g_wires g)) /\
     (forall w, times w (g_wires g') + times w l = times w (g_wires g)) /\
     (forall p, (forall w, In w l -> p w = false) -> filter p (g_wires g') = filter p (g_wires g))) \/
  ((exists e, r = Err e) /\ same_tree g g' /\ exists w, In w l /\ ~ In w (g_wires g)).
Proof.
  intros l g g' r Ed N H. destruct (unwire_spec l g g' r Ed H) as [(R & O & T & F)|[X|(_ & I & w & L)]]; [left|right; exact X|exfalso].
  - split; [exact R|]. split; [exact O|]. split; [|auto]. intros w I. apply times_In. apply times_In in I. specialize (T w). lia.
  - pose proof (times_once l w N). assert (In w l) as Iw by (apply times_In; lia). apply I, times_In in Iw. lia.
Qed.

Lemma move_full : forall g t pt k g' r, history sane_call true g -> move_node t pt k g = (g', r) ->
  (r = Ok tt /\ exists i p, ros_to_uuid t = Some i /\ ros_to_uuid pt = Some p /\ may_move g i p /\
     ((p = 0 /\ detached g g' i) \/ (p <> 0 /\ moved g g' i p k)) /\
     (acyclic g -> p <> i -> acyclic g')) \/
  ((exists e, r = Err e) /\ same_tree g g' /\
     ~ exists i p, ros_to_uuid t = Some i /\ ros_to_uuid pt = Some p /\ may_move g i p).
Proof.
  intros g t pt k g' r H E. pose proof (history_HW _ _ H) as W. pose proof (history_mirrored _ _ H) as M.
  destruct (history_RG _ _ _ H) as (_ & Ed & _).
  assert (Q : forall i p, may_move g i p <-> movable g i p).
  { intros i p. unfold may_move, movable. rewrite (descendants_spec g i M p). tauto. }
  destruct (move_node_spec t pt k g g' r W E) as (_ & [(R & _ & i & p & Ei & Ep & Mv & Ef)|(Om & Er & N)]).
  - left. split; [exact R|]. exists i, p. split; [exact Ei|]. split; [exact Ep|]. split; [apply Q; exact Mv|].
    split; [exact Ef|]. intros A D. destruct Ef as [(_ & De)|(Np & Mo)]; [apply (detached_acyclic _ _ _ De A)|].
    destruct Mv as (_ & [Z|(_ & _ & Nd)]); [contradiction|].
    apply (moved_acyclic g g' i p k (HW_linked _ W) Mo A D). rewrite <- (descendants_spec g i M p). exact Nd.
  - right. split; [exact Er|]. split; [apply om_same; exact Om|]. intros (i & p & Ei & Ep & Mv). apply N.
    split; [exact Ed|]. exists i, p. split; [exact Ei|]. split; [exact Ep|]. apply Q. exact Mv.
Qed.

Lemma acyclic_by_search : forall fuel g, HWg g -> find_nodes_in_cycles fuel g = Some [] -> acyclic g.
Proof. intros fuel g W F i B. destruct (find_cycles_correct fuel g [] W F) as [H _]. apply H in B. destruct B. Qed.

Lemma grounded_root_iff : forall g i, linked g -> (grounded g i <-> has_root g i).
Proof.
  intros g i L. split.
  - intros (n & H). revert i H. induction n as [|n IH]; intros i H; [discriminate|]. cbn [up] in H.
    destruct (par g i) as [p|] eqn:E.
    + destruct (IH p H) as (y & B & P). exists y. split; [|exact P]. right.
      assert (Bp : below g p i) by (apply t_step; apply (li_parent _ L i p E)).
      destruct B as [->|B]; [exact Bp|apply (t_trans _ _ _ _ _ B Bp)].
    + exists i. auto.
  - intros (y & [->|B] & P); [apply grounded_root; exact P|].
    destruct (below_up g L i y B) as (n & U). apply (grounded_up g (1 + n) i y U). apply grounded_root. exact P.
Qed.

Lemma replace_refused : forall a b g g' r, HWg g -> g_state g = EDITABLE -> replace_node a b g = (g', r) ->
  (forall old new, ros_to_uuid a = Some old -> ros_to_uuid b = Some new -> present g old -> present g new ->
     exists c m, cfg g new = Some c /\ f_max c = Some m /\ m < length (kids g old)) ->
  (exists e, r = Err e) /\ same_tree g g'.
Proof.
  intros a b g g' r W Ed H N. unfold replace_node in H.
  destruct (edit_service_cases _ _ _ _ H) as [(X & _)|(_ & g1 & F & ->)]; [contradiction|].
  assert (Z : forall e, (g, @Err unit e) = (g1, r) -> (exists e, r = Err e) /\ same_tree g (publish_structure g1)).
  { intros e Eq. injection Eq as <- <-. split; [eauto|]. apply om_same, om_publish. }
  destruct (ros_to_uuid a) as [old|]; [|apply (Z _ F)]. destruct (ros_to_uuid b) as [new|]; [|apply (Z _ F)].
  destruct (nget old (g_nodes g)) as [oo|] eqn:Eo; [|apply (Z _ F)].
  destruct (nget new (g_nodes g)) as [no|] eqn:En; [|apply (Z _ F)].
  destruct (N old new eq_refl eq_refl) as (c & m & C & M & L); [unfold present; congruence|unfold present; congruence|].
  destruct (HWg_ids g old oo W Eo) as (Ro & Io & _). destruct (HWg_ids g new no W En) as (Rn & In' & _).
  rewrite <- Io, (kids_reg g oo Ro) in L. unfold ids_of in L. rewrite map_length in L.
  rewrite <- In', (cfg_reg g no Rn) in C. injection C as <-. cbv zeta in F. rewrite M in F.
  apply Nat.ltb_lt in L. rewrite L in F. apply (Z _ F).
Qed.
