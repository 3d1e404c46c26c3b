(** Proofs about the getter nodes (C110). *)
From Coq Require Import List String Ascii ZArith Bool Lia.
From Verif Require Import Base ModelData ModelTree SpecTree SpecControl SpecGetter ProofsTree ProofsLife ProofsWhole
  ProofsControl ProofsMemory ProofsTimed.
Import ListNotations.

Section ProofsGetter.
Context {E : Type}.
Notation W := (world E).

(** ** Reading inputs *)
Lemma holds_value : forall (w : W) n key v, holds w n key v -> in_value w n key = Ok v.
Proof. intros w n key v [c [D V]]. unfold in_value. now rewrite D, V. Qed.
Lemma holds_as : forall A (conv : value -> option A) (w : W) n key v a, holds w n key v -> conv v = Some a ->
  in_value_as conv w n key = Ok a.
Proof. intros A conv w n key v a [c [D V]] C. unfold in_value_as. now rewrite D, V, C. Qed.

Lemma updated_spec : forall (w : W) n keys, (forall key, In key keys -> exists c, dget key (w_ins w n) = Some c) ->
  exists b, any_updated w n keys = Ok b /\ (b = true <-> fresh_input w n keys).
Proof.
  intros w n keys. induction keys as [|k r IH]; intros H; simpl.
  - exists false. split; auto. split; [discriminate|]. intros (?&?&[]&_).
  - destruct (H k (or_introl eq_refl)) as [c D]. rewrite D.
    destruct IH as [b [A B]]; [intros; apply H; simpl; auto|]. rewrite A. simpl.
    exists (c_upd c || b). split; auto. destruct (c_upd c) eqn:U; simpl.
    + split; auto. intros _. exists k, c. simpl. auto.
    + rewrite B. split; intros (k'&c'&I&D'&U'); exists k', c'; simpl; auto. destruct I as [<-|I]; auto. congruence.
Qed.

(** ** The item *)
Lemma split_nodot : forall a, ~ has_dot a -> split_dots a = [a].
Proof.
  induction a as [|c r IH]; simpl; auto. intros H. destruct (Ascii.eqb_spec c "."%char) as [->|_]; [tauto|].
  rewrite IH by tauto. reflexivity.
Qed.
Lemma split_app : forall a s, ~ has_dot a -> split_dots (a ++ String "." s)%string = a :: split_dots s.
Proof.
  induction a as [|c r IH]; simpl; auto. intros s H. destruct (Ascii.eqb_spec c "."%char) as [->|_]; [tauto|].
  rewrite IH by tauto. reflexivity.
Qed.
Lemma split_concat : forall names, names <> [] -> Forall (fun a => ~ has_dot a) names ->
  split_dots (String.concat "." names) = names.
Proof.
  induction names as [|a r IH]; [congruence|]. intros _ F. inversion F; subst. destruct r as [|b r].
  - simpl. now apply split_nodot.
  - change (String.concat "." (a :: b :: r)) with (a ++ String "." (String.concat "." (b :: r)))%string.
    rewrite split_app by auto. rewrite IH; auto. discriminate.
Qed.
Lemma follow_get : forall attr v names x, follow attr v names x -> rgetattr attr v names = x.
Proof. intros attr v names x H. induction H; simpl; auto; rewrite H; auto. Qed.

Lemma all_found : forall d ks vs, Forall2 (fun k v => exists s, k = VStr s /\ dget s d = Some v) ks vs ->
  all_items d ks = Some vs.
Proof. intros d ks vs F. induction F as [|k v ks vs [s [-> D]] F IH]; simpl; auto. now rewrite D, IH. Qed.
Lemma one_missing : forall d ks, Exists (fun k => forall s, k = VStr s -> dget s d = None) ks -> all_items d ks = None.
Proof.
  intros d ks X. induction X as [k ks H|k ks X IH]; simpl.
  - destruct k; auto. now rewrite (H s eq_refl).
  - destruct k; auto. rewrite IH. destruct (dget s d); auto.
Qed.

Lemma asks_read : forall (w : W) n g x, asks w n g x -> getter_read g w n = Ok x.
Proof.
  intros w n g x H. destruct H; simpl.
  - rewrite (holds_as _ as_list w n _ _ l H eq_refl). rewrite (holds_as _ as_int w n _ _ i H0 eq_refl). simpl.
    unfold py_index. destruct (Z.leb_spec 0 i); [reflexivity|lia].
  - rewrite (holds_as _ as_list w n _ _ l H eq_refl). rewrite (holds_as _ as_int w n _ _ i H0 eq_refl). simpl.
    unfold py_index. destruct (Z.leb_spec 0 i); [lia|]. destruct (Z.leb_spec 0 (Z.of_nat (List.length l) + i)); [|lia].
    do 2 f_equal. lia.
  - rewrite (holds_as _ as_list w n _ _ l H eq_refl). rewrite (holds_as _ as_int w n _ _ i H0 eq_refl). simpl.
    unfold py_index. destruct (Z.leb_spec 0 i); [lia|]. destruct (Z.leb_spec 0 (Z.of_nat (List.length l) + i)); [lia|reflexivity].
  - rewrite (holds_as _ as_dict w n _ _ d H eq_refl). rewrite (holds_as _ as_str w n _ _ k H0 eq_refl). reflexivity.
  - rewrite (holds_as _ as_dict w n _ _ d H eq_refl). rewrite (holds_as _ as_list w n _ _ ks H0 eq_refl). simpl.
    now rewrite (all_found _ _ _ H1).
  - rewrite (holds_as _ as_dict w n _ _ d H eq_refl). rewrite (holds_as _ as_list w n _ _ ks H0 eq_refl). simpl.
    now rewrite (one_missing _ _ H1).
  - rewrite (holds_value _ _ _ _ H). rewrite (holds_as _ as_str w n _ _ _ H0 eq_refl). simpl.
    rewrite split_concat by auto. now rewrite (follow_get _ _ _ _ H3).
Qed.
Lemma asks_inputs : forall (w : W) n g x, asks w n g x -> has_inputs w n g.
Proof.
  intros w n g x H key I. destruct H; simpl in I; destruct I as [<-|[<-|[]]];
    repeat match goal with H : holds _ _ _ _ |- _ => destruct H as [? [? _]] end; eauto.
Qed.

(** Inputs of the right types ask for something. *)
Lemma split_ne : forall s, split_dots s <> [].
Proof. induction s as [|c r IH]; simpl; [discriminate|]. destruct (Ascii.eqb c _); [discriminate|]. destruct (split_dots r); [congruence|discriminate]. Qed.
Lemma split_parts : forall s, Forall (fun a => ~ has_dot a) (split_dots s) /\ String.concat "." (split_dots s) = s.
Proof.
  induction s as [|c r [F IH]]; simpl; [repeat constructor; simpl; auto|].
  pose proof (split_ne r) as N. destruct (Ascii.eqb_spec c "."%char) as [->|Hc].
  - split; [constructor; simpl; auto|]. destruct (split_dots r) as [|x l]; [congruence|].
    change (String.concat "." (EmptyString :: x :: l)) with ("." ++ String.concat "." (x :: l))%string. now rewrite IH.
  - destruct (split_dots r) as [|x l]; [congruence|]. apply Forall_cons_iff in F. destruct F as [F1 F2]. split.
    + constructor; auto. simpl. tauto.
    + rewrite <- IH. destruct l; reflexivity.
Qed.
Lemma follow_total : forall attr names v, exists x, follow attr v names x.
Proof.
  intros attr. induction names as [|a r IH]; intros v; [eexists; constructor|].
  destruct (attr v a) as [y|] eqn:A; [|eexists; apply fo_none; exact A]. destruct (IH y) as [x F].
  exists x. eapply fo_some; eauto.
Qed.
Lemma asks_total : forall (w : W) n g,
  match g with
  | GListItem => exists l i, holds w n "list" (VList l) /\ holds w n "index" (VInt i)
  | GDictItem => exists d k, holds w n "dict" (VDict d) /\ holds w n "key" (VStr k)
  | GMultiDict => exists d ks, holds w n "dict" (VDict d) /\ holds w n "keys" (VList ks)
  | GAttr _ => exists v a, holds w n "object" v /\ holds w n "attr_name" (VStr a)
  end -> exists x, asks w n g x.
Proof.
  intros w n [| | |attr] (a&b&H1&H2).
  - destruct (Z_lt_le_dec b 0) as [L|L]; [|eexists; apply (as_item w n a b); auto].
    destruct (Z_lt_le_dec b (- Z.of_nat (List.length a))) as [M|M];
      [eexists; apply (as_item_before w n a b); auto|eexists; apply (as_item_back w n a b); auto].
  - eexists. apply (as_entry w n a b); auto.
  - assert (Q : (exists vs, Forall2 (fun k v => exists s, k = VStr s /\ dget s a = Some v) b vs) \/
                Exists (fun k => forall s, k = VStr s -> dget s a = None) b).
    { clear H2. induction b as [|k b IH]; [left; exists []; constructor|].
      destruct IH as [[vs F]|X]; [|right; apply Exists_cons_tl; exact X].
      assert (D : (exists s v, k = VStr s /\ dget s a = Some v) \/ (forall s, k = VStr s -> dget s a = None)).
      { destruct k; try (right; intros; discriminate). destruct (dget s a) eqn:G; [left; eauto|].
        right. intros s' [= <-]. exact G. }
      destruct D as [(s&v&->&G)|D]; [left; exists (v :: vs); constructor; eauto|right; apply Exists_cons_hd; exact D]. }
    destruct Q as [[vs F]|X]; [eexists; eapply as_entries; eauto|eexists; eapply as_no_entry; eauto].
  - destruct (follow_total attr (split_dots b) a) as [x F]. exists x. destruct (split_parts b) as [P Q].
    apply (as_attribute w n attr a (split_dots b)); auto; [now rewrite Q|apply split_ne].
Qed.

(** ** One tick *)
Lemma tick_outs : forall (ev : env E) n k name cs (w w' : W) r, live (w_st w n) -> inputs_set w n ->
  call OTick (make_obj ev n k name cs) w = (w', r) ->
  exists w2 b, do_tick ev n k cs (begin_tick n w) = (w2, b) /\ end_tick n b w2 w' r /\ w_outs w' n = w_outs w2 n.
Proof.
  intros ev n k name cs w w' r Hl Hi H.
  destruct (tick_api ev n k name cs w w' r Hl Hi H) as [w2 [b [D T]]]. exists w2, b. split; auto. split; auto.
  rewrite call_make in H. destruct (node_tick_cases E n (do_op ev OTick n k cs) w) as [[Hd _]|[_ Heq]]; [contradiction|].
  rewrite Heq in H. unfold tick_live in H. rewrite (inputs_set_forallb _ _ _ Hi) in H. cbn [negb do_op] in H.
  unfold begin_tick in D. rewrite D in H. destruct b as [s|e|]; try (injection H as <- _; reflexivity).
  cbn zeta in H. destruct (state_in s _); [|injection H as <- _; reflexivity].
  set (w4 := set_ins (set_st w2 n s) n (map_io reset_updated (w_ins (set_st w2 n s) n))) in *.
  pose proof (push_outputs_frame E n w4) as [A1 [A2 [A3 [A4 [A5 _]]]]].
  change (w_outs w4) with (w_outs w2) in A3. clearbody w4.
  destruct (push_outputs w4 n) as [w5 [u|e|]]; injection H as <- _; simpl in *; rewrite A3; reflexivity.
Qed.

Lemma getter_step : forall (ev : env E) n g name cs (w w' w2 : W) r b, live (w_st w n) -> inputs_set w n ->
  child_first cs (begin_tick n w) w2 b ->
  call OTick (make_obj ev n (KGetter g) name cs) w = (w', r) ->
  getter_goes_on g n (a_stale (w_mem w2 n)) b w2 w' r.
Proof.
  intros ev n g name cs w w' w2 r b Hl Hi C H.
  destruct (tick_outs ev n (KGetter g) name cs w w' r Hl Hi H) as [w3 [b3 [D [T O]]]].
  simpl in D. unfold getter_tick in D.
  assert (F : first_or o_tick cs SUCCEEDED (begin_tick n w) = (w2, b)).
  { destruct cs as [|c l]; simpl in C |- *; [destruct C as [-> ->]; reflexivity|exact C]. }
  rewrite F in D. unfold getter_goes_on. destruct b as [s|e|]; cbn [bind] in D.
  2, 3: injection D as <- <-; exact T.
  assert (G : match s with FAILED | RUNNING => true | _ => false end = state_in s [FAILED; RUNNING]) by (destruct s; reflexivity).
  rewrite G. destruct (state_in s [FAILED; RUNNING]).
  { injection D as <- <-. exact T. }
  intros x A. destruct (updated_spec w2 n (getter_keys g)) as [u [U1 U2]].
  { pose proof (asks_inputs _ _ _ _ A) as I. destruct g; exact I. }
  rewrite U1 in D. rewrite (asks_read _ _ _ _ A) in D.
  assert (K : looks_at g = getter_keys g) by (destruct g; reflexivity).
  assert (P : puts_on g = getter_out g) by (destruct g; reflexivity).
  destruct x as [v|]; [|injection D as <- <-; exact T].
  rewrite K, P. split.
  - intros V c c' Dc S. assert (Hu : u || a_stale (w_mem w2 n) = true).
    { apply orb_true_iff. destruct V as [V|V]; auto. left. apply U2. exact V. }
    rewrite Hu in D. unfold out_set in D. rewrite Dc, S in D. simpl in D. injection D as <- <-.
    rewrite O. simpl. rewrite upd_eq, dget_dset_eq. split; auto.
  - intros [V1 V2]. rewrite V2, orb_false_r in D. destruct u; [exfalso; apply V1; apply U2; reflexivity|].
    injection D as <- <-. split; auto.
Qed.

(** ** The option succeed_on_stale_data along a history *)
Lemma mem_push : forall n (w : W), w_mem (fst (push_outputs w n)) = w_mem w.
Proof. intros n w. destruct (push_outputs_frame E n w) as [_ [A _]]. exact A. Qed.

Lemma first_blind : forall n (m : op) cs d (w : W), Forall (blind n) cs ->
  w_mem (fst (first_or (fun c => call m c) cs d w)) n = w_mem w n.
Proof. intros n m [|c l] d w F; simpl; auto. inversion F; subst. destruct (H1 m w) as [_ A]. exact A. Qed.

Lemma getter_mem : forall (ev : env E) n g name cs o (w : W), Forall (blind n) cs ->
  o = OTick \/ o = OUntick \/ o = OReset ->
  w_mem (fst (call o (make_obj ev n (KGetter g) name cs) w)) n = w_mem w n.
Proof.
  intros ev n g name cs o w F [-> | [-> | ->]]; rewrite call_make.
  - destruct (node_tick_cases E n (do_op ev OTick n (KGetter g) cs) w) as [[_ ->]|[_ ->]]; auto.
    unfold tick_live. destruct (negb _); auto. cbn [do_op].
    set (w1 := set_outs w n _).
    assert (A : w_mem (fst (do_tick ev n (KGetter g) cs w1)) n = w_mem w n).
    { change (w_mem w n) with (w_mem w1 n). rewrite <- (first_blind n OTick cs SUCCEEDED w1 F). cbn [do_tick]. unfold getter_tick.
      change (fun c : obj E => call OTick c) with (@o_tick E).
      destruct (first_or o_tick cs SUCCEEDED w1) as [w2 [s|e|]]; cbn [bind]; auto.
      destruct (state_in s [FAILED; RUNNING]); auto. destruct (any_updated w2 n (getter_keys g)) as [u|e|]; auto.
      destruct (getter_read g w2 n) as [[v|]|e|]; auto. destruct (u || a_stale (w_mem w2 n)); auto.
      unfold out_set. destruct (dget (getter_out g) (w_outs w2 n)) as [c|]; auto.
      destruct (set_value c v) as [c' [?|?|]]; reflexivity. }
    destruct (do_tick ev n (KGetter g) cs w1) as [w2 [s|e|]]; auto. cbn zeta. cbn [fst] in A.
    destruct (state_in s _); auto.
    match goal with |- context [push_outputs ?x n] => pose proof (mem_push n x) as M; destruct (push_outputs x n) as [w5 [u|e|]] end;
      cbn [fst] in *; simpl in *; rewrite M; exact A.
  - destruct (node_untick_cases E n (do_op ev OUntick n (KGetter g) cs) w) as [[_ ->]|[_ ->]]; auto.
    unfold untick_live. cbn [do_op do_untick].
    pose proof (first_blind n OUntick cs IDLE w F) as A. change (fun c : obj E => call OUntick c) with (@o_untick E) in A.
    destruct (first_or o_untick cs IDLE w) as [w2 [s|e|]]; auto. cbn zeta. destruct (state_in s _); auto.
  - destruct (node_reset_cases E n (do_op ev OReset n (KGetter g) cs) w) as [[_ ->]|[_ ->]]; auto.
    unfold reset_live. cbn [do_op do_reset]. cbn zeta.
    set (w1 := set_outs _ _ _).
    pose proof (first_blind n OReset cs IDLE w1 F) as A. change (fun c : obj E => call OReset c) with (@o_reset E) in A.
    destruct (first_or o_reset cs IDLE w1) as [w2 [s|e|]]; auto. cbn zeta. destruct (state_in s _); auto.
Qed.

Lemma getter_setup : forall (ev : env E) n g name cs (w w' : W) s c st, Forall (blind n) cs ->
  dget "succeed_on_stale_data" (w_ins w n) = Some c -> c_static c = true -> c_val c = Some (VBool st) ->
  call OSetup (make_obj ev n (KGetter g) name cs) w = (w', Ok s) -> a_stale (w_mem w' n) = st.
Proof.
  intros ev n g name cs w w' s c st F D S V H.
  destruct (ok_api ev n (KGetter g) name cs OSetup w w' s (or_introl eq_refl) H) as [w2 [X [_ [_ [M _]]]]].
  cbn [do_op do_setup] in X. rewrite (setup_option w n _ c bool as_bool _ st D S V eq_refl) in X. cbn [with_in] in X.
  pose proof (first_blind n OSetup cs IDLE (mem_stale (prepare OSetup n w) n st) F) as A.
  change (fun c : obj E => call OSetup c) with (@o_setup E) in A. rewrite X in A. cbn [fst] in A.
  rewrite M, A. simpl. rewrite upd_eq. reflexivity.
Qed.

Lemma getter_run : forall (ev : env E) n g name cs (w0 : W) recs, Forall (blind n) cs ->
  op_run (make_obj ev n (KGetter g) name cs) w0 recs ->
  forall pre w r w' post, recs = (pre ++ (OTick, w, r, w') :: post)%list ->
  a_stale (w_mem w n) = a_stale (w_mem w0 n) /\ inputs_set w n /\
  call OTick (make_obj ev n (KGetter g) name cs) w = (w', r).
Proof.
  intros ev n g name cs w0 recs F R. induction R as [|w0 o w r w' l [M1 M2] Ho Hi Hc R IH]; intros pre w1 r1 w1' post Eq.
  - destruct pre; discriminate.
  - destruct pre as [|p pre]; simpl in Eq; injection Eq; intros; subst.
    + change (o_id _) with n in *. rewrite M2. auto.
    + destruct (IH _ _ _ _ _ eq_refl) as [A B]. split; auto. rewrite A. change (o_id _) with n in *. rewrite <- M2.
      pose proof (getter_mem ev n g name cs o w F Ho) as G. rewrite Hc in G. simpl in G. now rewrite G.
Qed.

(** ** Setup leaves inputs without a value *)
Definition keeps_ins (m : nid) (c : obj E) : Prop := forall w : W, w_ins (fst (call OSetup c w)) m = w_ins w m.

Lemma out_set_ins : forall l n (w : W), w_ins (fst (out_set_all w n l)) = w_ins w.
Proof.
  induction l as [|[k v] r IH]; intros n w; simpl; auto. unfold out_set.
  destruct (dget k (w_outs w n)) as [c|]; simpl; auto. destruct (set_value c v) as [c' [?|?|]]; simpl; auto.
  rewrite IH. reflexivity.
Qed.
Lemma for_each_ins : forall m cs (w : W), Forall (keeps_ins m) cs -> w_ins (fst (for_each o_setup cs w)) m = w_ins w m.
Proof.
  intros m cs. induction cs as [|c r IH]; intros w F; simpl; auto. inversion F; subst. pose proof (H1 w) as A. simpl in A.
  destruct (o_setup c w) as [w1 [s|e|]]; simpl in *; auto. rewrite IH by auto. exact A.
Qed.
Lemma each_ins : forall m cs s (w : W), Forall (keeps_ins m) cs -> w_ins (fst (each_then o_setup cs s w)) m = w_ins w m.
Proof.
  intros m cs s w F. unfold each_then. pose proof (for_each_ins m cs w F) as A.
  destruct (for_each o_setup cs w) as [w1 [u|e|]]; exact A.
Qed.
Lemma first_ins : forall m cs s (w : W), Forall (keeps_ins m) cs -> w_ins (fst (first_or o_setup cs s w)) m = w_ins w m.
Proof. intros m [|c r] s w F; simpl; auto. inversion F; subst. apply H1. Qed.
Lemma optional_ins : forall m n cs (w : W), Forall (keeps_ins m) cs -> w_ins (fst (optional_setup_loop n cs w)) m = w_ins w m.
Proof.
  intros m n cs. induction cs as [|c r IH]; intros w F; simpl; auto. inversion F; subst.
  destruct (o_util c w) as [u|e|]; auto. destruct (can_execute u); auto. exact (H1 (mem_exec w n true)).
Qed.
Lemma with_in_ins : forall A (x : res A) (w : W) k m i, w_ins w m = i -> (forall a, w_ins (fst (k a)) m = i) ->
  w_ins (fst (with_in x w k)) m = i.
Proof. intros A [a|e|] w k m i H1 H; simpl; auto. Qed.

Lemma do_setup_ins : forall (ev : env E) n k cs m (w : W), Forall (keeps_ins m) cs ->
  w_ins (fst (do_setup ev n k cs w)) m = w_ins w m.
Proof.
  intros ev n k cs m w F. destruct k; simpl;
    repeat first
      [ apply with_in_ins; [reflexivity|intros ?]
      | match goal with |- context [if ?b then _ else _] => destruct b end
      | reflexivity
      | rewrite each_ins by exact F
      | rewrite first_ins by exact F
      | rewrite optional_ins by exact F ].
  unfold leaf_act. destruct (ev_leaf ev OSetup n (w_st w n) (w_ins w n) (w_ext w)) as [[e' ws] r].
  pose proof (out_set_ins ws n (set_ext w e')) as A. destruct (out_set_all (set_ext w e') n ws) as [w1 [u|e|]]; simpl in *; now rewrite A.
Qed.

Lemma setup_ins : forall (ev : env E) t m, ~ In m (ids t) -> keeps_ins m (obj_of ev t).
Proof.
  intros ev. induction t as [n k name cs IH] using tree_ind'. intros m Hm w. simpl obj_of.
  assert (F : Forall (keeps_ins m) (map (obj_of ev) cs)).
  { apply Forall_forall. intros c Hc. apply in_map_iff in Hc. destruct Hc as [t [<- Ht]].
    rewrite Forall_forall in IH. apply IH; auto. intros X. apply Hm. simpl. right. apply in_flat_map. eauto. }
  assert (Hn : m <> n) by (intros ->; apply Hm; simpl; auto).
  rewrite call_make. destruct (node_setup_cases E n (do_op ev OSetup n k (map (obj_of ev) cs)) w) as [[_ [_ ->]]|[_ ->]]; auto.
  unfold setup_live. cbn zeta. cbn [do_op]. set (w2 := set_outs _ _ _).
  pose proof (do_setup_ins ev n k (map (obj_of ev) cs) m w2 F) as A.
  assert (B : w_ins w2 m = w_ins w m) by (simpl; apply upd_neq; auto). clearbody w2.
  destruct (do_setup ev n k (map (obj_of ev) cs) w2) as [w3 [s|e|]]; cbn [fst] in *.
  - destruct (state_in s [IDLE]); simpl; congruence.
  - simpl. congruence.
  - congruence.
Qed.

(** A node with an input that is not static cannot be ticked right after its setup. *)
Lemma dget_In : forall key (m : iomap) c, dget key m = Some c -> exists k, In (k, c) m.
Proof.
  intros key m c. induction m as [|[k x] r IH]; simpl; [discriminate|]. destruct (String.eqb key k).
  - intros [= ->]. eauto.
  - intros H. destruct (IH H) as [k' I]. eauto.
Qed.
Lemma unset_tick : forall (ev : env E) n k name cs (w w' : W) s key c, NoDup (ids (T n k name cs)) ->
  dget key (w_ins w n) = Some c -> c_static c = false ->
  call OSetup (obj_of ev (T n k name cs)) w = (w', Ok s) ->
  call OTick (obj_of ev (T n k name cs)) w' = (set_st w' n BROKEN, Err EUnset).
Proof.
  intros ev n k name cs w w' s key c ND D S H. simpl obj_of in *.
  assert (F : Forall (keeps_ins n) (map (obj_of ev) cs)).
  { apply Forall_forall. intros x Hx. apply in_map_iff in Hx. destruct Hx as [t [<- Ht]]. apply setup_ins.
    inversion ND; subst. intros X. apply H2. apply in_flat_map. eauto. }
  assert (St : w_st w' n = IDLE /\ w_ins w' n = map_io (fun c => flag_updated (reset_value c)) (w_ins w n)).
  { rewrite call_make in H. destruct (node_setup_cases E n (do_op ev OSetup n k (map (obj_of ev) cs)) w) as [[_ [_ Q]]|[_ Q]];
      rewrite Q in H; [discriminate|]. unfold setup_live in H. cbn zeta in H. cbn [do_op] in H.
    set (w2 := set_outs _ _ _) in H. pose proof (do_setup_ins ev n k (map (obj_of ev) cs) n w2 F) as A.
    destruct (do_setup ev n k (map (obj_of ev) cs) w2) as [w3 [s3|e|]]; try discriminate. cbn zeta in H. cbn [fst] in A.
    destruct (state_in s3 [IDLE]) eqn:Es; [|discriminate]. injection H as <- <-. simpl. rewrite upd_eq. split.
    - apply state_in_spec in Es. destruct Es as [<-|[]]. reflexivity.
    - rewrite A. simpl. rewrite upd_eq. reflexivity. }
  destruct St as [St In']. rewrite call_make. unfold node_tick. rewrite St.
  replace (forallb _ (w_ins w' n)) with false; [reflexivity|]. symmetry. rewrite In'.
  clear - D S. unfold map_io. induction (w_ins w n) as [|[k0 x] r IH]; simpl in *; [discriminate|].
  destruct (String.eqb key k0).
  - injection D as ->. unfold has_value. simpl. rewrite S. reflexivity.
  - rewrite IH by auto. apply andb_false_r.
Qed.
End ProofsGetter.
