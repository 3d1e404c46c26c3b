(** Proofs about what is published about the data of a tree. *)
From Coq Require Import Ascii ZArith Bool Arith Lia String Permutation List.
From Coq.Floats Require Import SpecFloat.
From Verif Require Import Base ModelData ModelTree ModelSubtreeNode ModelJson ModelPublish.
From Verif Require Import SpecTree SpecData SpecFlow SpecPublish ProofsTree ProofsLife ProofsWhole ProofsData ProofsFlow ProofsSubtreeOut.
Import ListNotations.

(** ** Texts *)

Lemma json_ind' (P : json -> Prop) :
  (forall b, P (JBool b)) -> (forall z, P (JInt z)) -> (forall f, P (JFloat f)) -> (forall s, P (JStr s)) ->
  (forall l, Forall P l -> P (JList l)) -> (forall d, Forall (fun kv => P (snd kv)) d -> P (JDict d)) ->
  forall j, P j.
Proof.
  intros Hb Hi Hf Hs Hl Hd. fix F 1. intros [b|z|f|s|l|d]; [apply Hb|apply Hi|apply Hf|apply Hs| |].
  - apply Hl. induction l as [|x r IH]; constructor; [apply F|exact IH].
  - apply Hd. induction d as [|[k v] r IH]; constructor; [apply F|exact IH].
Qed.

Lemma json_eqb_eq : forall a b, json_eqb a b = true <-> a = b.
Proof.
  induction a as [b|z|f|s|l IH|d IH] using json_ind'; intros y; destruct y as [b'|z'|f'|s'|l'|d']; cbn [json_eqb];
    try (split; [discriminate|intros X; discriminate X]).
  - rewrite Bool.eqb_true_iff. split; congruence.
  - rewrite Z.eqb_eq. split; congruence.
  - destruct f as [s|s| |s m e], f' as [s'|s'| |s' m' e']; try (split; [discriminate|intros X; discriminate X]);
      rewrite ?andb_true_iff, ?Bool.eqb_true_iff, ?Pos.eqb_eq, ?Z.eqb_eq; (split; intros X; [intuition congruence|inversion X; subst; auto]).
  - rewrite String.eqb_eq. split; congruence.
  - revert l'. induction IH as [|x r Hx _ IHr]; intros [|y r']; try (split; [discriminate|intros X; discriminate X]); try tauto.
    rewrite andb_true_iff, Hx. specialize (IHr r').
    rewrite IHr. split; intros X; [intuition congruence|inversion X; subst; auto].
  - revert d'. induction IH as [|[k x] r Hx _ IHr]; intros [|[k' y] r']; try (split; [discriminate|intros X; discriminate X]); try tauto.
    cbn [snd] in Hx. rewrite !andb_true_iff, Hx, String.eqb_eq. specialize (IHr r').
    rewrite IHr. split; intros X; [intuition congruence|inversion X; subst; auto].
Qed.

Lemma text_eqb_eq : forall a b, text_eqb a b = true <-> a = b.
Proof.
  intros [a|] [b|]; cbn [text_eqb]; try (split; [discriminate|intros X; discriminate X]); try tauto.
  rewrite json_eqb_eq. split; congruence.
Qed.

(** ** The list *)

Section Lists.
  Context {F : Type}.
  Variable r : ros.
  Variable fuel : nat.

  Lemma about_wiring_data : forall (w : world F) n k e, wiring_data r fuel w n k = Ok e -> about e = (n, k_src k, k_tid k, k_tkey k).
  Proof.
    intros w n k e. unfold wiring_data.
    repeat match goal with |- context [match ?x with _ => _ end] => destruct x end; intros [= <-]; reflexivity.
  Qed.
  Lemma collect_ok : forall l ds, collect l = Ok ds -> l = map Ok ds.
  Proof.
    induction l as [|[d|e|] l IH]; intros ds H; cbn [collect] in H; try discriminate; [injection H as <-; reflexivity|].
    destruct (collect l) as [q|e|]; try discriminate. injection H as <-. cbn [map]. f_equal. apply IH. reflexivity.
  Qed.

  Definition flat (c : conns) (ids : list nid) : list (option (nid * string * nid * string)) :=
    flat_map (fun n => match c n with
                       | Some l => map (fun k => Some (n, k_src k, k_tid k, k_tkey k)) l
                       | None => []
                       end) ids.

  Lemma flat_ok : forall (w : world F) ids ds,
    flat_map (fun n => match w_conns w n with Some l => map (wiring_data r fuel w n) l | None => [] end) ids = map Ok ds ->
    map (fun e => Some (about e)) ds = flat (w_conns w) ids.
  Proof.
    intros w ids. unfold flat. induction ids as [|n q IH]; intros ds H; cbn [flat_map] in *; [destruct ds; [reflexivity|discriminate]|].
    destruct (w_conns w n) as [l|] eqn:Ew; [|cbn [app] in *; auto].
    clear Ew. revert ds H. induction l as [|k l IHl]; intros ds H; cbn [map app] in *; [auto|].
    destruct ds as [|d ds]; [discriminate|]. injection H as H1 H2. cbn [map]. f_equal; [|apply IHl; exact H2].
    rewrite (about_wiring_data _ _ _ _ H1). reflexivity.
  Qed.
  Lemma about_list : forall (w : world F) ids ds, get_wiring_data r fuel ids w = Ok ds ->
    map (fun e => Some (about e)) ds = flat (w_conns w) ids.
  Proof. intros w ids ds H. apply flat_ok, collect_ok. exact H. Qed.

  Lemma flat_other : forall c s k ids, ~ In s ids ->
    flat (fun n => if Nat.eqb n s then Some k else c n) ids = flat c ids.
  Proof.
    intros c s k ids H. unfold flat. induction ids as [|n q IH]; auto. simpl. simpl in H.
    destruct (Nat.eqb_spec n s); [tauto|]. rewrite IH; auto.
  Qed.

  Lemma flat_add : forall c s k x ids, NoDup ids -> In s ids -> c s = Some k ->
    Permutation (flat (fun n => if Nat.eqb n s then Some (k ++ [x])%list else c n) ids)
                (Some (s, k_src x, k_tid x, k_tkey x) :: flat c ids).
  Proof.
    intros c s k x ids Hn Hi Hc. induction Hn as [|n q Hnr Hn IH]; [contradiction|].
    unfold flat. cbn [flat_map]. destruct (Nat.eqb_spec n s) as [->|Hne].
    - pose proof (flat_other c s (k ++ [x])%list q Hnr) as He. unfold flat in He. rewrite He, Hc, map_app. cbn [map].
      rewrite <- app_assoc. cbn [app]. apply Permutation_sym. apply Permutation_middle.
    - destruct Hi as [|Hi]; [congruence|]. specialize (IH Hi). unfold flat in IH.
      eapply Permutation_trans; [apply Permutation_app_head; exact IH|]. apply Permutation_sym, Permutation_middle.
  Qed.

  Lemma connect_lists : forall l c c' ids, NoDup ids -> (forall n, c n <> None -> In n ids) ->
    connect l c = (c', Ok tt) -> Permutation (flat c' ids) (map as_wiring l ++ flat c ids).
  Proof.
    induction l as [|x q IH]; intros c c' ids Hn Hi H; cbn [connect] in H.
    - inversion H; subst. apply Permutation_refl.
    - destruct (iw_src x) as [s|] eqn:Es; [|discriminate]. destruct (iw_tgt x) as [t|] eqn:Et; [|discriminate].
      destruct (c s) as [k|] eqn:Ec; [|discriminate]. apply IH with (ids := ids) in H; auto.
      + eapply Permutation_trans; [exact H|]. cbn [map app].
        eapply Permutation_trans; [apply Permutation_app_head; apply (flat_add c s k _ ids Hn (Hi s ltac:(congruence)) Ec)|].
        cbn [k_src k_tid k_tkey]. unfold as_wiring at 2. rewrite Es, Et. apply Permutation_sym, Permutation_middle.
      + intros n. destruct (Nat.eqb_spec n s) as [->|]; auto. intros _. apply Hi. congruence.
  Qed.

  Lemma same_conns : forall (ev : env F) w l w', runs ev w l w' -> w_conns w' = w_conns w.
  Proof.
    intros ev w l w' H. eapply (lift_runs ev (fun a b => w_conns b = w_conns a)); eauto; try congruence; auto.
    intros w0 n. apply (push_outputs_frame F n w0).
  Qed.

  Lemma lists : forall (ev : env F) d w w1 l w2 ds, NoDup (sd_ids d) -> initialize d w = (w1, Ok tt) -> runs ev w1 l w2 ->
    get_wiring_data r fuel (sd_ids d) w2 = Ok ds ->
    Permutation (map (fun e => Some (about e)) ds) (map as_wiring (sd_wires d)).
  Proof.
    intros ev d w w1 l w2 ds Hn Hi Hr Hd. rewrite (about_list _ _ _ Hd), (same_conns ev w1 l w2 Hr).
    unfold initialize in Hi. destruct (connect (sd_wires d) _) as [c r'] eqn:Ec. inversion Hi; subst. cbn [set_conns w_conns].
    apply connect_lists with (ids := sd_ids d) in Ec; auto.
    - eapply Permutation_trans; [exact Ec|].
      assert (Hz : forall ids', flat (fun n => if existsb (Nat.eqb n) (sd_ids d) then Some [] else None) ids' = []).
      { intros ids'. unfold flat. induction ids' as [|n q IH]; auto. cbn [flat_map]. rewrite IH. destruct (existsb _ _); auto. }
      rewrite Hz, app_nil_r. apply Permutation_refl.
    - intros n. destruct (existsb (Nat.eqb n) (sd_ids d)) eqn:Ex; [|congruence]. intros _.
      apply existsb_exists in Ex. destruct Ex as [m [Hm He]]. apply Nat.eqb_eq in He. subst. exact Hm.
  Qed.

  (** ** One entry *)
  Lemma entry : forall ids (w : world F) ds e, get_wiring_data r fuel ids w = Ok ds -> In e ds ->
    wired w (wd_src e) (mkConn (wd_skey e) (wd_tgt e) (wd_tkey e)) /\
    wiring_data r fuel w (wd_src e) (mkConn (wd_skey e) (wd_tgt e) (wd_tkey e)) = Ok e.
  Proof.
    intros ids w ds e H He. apply collect_ok in H. apply (in_map Ok) in He. rewrite <- H in He.
    apply in_flat_map in He. destruct He as (n & Hn & He).
    destruct (w_conns w n) as [l|] eqn:Ec; [|contradiction]. apply in_map_iff in He. destruct He as (k & He & Hk).
    pose proof (about_wiring_data w n k e He) as Ha. unfold about in Ha. inversion Ha; subst n.
    assert (Hkk : mkConn (wd_skey e) (wd_tgt e) (wd_tkey e) = k) by (destruct k; cbn in *; congruence).
    rewrite Hkk. split; [|congruence]. exists l. split; congruence.
  Qed.

  Lemma collect_all : forall l, (forall x, In x l -> exists d, x = Ok d) -> exists ds, collect l = Ok ds.
  Proof.
    induction l as [|x l IH]; intros H; cbn [collect]; [eauto|]. destruct (H x (or_introl eq_refl)) as [d ->].
    destruct IH as [ds ->]; [intros y Hy; apply H; right; exact Hy|]. eauto.
  Qed.
  Lemma collect_raise : forall l, (forall x, In x l -> x = Raise \/ exists d, x = Ok d) -> In Raise l -> collect l = Raise.
  Proof.
    induction l as [|x l IH]; intros H I; [contradiction|]. destruct (H x (or_introl eq_refl)) as [-> | [d ->]]; [reflexivity|].
    cbn [collect]. rewrite IH; [reflexivity|intros y Hy; apply H; right; exact Hy|]. destruct I as [I|I]; [discriminate I|exact I].
  Qed.
  Lemma wiring_data_cases : forall (w : world F) n k, wiring_data r fuel w n k = Raise \/ exists d, wiring_data r fuel w n k = Ok d.
  Proof.
    intros w n k. unfold wiring_data. repeat match goal with |- context [match ?x with _ => _ end] => destruct x end; eauto.
  Qed.
  Lemma data_cases : forall ids (w : world F), 
    get_wiring_data r fuel ids w = Raise \/ exists ds, get_wiring_data r fuel ids w = Ok ds.
  Proof.
    intros ids w. unfold get_wiring_data. match goal with |- context [collect ?l] => set (q := l) end.
    assert (H : forall x, In x q -> x = Raise \/ exists d, x = Ok d).
    { intros x Hx. apply in_flat_map in Hx. destruct Hx as (n & _ & Hx). destruct (w_conns w n); [|contradiction].
      apply in_map_iff in Hx. destruct Hx as (k & <- & _). apply wiring_data_cases. }
    clearbody q. induction q as [|x q IH]; [right; exists []; reflexivity|].
    destruct (H x (or_introl eq_refl)) as [-> | [d ->]]; [left; reflexivity|]. cbn [collect].
    destruct IH as [-> | [ds ->]]; [intros y Hy; apply H; right; exact Hy|auto|eauto].
  Qed.
  Lemma data_raise : forall ids (w : world F) n l k, In n ids -> w_conns w n = Some l -> In k l -> wiring_data r fuel w n k = Raise ->
    get_wiring_data r fuel ids w = Raise.
  Proof.
    intros ids w n l k Hn Hl Hk H. unfold get_wiring_data. apply collect_raise.
    - intros x Hx. apply in_flat_map in Hx. destruct Hx as (m & _ & Hx). destruct (w_conns w m); [|contradiction].
      apply in_map_iff in Hx. destruct Hx as (k' & <- & _). apply wiring_data_cases.
    - apply in_flat_map. exists n. split; [exact Hn|]. rewrite Hl, <- H. apply in_map. exact Hk.
  Qed.
  Lemma written : forall ids (w : world F),
    (forall n l c, In n ids -> w_conns w n = Some l -> In c l ->
       (forall s, output w n (k_src c) = Some s -> exists x, serialize_value r fuel s = Ok x) /\
       (forall t, input w (k_tid c) (k_tkey c) = Some t -> exists x, serialize_value r fuel t = Ok x)) ->
    exists ds, get_wiring_data r fuel ids w = Ok ds.
  Proof.
    intros ids w H. unfold get_wiring_data. apply collect_all. intros x Hx. apply in_flat_map in Hx. destruct Hx as (n & Hn & Hx).
    destruct (w_conns w n) as [l|] eqn:Ec; [|contradiction]. apply in_map_iff in Hx. destruct Hx as (k & <- & Hk).
    destruct (H n l k Hn Ec Hk) as [H1 H2]. unfold wiring_data, output, input in *. rewrite Ec.
    destruct (dget (k_src k) (w_outs w n)) as [s|]; [|eauto]. destruct (w_conns w (k_tid k)); [|eauto].
    destruct (dget (k_tkey k) (w_ins w (k_tid k))) as [t|]; [|eauto].
    destruct (H1 s eq_refl) as [a ->]. destruct (H2 t eq_refl) as [b ->]. eauto.
  Qed.
End Lists.

(** ** Current values *)

Lemma ser_types : forall r k a b o, ty_compat a b = true -> ser r k a o = ser r k b o.
Proof.
  intros r k a. induction a; intros b o H; destruct b; try discriminate H; try (destruct k; reflexivity); cbn [ty_compat] in H; rewrite !andb_true_iff in H.
  - destruct H as [_ H]. assert (E : forall x, ser r k a (ModelFields.PVal x) = ser r k b (ModelFields.PVal x)) by (intros x; apply IHa; exact H).
    destruct o as [v| |]; try (destruct k; reflexivity). destruct v as [| | | | |l| | |]; try (destruct k; reflexivity).
    destruct k; cbn [ser] in *; match goal with |- match ?x with _ => _ end = match ?y with _ => _ end => replace y with x; [reflexivity|] end;
      induction l as [|x q IH]; auto; rewrite E, IH; reflexivity.
  - destruct H as [_ H]. assert (E : forall x, ser r k a (ModelFields.PVal x) = ser r k b (ModelFields.PVal x)) by (intros x; apply IHa; exact H).
    destruct o as [v| |]; try (destruct k; reflexivity). destruct v as [| | | | | |d| |]; try (destruct k; reflexivity).
    destruct k; cbn [ser] in *; match goal with |- match ?x with _ => _ end = match ?y with _ => _ end => replace y with x; [reflexivity|] end;
      induction d as [|[f x] q IH]; auto; rewrite E, IH; reflexivity.
  - destruct H as [_ H]. apply String.eqb_eq in H. subst. destruct k; reflexivity.
Qed.

Lemma check_same : forall a b v y, ty_compat a b = true -> check b v = Ok v -> check a v = Ok y -> y = v.
Proof.
  intros a b v y Hc Hb Ha.
  assert (G : forall t v v', check t v = Ok v' -> v' = v \/ exists a b, t = TFloat a b).
  { intros t v0 v' H. destruct t; cbn [check] in H; eauto; left;
      repeat match type of H with context [match ?x with _ => _ end] => destruct x end; congruence. }
  destruct (G a v y Ha) as [X | (mn & mx & ->)]; auto.
  destruct b; try discriminate Hc. cbn [check] in Ha, Hb. destruct v; try discriminate.
  - match type of Hb with context [SFltb ?f ?g] => destruct (SFltb f g); [discriminate|] end.
    match type of Hb with context [SFltb ?f ?g] => destruct (SFltb f g); [discriminate|] end. discriminate.
  - destruct (py_float z); [|discriminate].
    match type of Hb with context [SFltb ?f ?g] => destruct (SFltb f g); [discriminate|] end.
    match type of Hb with context [SFltb ?f ?g] => destruct (SFltb f g); [discriminate|] end. discriminate.
  - destruct (SFltb f mn); [discriminate|]. destruct (SFltb mx f); [discriminate|]. congruence.
Qed.

Lemma current : forall E r fuel (ev : env E) n k name cs w w' st pre c post v s t text,
  call OTick (make_obj ev n k name cs) w = (w', Ok st) ->
  w_conns w' n = Some (pre ++ c :: post)%list -> w_conns w' (k_tid c) <> None ->
  output w' n (k_src c) = Some s -> c_upd s = true -> c_val s = Some v ->
  (forall c' v', In c' post -> fresh w' n c' v' -> ~ (k_tid c' = k_tid c /\ k_tkey c' = k_tkey c)) ->
  input w' (k_tid c) (k_tkey c) = Some t -> c_static t = false ->
  ty_compat (c_ty t) (c_ty s) = true -> in_form s -> in_form t -> one_form (c_ty t) v ->
  serialize_value r fuel s = Ok text ->
  exists e, wiring_data r fuel w' n c = Ok e /\ wd_text e = text /\ wd_current e = true /\ c_val t = Some v.
Proof.
  intros E r fuel ev n k name cs w w' st pre c post v s t text H Hc Ht Ho Hu Hv Hp Hi Hs Hty Hfs Hft H1 Hx0.
  assert (Hg : given t v).
  { destruct (tick_push E ev n k name cs w w' st H) as [w4 [u Hpu]]. eapply push_given; eauto. exists s. auto. }
  destruct Hg as (x & y & Hx & Hy & Hxy).
  assert (y = v) by (eapply check_same; eauto). subst y.
  assert (x = v) by (destruct Hxy as [X | X]; [exact X|apply H1; auto]). subst x.
  assert (Hx1 : serialize_value r fuel t = Ok text).
  { unfold serialize_value in *. rewrite Hv in Hx0. rewrite Hx, (ser_types r fuel _ _ _ Hty). exact Hx0. }
  unfold wiring_data. rewrite Hc. unfold output, input in *. rewrite Ho. destruct (w_conns w' (k_tid c)) as [l|]; [|congruence].
  rewrite Hi, Hx0, Hx1. eexists. split; [reflexivity|]. cbn [wd_text wd_current]. repeat split; [|exact Hx]. apply text_eqb_eq. reflexivity.
Qed.

Lemma in_form_set : forall c v, in_form c -> in_form (fst (set_value c v)).
Proof.
  intros c v H. destruct (set_value_cases c v) as [[e X]|[X|[[v' [_ [_ [_ X]]]]|[v' [Hc [_ X]]]]]]; rewrite X; cbn [fst]; auto.
  intros x Hx. cbn [c_val c_ty] in *. destruct (changed (c_val c) v'); [inversion Hx; subst; eapply check_again; eauto|auto].
Qed.
Lemma in_form_ops : forall ops c, in_form c -> in_form (cops_run ops c).
Proof.
  unfold cops_run. induction ops as [|o r IH]; intros c H; simpl; auto. apply IH. destruct o; simpl; auto.
  - apply in_form_set; auto.
  - intros v Hv. cbn [reset_value c_val c_ty] in *. destruct (c_static c); [auto|discriminate].
Qed.

Lemma py_eq_str : forall x s, py_eq x (VStr s) = true -> x = VStr s.
Proof. intros x s H. destruct x; try discriminate. cbn in H. apply String.eqb_eq in H. congruence. Qed.

(** ** Switching *)

Definition calm {M} (s : pubsys M) : Prop := p_on s = false /\ ~ In PSend (p_threads s) /\ idle_on s.

Lemma calm_step : forall M (s s1 : pubsys M), pubs s s1 -> calm s -> idle_on s1 ->
  calm s1 /\ exists new, p_log s1 = (new ++ p_log s)%list /\ Forall (fun x => x = NoData) new.
Proof.
  intros M s s1 H [Hoff [Hns Hid]] Hid1. destruct H as [s x Hx | s pre x post m Hth].
  - cbn [p_log]. split.
    + split; [exact Hoff|]. split; [|exact Hid1]. cbn [p_threads]. rewrite in_app_iff. intros [X | [X | []]]; [tauto|].
      subst. destruct Hx as [X | [v X]]; discriminate.
    + exists []. split; auto.
  - assert (Hm : forall y, In y pre \/ In y post -> In y (p_threads s)).
    { intros y Hy. rewrite Hth, in_app_iff. simpl. tauto. }
    assert (Hxin : In x (p_threads s)) by (rewrite Hth; apply in_elt).
    assert (G : forall x', x' <> PSend -> ~ In PSend (pre ++ x' :: post)).
    { intros x' Hne X. rewrite in_app_iff in X. simpl in X. destruct X as [X | [X | X]]; [| congruence |]; apply Hns, Hm; auto. }
    destruct x; cbn [pub_step] in Hid1 |- *; rewrite ?Hoff in *; cbn [p_log p_on p_threads app] in *.
    + split; [|exists []; auto]. repeat split; auto. apply G; discriminate.
    + contradiction.
    + specialize (Hid v Hxin). subst v. split; [|exists []; auto]. repeat split; auto. apply G; discriminate.
    + split; [|exists []; auto]. repeat split; auto. apply G; discriminate.
    + split; [|exists (if negb v then [NoData] else []); split; [reflexivity|destruct v; repeat constructor]].
      repeat split; auto. apply G; discriminate.
    + split; [|exists []; auto]. repeat split; auto. apply G; discriminate.
Qed.

Lemma calm_steps : forall M (s s' : pubsys M), steps idle_on s s' -> calm s ->
  calm s' /\ exists new, p_log s' = (new ++ p_log s)%list /\ Forall (fun x => x = NoData) new.
Proof.
  intros M s s' H. induction H as [s | s s1 s2 H Hq Hs IH]; intros Hc.
  - split; auto. exists []. auto.
  - destruct (calm_step M s s1 H Hc Hq) as [Hc1 (new & Hl & Hf)]. destruct (IH Hc1) as [Hc2 (new2 & Hl2 & Hf2)].
    split; auto. exists (new2 ++ new)%list. rewrite Hl2, Hl, app_assoc. split; auto. apply Forall_app. auto.
Qed.

(** A thread that steps, or stays where it is. *)
Lemma thread_step : forall M (s s1 : pubsys M) i x, pubs s s1 -> nth_error (p_threads s) i = Some x ->
  (nth_error (p_threads s1) i = Some x /\ exists new, p_log s1 = (new ++ p_log s)%list) \/
  exists m, nth_error (p_threads s1) i = Some (snd (pub_step m (p_on s) (p_nested s) x)) /\
    p_log s1 = (snd (fst (pub_step m (p_on s) (p_nested s) x)) ++ p_log s)%list.
Proof.
  intros M s s1 i x H Hi. destruct H as [s y Hy | s pre y post m Hth].
  - left. cbn [p_threads p_log]. split; [|exists []; auto]. rewrite nth_error_app1; auto. apply nth_error_Some. congruence.
  - destruct (pub_step m (p_on s) (p_nested s) y) as [[[on nested] out] y'] eqn:Ep.
    cbn [p_threads p_log]. destruct (Nat.eq_dec i (List.length pre)) as [-> | Hne].
    + right. exists m. rewrite Hth in Hi. rewrite nth_error_app2 in Hi |- * by auto. rewrite Nat.sub_diag in *. cbn [nth_error] in *.
      inversion Hi; subst. rewrite Ep. auto.
    + left. split; [|exists out; reflexivity]. rewrite <- Hi, Hth. destruct (Nat.lt_ge_cases i (List.length pre)).
      * rewrite !nth_error_app1; auto.
      * rewrite !nth_error_app2 by lia. destruct (i - List.length pre) eqn:Ed; [lia|]. reflexivity.
Qed.

Lemma off_ends : forall M (s s' : pubsys M) i, steps idle_on s s' -> calm s ->
  (nth_error (p_threads s) i = Some (PNested false) \/ nth_error (p_threads s) i = Some (PClear false) \/
   (nth_error (p_threads s) i = Some PEnd /\ exists l, p_log s = NoData :: l)) ->
  nth_error (p_threads s') i = Some PEnd -> exists l, p_log s' = NoData :: l.
Proof.
  intros M s s' i H. induction H as [s | s s1 s2 H Hq Hs IH]; intros Hc Hi He.
  - destruct Hi as [X | [X | [_ X]]]; [congruence|congruence|exact X].
  - destruct (calm_step M s s1 H Hc Hq) as [Hc1 (new & Hl & Hf)]. apply IH; auto. destruct Hi as [X | [X | [X (l & Hl0)]]].
    + destruct (thread_step M s s1 i _ H X) as [[Y _] | (m & Y & _)]; auto.
    + destruct (thread_step M s s1 i _ H X) as [[Y _] | (m & Y & Z)]; auto. right. right. split; auto. cbn in Z. eauto.
    + right. right. destruct (thread_step M s s1 i _ H X) as [[Y _] | (m & Y & Z)]; (split; [exact Y|]);
        rewrite Hl, Hl0; destruct Hf as [|y r -> _]; simpl; eauto.
Qed.

Lemma on_sends : forall M (s s' : pubsys M) i, steps (fun s => p_on s = true) s s' -> p_on s = true ->
  forall base, (exists new, p_log s = (new ++ base)%list) ->
  (nth_error (p_threads s) i = Some PData \/ nth_error (p_threads s) i = Some PSend \/
   (nth_error (p_threads s) i = Some PEnd /\ exists m new, p_log s = (new ++ base)%list /\ In (Data m) new)) ->
  nth_error (p_threads s') i = Some PEnd -> exists m new, p_log s' = (new ++ base)%list /\ In (Data m) new.
Proof.
  intros M s s' i H. induction H as [s | s s1 s2 H Hq Hs IH]; intros Hon base (nw & Hnw) Hi He.
  - destruct Hi as [X | [X | [_ X]]]; [congruence|congruence|exact X].
  - assert (Hlog : exists new, p_log s1 = (new ++ p_log s)%list).
    { destruct H as [s x Hx | s pre x post m Hth]; [exists []; auto|].
      destruct (pub_step m (p_on s) (p_nested s) x) as [[[on nested] out] x']. exists out. auto. }
    destruct Hlog as (new & Hl). apply IH; auto.
    + exists (new ++ nw)%list. rewrite Hl, Hnw, app_assoc. auto.
    + destruct Hi as [X | [X | [X (m0 & n0 & Hl0 & Hin)]]].
      * destruct (thread_step M s s1 i _ H X) as [[Y _] | (m & Y & _)]; auto. cbn in Y. rewrite Hon in Y. auto.
      * destruct (thread_step M s s1 i _ H X) as [[Y _] | (m & Y & Z)]; auto. right. right. split; auto. cbn in Z.
        exists m, (Data m :: nw). rewrite Z, Hnw. split; [reflexivity|left; reflexivity].
      * right. right. split.
        -- destruct (thread_step M s s1 i _ H X) as [[Y _] | (m & Y & Z)]; exact Y.
        -- exists m0, (new ++ n0)%list. rewrite Hl, Hl0, app_assoc. split; auto. apply in_or_app. auto.
Qed.

(** ** Values with one form *)

Lemma sf_eq : forall f g, SFeqb f g = true -> (forall s, g <> S754_zero s) -> f = g.
Proof.
  intros f g H Hz. unfold SFeqb, SFcompare in H.
  destruct f as [s|s| |s m e], g as [s'|s'| |s' m' e']; try (exfalso; eapply Hz; reflexivity);
    try (destruct s); try (destruct s'); try discriminate H; try reflexivity;
    destruct (Z.compare_spec e e') as [-> | |]; try discriminate H;
    change (Pos.compare_cont Eq m m') with (Pos.compare m m') in H;
    destruct (Pos.compare_spec m m') as [-> | |]; try discriminate H; reflexivity.
Qed.

Lemma check_keeps : forall t v v', check t v = Ok v' -> (forall a b, t <> TFloat a b) -> v' = v.
Proof.
  intros t v v' H Hf. destruct t; cbn [check] in H; try (exfalso; eapply Hf; reflexivity);
    repeat match type of H with context [match ?x with _ => _ end] => destruct x end; congruence.
Qed.

Lemma plain_one_form : forall t v, plain t v -> one_form t v.
Proof.
  induction t; intros v Hp; destruct v; try contradiction Hp; intros x Hx He;
    destruct x; cbn [py_eq] in He; try discriminate He; cbn [check] in Hx; try discriminate Hx.
  - apply Bool.eqb_prop in He. congruence.
  - destruct Hp as [H0 H1]. apply Z.eqb_eq in He. destruct b; cbn in He; congruence.
  - apply Z.eqb_eq in He. congruence.
  - repeat match type of Hx with (if ?x then _ else _) = _ => destruct x; try discriminate Hx end.
  - destruct (py_float z); try discriminate Hx.
    repeat match type of Hx with (if ?x then _ else _) = _ => destruct x; try discriminate Hx end.
  - f_equal. apply sf_eq; auto.
  - apply String.eqb_eq in He. congruence.
  - apply String.eqb_eq in He. congruence.
  - apply String.eqb_eq in He. congruence.
  - destruct Hp as [Hf Hp]. f_equal. clear -Hf Hp IHt Hx He.
    assert (Hall : forall y, In y l0 -> check t y = Ok y).
    { match type of Hx with match ?g l0 with _ => _ end = _ => assert (Hg : g l0 = Ok tt) by (destruct (g l0) as [[]|?|]; congruence) end.
      clear Hx He. induction l0 as [|y r IH]; [contradiction|]. destruct (check t y) as [y'|e|] eqn:Ey; try discriminate.
      assert (y' = y) by (eapply check_keeps; eauto). subst y'. intros z [<- | Hz]; auto. }
    clear Hx. revert l0 He Hall. induction Hp as [|v r Hv _ IH]; intros [|y r0] He Hall; try discriminate He; auto.
    apply andb_true_iff in He. destruct He as [He1 He2]. f_equal; [|apply IH; auto; intros; apply Hall; right; auto].
    apply (IHt v Hv y); auto. apply Hall. left. auto.
  - apply String.eqb_eq in He. congruence.
  - apply andb_true_iff in He. destruct He as [H1 H2]. apply String.eqb_eq in H1. apply Nat.eqb_eq in H2. congruence.
  - apply andb_true_iff in He. destruct He as [H1 H2]. apply String.eqb_eq in H2. destruct k0, k1; try discriminate; congruence.
Qed.

(** ** A request that is alone *)
Definition half {M} (v : bool) (x : place) (s : pubsys M) : Prop :=
  match x with
  | PSet v' => v' = v
  | PNested v' => v' = v /\ p_on s = v
  | PClear v' => v' = v /\ p_on s = v /\ p_nested s = v
  | PEnd => p_on s = v /\ p_nested s = v
  | _ => False
  end.
Lemma nth_middle : forall A (pre post : list A) x i, nth_error (pre ++ x :: post) i =
  if Nat.eqb i (length pre) then Some x else if Nat.ltb i (length pre) then nth_error pre i else nth_error post (i - S (length pre)).
Proof.
  intros A pre post x i. destruct (Nat.eqb_spec i (length pre)) as [->|N]; [rewrite nth_error_app2 by lia; rewrite Nat.sub_diag; reflexivity|].
  destruct (Nat.ltb_spec i (length pre)) as [L|L]; [apply nth_error_app1; exact L|]. rewrite nth_error_app2 by lia.
  replace (i - length pre) with (S (i - S (length pre))) by lia. reflexivity.
Qed.
Lemma half_step : forall M (s s' : pubsys M) i v x, pubs s s' -> only_switch i s -> nth_error (p_threads s) i = Some x -> half v x s ->
  exists x', nth_error (p_threads s') i = Some x' /\ half v x' s'.
Proof.
  intros M s s' i v x P O N H. destruct P as [s y Y|s pre y post m E].
  - exists x. cbn [p_threads]. split; [rewrite nth_error_app1; [exact N|apply nth_error_Some; congruence]|]. destruct x; exact H.
  - destruct (Nat.eq_dec i (length pre)) as [->|Ne].
    + rewrite E, nth_middle, Nat.eqb_refl in N. injection N as ->.
      destruct x as [| |v'|v'|v'|]; cbn [half] in H; try contradiction; cbn [pub_step p_threads]; eexists; (split; [rewrite nth_middle, Nat.eqb_refl; reflexivity|]); cbn; intuition congruence.
    + assert (Y : y = PData \/ y = PSend \/ y = PEnd) by (apply (O (length pre)); [rewrite E, nth_middle, Nat.eqb_refl; reflexivity|congruence]).
      exists x. rewrite E, nth_middle in N.
      destruct Y as [->|[->| ->]]; cbn [pub_step p_threads]; (split; [rewrite nth_middle; rewrite (proj2 (Nat.eqb_neq _ _) Ne) in *; exact N|]); destruct x; exact H.
Qed.
Theorem switched : forall M (s s' : pubsys M) i v, nth_error (p_threads s) i = Some (PSet v) -> only_switch i s -> steps (only_switch i) s s' ->
  nth_error (p_threads s') i = Some PEnd -> p_on s' = v /\ p_nested s' = v.
Proof.
  intros M s s' i v N O H. assert (G : exists x, nth_error (p_threads s) i = Some x /\ half v x s) by (exists (PSet v); split; [exact N|reflexivity]).
  clear N. revert O G. induction H as [s|s s1 s2 P Q _ IH]; intros O (x & N & Hx) E.
  - rewrite N in E. injection E as ->. exact Hx.
  - destruct (half_step M s s1 i v x P O N Hx) as (x' & N' & Hx'). exact (IH Q (ex_intro _ x' (conj N' Hx')) E).
Qed.
