(** Proofs about diagnostics. *)
From Coq Require Import Bool Arith Lia List.
From Verif Require Import Base ModelData ModelEdit ModelDiag SpecEdit SpecDiag ProofsEdit ProofsEditOps ProofsEditMove ProofsEditCycle ProofsEditWire ProofsEditHist ProofsEditLast.
Import ListNotations.

Section Ind.
Variable P : run -> Prop.
Hypothesis H : forall n k inner ends, Forall P inner -> P (Run n k inner ends).
Fixpoint run_ind' (r : run) : P r :=
  match r with
  | Run n k inner ends => H n k inner ends ((fix go (l : list run) : Forall P l := match l with [] => Forall_nil P | x :: l => Forall_cons x (run_ind' x) (go l) end) inner)
  end.
End Ind.

Section WithPath.
Variable path : nid -> list nid.

Fixpoint all pub (l : list run) (ends : bool) (d : dman) : dman * bool :=
  match l with
  | [] => (d, ends)
  | x :: l => match exec pub path x d with (d, true) => all pub l ends d | (d, false) => (d, false) end
  end.
Lemma exec_eq : forall pub n k inner ends d, exec pub path (Run n k inner ends) d = report pub path n k (all pub inner ends) d.
Proof.
  intros pub n k inner ends d. cbn [exec]. unfold report. destruct (look d) as [on d0].
  set (d1 := if on && pub then _ else _). clearbody d1.
  assert (E : (fix all0 (l : list run) (d2 : dman) {struct l} : dman * bool :=
           match l with
           | [] => (d2, ends)
           | x :: l0 => match exec pub path x d2 with (d3, true) => all0 l0 d3 | (d3, false) => (d3, false) end
           end) inner d1 = all pub inner ends d1).
  { revert d1. induction inner as [|x l IH]; intros d1; [reflexivity|]. cbn [all]. destruct (exec pub path x d1) as [d3 [|]]; [apply IH|reflexivity]. }
  rewrite E. reflexivity.
Qed.

(** ** The switch stays as it is *)

Definition quiet (d d' : dman) : Prop := dm_flag d' = dm_flag d /\ dm_log d' = dm_log d.

Lemma exec_off : forall pub r d, (pub = false \/ forall i, dm_flag d i = false) ->
  exists d', exec pub path r d = (d', answers r) /\ dm_flag d' = dm_flag d /\ dm_log d' = dm_log d.
Proof.
  intros pub. induction r as [n k inner ends IH] using run_ind'. intros d Hd. rewrite exec_eq. unfold report, look.
  assert (O : dm_flag d (dm_looks d) && pub = false) by (destruct Hd as [-> | ->]; [apply andb_false_r|reflexivity]). rewrite O.
  set (d1 := mkDM _ _ _).
  assert (B : exists d', all pub inner ends d1 = (d', forallb answers inner && ends) /\ dm_flag d' = dm_flag d /\ dm_log d' = dm_log d).
  { assert (F1 : dm_flag d1 = dm_flag d) by reflexivity. assert (L1 : dm_log d1 = dm_log d) by reflexivity. clearbody d1.
    revert d1 F1 L1. induction IH as [|x l Hx _ IHl]; intros d1 F1 L1; cbn [all forallb]; [exists d1; auto|].
    destruct (Hx d1) as (d2 & E & F2 & L2); [rewrite F1; exact Hd|]. rewrite E. destruct (answers x); cbn [andb].
    - apply IHl; congruence.
    - exists d2. split; [reflexivity|]. split; congruence. }
  destruct B as (d2 & E & F2 & L2). rewrite E. cbn [answers]. destruct (forallb answers inner && ends); [|exists d2; auto].
  assert (O' : dm_flag d2 (dm_looks d2) && pub = false) by (rewrite F2; destruct Hd as [-> | ->]; [apply andb_false_r|reflexivity]). rewrite O'.
  eexists. split; [reflexivity|]. auto.
Qed.

(** ** Switched off on the way *)

(** What is left of [l] messages after the switch was turned off. *)
Definition step (a : nat) (d : dman) (ms : list dmsg) (d' : dman) : Prop :=
  dm_flag d' = on_until a /\ dm_looks d' = dm_looks d + length ms /\ dm_log d' = dm_log d ++ firstn (a - dm_looks d) ms.
Lemma step_trans : forall a d d1 d2 m1 m2, step a d m1 d1 -> step a d1 m2 d2 -> step a d (m1 ++ m2) d2.
Proof.
  intros a d d1 d2 m1 m2 (F1 & K1 & L1) (F2 & K2 & L2). split; [exact F2|]. split; [rewrite K2, K1, app_length; lia|].
  rewrite L2, L1, K1, firstn_app, <- app_assoc. f_equal. f_equal. f_equal. lia.
Qed.
Lemma step_refl : forall a d, dm_flag d = on_until a -> step a d [] d.
Proof. intros a d F. split; [exact F|]. split; [cbn; lia|]. rewrite firstn_nil, app_nil_r. reflexivity. Qed.
Lemma firstn_one : forall {A} a b (x : A), firstn (a - b) [x] = if b <? a then [x] else [].
Proof.
  intros A a b x. destruct (b <? a) eqn:E.
  - apply Nat.ltb_lt in E. destruct (a - b) eqn:X; [lia|]. cbn. rewrite firstn_nil. reflexivity.
  - apply Nat.ltb_ge in E. replace (a - b) with 0 by lia. reflexivity.
Qed.

Lemma exec_until : forall a r d, dm_flag d = on_until a ->
  exists d' ms rest, exec true path r d = (d', answers r) /\ step a d ms d' /\ messages path r = ms ++ rest /\ (answers r = true -> rest = []) /\ ms <> [].
Proof.
  intros a. induction r as [n k inner ends IH] using run_ind'. intros d Hd. rewrite exec_eq. unfold report, look. rewrite !andb_true_r.
  set (m0 := mkD n (path n) (match k with KTick => DPreTick | _ => DNothing end)).
  set (d1 := if dm_flag d (dm_looks d) then _ else _).
  assert (S1 : step a d [m0] d1).
  { unfold d1, step. rewrite firstn_one. rewrite Hd. unfold on_until. destruct (dm_looks d <? a); cbn; rewrite ?app_nil_r; (split; [congruence|split; [lia|reflexivity]]). }
  assert (F1 : dm_flag d1 = on_until a) by (destruct S1; assumption). clearbody d1.
  assert (B : exists d' ms rest, all true inner ends d1 = (d', forallb answers inner && ends) /\ step a d1 ms d' /\ flat_map (messages path) inner = ms ++ rest /\
                (forallb answers inner = true -> rest = [])).
  { clear S1. revert d1 F1. induction IH as [|x l Hx _ IHl]; intros d1 F1; cbn [all forallb flat_map].
    - exists d1, [], []. split; [reflexivity|]. split; [apply step_refl; exact F1|]. auto.
    - destruct (Hx d1 F1) as (d2 & ms & rest & E & S2 & Em & Er & _). rewrite E, Em. destruct (answers x) eqn:Ax; cbn [andb].
      + rewrite (Er eq_refl), app_nil_r. destruct (IHl d2) as (d3 & ms3 & rest3 & E3 & S3 & Em3 & Er3); [apply S2|]. rewrite E3, Em3.
        exists d3, (ms ++ ms3), rest3. split; [reflexivity|]. split; [eapply step_trans; eauto|]. split; [now rewrite app_assoc|exact Er3].
      + exists d2, ms, (rest ++ flat_map (messages path) l). split; [reflexivity|]. split; [exact S2|]. split; [now rewrite app_assoc|discriminate]. }
  destruct B as (d2 & ms & rest & E & S2 & Em & Er). rewrite E. cbn [answers messages]. fold m0.
  destruct (forallb answers inner) eqn:Ai; cbn [andb].
  - rewrite (Er eq_refl), app_nil_r in Em. destruct ends.
    + set (m1 := mkD n (path n) (DPost k)).
      pose proof (step_trans _ _ _ _ _ _ S1 S2) as S12. pose proof S12 as (F2 & K2 & L2).
      assert (Lk : dm_flag d (dm_looks d) = true \/ dm_flag d2 (dm_looks d2) = false).
      { rewrite Hd, F2, K2. unfold on_until. destruct (Nat.ltb_spec (dm_looks d) a); [auto|]. right. apply Nat.ltb_ge. lia. }
      exists (if dm_flag d2 (dm_looks d2) then mkDM (dm_flag d2) (S (dm_looks d2)) (dm_log d2 ++ [m1]) else mkDM (dm_flag d2) (S (dm_looks d2)) (dm_log d2)),
        (([m0] ++ ms) ++ [m1]), [].
      split.
      { destruct (dm_flag d2 (dm_looks d2)) eqn:X; [|reflexivity]. destruct Lk as [Y|Y]; [|discriminate]. rewrite Y. reflexivity. }
      split; [|split; [rewrite Em, app_nil_r; reflexivity|split; [auto|discriminate]]].
      eapply step_trans; [exact S12|]. unfold step. rewrite firstn_one, F2. unfold on_until.
      destruct (dm_looks d2 <? a); cbn; rewrite ?app_nil_r; (split; [congruence|split; [lia|reflexivity]]).
    + exists d2, ([m0] ++ ms), [mkD n (path n) (DPost k)]. split; [reflexivity|]. split; [eapply step_trans; eauto|]. split; [rewrite Em; reflexivity|split; discriminate].
  - exists d2, ([m0] ++ ms), (rest ++ [mkD n (path n) (DPost k)]). split; [reflexivity|]. split; [eapply step_trans; eauto|].
    split; [rewrite Em; cbn; now rewrite app_assoc|split; discriminate].
Qed.

(** ** Switched on on the way *)

Lemma exec_from : forall a r d, dm_flag d = on_from a -> answers r = true -> 
  let b := dm_looks d in let e := b + length (messages path r) in
  (a <= b \/ e <= a -> exists d', exec true path r d = (d', true) /\ dm_flag d' = on_from a /\ dm_looks d' = e) /\
  (b < a < e -> snd (exec true path r d) = false).
Proof.
  intros a. induction r as [n k inner ends IH] using run_ind'. intros d Hd Ha b e.
  cbn [answers] in Ha. apply andb_true_iff in Ha. destruct Ha as [Ha He]. subst ends. rewrite exec_eq. unfold report, look. rewrite !andb_true_r.
  set (d1 := if dm_flag d (dm_looks d) then _ else _).
  assert (F1 : dm_flag d1 = on_from a) by (unfold d1; destruct (dm_flag d (dm_looks d)); exact Hd).
  assert (K1 : dm_looks d1 = S b) by (unfold d1; destruct (dm_flag d (dm_looks d)); reflexivity).
  clearbody d1.
  assert (Ee : e = S (S b + length (flat_map (messages path) inner))).
  { unfold e. cbn [messages]. cbn [length]. rewrite app_length. cbn [length]. lia. }
  assert (B : let e1 := dm_looks d1 + length (flat_map (messages path) inner) in
     (a <= dm_looks d1 \/ e1 <= a -> exists d', all true inner true d1 = (d', true) /\ dm_flag d' = on_from a /\ dm_looks d' = e1) /\
     (dm_looks d1 < a < e1 -> snd (all true inner true d1) = false \/ exists d', all true inner true d1 = (d', true) /\ dm_flag d' = on_from a /\ dm_looks d' = e1)).
  { clear K1 Ee e. revert d1 F1. induction IH as [|x l Hx _ IHl]; intros d1 F1; cbn [all flat_map length].
    - cbn. split; [intros _; exists d1; repeat split; auto; lia|lia].
    - cbn [forallb] in Ha. apply andb_true_iff in Ha. destruct Ha as [Ax Al]. cbn zeta. rewrite app_length.
      destruct (Hx d1 F1 Ax) as [G W]. cbn zeta in G, W.
      assert (Next : forall d2, exec true path x d1 = (d2, true) -> dm_flag d2 = on_from a -> dm_looks d2 = dm_looks d1 + length (messages path x) ->
        (a <= dm_looks d2 \/ dm_looks d2 + length (flat_map (messages path) l) <= a -> 
           exists d', (let (d0, b0) := exec true path x d1 in if b0 then all true l true d0 else (d0, false)) = (d', true) /\ dm_flag d' = on_from a /\ dm_looks d' = dm_looks d1 + (length (messages path x) + length (flat_map (messages path) l))) /\
        (dm_looks d2 < a < dm_looks d2 + length (flat_map (messages path) l) ->
           snd (let (d0, b0) := exec true path x d1 in if b0 then all true l true d0 else (d0, false)) = false \/
           exists d', (let (d0, b0) := exec true path x d1 in if b0 then all true l true d0 else (d0, false)) = (d', true) /\ dm_flag d' = on_from a /\ dm_looks d' = dm_looks d1 + (length (messages path x) + length (flat_map (messages path) l)))).
      { intros d2 E2 F2 K2. rewrite E2. destruct (IHl Al d2 F2) as [G2 W2]. split; intros R.
        - destruct (G2 R) as (d' & X & Y & Z). exists d'. split; [exact X|]. split; [exact Y|]. lia.
        - destruct (W2 R) as [X|(d' & X & Y & Z)]; [left; exact X|right]. exists d'. split; [exact X|]. split; [exact Y|]. lia. }
      split; intros R.
      + destruct G as (d2 & E2 & F2 & K2); [lia|]. destruct (Next d2 E2 F2 K2) as [N1 _]. apply N1. lia.
      + destruct (le_lt_dec a (dm_looks d1)) as [X1|X1]; [lia|].
        destruct (le_lt_dec (dm_looks d1 + length (messages path x)) a) as [X2|X2].
        * destruct G as (d2 & E2 & F2 & K2); [lia|]. destruct (Next d2 E2 F2 K2) as [N1 N2].
          destruct (le_lt_dec a (dm_looks d2)) as [X3|X3]; [right; apply N1; lia|]. apply N2. lia.
        * left. specialize (W (conj X1 X2)). destruct (exec true path x d1) as [d0 b0]. cbn in W. subst b0. reflexivity. }
  cbn zeta in B. rewrite K1 in B. destruct B as [G W].
  rewrite Hd. change (dm_looks d) with b. change (on_from a b) with (a <=? b).
  destruct (all true inner true d1) as [d0 b0]. rewrite andb_true_r.
  assert (C : (b0 = true /\ dm_flag d0 = on_from a /\ dm_looks d0 = S b + length (flat_map (messages path) inner)) \/ (b0 = false /\ b < a < e)).
  { assert (G' : a <= S b \/ S b + length (flat_map (messages path) inner) <= a -> b0 = true /\ dm_flag d0 = on_from a /\ dm_looks d0 = S b + length (flat_map (messages path) inner)).
    { intros R. destruct (G R) as (d' & X & Y & Z). injection X as -> ->. auto. }
    destruct (le_lt_dec a (S b)) as [X1|X1]; [left; apply G'; lia|].
    destruct (le_lt_dec (S b + length (flat_map (messages path) inner)) a) as [X2|X2]; [left; apply G'; lia|].
    destruct (W (conj X1 X2)) as [X|(d' & X & Y & Z)]; [right; split; [exact X|lia]|left]. injection X as -> ->. auto. }
  destruct C as [(-> & F2 & K2)|(-> & R)]; [|split; [lia|reflexivity]].
  rewrite F2. assert (Ed : on_from a (dm_looks d0) = (a <=? dm_looks d0)) by reflexivity. rewrite Ed.
  split; intros R; destruct (Nat.leb_spec a (dm_looks d0)); destruct (Nat.leb_spec a b); try lia; try reflexivity;
    (eexists; split; [reflexivity|]; cbn; split; [reflexivity|lia]).
Qed.
End WithPath.

(** ** The path of a node *)

Lemma par_reg : forall g o, HWg g -> reg (g_nodes g) (g_heap g) o -> par g (n_id (g_heap g o)) = option_map (fun p => n_id (g_heap g p)) (n_parent (g_heap g o)).
Proof. intros g o W R. unfold par, obj. unfold reg in R. rewrite R. reflexivity. Qed.

Lemma path_leads : forall g, HWg g -> forall n o acc, reg (g_nodes g) (g_heap g) o -> up g n (n_id (g_heap g o)) = None ->
  exists l, path_from n (g_heap g) (Some o) acc = Some (l ++ acc) /\ leads g l (n_id (g_heap g o)).
Proof.
  intros g W. induction n as [|n IH]; intros o acc R U; [discriminate|]. cbn [up] in U. cbn [path_from].
  pose proof (par_reg g o W R) as Ep. destruct (n_parent (g_heap g o)) as [p|] eqn:E; cbn [option_map] in Ep; rewrite Ep in U.
  - destruct (hw_par _ _ _ W o p R E) as [Rp _]. destruct (IH p (n_id (g_heap g o) :: acc) Rp U) as (l & El & Ld).
    exists (l ++ [n_id (g_heap g o)]). split; [rewrite El, <- app_assoc; reflexivity|]. eapply L_down; eauto.
  - exists [n_id (g_heap g o)]. split; [destruct n; reflexivity|]. apply L_root. exact Ep.
Qed.
Lemma path_ends : forall g, HWg g -> forall n o acc l, reg (g_nodes g) (g_heap g) o -> path_from n (g_heap g) (Some o) acc = Some l ->
  up g n (n_id (g_heap g o)) = None.
Proof.
  intros g W. induction n as [|n IH]; intros o acc l R H; [discriminate|]. cbn [up]. cbn [path_from] in H.
  pose proof (par_reg g o W R) as Ep. rewrite Ep. destruct (n_parent (g_heap g o)) as [p|] eqn:E; cbn [option_map]; [|reflexivity].
  destruct (hw_par _ _ _ W o p R E) as [Rp _]. eapply IH; eauto.
Qed.
