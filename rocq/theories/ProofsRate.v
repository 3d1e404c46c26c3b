(** Proofs about the tick frequency and the diagnostics of a tree. *)
From Coq Require Import String List Bool QArith ZArith Lia Lqa.
From Verif Require Import Base ModelRate SpecRate.
From Verif Require ModelEdit.
Import ListNotations.
Local Open Scope Q_scope.
Local Open Scope list_scope.

Lemma rrun_snoc h o m : rrun (h ++ [o]) m = fst (rstep (rrun h m) o).
Proof. revert m. induction h as [| x h IH]; intros m; [reflexivity |]. cbn [rrun app]. apply IH. Qed.
Lemma rrun_app h h' m : rrun (h ++ h') m = rrun h' (rrun h m).
Proof. revert m. induction h as [| x h IH]; intros m; [reflexivity |]. cbn [rrun app]. apply IH. Qed.

Lemma Qle_bool_neg x : 0 < x -> Qle_bool x 0 = false.
Proof.
  intros P. destruct (Qle_bool x 0) eqn:E; [| reflexivity]. apply Qle_bool_iff in E. exfalso. apply (Qlt_irrefl 0).
  now apply Qlt_le_trans with x.
Qed.
Lemma Qeq_bool_neq' x : ~ x == 0 -> Qeq_bool x 0 = false.
Proof. intros N. destruct (Qeq_bool x 0) eqn:E; [| reflexivity]. apply Qeq_bool_iff in E. now destruct N. Qed.

Definition sound (m : rman) : Prop := r_rate m = r_freq m /\ 0 < r_freq m.

Lemma set_freq_pos f m : 0 <= f -> 0 < r_freq (set_freq f m).
Proof.
  intros L. cbn [set_freq r_freq]. destruct (Qeq_bool f 0) eqn:E; [reflexivity |].
  apply Qle_lteq in L as [L | L]; [exact L |]. apply Qeq_bool_neq in E. destruct E. now symmetry.
Qed.
Lemma make_rate_sound m : 0 < r_freq m -> snd (make_rate m) = true /\ sound (fst (make_rate m)).
Proof. intros P. unfold make_rate. rewrite (Qle_bool_neg _ P). split; [reflexivity |]. split; [reflexivity | exact P]. Qed.

Lemma set_diag_rate b m : r_rate (set_diagnostics_name b m) = r_rate m /\ r_freq (set_diagnostics_name b m) = r_freq m.
Proof. unfold set_diagnostics_name. destruct (negb _), b; split; reflexivity. Qed.

Lemma step_sound m o : sound m -> 0 <= request o -> sound (fst (rstep m o)) /\ snd (rstep m o) = true.
Proof.
  intros So Rq. destruct o as [name f hr | | s | f hr | d | s t |]; cbn [rstep request] in *.
  - destruct (tstate_eqb _ _); [| auto]. unfold load.
    pose proof (make_rate_sound (set_freq f (with_name name (clear m))) (set_freq_pos _ _ Rq)) as [A B].
    destruct (make_rate _) as [m' ok]. cbn [fst snd] in A, B. subst ok.
    destruct (r_has_diag m'); cbn [fst snd]; [auto |]. split; [| reflexivity]. unfold sound.
    destruct (set_diag_rate hr m') as [-> ->]. exact B.
  - destruct (tstate_eqb _ _); auto.
  - destruct (tstate_eqb _ _); auto.
  - unfold tick_multiple. destruct (r_thread m); [auto |]. destruct hr; [| auto]. cbn [negb].
    destruct (Qeq_bool f 0); [auto |].
    pose proof (make_rate_sound (set_freq f (with_state ModelEdit.TICKING m)) (set_freq_pos _ _ Rq)) as [A B].
    destruct (make_rate _) as [m' ok]. cbn [fst snd] in A, B. subst ok. auto.
  - destruct (r_thread m); auto.
  - auto.
  - split; [| reflexivity]. unfold diagnostic_callback. destruct (r_has_diag m); exact So.
Qed.

Lemma sensible_sound m : sensible m -> sound m.
Proof.
  intros (hd & name & h & -> & F). assert (G : forall m, sound m -> sound (rrun h m)).
  { clear - F. induction F as [| o h O F IH]; intros m So; [exact So |]. cbn [rrun]. apply IH. now apply step_sound. }
  apply G. split; reflexivity.
Qed.

(** ** Negative frequencies *)
Lemma negative_tick m f hr : f < 0 -> r_thread m = false -> hr = true ->
  exists m', rstep m (RTickMany f hr) = (m', false) /\ r_state m' = ModelEdit.TICKING /\ r_thread m' = false /\
    r_freq m' = f /\ r_rate m' = r_rate m.
Proof.
  intros L T ->. cbn [rstep]. unfold tick_multiple. rewrite T. cbn [negb].
  assert (E : Qeq_bool f 0 = false) by (apply Qeq_bool_neq'; intros E; rewrite E in L; discriminate L).
  rewrite E. unfold make_rate. cbn [set_freq r_freq]. rewrite E.
  assert (B : Qle_bool f 0 = true) by (apply Qle_bool_iff; now apply Qlt_le_weak). rewrite B.
  eexists. split; [reflexivity |]. cbn [r_state r_thread r_freq r_rate set_freq with_state]. rewrite E. auto.
Qed.
Lemma negative_load m name f hr : f < 0 -> r_state m = ModelEdit.EDITABLE ->
  exists m', rstep m (RLoad name f hr) = (m', false) /\ r_name m' = name /\ r_freq m' = f /\ r_rate m' = r_rate m.
Proof.
  intros L T. cbn [rstep]. rewrite T. cbn [ModelEdit.tstate_eqb]. unfold load, make_rate. cbn [set_freq r_freq].
  assert (E : Qeq_bool f 0 = false) by (apply Qeq_bool_neq'; intros E; rewrite E in L; discriminate L).
  rewrite E. assert (B : Qle_bool f 0 = true) by (apply Qle_bool_iff; now apply Qlt_le_weak). rewrite B.
  eexists. split; [reflexivity |]. cbn [r_name r_freq r_rate set_freq with_name clear clear_diagnostics_name with_diag with_state].
  rewrite E. auto.
Qed.

(** ** Warnings *)
Lemma warns m d : r_thread m = true -> 1 # 1000000000 < r_freq m -> (0 <= d)%Z ->
  (warned m d <-> d = 0%Z) /\ (not_warned m d <-> (0 < d)%Z).
Proof.
  intros T F D. unfold warned, not_warned. cbn [rstep fst]. rewrite T. cbn [measure r_warned].
  assert (P : 0 < r_freq m) by (eapply Qlt_trans; [| exact F]; reflexivity).
  assert (N : forall l (x : Z), l ++ [x] <> l).
  { intros l x E. apply (f_equal (@length Z)) in E. rewrite app_length in E. cbn [length] in E. lia. }
  destruct (Z.eq_dec d 0) as [-> | D0].
  - assert (E : Qle_bool (1 / r_freq m) (inject_Z 0 * BILLION) = false).
    { apply Qle_bool_neg. unfold Qdiv. rewrite Qmult_1_l. now apply Qinv_lt_0_compat. }
    rewrite E. cbn [negb]. split; split; auto; [| lia]. intros E'. now apply N in E'.
  - assert (E : Qle_bool (1 / r_freq m) (inject_Z d * BILLION) = true).
    { apply Qle_bool_iff. unfold Qdiv. rewrite Qmult_1_l. apply Qle_trans with (inject_Z 1 * BILLION).
      - change (inject_Z 1 * BILLION) with (/ (1 # 1000000000)).
        apply Qlt_le_weak. apply -> Qinv_lt_contravar; [exact F | exact P | reflexivity].
      - apply Qmult_le_compat_r; [| discriminate]. rewrite <- Zle_Qle. lia. }
    rewrite E. cbn [negb]. split; split; auto; try lia. intros E'. symmetry in E'. now apply N in E'.
Qed.

(** ** The published frequency *)
Lemma window_length m o : length (r_window m) = 10%nat -> length (r_window (fst (rstep m o))) = 10%nat.
Proof.
  intros L. destruct o as [name f hr | | s | f hr | d | s t |]; cbn [rstep].
  - destruct (tstate_eqb _ _); [| exact L]. unfold load, make_rate, set_diagnostics_name.
    destruct (Qle_bool _ _); [exact L |]. cbn [r_has_diag set_freq with_name clear clear_diagnostics_name with_diag with_state].
    destruct (r_has_diag m); [exact L |]. cbn [fst]. destruct (negb _), hr; exact L.
  - destruct (tstate_eqb _ _); exact L.
  - destruct (tstate_eqb _ _); exact L.
  - unfold tick_multiple, make_rate. destruct (r_thread m), hr; cbn [negb]; try exact L.
    destruct (Qeq_bool f 0); [exact L |]. destruct (Qle_bool _ _); exact L.
  - destruct (r_thread m); [| exact L]. cbn [fst measure r_window]. destruct (r_window m); [discriminate L |].
    cbn [tl length] in *. rewrite app_length. cbn [length]. lia.
  - exact L.
  - unfold diagnostic_callback. destruct (r_has_diag m); exact L.
Qed.
Lemma reached_window m : reached m -> length (r_window m) = 10%nat.
Proof.
  intros (hd & name & h & ->). induction h as [| o h IH] using rev_ind; [reflexivity |]. rewrite rrun_snoc. now apply window_length.
Qed.

Definition scaled (d : Z) : Q := inject_Z d * BILLION.
Lemma measures_window ds : forall m, r_thread m = true ->
  r_thread (rrun (map RTicked ds) m) = true /\
  r_window (rrun (map RTicked ds) m) = skipn (length ds) (r_window m ++ map scaled ds) \/ length (r_window m) = 0%nat.
Proof.
  induction ds as [| d ds IH]; intros m T.
  - left. split; [exact T |]. cbn [map rrun length skipn]. now rewrite app_nil_r.
  - destruct (r_window m) as [| q w] eqn:W; [right; reflexivity |]. left. cbn [map rrun rstep]. rewrite T. cbn [fst].
    specialize (IH (measure d m)). destruct IH as [[A B] | B].
    + exact T.
    + split; [exact A |]. rewrite B. cbn [measure r_window]. rewrite W. cbn [tl length skipn app]. now rewrite <- app_assoc.
    + cbn [measure r_window] in B. rewrite app_length in B. cbn [length] in B. lia.
Qed.

Lemma sum_scaled ds : forall q, fold_left Qplus (map scaled ds) q == q + scaled (fold_right Z.add 0%Z ds).
Proof.
  induction ds as [| d ds IH]; intros q; cbn [map fold_left fold_right].
  - unfold scaled. cbn. ring.
  - rewrite IH. unfold scaled. rewrite inject_Z_plus. ring.
Qed.

Lemma tells m d : r_thread m = true ->
  let m' := rrun [RTicked d] m in
  exists x, r_told m' = r_told m ++ [x] /\ x == fold_left Qplus (r_window m') 0 / inject_Z (Z.of_nat (length (r_window m'))).
Proof. intros T. cbn [rrun rstep]. rewrite T. cbn [fst measure r_told r_window]. eexists. split; [reflexivity |]. reflexivity. Qed.

Lemma told_ten m ds : length (r_window m) = 10%nat -> r_thread m = true -> length ds = 10%nat ->
  exists l x, r_told (rrun (map RTicked ds) m) = l ++ [x] /\ x == BILLION * average ds.
Proof.
  intros L T D. destruct ds as [| d ds _] using rev_ind; [discriminate D |].
  rewrite map_app. cbn [map]. rewrite rrun_app.
  destruct (measures_window ds m T) as [[A B] | B]; [| rewrite L in B; discriminate B].
  destruct (tells _ d A) as (x & E & V). exists (r_told (rrun (map RTicked ds) m)), x. split; [exact E |].
  rewrite V. clear E V.
  assert (W : r_window (rrun [RTicked d] (rrun (map RTicked ds) m)) = map scaled (ds ++ [d])).
  { rewrite <- rrun_app. change [RTicked d] with (map RTicked [d]). rewrite <- map_app.
    destruct (measures_window (ds ++ [d]) m T) as [[_ C] | C]; [| rewrite L in C; discriminate C].
    rewrite C, D. rewrite skipn_app, L, <- L, skipn_all, Nat.sub_diag. reflexivity. }
  rewrite W, map_length, sum_scaled. unfold average. unfold scaled. rewrite D. field.
Qed.

(** ** Diagnostics *)
Lemma diag_step m o : r_has_diag m = true -> ds_name (r_diag m) = ""%string -> Forall (fun d => ds_name d = ""%string) (r_shown m) ->
  r_has_diag (fst (rstep m o)) = true /\ ds_name (r_diag (fst (rstep m o))) = ""%string /\
  Forall (fun d => ds_name d = ""%string) (r_shown (fst (rstep m o))).
Proof.
  intros H N F. destruct o as [name f hr | | s | f hr | d | s t |]; cbn [rstep].
  - destruct (tstate_eqb _ _); [| auto]. unfold load, make_rate. destruct (Qle_bool _ _).
    + cbn. auto.
    + cbn [r_has_diag set_freq with_name clear clear_diagnostics_name with_diag with_state]. rewrite H. cbn. auto.
  - destruct (tstate_eqb _ _); cbn; auto.
  - destruct (tstate_eqb _ _); cbn; auto.
  - unfold tick_multiple, make_rate. destruct (r_thread m), hr; cbn [negb]; auto.
    destruct (Qeq_bool f 0); [cbn; auto |]. destruct (Qle_bool _ _); cbn; auto.
  - destruct (r_thread m); cbn; auto.
  - cbn. auto.
  - unfold diagnostic_callback. rewrite H. cbn [fst r_has_diag r_diag r_shown with_diag]. rewrite N. split; [exact H |].
    split; [destruct (r_state m); reflexivity |]. apply Forall_app. split; [exact F |]. constructor; [| constructor].
    destruct (r_state m); reflexivity.
Qed.
Lemma diag_names hd name h d : In d (r_shown (rrun h (new_manager hd name))) -> ds_name d = ""%string.
Proof.
  destruct hd.
  - assert (G : r_has_diag (rrun h (new_manager true name)) = true /\ ds_name (r_diag (rrun h (new_manager true name))) = ""%string /\
      Forall (fun d => ds_name d = ""%string) (r_shown (rrun h (new_manager true name)))).
    { induction h as [| o h IH] using rev_ind; [cbn; auto |]. rewrite rrun_snoc. destruct IH as (A & B & C). now apply diag_step. }
    destruct G as (_ & _ & G). intros I. rewrite Forall_forall in G. auto.
  - assert (G : r_has_diag (rrun h (new_manager false name)) = false /\ r_shown (rrun h (new_manager false name)) = []).
    { induction h as [| o h IH] using rev_ind; [cbn; auto |]. rewrite rrun_snoc. destruct IH as (A & B).
      set (m := rrun h (new_manager false name)) in *. clearbody m.
      destruct o as [nm f hr | | s | f hr | z | s t |]; cbn [rstep].
      - destruct (tstate_eqb _ _); [| auto]. unfold load, make_rate, set_diagnostics_name. destruct (Qle_bool _ _); [cbn; auto |].
        cbn [r_has_diag set_freq with_name clear clear_diagnostics_name with_diag with_state]. rewrite A. cbn [fst].
        destruct (negb _), hr; cbn; auto.
      - destruct (tstate_eqb _ _); cbn; auto.
      - destruct (tstate_eqb _ _); cbn; auto.
      - unfold tick_multiple, make_rate. destruct (r_thread m), hr; cbn [negb]; auto.
        destruct (Qeq_bool f 0); [cbn; auto |]. destruct (Qle_bool _ _); cbn; auto.
      - destruct (r_thread m); cbn; auto.
      - cbn. auto.
      - unfold diagnostic_callback. rewrite A. auto. }
    destruct G as [_ ->]. intros [].
Qed.
