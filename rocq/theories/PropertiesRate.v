(** C96: the tree is ticked with the frequency asked for; warnings and published frequencies
    tell the truth.  C97: diagnostics say what the state of the tree is, and its name. *)
From Coq Require Import String List Bool QArith ZArith Lia.
From Verif Require Import Base ModelRate SpecRate ProofsRate.
From Verif Require ModelEdit.
Import ListNotations.
Local Open Scope Q_scope.
Local Open Scope list_scope.

(** ** C96 *)

(** As long as no request has a negative frequency, no request raises an exception, and the
    tree is ticked with the frequency its published structure shows. *)
Theorem C96_agrees_partial : forall m, sensible m -> ticks_with m (r_freq m) /\ 0 < r_freq m /\
  forall o, 0 <= request o -> snd (rstep m o) = true.
Proof.
  intros m S. destruct (sensible_sound m S) as [A B]. split; [split; [rewrite A |]; reflexivity |]. split; [exact B |].
  intros o R. apply step_sound; [split; assumption | exact R].
Qed.
Print Assumptions C96_agrees_partial.

(** That frequency is the one of the last request that had one: a loaded tree is ticked with
    its own frequency, or with 10 Hz if it has none ... *)
Theorem C96_load_partial : forall m name f has_root, r_state m = ModelEdit.EDITABLE -> 0 <= f ->
  let m' := fst (rstep m (RLoad name f has_root)) in
  (0 < f -> ticks_with m' f) /\ (f == 0 -> ticks_with m' 10).
Proof.
  intros m name f hr E R m'. unfold m'. cbn [rstep]. rewrite E. cbn [ModelEdit.tstate_eqb]. unfold load.
  pose proof (make_rate_sound (set_freq f (with_name name (clear m))) (set_freq_pos _ _ R)) as [A [B _]].
  assert (Q : r_freq (fst (make_rate (set_freq f (with_name name (clear m))))) = r_freq (set_freq f (with_name name (clear m)))).
  { unfold make_rate. destruct (Qle_bool _ _); reflexivity. }
  destruct (make_rate _) as [m1 ok]. cbn [fst snd] in A, B, Q. subst ok.
  assert (G : forall x, r_freq m1 == x -> ticks_with (fst (if r_has_diag m1 then m1 else set_diagnostics_name hr m1, true)) x).
  { intros x H. cbn [fst]. unfold ticks_with. destruct (r_has_diag m1); [| destruct (set_diag_rate hr m1) as [-> ->]]; rewrite B; auto. }
  split; intros H; apply G; rewrite Q; cbn [set_freq r_freq].
  - rewrite (Qeq_bool_neq' f); [reflexivity |]. intros Z. rewrite Z in H. discriminate H.
  - destruct (Qeq_bool f 0) eqn:Z; [reflexivity |]. now apply Qeq_bool_neq in Z.
Qed.
Print Assumptions C96_load_partial.

(** ... and a request to tick changes it if it has a frequency. *)
Theorem C96_tick_partial : forall m f, r_thread m = false -> 0 <= f ->
  let m' := fst (rstep m (RTickMany f true)) in
  r_state m' = ModelEdit.TICKING /\ r_thread m' = true /\
  (0 < f -> ticks_with m' f) /\ (f == 0 -> r_rate m' = r_rate m /\ r_freq m' = r_freq m).
Proof.
  intros m f T R m'. unfold m'. cbn [rstep]. unfold tick_multiple. rewrite T. cbn [negb].
  destruct (Qeq_bool f 0) eqn:Z.
  - apply Qeq_bool_iff in Z. cbn. split; [reflexivity | split; [reflexivity |]]. split; [| auto]. intros H. rewrite Z in H. discriminate H.
  - pose proof (make_rate_sound (set_freq f (with_state ModelEdit.TICKING m)) (set_freq_pos _ _ R)) as [A [B _]].
    unfold make_rate in *. destruct (Qle_bool _ _); [discriminate A |]. cbn. rewrite Z.
    split; [reflexivity | split; [reflexivity |]]. split; [intros _; split; reflexivity |]. intros H. now apply Qeq_bool_neq in Z.
Qed.
Print Assumptions C96_tick_partial.

(** Nothing else changes it. *)
Theorem C96_kept : forall m o, match o with RLoad _ _ _ | RTickMany _ _ => False | _ => True end ->
  r_rate (fst (rstep m o)) = r_rate m /\ r_freq (fst (rstep m o)) = r_freq m.
Proof.
  intros m [name f hr | | s | f hr | d | s t |] H; try contradiction H; cbn [rstep].
  - destruct (tstate_eqb _ _); auto.
  - destruct (tstate_eqb _ _); auto.
  - destruct (r_thread m); auto.
  - auto.
  - unfold diagnostic_callback. destruct (r_has_diag m); auto.
Qed.
Print Assumptions C96_kept.

(** A negative frequency is accepted, published and never used: the request to tick raises an
    exception when the tree is already marked as ticking, but nothing ticks it. *)
Theorem C96_negative_refuted : forall m f, f < 0 -> r_thread m = false ->
  exists m', rstep m (RTickMany f true) = (m', false) /\ r_state m' = ModelEdit.TICKING /\ r_thread m' = false /\
    r_freq m' = f /\ r_rate m' = r_rate m.
Proof. intros m f L T. exact (negative_tick m f true L T eq_refl). Qed.
Print Assumptions C96_negative_refuted.
(** Loading a tree with a negative frequency raises when it is already loaded. *)
Theorem C96_negative_load_refuted : forall m name f has_root, f < 0 -> r_state m = ModelEdit.EDITABLE ->
  exists m', rstep m (RLoad name f has_root) = (m', false) /\ r_name m' = name /\ r_freq m' = f /\ r_rate m' = r_rate m.
Proof. exact negative_load. Qed.
Print Assumptions C96_negative_load_refuted.

(** The warning that a tick took too long appears for ticks that took no time at all, and for
    no others, as soon as the tree is to be ticked more often than once in 30 years. *)
Theorem C96_warning_refuted : forall m d, r_thread m = true -> 1 # 1000000000 < r_freq m -> (0 <= d)%Z ->
  (warned m d <-> d = 0%Z) /\ (not_warned m d <-> (0 < d)%Z).
Proof. exact warns. Qed.
Print Assumptions C96_warning_refuted.

(** What is published as tick frequency after ten ticks is the average of their durations in
    nanoseconds times 10^9. *)
Theorem C96_told_refuted : forall m ds, reached m -> r_thread m = true -> length ds = 10%nat ->
  exists l x, r_told (rrun (map RTicked ds) m) = l ++ [x] /\ x == inject_Z 1000000000 * average ds.
Proof. intros m ds R T D. exact (told_ten m ds (reached_window m R) T D). Qed.
Print Assumptions C96_told_refuted.

(** ** C97 *)

(** What is published says which state the tree is in. *)
Theorem C97_level_partial : forall m, r_has_diag m = true ->
  exists d, r_shown (fst (rstep m RDiag)) = r_shown m ++ [d] /\ level_of (r_state m) (ds_level d) /\
    r_state (fst (rstep m RDiag)) = r_state m.
Proof.
  intros m H. cbn [rstep fst]. unfold diagnostic_callback. rewrite H. eexists. split; [reflexivity |].
  split; [| reflexivity]. unfold level_of. destruct (r_state m); cbn [ds_level]; repeat split; intros; congruence.
Qed.
Print Assumptions C97_level_partial.

(** It never says which tree it is: the name is set only if nothing is published. *)
Theorem C97_name_refuted : forall has_diag name h d,
  In d (r_shown (rrun h (new_manager has_diag name))) -> ds_name d = ""%string.
Proof. exact diag_names. Qed.
Print Assumptions C97_name_refuted.

(** Clearing takes the name off the tree and off what is published, and keeps the frequency. *)
Theorem C97_cleared : forall m, r_state m = ModelEdit.EDITABLE ->
  exists m', rstep m RClear = (m', true) /\ r_name m' = "UNKNOWN TREE"%string /\ r_state m' = ModelEdit.EDITABLE /\
    r_freq m' = r_freq m /\ r_rate m' = r_rate m /\
    forall m'' d, fst (rstep m' RDiag) = m'' -> r_shown m'' = r_shown m ++ [d] -> ds_name d = ""%string /\ ds_level d = DWarn.
Proof.
  intros m E. cbn [rstep]. rewrite E. eexists. split; [reflexivity|]. do 4 (split; [reflexivity|]). intros m'' d <-. cbn.
  unfold diagnostic_callback. cbn. destruct (r_has_diag m); cbn; intros H.
  - apply app_inv_head in H. injection H as <-. split; reflexivity.
  - rewrite <- (app_nil_r (r_shown m)) in H at 1. apply app_inv_head in H. discriminate.
Qed.
Print Assumptions C97_cleared.

(** ** The hypotheses are met *)
Example rate_demo :
  let m := rrun [RLoad "patrol.yaml" 20 true; RTickMany 0 true; RTicked 5; RDiag] (new_manager true "x") in
  sensible m /\ ticks_with m 20 /\ r_thread m = true /\ 1 # 1000000000 < r_freq m /\ r_warned m = [] /\
  r_shown m = [mkDS DOk "Ticking" ""] /\
  too_long m 60000000 /\ not_warned m 60000000 /\ warned m 0 /\ ~ too_long m 0.
Proof.
  cbv zeta. split; [| split; [| split; [| split; [| split; [| split; [| split; [| split; [| split]]]]]]]].
  - exists true, "x"%string, [RLoad "patrol.yaml" 20 true; RTickMany 0 true; RTicked 5; RDiag].
    split; [reflexivity |]. repeat (apply Forall_cons; [discriminate |]). apply Forall_nil.
  - split; vm_compute; reflexivity.
  - vm_compute; reflexivity.
  - vm_compute; reflexivity.
  - vm_compute; reflexivity.
  - vm_compute; reflexivity.
  - vm_compute; reflexivity.
  - vm_compute; reflexivity.
  - vm_compute; reflexivity.
  - vm_compute; discriminate.
Qed.
Example negative_demo : snd (rstep (rrun [RLoad "p" 20 true] (new_manager true "x")) (RTickMany (-1 # 1) true)) = false /\
  r_thread (rrun [RLoad "p" 20 true] (new_manager true "x")) = false.
Proof. split; reflexivity. Qed.
