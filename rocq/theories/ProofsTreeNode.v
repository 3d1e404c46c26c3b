(** Proofs for C112. *)
From Coq Require Import List Bool Arith Lia.
From Verif Require Import Base ModelTree ModelExec SpecExec ModelTreeNode ProofsExec ProofsExecRun ProofsExecProps ProofsExecSeen DemoExec.
Import ListNotations.

Section Proofs.
Context {W : Type} (P : plant W).

Lemma handling_reachable : forall y0 k p es y, reachable P y0 -> handling P y0 k p es y -> reachable P y.
Proof.
  intros y0 k p es y (w & es0 & R) (C & _ & _ & y1 & S & R1). exists w, ((es0 ++ [EArrive k]) ++ es).
  eapply runs_trans; [|exact R1]. eapply runs_snoc; [exact R|exact C|exact S].
Qed.
Lemma fresh_reachable : forall w, reachable P (fresh w).
Proof. intros w. exists w, []. constructor. Qed.
Lemma fresh_calm : forall w : W, calm (fresh w).
Proof. intros w p k c X. unfold at_code in X. cbn in X. destruct p; discriminate. Qed.

Lemma handled_calm : forall y0 k p es y ok ts, reachable P y0 -> handled P y0 k p es y ok ts -> calm y.
Proof.
  intros y0 k p es y ok ts R [H A]. pose proof H as (C & -> & NA & y1 & S & RU).
  assert (NK : k <> KTick) by (inversion S; assumption).
  eapply seg_alone_calm; [|exact A].
  eapply handling_seg with (Q := anyQ) (pre := pre0) (good := anyK) (K := KFresh); [exact R|exact H| | |].
  - intros l rq K X. apply any_body. exact X.
  - apply (fresh_holds P); assumption.
  - apply any_first. exact NK.
Qed.

(** The first request, when it edits. *)
Definition edit_codes (c : code) : Prop :=
  c = edit true \/
  (exists f, (c = Lock (Edit f) \/ c = Edit f \/ c = InEdit f) /\
     ((forall r, f r = WriteState EDITABLE (Edit (fun r2 => Unlock (Done r2 None)))) \/ (forall r, f r = Unlock (Done r None)))) \/
  (c = WriteState EDITABLE (Edit (fun r2 => Unlock (Done r2 None)))) \/
  (exists r, c = Unlock (Done r None) \/ c = Done r None).
Lemma edit_alone : forall y1 es y, runs one_at_a_time P y1 es y -> no_arrivals es ->
  y_state y1 = EDITABLE -> (exists c, y_procs y1 = [(KEdit true, Some c)] /\ edit_codes c) ->
  y_state y = EDITABLE /\ exists c, y_procs y = [(KEdit true, Some c)] /\ edit_codes c.
Proof.
  intros y1 es y R. induction R as [y1|y1 es y e y2 R IH G S]; intros NA H1 H2; [auto|].
  destruct IH as (ST & c & PR & EC); [intros k X; apply (NA k), in_or_app; auto|exact H1|exact H2|].
  inversion S as [|y0 q kq cq a cq' y' Aq LS E]; subst; [exfalso; apply (NA k), in_or_app; right; left; reflexivity|].
  rewrite PR in Aq. destruct q as [|q]; [|destruct q; discriminate]. cbn in Aq. injection Aq as <- <-.
  destruct EC as [->|[(f & C & F)|[->|(r & C)]]].
  - unfold edit in LS. inversion LS; subst. inversion E; subst. rewrite ST. cbn [tstate_eqb ModelEdit.tstate_eqb].
    unfold with_proc. rewrite PR. split; [exact ST|]. eexists. split; [reflexivity|]. right. left.
    eexists. split; [left; reflexivity|]. left. reflexivity.
  - destruct C as [->|[->| ->]]; inversion LS; subst; inversion E; subst; unfold with_proc; cbn; rewrite PR; (split; [exact ST|]);
      eexists; (split; [reflexivity|]).
    + right. left. exists f. auto.
    + right. left. exists f. auto.
    + destruct F as [F|F]; rewrite F; [right; right; left; reflexivity|]. right. right. right. eexists. left. reflexivity.
  - inversion LS; subst; inversion E; subst; unfold with_proc; cbn; rewrite PR. split; [reflexivity|].
    eexists. split; [reflexivity|]. right. left. eexists. split; [right; left; reflexivity|]. right. reflexivity.
  - destruct C as [-> | ->]; inversion LS; subst; inversion E; subst; unfold with_proc; cbn; rewrite PR.
    split; [exact ST|]. eexists. split; [reflexivity|]. right. right. right. eexists. right. reflexivity.
Qed.
Lemma load_alone : forall w es y, handling P (fresh w) (KEdit true) 0 es y ->
  y_state y = EDITABLE /\ no_tick_thread y /\ length (y_procs y) = 1.
Proof.
  intros w es y (_ & _ & NA & y1 & S & R). inversion S; subst.
  destruct (edit_alone _ _ _ R NA) as (A & c & B & _).
  - reflexivity.
  - eexists. split; [reflexivity|]. left. reflexivity.
  - split; [exact A|]. split; [|rewrite B; reflexivity].
    intros t (c' & X & _). unfold at_code in X. rewrite B in X. destruct t as [|[|t]]; discriminate.
Qed.

(** A thread that was started is there afterwards. *)
Lemma started_stays : forall G y es y', runs G P y es y' -> forall p t, In (EAct p (AStart t true)) es ->
  exists c, at_code y' t KTick c.
Proof.
  intros G y es y' R. induction R as [y|y es y1 e y2 R IH _ S]; intros p t H; [destruct H|].
  apply in_app_or in H. destruct H as [H|[->|[]]].
  - destruct (IH _ _ H) as (c & C).
    destruct (runs_path P (fun _ _ => True) y1 [e] y2 (runs_snoc _ _ y1 [] y1 e y2 (runs_nil _ _ y1) I S) _ _ _ C) as (c' & C' & _).
    exists c'. exact C'.
  - inversion S as [|y0 q kq cq a cq' y'' Aq LS E]; subst. inversion E; subst.
    exists (body LMain). unfold at_code, with_proc. cbn. rewrite nth_set_other by (intros ->; congruence).
    eapply nth_set_same. eassumption.
Qed.
End Proofs.
