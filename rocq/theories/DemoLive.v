(** Histories for the examples of C104: a schedule is played, and then nothing happens. *)
From Coq Require Import List Bool Arith Lia.
From Verif Require Import Base ModelExec SpecExec SpecLive DemoExec.
Import ListNotations.

Definition after (w : dw) (l : list (kind + nat)) : sys dw :=
  match play demo demo_op true (fresh w) l with Some (_, y) => y | None => fresh w end.
Definition played (w : dw) (l : list (kind + nat)) : history dw := mkH
  (fun n => after w (firstn n l))
  (fun n => match nth_error l n with
            | Some x => match turn demo demo_op true (after w (firstn n l)) x with Some (e, _) => Some e | None => None end
            | None => None
            end).
Definition all_ended (y : sys dw) : bool :=
  forallb (fun x => match x with (_, Some c) => ended c | _ => true end) (y_procs y).

Lemma play_app : forall l1 l2 y,
  play demo demo_op true y (l1 ++ l2) =
  match play demo demo_op true y l1 with
  | Some (es, y1) => match play demo demo_op true y1 l2 with Some (es2, y2) => Some (es ++ es2, y2) | None => None end
  | None => None
  end.
Proof.
  induction l1 as [|x l1 IH]; intros l2 y; cbn [app play].
  - destruct (play demo demo_op true y l2) as [[? ?]|]; reflexivity.
  - destruct (turn demo demo_op true y x) as [[e y1]|]; [|reflexivity]. rewrite IH.
    destruct (play demo demo_op true y1 l1) as [[es y2]|]; [|reflexivity].
    destruct (play demo demo_op true y2 l2) as [[? ?]|]; reflexivity.
Qed.
Lemma firstn_next : forall {A} (l : list A) n x, nth_error l n = Some x -> firstn (S n) l = firstn n l ++ [x].
Proof. induction l as [|a l IH]; intros [|n] x H; cbn in *; try discriminate; [congruence|]. f_equal. apply IH, H. Qed.

Lemma played_history : forall w l es y, play demo demo_op true (fresh w) l = Some (es, y) -> all_ended y = true ->
  history_of demo (played w l) /\ fair demo (played w l).
Proof.
  intros w l es y PL ED.
  assert (PR : forall n, exists es1 y1, play demo demo_op true (fresh w) (firstn n l) = Some (es1, y1)).
  { intros n. rewrite <- (firstn_skipn n l) in PL. rewrite play_app in PL.
    destruct (play demo demo_op true (fresh w) (firstn n l)) as [[es1 y1]|]; [eauto|discriminate]. }
  assert (EL : forall n, length l <= n -> after w (firstn n l) = y).
  { intros n L. rewrite firstn_all2 by exact L. unfold after. rewrite PL. reflexivity. }
  split; [split|].
  - exists w, []. cbn. constructor.
  - intros n. cbn [played h_sys h_event]. destruct (nth_error l n) as [x|] eqn:E.
    + destruct (PR n) as (es1 & y1 & P1). destruct (PR (S n)) as (es2 & y2 & P2).
      pose proof P2 as P3. rewrite (firstn_next _ _ _ E), play_app, P1 in P3. cbn [play] in P3.
      unfold after. rewrite P1, P2. destruct (turn demo demo_op true y1 x) as [[e y']|] eqn:T; [|discriminate].
      injection P3 as _ <-. destruct (turn_step demo demo_op demo_op_ok (fun w => conj eq_refl eq_refl) (fun w => conj eq_refl eq_refl)
        (fun w => eq_refl) (fun w => conj eq_refl eq_refl) _ _ _ _ _ T) as [S G]. split; [apply G; reflexivity|exact S].
    + apply nth_error_None in E. rewrite !EL by lia. reflexivity.
  - intros p n. exists (max n (length l)). split; [lia|]. left. cbn [played h_sys]. rewrite EL by lia.
    intros (a & y' & S). inversion S as [|y0 q k c a0 c' y1 A LS EF]; subst.
    unfold all_ended in ED. rewrite forallb_forall in ED. specialize (ED _ (nth_error_In _ _ A)). cbn in ED.
    destruct LS; discriminate.
Qed.
Lemma demo_responsive : responsive demo.
Proof.
  repeat split; intros; cbn; eauto.
  destruct (dop o w) as [w' r]. exists w', r. reflexivity.
Qed.
