(** Proofs about Wait. *)
From Coq Require Import String ZArith Bool SpecFloat Arith Lia List.
From Verif Require Import Base ModelData ModelUtility ModelTree ModelLeaf SpecLeaf ProofsLeaf.
Import ListNotations.
Local Open Scope string_scope.
Local Open Scope list_scope.

Section Wait.
Variables (n : nid) (name : string).
Notation hist := (history wait_leaf (fun _ => True) wait_out n name).

Lemma setup_inputs_snoc : forall X m (l : list (item X)) it, setup_inputs m (l ++ [it]) =
  match i_op it, i_res it with OSetup, Ok _ => Some (w_ins (i_after it) m) | _, _ => setup_inputs m l end.
Proof. intros. unfold setup_inputs. rewrite fold_left_app. reflexivity. Qed.
Lemma first_tick_snoc : forall l it, first_tick (l ++ [it]) =
  match i_op it, i_res it with
  | OSetup, Ok _ | OReset, Ok _ => None
  | OTick, r => if no_err r then match first_tick l with
                                 | None => Some (wa_clock (w_ext (i_before it)))
                                 | Some t => Some t
                                 end else first_tick l
  | _, _ => first_tick l
  end.
Proof. intros. unfold first_tick. rewrite fold_left_app. reflexivity. Qed.

Definition wait_inv (l : list (item wait)) (w : world wait) : Prop :=
  w_st w n = UNINITIALIZED \/ w_st w n = SHUTDOWN \/ w_st w n = BROKEN \/
  (wa_start (w_ext w) = first_tick l /\
   exists ins, setup_inputs n l = Some ins /\ io_value_as as_float ins "seconds_to_wait" = Ok (wa_dur (w_ext w))).

Lemma wait_hist : forall l w, hist l w -> wait_inv l w.
Proof.
  induction 1 as [w S _|l w w' H IH S [O1 O2]|l w o w' r H IH C]; unfold wait_inv in *.
  - auto.
  - rewrite S, O1, O2. exact IH.
  - apply leaf_call in C. destruct C as [(RF & -> & R)|[(-> & _ & -> & R)|(NR & x' & ws & r0 & F & E & I & _ & O & _)]].
    + destruct IH as [A|[A|[A|(A & ins & B & D)]]]; auto. do 3 right.
      rewrite first_tick_snoc, setup_inputs_snoc. cbn.
      destruct R as [->|(-> & _ & ->)]; [destruct o|]; cbn; eauto.
    + cbn. rewrite upd_same. auto.
    + unfold wait_leaf in F.
      destruct o.
      * (* setup *)
        specialize (I ltac:(discriminate)).
        destruct O as [(-> & O & _)|[(O & _)|(s & Q & O & P)]].
        -- rewrite O. cbn in NR. destruct (w_st w n); auto; exfalso; apply NR; split; discriminate.
        -- auto.
        -- subst r0. unfold onok in F. destruct (io_value_as as_float _ _) as [t| |] eqn:V; try discriminate.
           injection F as <- <- <-. destruct P as [(_ & [->|[P _]])|(P & _)]; try discriminate.
           do 3 right. rewrite first_tick_snoc, setup_inputs_snoc. cbn. rewrite E, I. cbn. eauto.
      * injection F as <- <- <-.
        assert (KEEP : forall r', no_err r' = true ->
          wa_start (w_ext w') = first_tick (l ++ [mkItem w OTick w' r']) /\
          exists ins, setup_inputs n (l ++ [mkItem w OTick w' r']) = Some ins /\
            io_value_as as_float ins "seconds_to_wait" = Ok (wa_dur (w_ext w'))).
        { intros r' NE. rewrite first_tick_snoc, setup_inputs_snoc, E. cbn. rewrite NE.
          destruct IH as [A|[A|[A|(A & ins & B & D)]]]; try (exfalso; apply NR; cbn; auto; fail).
          rewrite A. split; [destruct (first_tick l); reflexivity|]. eauto. }
        destruct O as [(-> & O & _)|[(O & _)|(s & Q & O & [(_ & [->|(_ & ->)])|(P & _)])]]; auto.
        injection Q as <-. destruct (SFleb _ _); discriminate P.
      * injection F as <- <- <-.
        destruct O as [(-> & O & [O'|O'])|[(O & _)|(s & Q & O & [(_ & [->|(Q' & _)])|(P & _)])]]; try congruence; auto;
          try (injection Q as <-; discriminate).
        rewrite first_tick_snoc, setup_inputs_snoc, E. cbn.
        destruct IH as [A|[A|[A|A]]]; try (exfalso; apply NR; cbn; auto; fail). auto.
      * injection F as <- <- <-.
        destruct O as [(-> & O & [O'|O'])|[(O & _)|(s & Q & O & [(_ & [->|(Q' & _)])|(P & _)])]]; try congruence; auto;
          try (injection Q as <-; discriminate).
        rewrite first_tick_snoc, setup_inputs_snoc, E. cbn.
        destruct IH as [A|[A|[A|(A & A')]]]; try (exfalso; apply NR; cbn; auto; fail). auto.
      * injection F as <- <- <-.
        destruct O as [(-> & O & [O'|O'])|[(O & _)|(s & Q & O & _)]]; try congruence; auto.
        injection Q as <-. auto.
Qed.

Lemma wait_tick : forall l w w' s, hist l w -> call OTick (the_leaf wait_leaf n name) w = (w', Ok s) ->
  exists ins d,
    setup_inputs n l = Some ins /\ io_value_as as_float ins "seconds_to_wait" = Ok d /\
    let x := w_ext w in
    let t0 := match first_tick l with Some t => t | None => wa_clock x end in
    s = if SFleb d (seconds (wa_clock x + wa_lag x) t0) then SUCCEEDED else RUNNING.
Proof.
  intros l w w' s H C. apply wait_hist in H. apply leaf_call in C.
  destruct C as [(RF & _ & [R|(R & _)])|[(_ & _ & _ & R)|(NR & x' & ws & r0 & F & E & I & _ & O & _)]]; try discriminate.
  destruct H as [A|[A|[A|(A & ins & B & D)]]]; try (exfalso; apply NR; cbn; auto; fail).
  exists ins, (wa_dur (w_ext w)). split; [exact B|]. split; [exact D|].
  unfold wait_leaf in F. rewrite A in F. injection F as _ _ F. cbn zeta.
  destruct O as [(R & _)|[(_ & e & R)|(s' & Q & O & [(_ & [R|(_ & R)])|(P & e & R)])]]; try discriminate.
  rewrite Q in F. injection R as ->. injection F as F. symmetry. exact F.
Qed.
End Wait.
