From Coq Require Import Bool List.
From Verif Require Import ModelResult SpecResult.
Set Implicit Arguments.

Section P.
Variables V X S : Type.
Notation result := (result V).
Notation call := (call V X S).
Notation gen := (gen V X S).

Lemma and_then_chain : forall (g : gen) s s' o, with_and_then g s = (s', o) <-> chain g s s' o.
Proof.
  induction g as [c | c k IH]; intros s s' o; cbn [with_and_then].
  - split; [apply chain_last|]. intros H. inversion H; subst. assumption.
  - unfold seq. split.
    + destruct (c s) as [t [[v|v]|e]] eqn:C; cbn [and_then ret].
      * intros H. apply IH in H. exact (chain_ok _ _ _ C H).
      * intros H. injection H as <- <-. exact (chain_err _ _ _ C).
      * intros H. injection H as <- <-. exact (chain_raise _ _ _ C).
    + intros H. remember (For c k) as g eqn:G. destruct H as [c' t t' p C | c' k' t t' e C | c' k' t t' v C | c' k' t t' t'' v p C D];
        try discriminate G; injection G as -> ->; rewrite C; cbn [and_then ret]; [reflexivity|reflexivity|].
      apply IH. exact D.
Qed.

(** What leaves the generator: the result of the chain, or its Err in the exception of do. *)
Definition carried (a b : S * outcome V X result) : Prop :=
  fst a = fst b /\ match snd a with
  | Ret r => snd b = Ret r
  | Exc (DoExc r) => snd b = Ret r
  | Exc e => snd b = Exc e /\ e <> Stop
  end.
Lemma run_carried : forall (g : gen) s, plain_steps g -> carried (run_gen g s) (with_and_then g s).
Proof.
  induction g as [c | c k IH]; intros s P; cbn [run_gen with_and_then plain_steps] in *.
  - split; [reflexivity|]. destruct (c s) as [t [r|e]] eqn:C; cbn; [reflexivity|]. destruct (P _ _ _ C) as [A B].
    destruct e; auto. destruct (B r eq_refl).
  - destruct P as [Pc Pk]. unfold seq. destruct (c s) as [t [[v|v]|e]] eqn:C; cbn [advance and_then ret raise].
    + apply IH, Pk.
    + split; reflexivity.
    + split; [reflexivity|]. destruct (Pc _ _ _ C) as [A B]. cbn. destruct e; auto. destruct (B r eq_refl).
Qed.
Lemma do_and_then : forall (c : call result) (k : V -> gen), (forall v, plain_steps (k v)) ->
  same (do_ c k) (with_and_then (For c k)).
Proof.
  intros c k P s. unfold do_. cbn [with_and_then]. unfold seq. destruct (c s) as [t [[v|v]|e]]; [| |reflexivity].
  - unfold except_do, next. cbn [advance ret and_then]. pose proof (run_carried (k v) t (P v)) as [A B].
    destruct (run_gen (k v) t) as [t1 o1], (with_and_then (k v) t) as [t2 o2]. cbn in A, B. subst t2.
    destruct o1 as [r|[r|r| | |x]]; try (subst o2; reflexivity); destruct B as [-> N]; try reflexivity. contradiction.
  - reflexivity.
Qed.
End P.
