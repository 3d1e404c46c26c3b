(** C102: values handed over through data containers are not shared. *)
From Coq Require Import String ZArith Bool Arith List Lia.
From Verif Require Import Base ModelData ModelAlias SpecAlias ProofsAlias.
Import ListNotations.

Section C102.
Variable differs : heap -> option pv -> pv -> bool.
Variables w w1 w2 : world.
Variable before : list event.
Hypothesis ready : start w.
Hypothesis ran : run differs w before w1.

(** No event that is not an assignment to container [c] changes the content of [c]: in
    particular not a change, in place, of something that was got from it or put into it. *)
Theorem C102_private : forall e c, step differs w1 e w2 -> ~ assigns c e -> keeps c w1 w2.
Proof. intros e c. exact (private differs w before w1 e w2 c ready ran). Qed.

(** What was put into a container that held something else stays there as it was at that
    moment, until the next assignment, whatever happens to the object that was handed in. *)
Theorem C102_stored : forall c v after w3, step differs w1 (ESet c v (Ok tt)) w2 ->
  differs (w_heap w1) (k_value (w_cont w1 c)) v = true ->
  run differs w2 after w3 -> (forall e, In e after -> ~ assigns c e) ->
  exists v', k_value (w_cont w3 c) = Some v' /\ same (w_heap w1) v (w_heap w3) v'.
Proof. intros c v after w3 St Df R. exact (stored differs w before w1 w2 after w3 c v ready ran St Df R). Qed.

(** What one gets from a container has the content of the container, and one may change it. *)
Theorem C102_given : forall c v, step differs w1 (EGet c v) w2 ->
  same_opt (w_heap w1) (k_value (w_cont w1 c)) (w_heap w2) v /\ (forall u, v = Some u -> held w2 u).
Proof. intros c v. exact (given differs w before w1 c v w2 ready ran). Qed.

(** The other way round: what a program holds changes only when a program changes an object
    in it, never by what happens to a container. *)
Theorem C102_held : forall e v, step differs w1 e w2 -> held w1 v ->
  (forall l o, e = EWrite l o -> ~ reach (w_heap w1) v l) -> same (w_heap w1) v (w_heap w2) v.
Proof. intros e v St. exact (untouched differs w before w1 e w2 v ready ran St). Qed.

(** Getting and putting is always possible: the copies exist. *)
Theorem C102_possible : forall c, (exists v w', step differs w1 (EGet c v) w') /\
  forall v, held w1 v -> exists r w', step differs w1 (ESet c v r) w'.
Proof.
  intros c. split; [exact (possible differs w before w1 c ready ran) |].
  intros v. exact (possible_set differs w before w1 c v ready ran).
Qed.
End C102.

(** The list [7] in container 0 is got, 5 is inserted into it in place (InsertInList,
    nodes/list.py:96-98), the result is put into container 1 and then emptied: the containers
    hold [7] and [5; 7]. *)
Definition one (z : Z) : pv := Imm (VInt z).
Definition li (l : list pv) : object := mkO KList (map (fun v => (EmptyString, v)) l).
Definition empty_obj : object := mkO KList [].
Definition w0 : world := mkW (mkH (fun l => if Nat.eqb l 0 then li [one 7] else empty_obj) 1)
  (fun c => if Nat.eqb c 0 then mkK (Some (Ref 0)) false false else mkK None false false) [].
Definition always (h : heap) (o : option pv) (v : pv) : bool := true.
Definition at_1 (c : nat -> cont) : nat -> cont := upd c 1 (mkK (Some (Ref 2)) false true).
Definition wa := mkW (mkH (upd (h_at (w_heap w0)) 1 (li [one 7])) 2) (w_cont w0) [Ref 1].
Definition wb := mkW (write (w_heap wa) 1 (li [one 5; one 7])) (w_cont wa) (w_vars wa).
Definition wc := mkW (mkH (upd (h_at (w_heap wb)) 2 (li [one 5; one 7])) 3) (at_1 (w_cont wb)) (w_vars wb).
Definition wd := mkW (write (w_heap wc) 1 (li [])) (w_cont wc) (w_vars wc).

Lemma reach_flat h l m : (forall k x, In (k, x) (o_items (h_at h l)) -> exists v, x = Imm v) -> reach h (Ref l) m -> m = l.
Proof. intros F R. inversion R as [ | j k x i I R']; subst; [reflexivity |]. destruct (F k x I) as [v ->]. inversion R'. Qed.
Lemma flat_li l : Forall (fun x => exists v, x = Imm v) l -> forall k x, In (k, x) (o_items (li l)) -> exists v, x = Imm v.
Proof.
  intros F k x I. unfold li in I. cbn in I. apply in_map_iff in I. destruct I as (y & E & Iy). injection E as _ ->.
  rewrite Forall_forall in F. exact (F x Iy).
Qed.
Example C102_example : start w0 /\ run always w0 [EGet 0 (Some (Ref 1)); EWrite 1 (li [one 5; one 7]); ESet 1 (Ref 1) (Ok tt); EWrite 1 (li [])] wd /\
  show 2 (w_heap wd) (Ref 0) = TObj KList [(EmptyString, TImm (VInt 7))] /\
  show 2 (w_heap wd) (Ref 2) = TObj KList [(EmptyString, TImm (VInt 5)); (EmptyString, TImm (VInt 7))] /\
  k_value (w_cont wd 0) = Some (Ref 0) /\ k_value (w_cont wd 1) = Some (Ref 2).
Proof.
  assert (F1 : forall k x, In (k, x) (o_items (li [one 7])) -> exists v, x = Imm v)
    by (apply flat_li; repeat constructor; eexists; reflexivity).
  assert (F2 : forall k x, In (k, x) (o_items (li [one 5; one 7])) -> exists v, x = Imm v)
    by (apply flat_li; repeat constructor; eexists; reflexivity).
  split; [| split; [| repeat split; reflexivity]].
  - split; [reflexivity |]. intros [|c] v E; cbn in E; [| discriminate]. injection E as <-. intros l R.
    apply reach_flat in R; [subst; cbn; lia | exact F1].
  - apply (ru_step always w0 [EGet 0 (Some (Ref 1)); EWrite 1 (li [one 5; one 7]); ESet 1 (Ref 1) (Ok tt)] wc).
    + apply (ru_step always w0 [EGet 0 (Some (Ref 1)); EWrite 1 (li [one 5; one 7])] wb).
      * apply (ru_step always w0 [EGet 0 (Some (Ref 1))] wa).
        -- apply (ru_step always w0 [] w0); [constructor |]. apply (st_get always w0 0 (w_heap wa) (Some (Ref 1))).
           apply (gv_copy (w_heap w0) (w_cont w0 0) (Ref 0)); [reflexivity |]. exists (fun _ => 1).
           split; [reflexivity |]. split; [cbn; lia |]. split; [| split].
           ++ intros l L. cbn in L. destruct l; [reflexivity | lia].
           ++ intros l R. apply reach_flat in R; [| exact F1]. subst. split; [cbn; lia | reflexivity].
           ++ intros l m R R' _. apply reach_flat in R; [| exact F1]. apply reach_flat in R'; [| exact F1]. congruence.
        -- apply (st_write always wa 1).
           ++ exists (Ref 1). split; [now left | constructor].
           ++ intros k x I. destruct (F2 k x I) as [v ->]. exact Logic.I.
      * apply (st_set always wb 1 (Ref 1) (w_heap wc) (mkK (Some (Ref 2)) false true)).
        -- exists (Ref 1). split; [now left | constructor].
        -- apply (sv_new always (w_heap wb) (w_cont wb 1) (Ref 1) (w_heap wc) (Ref 2)); [reflexivity | reflexivity |].
           exists (fun _ => 2). split; [reflexivity |]. split; [cbn; lia |]. split; [| split].
           ++ intros l L. cbn in L. destruct l as [|[|l]]; [reflexivity | reflexivity | lia].
           ++ intros l R. apply reach_flat in R; [| exact F2]. subst. split; [cbn; lia | reflexivity].
           ++ intros l m R R' _. apply reach_flat in R; [| exact F2]. apply reach_flat in R'; [| exact F2]. congruence.
    + apply (st_write always wc 1).
      * exists (Ref 1). split; [now left | constructor].
      * intros k x [].
Qed.

Print Assumptions C102_private.
Print Assumptions C102_stored.
Print Assumptions C102_given.
Print Assumptions C102_held.
Print Assumptions C102_possible.
