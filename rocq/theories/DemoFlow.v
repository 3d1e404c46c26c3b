(** Schedules over the plant of ModelFlowExec.v, for the example and the refutation of
    C108. *)
From Coq Require Import List String Bool Arith.
From Verif Require Import Base ModelTree SpecTree ModelSubtreeNode ModelExec ModelExecTree ModelFlowExec.
From Verif Require Import SpecExec SpecFlowExec DemoExec.
From Verif Require Demo.
Import ListNotations.
Local Open Scope string_scope.
Local Open Scope list_scope.

(** Two editing requests: the first adds the tree of Demo.v, the second wires its leaf 1
    to its leaf 3. *)
Definition wire13 : iwire := mkIW (Some 1) "out" (Some 3) "in".
Definition new_nodes : nodes Demo.dE := mkN [Demo.dtree] (Demo.dworld (Demo.all_st UNINITIALIZED) (Demo.says [])).
Definition no_nodes : wired_nodes Demo.dE := mkWN (mkN [] (Demo.dworld (Demo.all_st UNINITIALIZED) (Demo.says []))) [].
Definition grow (w : wired_nodes Demo.dE) : option (wired_nodes Demo.dE) :=
  match n_trees (wn_nodes w), wn_wires w with
  | [], [] => Some (mkWN new_nodes [])
  | [T 0 KSequence "root" [T 1 _ _ _; T 2 KFallback "fb" [T 3 _ _ _; T 4 _ _ _]; T 5 KInverter "inv" [T 6 _ _ _]]], [] =>
      Some (mkWN (wn_nodes w) [wire13])
  | _, _ => None
  end.
Definition grows (w w' : wired_nodes Demo.dE) (b : bool) : Prop := grow w = Some w' /\ b = true.

Lemma grows_builds : builds grows.
Proof.
  intros w w' b [H _] B. unfold grow in H.
  destruct w as [[ts wo] ws]. cbn in H.
  destruct ts as [|t ts].
  - destruct ws; [|discriminate]. injection H as <-. split.
    + split; [intros t [<-|[]]; exact Demo.dtree_wf|intros x []].
    + intros n _. left. left. reflexivity.
  - assert (X : ws = [] /\ w' = mkWN (mkN (t :: ts) wo) [wire13] /\ In 1 (ids t)).
    { repeat match type of H with
             | match ?x with _ => _ end = _ => destruct x; try discriminate
             end.
      injection H as <-. cbn. auto. }
    destruct X as (-> & -> & X). split.
    + split; [apply B|]. intros x [<-|[]]. split; [|discriminate]. exists 1. split; [reflexivity|].
      cbn. apply in_or_app. left. exact X.
    + intros n Y. right. split; [exact Y|reflexivity].
Qed.
Lemma denv_stops : leaves_stop Demo.denv.
Proof. intros n w. reflexivity. Qed.

Definition fplant : plant (wired_nodes Demo.dE) := wired_plant Demo.denv (fun _ => false) grows.
(** The same with an initialisation and edits that change nothing, for which DemoExec.v
    plays schedules. *)
Definition plain : plant (wired_nodes Demo.dE) := {|
  p_root := p_root fplant; p_state := p_state fplant; p_orphan := p_orphan fplant; p_op := p_op fplant;
  p_init := fun w w' b => w' = w /\ b = true; p_push := p_push fplant; p_unlink := p_unlink fplant;
  p_subclear := p_subclear fplant; p_edit := fun w w' b => w' = w /\ b = true |}.
Definition fop (o : op) (w : wired_nodes Demo.dE) : option (wired_nodes Demo.dE * res state) :=
  match n_trees (wn_nodes w) with
  | [t] => let (w', r) := call o (obj_of Demo.denv t) (n_world (wn_nodes w)) in
           Some (mkWN (mkN [t] w') (wn_wires w), r)
  | _ => None
  end.
Lemma fop_ok : forall o w w' r, fop o w = Some (w', r) -> p_op plain o w w' r.
Proof.
  intros o w w' r H. unfold fop in H. destruct (n_trees (wn_nodes w)) as [|t [|]] eqn:E; try discriminate.
  destruct (call o _ _) as [w1 r1] eqn:C. injection H as <- <-. split; [reflexivity|]. split; [auto|]. rewrite E. exact C.
Qed.
Definition finit (w : wired_nodes Demo.dE) : option (wired_nodes Demo.dE) :=
  let (c, r) := connect (wn_wires w) (fun n => if existsb (Nat.eqb n) (node_ids w) then Some [] else None) in
  match r with
  | Raise => None
  | _ => Some (mkWN (mkN (n_trees (wn_nodes w)) (set_conns (n_world (wn_nodes w)) c)) (wn_wires w))
  end.

Definition fnext (y : sys (wired_nodes Demo.dE)) (p : nat) (c : code) : option (action * code * sys (wired_nodes Demo.dE)) :=
  match c with
  | Init k => match finit (y_world y) with Some w' => Some (AInit true, k, with_world y w') | None => None end
  | InEdit k => match grow (y_world y) with Some w' => Some (AEditEnd true, k true, with_world y w') | None => None end
  | _ => next plain fop y p c
  end.
Lemma effect_plain : forall p y a y', effect plain p y a y' ->
  match a with AInit _ | AEditEnd _ => False | _ => True end -> effect fplant p y a y'.
Proof. intros p y a y' E H. destruct E; cbn in H; try tauto; first [exact (ef_ro fplant p y)|exact (ef_rs fplant p y)|exact (ef_or fplant p y)|econstructor; eauto; fail]. Qed.
Lemma step_plain : forall y p a z, step plain y (EAct p a) z ->
  match a with AInit _ | AEditEnd _ => False | _ => True end -> step fplant y (EAct p a) z.
Proof. intros y p a z H X. inversion H; subst. eapply st_act; eauto using effect_plain. Qed.
Lemma fnext_step : forall y p k c a c' y', nth_error (y_procs y) p = Some (k, Some c) ->
  fnext y p c = Some (a, c', y') -> step fplant y (EAct p a) (with_proc y' p (k, Some c')).
Proof.
  intros y p k c a c' y' A N.
  assert (G : next plain fop y p c = Some (a, c', y') -> match a with AInit _ | AEditEnd _ => False | _ => True end ->
    step fplant y (EAct p a) (with_proc y' p (k, Some c'))).
  { intros X Z. pose proof (next_step plain fop fop_ok (fun w => conj eq_refl eq_refl) (fun w => conj eq_refl eq_refl)
      (fun w => eq_refl) (fun w => conj eq_refl eq_refl) _ _ _ _ _ _ _ A X) as ST.
    apply step_plain; assumption. }
  destruct c; cbn [fnext] in N;
    try (apply G; [exact N|]; cbn -[body fop] in N; try discriminate; try (injection N as <- <- <-; exact I)).
  - destruct (nth_error (y_procs y) t) as [[[] [?|]]|]; try discriminate; injection N as <- <- <-; exact I.
  - destruct (fop o (y_world y)) as [[? ?]|]; [|discriminate]. injection N as <- <- <-; exact I.
  - unfold finit in N. destruct (connect _ _) as [cc r] eqn:C. destruct r as [u|e|]; try discriminate;
      injection N as <- <- <-; (eapply st_act; [exact A|apply (ls_it _ true)|]); constructor;
      cbn; unfold init_flow; rewrite C; auto.
  - destruct (y_lock y); [discriminate|]. injection N as <- <- <-; exact I.
  - destruct (grow (y_world y)) as [w'|] eqn:Gw; [|discriminate]. injection N as <- <- <-.
    eapply st_act; [exact A|apply (ls_ie _ true)|]. constructor. split; [exact Gw|reflexivity].
Qed.

Definition may_come (y : sys (wired_nodes Demo.dE)) (k : kind) : bool :=
  calmb y && match k with KEdit _ => none_alive y | _ => true end.
Definition fturn (one : bool) (y : sys (wired_nodes Demo.dE)) (x : kind + nat) : option (event * sys (wired_nodes Demo.dE)) :=
  match x with
  | inl KTick => None
  | inl k => if one && negb (may_come y k) then None else Some (EArrive k, arrived y k)
  | inr p => match nth_error (y_procs y) p with
             | Some (k, Some c) => match fnext y p c with
                                   | Some (AOk false, _, _) | None => None
                                   | Some (a, c', y') => Some (EAct p a, with_proc y' p (k, Some c'))
                                   end
             | _ => None
             end
  end.
Fixpoint fplay (one : bool) (y : sys (wired_nodes Demo.dE)) (l : list (kind + nat)) : option (list event * sys (wired_nodes Demo.dE)) :=
  match l with
  | [] => Some ([], y)
  | x :: l => match fturn one y x with
              | Some (e, y1) => match fplay one y1 l with
                                | Some (es, y2) => Some (e :: es, y2)
                                | None => None
                                end
              | None => None
              end
  end.
Lemma fturn_step : forall one y x e y', fturn one y x = Some (e, y') -> step fplant y e y' /\ (one = true -> patient y e).
Proof.
  intros one y x e y' H. destruct x as [k|p]; cbn in H.
  - assert (NK : k <> KTick) by (intros ->; discriminate).
    assert (X : (if one && negb (may_come y k) then None else Some (EArrive k, arrived y k)) = Some (e, y'))
      by (destruct k; [discriminate|exact H|exact H]). clear H.
    destruct (one && negb (may_come y k)) eqn:Q; [discriminate|]. injection X as <- <-.
    split; [constructor; exact NK|]. intros ->. cbn in Q.
    destruct (may_come y k) eqn:C1; [|discriminate]. unfold may_come in C1. apply andb_true_iff in C1. destruct C1 as [C1 C2].
    split; [apply calmb_calm; exact C1|]. destruct k; try exact I. apply none_alive_none; exact C2.
  - destruct (nth_error (y_procs y) p) as [[k [c|]]|] eqn:A; try discriminate.
    destruct (fnext y p c) as [[[a c'] y1]|] eqn:N; [|discriminate].
    pose proof (fnext_step _ _ _ _ _ _ _ A N) as ST.
    assert (X : a <> AOk false /\ (EAct p a, with_proc y1 p (k, Some c')) = (e, y')).
    { destruct a; try (injection H as <- <-; split; [discriminate|reflexivity]).
      destruct b; [|discriminate]. injection H as <- <-. split; [discriminate|reflexivity]. }
    destruct X as [NO X]. injection X as <- <-. split; [exact ST|]. intros _. split; [|exact I].
    cbn. destruct a; try exact I. destruct b; [reflexivity|congruence].
Qed.
Definition fguard (one : bool) : sys (wired_nodes Demo.dE) -> event -> Prop := if one then patient else anything.
Lemma fplay_runs : forall one l y es y', fplay one y l = Some (es, y') -> runs (fguard one) fplant y es y'.
Proof.
  intros one l. induction l as [|x l IH]; intros y es y' H; cbn in H.
  - injection H as <- <-. constructor.
  - destruct (fturn one y x) as [[e y1]|] eqn:T; [|discriminate].
    destruct (fplay one y1 l) as [[es2 y2]|] eqn:PL; [|discriminate]. injection H as <- <-.
    destruct (fturn_step _ _ _ _ _ T) as [S G]. change (e :: es2) with ([e] ++ es2).
    eapply runs_trans; [|apply IH; exact PL].
    apply (runs_snoc _ _ y [] y e y1); [constructor| |exact S]. destruct one; [apply G; reflexivity|exact I].
Qed.
