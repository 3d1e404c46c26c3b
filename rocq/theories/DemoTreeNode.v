(** A default tree and starts of the tree node, for the examples and the refutation of
    C112. *)
From Coq Require Import List String Bool Arith.
From Verif Require Import Base ModelTree SpecTree ModelSubtreeNode ModelEdit SpecEdit DemoEdit.
From Verif Require Import ModelExec SpecExec SpecFlowExec ModelServer SpecServer ModelTreeNode DemoExec DemoServer.
From Verif Require Demo.
Import ListNotations.
Local Open Scope string_scope.
Local Open Scope list_scope.

(** The default tree: node 1 with the children 2 and 3. *)
Definition stored : list SpecEdit.edit :=
  [ELoad [mkM (id 1) (Ok box) [id 2; id 3]; mkM (id 2) (Ok out_leaf) []; mkM (id 3) (Ok in_leaf) []] [] "tree";
   ERename "a"; ERename "b"; ERename "c"].

Lemma patient_one : forall es (y y' : sys (server Demo.dE)), runs patient splant y es y' -> runs one_at_a_time splant y es y'.
Proof. intros es y y' R. induction R as [z|z es z1 e z2 R IH G S]; [constructor|]. eapply runs_snoc; [exact IH|apply G|exact S]. Qed.

(** Requests of the server of DemoServer.v, one after the other. *)
Lemma splay_handled : forall script y k l es y2 ok ts, k <> KTick -> calmb y = true ->
  splay script (arrived y k) l = Some (es, y2) -> quiet_list es = true ->
  answer_of y2 (List.length (y_procs y)) = Some (ok, ts) ->
  handled splant y k (List.length (y_procs y)) es y2 ok ts.
Proof.
  intros script y k l es y2 ok ts NK C PL Q A. split; [|apply answer_answered; exact A].
  split; [apply calmb_calm; exact C|]. split; [reflexivity|]. split; [apply quiet_no_arrivals; exact Q|].
  exists (arrived y k). split; [constructor; exact NK|]. apply patient_one, (splay_runs script l). exact PL.
Qed.

(** A start that loads the tree and gives the command [n]. *)
Lemma splay_start : forall n l0 l1 ok ts (Q : sys (server Demo.dE) -> Prop),
  match splay stored (arrived (fresh sv0) (KEdit true)) l0 with
  | None => False
  | Some (es0, y0) =>
      match splay stored (arrived y0 (KControl (command_of n))) l1 with
      | None => False
      | Some (es1, y) => (quiet_list es0 = true /\ answer_of y0 0 = Some (true, None) /\ calmb y0 = true /\ List.length (y_procs y0) = 1) /\
          (quiet_list es1 = true /\ answer_of y 1 = Some (ok, ts)) /\ Q y
      end
  end ->
  exists y, node_start splant (mkDefault true n) sv0 y (Commanded ok) /\ Q y.
Proof.
  intros n l0 l1 ok ts Q H.
  destruct (splay stored (arrived (fresh sv0) (KEdit true)) l0) as [[es0 y0]|] eqn:P0; [|destruct H].
  destruct (splay stored (arrived y0 (KControl (command_of n))) l1) as [[es1 y]|] eqn:P1; [|destruct H].
  destruct H as ((A & B & C & L) & (D & F) & X). exists y. split; [|exact X].
  eapply start_command with (es1 := es0) (y1 := y0) (es2 := es1) (ts := ts); [reflexivity| |].
  - apply (splay_handled stored (fresh sv0) (KEdit true) l0 es0 y0 true None); [discriminate|reflexivity|exact P0|exact A|exact B].
  - rewrite <- L in F. rewrite <- L.
    apply (splay_handled stored y0 _ l1 es1 y ok ts); [discriminate|exact C|exact P1|exact D|exact F].
Qed.
