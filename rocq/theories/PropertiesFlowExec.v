(** Property C108: the data flow that runs is the one that is shown. *)
From Coq Require Import List String Bool Arith.
From Verif Require Import Base ModelTree SpecTree ModelSubtreeNode ModelExec ModelExecTree ModelFlowExec.
From Verif Require Import SpecExec SpecFlowExec ProofsFlowExec DemoExec DemoFlow.
From Verif Require Demo.
Import ListNotations.
Local Open Scope string_scope.
Local Open Scope list_scope.

(** From an empty tree, after any history of edits and commands, one at a time and edits
    only while nothing is ticked: whenever the root is ticked, the data flow manager knows
    exactly the nodes of the tree and passes their outputs on exactly as the wirings of the
    published structure say.  Missing: requests that overlap (refuted below). *)
Theorem C108_shown_partial : forall E (ev : env E) orphan edits, builds edits -> leaves_stop ev ->
  forall w es y t, empty_tree w -> runs patient (wired_plant ev orphan edits) (fresh w) es y -> ticking y t ->
  flows_as_shown (y_world y).
Proof. intros E ev orphan edits Hb Hl w es y t. exact (shown_flows ev orphan edits Hb Hl w es y t). Qed.
Print Assumptions C108_shown_partial.

(** A tree is added, ticked and shut down; then a wiring is added and the tree is ticked
    again: the wiring is in effect. *)
Example C108_example : builds grows /\ leaves_stop Demo.denv /\ empty_tree no_nodes /\
  exists es y, runs patient fplant (fresh no_nodes) es y /\ ticking y 6 /\
    wn_wires (y_world y) = [wire13] /\ node_ids (y_world y) = [0; 1; 2; 3; 4; 5; 6] /\
    w_conns (n_world (wn_nodes (y_world y))) 1 = Some [mkConn "out" 3 "in"] /\
    exists es0 es1 y0, es = es0 ++ es1 /\ runs patient fplant (fresh no_nodes) es0 y0 /\ ticking y0 2 /\
      wn_wires (y_world y0) = [] /\ w_conns (n_world (wn_nodes (y_world y0))) 1 = Some [].
Proof.
  split; [exact grows_builds|]. split; [exact denv_stops|]. split; [split; reflexivity|].
  set (l0 := inl (KEdit false) :: acc 0 5 ++ inl (KControl TICK_PERIODICALLY) :: acc 1 15 ++ acc 2 11).
  set (l1 := inl (KControl SHUT_DOWN) :: acc 3 7 ++ acc 2 8 ++ acc 3 8 ++ inl (KEdit false) :: acc 4 5 ++
             inl (KControl TICK_PERIODICALLY) :: acc 5 18 ++ acc 6 11).
  destruct (fplay true (fresh no_nodes) l0) as [[es0 y0]|] eqn:A; [|vm_compute in A; discriminate A].
  destruct (fplay true y0 l1) as [[es1 y]|] eqn:B;
    [|exfalso; vm_compute in A; injection A as <- <-; vm_compute in B; discriminate B].
  pose proof (fplay_runs true _ _ _ _ A) as R0. pose proof (fplay_runs true _ _ _ _ B) as R1.
  assert (T0 : tickingb y0 2 = true /\ wn_wires (y_world y0) = [] /\
               w_conns (n_world (wn_nodes (y_world y0))) 1 = Some []).
  { vm_compute in A. injection A as <- <-. vm_compute. auto. }
  assert (T1 : tickingb y 6 = true /\ wn_wires (y_world y) = [wire13] /\ node_ids (y_world y) = [0; 1; 2; 3; 4; 5; 6] /\
    w_conns (n_world (wn_nodes (y_world y))) 1 = Some [mkConn "out" 3 "in"]).
  { vm_compute in A. injection A as <- <-. vm_compute in B. injection B as <- <-. vm_compute. auto. }
  destruct T0 as (X1 & X2 & X3). destruct T1 as (Y1 & Y2 & Y3 & Y4).
  exists (es0 ++ es1), y. split; [eapply runs_trans; eauto|]. split; [apply tickingb_ticking; exact Y1|].
  split; [exact Y2|]. split; [exact Y3|]. split; [exact Y4|].
  exists es0, es1, y0. split; [reflexivity|]. split; [exact R0|]. split; [apply tickingb_ticking; exact X1|]. auto.
Qed.

(** With overlapping requests it is not: a wiring request that was accepted before the tree
    is started and ends afterwards changes what is shown but not what is passed on. *)
Theorem C108_refuted : exists es y t, builds grows /\ leaves_stop Demo.denv /\ empty_tree no_nodes /\
  runs anything fplant (fresh no_nodes) es y /\ ticking y t /\
  wn_wires (y_world y) = [wire13] /\ w_conns (n_world (wn_nodes (y_world y))) 1 = Some [] /\
  ~ flows_as_shown (y_world y).
Proof.
  set (l := inl (KEdit false) :: acc 0 5 ++ inl (KEdit false) :: acc 1 3 ++
            inl (KControl TICK_PERIODICALLY) :: acc 2 15 ++ acc 3 11 ++ acc 1 1).
  destruct (fplay false (fresh no_nodes) l) as [[es y]|] eqn:A; [|vm_compute in A; discriminate A].
  pose proof (fplay_runs false _ _ _ _ A) as R.
  assert (T0 : tickingb y 3 = true /\ wn_wires (y_world y) = [wire13] /\ In 1 (node_ids (y_world y)) /\
               w_conns (n_world (wn_nodes (y_world y))) 1 = Some []).
  { vm_compute in A. injection A as <- <-. vm_compute. auto 10. }
  destruct T0 as (X1 & X2 & X3 & X4). exists es, y, 3.
  split; [exact grows_builds|]. split; [exact denv_stops|]. split; [split; reflexivity|]. split; [exact R|].
  split; [apply tickingb_ticking; exact X1|]. split; [exact X2|]. split; [exact X4|].
  intros [F _]. specialize (F 1 X3). rewrite X4, X2 in F. discriminate F.
Qed.
Print Assumptions C108_refuted.
