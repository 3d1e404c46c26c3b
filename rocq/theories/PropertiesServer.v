(** Property C109: what a client builds with the editing services is what is ticked. *)
From Coq Require Import List String Bool Arith.
From Verif Require Import Base ModelTree SpecTree ModelSubtreeNode ModelEdit SpecEdit DemoEdit.
From Verif Require Import ModelExec SpecExec SpecFlowExec ModelServer SpecServer ProofsServer DemoExec DemoServer.
From Verif Require Demo.
Import ListNotations.
Local Open Scope string_scope.
Local Open Scope list_scope.

(** Whatever requests arrive, at the same time or one by one: the links between the nodes
    agree, every wiring joins an output to a compatible input, and ticking never finds a
    node whose parent is missing. *)
Theorem C109_linked : forall E (ev : env E) s es y, new_server s ->
  runs anything (server_plant ev sane_call) (fresh s) es y ->
  linked (sv_mgr (y_world y)) /\
  (forall x, In x (g_wires (sv_mgr (y_world y))) -> good_wiring (sv_mgr (y_world y)) x) /\
  (forall p b, In (EAct p (AOrphans b)) es -> b = false).
Proof.
  intros E ev s es y N R. destruct (server_linked ev s es y N R) as [A B]. split; [exact A|]. split; [exact B|].
  intros p b. exact (server_orphans ev s es y p b N R).
Qed.
Print Assumptions C109_linked.

(** From a new manager, after any history of edits and commands, one at a time and edits
    only while nothing is ticked: whenever a call of the root's tick is under way there is
    exactly one root, the nodes below it form a tree in which every node occurs once and
    has an allowed number of children, the data flow follows the wirings, and what the call
    does is what the tree that is shown does when it is ticked; nodes, links and wirings
    are the same afterwards.  Missing: requests that overlap (C108_refuted). *)
Theorem C109_tick_partial : forall E (ev : env E) s es y p, leaves_stop ev -> new_server s ->
  runs patient (server_plant ev sane_call) (fresh s) es y -> ticking y p ->
  exists r t, only_root (sv_mgr (y_world y)) r /\ shows_tree (y_world y) r t /\ SpecTree.wf t /\ wires_flow (y_world y) /\
    forall q o a y', step (server_plant ev sane_call) y (EAct q (AEnd o a)) y' ->
      call o (obj_of ev t) (sv_world (y_world y)) = (sv_world (y_world y'), a) /\
      sv_mgr (y_world y') = sv_mgr (y_world y) /\ sv_class (y_world y') = sv_class (y_world y).
Proof. intros E ev s es y p Hl. exact (server_tick ev Hl s es y p). Qed.
Print Assumptions C109_tick_partial.

(** The commands do not change the tree: from a manager with no nodes or with one root,
    without edits, nodes, links, wirings and options stay as they are.  Missing: several
    roots (refuted below). *)
Theorem C109_unchanged_partial : forall E (ev : env E) s es y es' y', leaves_stop ev -> new_server s ->
  runs patient (server_plant ev sane_call) (fresh s) es y -> whole (sv_mgr (y_world y)) ->
  runs patient (server_plant ev sane_call) y es' y' -> no_edits es' ->
  sv_mgr (y_world y') = sv_mgr (y_world y) /\ sv_class (y_world y') = sv_class (y_world y).
Proof. intros E ev s es y es' y' Hl. exact (server_unchanged ev Hl s es y es' y'). Qed.
Print Assumptions C109_unchanged_partial.

(** [n] editing requests, one after the other. *)
Definition edits (n : nat) : list (kind + nat) := List.concat (map (fun p => inl (KEdit false) :: acc p 5) (seq 0 n)).

(** The tree of DemoEdit.v is built with its wiring, then it is ticked. *)
Example C109_example : leaves_stop Demo.denv /\ new_server sv0 /\
  exists es0 y0 es1 y, runs patient splant (fresh sv0) es0 y0 /\ whole (sv_mgr (y_world y0)) /\
    runs patient splant y0 es1 y /\ no_edits es1 /\ ticking y 7 /\
    order (sv_mgr (y_world y)) = [1; 2; 3; 4; 5] /\ map (kids (sv_mgr (y_world y))) [1; 2; 3; 4; 5] = [[2; 3; 4]; []; []; [5]; []] /\
    g_wires (sv_mgr (y_world y)) = [w23] /\ w_conns (sv_world (y_world y)) 2 = Some [mkConn "o" 3 "i"] /\
    In (EAct 7 (AOrphans false)) es1.
Proof.
  split; [intros n w; reflexivity|]. split; [exists true; reflexivity|].
  destruct (splay_two one_tree (edits 6) (inl (KControl TICK_PERIODICALLY) :: acc 6 15 ++ acc 7 11)
    (fun es0 y0 es1 y => (order (sv_mgr (y_world y0)) = [1; 2; 3; 4; 5] /\
       map (par (sv_mgr (y_world y0))) [1; 2; 3; 4; 5] = [None; Some 1; Some 1; Some 1; Some 4]) /\
     tickingb y 7 = true /\ order (sv_mgr (y_world y)) = [1; 2; 3; 4; 5] /\
     map (kids (sv_mgr (y_world y))) [1; 2; 3; 4; 5] = [[2; 3; 4]; []; []; [5]; []] /\
     g_wires (sv_mgr (y_world y)) = [w23] /\ w_conns (sv_world (y_world y)) 2 = Some [mkConn "o" 3 "i"] /\
     existsb (fun e => match e with EAct 7 (AOrphans false) => true | _ => false end) es1 = true /\
     forallb (fun e => match e with EAct _ (AEditEnd _) => false | _ => true end) es1 = true))
    as (es0 & y0 & es1 & y & R0 & R1 & W & T); [vm_compute; repeat split|].
  exists es0, y0, es1, y.
  split; [exact R0|].
  destruct W as [W1 W2]. injection W2 as P1 P2 P3 P4 P5. split.
  { right. exists 1. split; [|split; [exact P1|]].
    - apply ProofsEdit.nget_present. change (In 1 (order (sv_mgr (y_world y0)))). rewrite W1. left. reflexivity.
    - intros j Pj Qj. apply ProofsEdit.nget_present in Pj. change (In j (order (sv_mgr (y_world y0)))) in Pj. rewrite W1 in Pj. cbn in Pj.
      destruct Pj as [<-|[<-|[<-|[<-|[<-|[]]]]]]; congruence. }
  split; [exact R1|].
  destruct T as (T1 & T2 & T3 & T4 & T5 & T6 & T7). split.
  { intros p b X. rewrite forallb_forall in T7. specialize (T7 _ X). discriminate. }
  split; [apply tickingb_ticking; exact T1|]. repeat (split; [assumption|]).
  apply existsb_exists in T6. destruct T6 as (e & X & Y).
  destruct e as [k|p a]; [discriminate|]. do 8 (destruct p as [|p]; try discriminate). destruct a; try discriminate.
  destruct b; [discriminate|exact X].
Qed.

(** With two roots they do change it: SHUTDOWN, answered with success, takes away the
    children of every node. *)
Theorem C109_unchanged_refuted : exists es0 y0 es1 y, new_server sv0 /\ runs patient splant (fresh sv0) es0 y0 /\
  map (kids (sv_mgr (y_world y0))) [1; 2; 3] = [[2]; []; []] /\
  runs patient splant y0 es1 y /\ no_edits es1 /\ answered y 3 true (Some EDITABLE) /\
  hd_error es1 = Some (EArrive (KControl SHUT_DOWN)) /\ map (kids (sv_mgr (y_world y))) [1; 2; 3] = [[]; []; []].
Proof.
  destruct (splay_two two_roots (edits 3) (inl (KControl SHUT_DOWN) :: acc 3 8)
    (fun es0 y0 es1 y => map (kids (sv_mgr (y_world y0))) [1; 2; 3] = [[2]; []; []] /\
     answer_of y 3 = Some (true, Some EDITABLE) /\ map (kids (sv_mgr (y_world y))) [1; 2; 3] = [[]; []; []] /\
     hd_error es1 = Some (EArrive (KControl SHUT_DOWN)) /\
     forallb (fun e => match e with EAct _ (AEditEnd _) => false | _ => true end) es1 = true))
    as (es0 & y0 & es1 & y & R0 & R1 & K & T); [vm_compute; repeat split|].
  exists es0, y0, es1, y. split; [exists true; reflexivity|]. split; [exact R0|]. split; [exact K|]. split; [exact R1|].
  destruct T as (T1 & T2 & T4 & T3). split.
  { intros p b X. rewrite forallb_forall in T3. specialize (T3 _ X). discriminate. }
  split; [apply answer_answered; exact T1|]. split; [exact T4|exact T2].
Qed.
Print Assumptions C109_unchanged_refuted.
