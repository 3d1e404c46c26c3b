(** Property C112: the start and the end of the tree node. *)
From Coq Require Import List String Bool Arith.
From Verif Require Import Base ModelTree SpecTree ModelSubtreeNode ModelEdit SpecEdit DemoEdit.
From Verif Require Import ModelExec SpecExec SpecFlowExec ModelServer SpecServer ModelTreeNode ProofsExecProps ProofsTreeNode DemoExec DemoServer DemoTreeNode.
From Verif Require Demo.
Import ListNotations.
Local Open Scope string_scope.
Local Open Scope list_scope.

(** When the start is over no request is being handled, and everything that is claimed
    of managers serving one request at a time holds from then on.  Without a default tree,
    or with one that cannot be loaded, the tree can be edited and nothing ticks it. *)
Theorem C112_start : forall W (P : plant W) d w y r, node_start P d w y r ->
  reachable P y /\ calm y /\
  (r = NotLoading <-> df_load d = false) /\
  (r = NotLoading \/ r = LoadFailed -> y_state y = EDITABLE /\ no_tick_thread y).
Proof.
  intros W P d w y r H. destruct H as [D|es y ts D H|es1 y1 ts1 es2 y ok ts D H1 H2].
  - split; [apply fresh_reachable|]. split; [apply fresh_calm|]. split; [tauto|]. intros _. split; [reflexivity|].
    intros t (c & X & _). unfold at_code in X. cbn in X. destruct t; discriminate.
  - split; [eapply handling_reachable; [apply fresh_reachable|apply H]|].
    split; [eapply handled_calm; [apply fresh_reachable|exact H]|]. split; [split; [discriminate|congruence]|].
    intros _. destruct (load_alone P w es y (proj1 H)) as (A & B & _). auto.
  - assert (R1 : reachable P y1) by (eapply handling_reachable; [apply fresh_reachable|apply H1]).
    split; [eapply handling_reachable; [exact R1|apply H2]|]. split; [eapply handled_calm; [exact R1|exact H2]|].
    split; [split; [discriminate|congruence]|]. intros [X|X]; discriminate.
Qed.
Print Assumptions C112_start.

(** With the standard command, a start that succeeded has started a thread that ticks the
    tree, unless the tree is empty; that thread only ends with an error. *)
Theorem C112_ticks : forall W (P : plant W) d w y, df_command d = df_command standard_default ->
  node_start P d w y (Commanded true) ->
  (p_root P (y_world y) = REmpty /\ no_tick_thread y) \/
  exists t c, at_code y t KTick c /\ (tick_thread_alive y t \/ y_state y = TERROR \/ c = Crash).
Proof.
  intros W P d w y C H. inversion H as [| |es1 y1 ts1 es2 y2 ok ts D H1 H2]; subst.
  rewrite C in H2. cbn in H2.
  assert (R1 : reachable P y1) by (eapply handling_reachable; [apply fresh_reachable|apply H1]).
  destruct (periodically_ok P _ _ _ _ _ R1 H2) as [(A & B & _)|(t & (p & I) & _ & X)]; [auto|].
  right. destruct H2 as [(_ & _ & _ & y3 & _ & RU) _]. destruct (started_stays P _ _ _ _ RU p t I) as (c & C1).
  exists t, c. split; [exact C1|]. destruct (ended c) eqn:L.
  - right. destruct X as [Y|[Y _]]; [|auto|right; unfold at_code in *; congruence].
    intros (c' & Q & E). unfold at_code in *. congruence.
  - left. exists c. auto.
Qed.
Print Assumptions C112_ticks.

(** Partial: what TreeNode.shutdown does when the tree is not at rest and the command it
    gives stops a thread, or finds none.  Missing: a tree at rest (refuted below), and a
    thread that has just finished (C51_refuted). *)
Theorem C112_stop_partial : forall W (P : plant W) y0 es y, reachable P y0 ->
  node_stop P y0 es y (Some true) ->
  no_tick_thread y0 \/ In (EAct (List.length (y_procs y0)) (ASetState STOP_REQUESTED)) es ->
  y_state y = EDITABLE /\ no_tick_thread y /\ shut_down P (y_world y).
Proof.
  intros W P y0 es y R H C. inversion H as [|es1 y1 ok ts D H1]; subst.
  destruct (shutdown_ok P _ _ _ _ _ R H1 C) as (A & _ & B & S). auto.
Qed.
Print Assumptions C112_stop_partial.

(** A tree that is IDLE, EDITABLE or in ERROR is left as it is; in the other states the
    command SHUTDOWN is given. *)
Theorem C112_rest : forall W (P : plant W) y0 es y r, node_stop P y0 es y r ->
  if (match y_state y0 with TIDLE | EDITABLE | TERROR => true | _ => false end)
  then es = [] /\ y = y0 /\ r = None
  else exists ok ts, r = Some ok /\ handled P y0 (KControl SHUT_DOWN) (List.length (y_procs y0)) es y ok ts.
Proof.
  intros W P y0 es y r H. destruct H as [C D|es y ok ts D H1]; unfold rests in D;
    destruct (y_state y0); try discriminate; auto; exists ok, ts; auto.
Qed.
Print Assumptions C112_rest.

(** The tree is loaded and ticked periodically; TreeNode.shutdown shuts it down. *)
Example C112_example : exists y es y', node_start splant (mkDefault true 2) sv0 y (Commanded true) /\
  ticking y 2 /\ map (kids (sv_mgr (y_world y))) [1; 2; 3] = [[2; 3]; []; []] /\
  node_stop splant y es y' (Some true) /\ In (EAct (List.length (y_procs y)) (ASetState STOP_REQUESTED)) es /\
  map (w_st (sv_world (y_world y'))) [1; 2; 3] = [SHUTDOWN; SHUTDOWN; SHUTDOWN].
Proof.
  destruct (splay_start 2 (acc 0 8) (acc 1 15 ++ acc 2 11) true (Some TICKING)
    (fun y => (tickingb y 2 = true /\ map (kids (sv_mgr (y_world y))) [1; 2; 3] = [[2; 3]; []; []] /\
               rests (y_state y) = false /\ calmb y = true /\ List.length (y_procs y) = 3) /\
      match splay stored (arrived y (KControl SHUT_DOWN)) (acc 3 8 ++ acc 2 8 ++ acc 3 7) with
      | None => False
      | Some (es, y') => quiet_list es = true /\ answer_of y' 3 = Some (true, Some EDITABLE) /\
          nth_error es 6 = Some (EAct 3 (ASetState STOP_REQUESTED)) /\
          map (w_st (sv_world (y_world y'))) [1; 2; 3] = [SHUTDOWN; SHUTDOWN; SHUTDOWN]
      end)) as (y & S & (T & K & RS & C & L) & X); [vm_compute; repeat split|].
  destruct (splay stored (arrived y (KControl SHUT_DOWN)) (acc 3 8 ++ acc 2 8 ++ acc 3 7)) as [[es y']|] eqn:PL; [|destruct X].
  destruct X as (Q & A & N & E). exists y, es, y'. split; [exact S|]. split; [apply tickingb_ticking; exact T|].
  split; [exact K|]. rewrite <- L in A. split; [|split; [|exact E]].
  - eapply stop_command; [exact RS|]. eapply splay_handled; [discriminate|exact C|exact PL|exact Q|exact A].
  - rewrite L. eapply nth_error_In. exact N.
Qed.

(** A default tree that is ticked until it has a result is at rest then, and
    TreeNode.shutdown leaves all its nodes set up. *)
Theorem C112_stop_refuted : exists y, node_start splant (mkDefault true 3) sv0 y (Commanded true) /\
  valid_default (mkDefault true 3) /\ no_tick_thread y /\ y_state y = TIDLE /\
  node_stop splant y [] y None /\ order (sv_mgr (y_world y)) = [1; 2; 3] /\
  map (w_st (sv_world (y_world y))) [1; 2; 3] = [IDLE; IDLE; IDLE].
Proof.
  destruct (splay_start 3 (acc 0 8) (acc 1 16 ++ acc 2 16) true (Some TICKING)
    (fun y => none_alive y = true /\ calmb y = true /\ y_state y = TIDLE /\ order (sv_mgr (y_world y)) = [1; 2; 3] /\
      map (w_st (sv_world (y_world y))) [1; 2; 3] = [IDLE; IDLE; IDLE])) as (y & S & N & C & TS & O & X); [vm_compute; repeat split|].
  exists y. split; [exact S|]. split; [unfold valid_default; cbn; repeat constructor|]. split; [apply none_alive_none; exact N|]. split; [exact TS|].
  split; [|auto]. apply stop_rests; [apply calmb_calm; exact C|rewrite TS; reflexivity].
Qed.
Print Assumptions C112_stop_refuted.
