(** C95: log messages are published if they are at or above the level set last, and say
    where they come from. *)
From Coq Require Import String Ascii Bool Arith Lia List.
From Verif Require Import Base ModelLog SpecLog ProofsLog.
Import ListNotations.
Local Open Scope list_scope.

(** A message logged by a node is published iff it is at or above the level that was set
    last, by any client and before or after the tree was made.  It is published once, after
    what was published before, with its text, the id and name of the node, the present id
    and name of the tree and the place in the code that logs it; and it goes to the ROS logger
    of that node. *)
Theorem C95_node : forall h i c tid tname s n name msg f callers,
  has_manager h i (Some c) tid tname ->
  let h' := h ++ [LNode (Some i) s n name msg false (f :: callers)] in
  (appears h s -> published h' = published h ++ [(c, mkLog (documented s) msg tid tname (Some n) name f)] /\
    logged h' = logged h ++ [(match tid with None => None | Some t => Some (t, tname, Some (n, name)) end, s, msg)]) /\
  (~ appears h s -> published h' = published h /\ logged h' = logged h).
Proof.
  intros h i c tid tname s n name msg f callers H. destruct (node_step _ _ _ _ _ H s n name msg false f callers) as (A & B & C & D).
  split; intros Q; split; auto.
Qed.
Print Assumptions C95_node.

(** The same for what the manager of a tree logs: it has no node. *)
Theorem C95_manager : forall h i c tid tname s msg f callers,
  has_manager h i (Some c) tid tname ->
  let h' := h ++ [LManager i s msg false (f :: callers)] in
  (appears h s -> published h' = published h ++ [(c, mkLog (documented s) msg tid tname None "" f)] /\
    logged h' = logged h ++ [(match tid with None => None | Some t => Some (t, tname, None) end, s, msg)]) /\
  (~ appears h s -> published h' = published h /\ logged h' = logged h).
Proof.
  intros h i c tid tname s msg f callers H. destruct (manager_step _ _ _ _ _ H s msg false f callers) as (A & B & C & D).
  split; intros Q; split; auto.
Qed.
Print Assumptions C95_manager.

(** Internal messages are not published, whatever the level is; neither is anything by a
    manager without a callback.  They go to the loggers of ROS like the others. *)
Theorem C95_internal : forall h i cb tid tname s n name msg internal f callers,
  has_manager h i cb tid tname -> internal = true \/ cb = None ->
  published (h ++ [LNode (Some i) s n name msg internal (f :: callers)]) = published h /\
  published (h ++ [LManager i s msg internal (f :: callers)]) = published h /\
  (appears h s -> logged (h ++ [LNode (Some i) s n name msg internal (f :: callers)]) =
    logged h ++ [(match tid with None => None | Some t => Some (t, tname, Some (n, name)) end, s, msg)]).
Proof.
  intros h i cb tid tname s n name msg internal f callers H Q.
  destruct (node_step _ _ _ _ _ H s n name msg internal f callers) as (A & B & C & _).
  destruct (manager_step _ _ _ _ _ H s msg internal f callers) as (A' & B' & _).
  assert (D : appears h s \/ ~ appears h s).
  { rewrite <- inactive_appears. destruct (inactive (lrun h) s); [right; discriminate | now left]. }
  split; [| split; [| exact C]].
  - destruct D as [D | D]; [rewrite (A D) | exact (B D)]. destruct Q as [-> | ->]; [| destruct internal]; apply app_nil_r.
  - destruct D as [D | D]; [rewrite (A' D) | exact (B' D)]. destruct Q as [-> | ->]; [| destruct internal]; apply app_nil_r.
Qed.
Print Assumptions C95_internal.

(** Nothing else publishes or logs anything, and there is always exactly one level. *)
Theorem C95_silent : forall h o, silent o -> published (h ++ [o]) = published h /\ logged (h ++ [o]) = logged h.
Proof. exact silent_step. Qed.
Print Assumptions C95_silent.
Theorem C95_level : forall h, exists l, level h l /\ forall l', level h l' -> l' = l.
Proof.
  intros h. exists (lw_min (lrun h)). split; [now apply level_is |]. intros l' L. now apply level_is.
Qed.
Print Assumptions C95_level.

(** A client can switch off everything, also what is FATAL (the comment in [fatal] says that
    this is not possible). *)
Theorem C95_off : forall h l i s n name msg internal f callers, 50 < l ->
  published (h ++ [LSetLevel l; LNode i s n name msg internal (f :: callers)]) = published h /\
  logged (h ++ [LSetLevel l; LNode i s n name msg internal (f :: callers)]) = logged h.
Proof.
  intros h l i s n name msg internal f callers L.
  change [LSetLevel l; ?x] with ([LSetLevel l] ++ [x]). rewrite app_assoc. unfold published, logged.
  rewrite lrun_snoc. rewrite (lrun_snoc h). cbn [lstep]. destruct i as [i |]; [| split; reflexivity].
  cbn [lw_mans]. destruct (nth_error _ _) as [m |]; [| split; reflexivity].
  cbn [node_log]. unfold emit, inactive. cbn [lw_min].
  assert (E : (number s <? l) = true) by (apply Nat.ltb_lt; destruct s; cbn [number]; lia). rewrite E. split; reflexivity.
Qed.
Print Assumptions C95_off.

(** Different nodes, and different trees, have ROS loggers with different names, whatever
    they are called.  ([wordc]: the characters Python counts as part of words; [show_id]: the
    text of a uuid.) *)
Theorem C95_names : forall wordc show_id,
  wordc "."%char = false -> wordc "("%char = false ->
  (forall i j, show_id i = show_id j -> i = j) -> (forall i, ~ occurs "."%char (show_id i)) ->
  forall base p q, ros_path wordc show_id base p = ros_path wordc show_id base q -> same_ids p q.
Proof. intros wordc show_id A B C D base p q. exact (path_ids wordc show_id A B C D base p q). Qed.
Print Assumptions C95_names.

(** The hypotheses are met: a process with a tree and a subtree whose names change; a client
    asks for warnings only. *)
Definition demo_frame : frame := mkFr "leaf.py" "_do_tick" 7.
Definition demo_log : list lop :=
  [LNew (Some 0); LTreeId 0 5; LTreeName 0 "t"; LNew (Some 0); LTreeId 1 6; LTreeName 1 "sub"; LTreeName 0 "u"; LSetLevel 30].
Example demo_log_has : has_manager demo_log 0 (Some 0) (Some 5) "u" /\ has_manager demo_log 1 (Some 0) (Some 6) "sub" /\
  appears demo_log ERROR /\ ~ appears demo_log INFO.
Proof.
  split; [| split; [| split]].
  - exists [], (tl demo_log). split; [reflexivity | split; [reflexivity |]]. split.
    + left. exists [], (LTreeId 0 5), (tl (tl demo_log)). split; [reflexivity |]. split; [exists 5; auto |].
      intros o b I (t & _ & ->). cbn in I. intuition discriminate.
    + left. exists [LTreeId 0 5; LTreeName 0 "t"; LNew (Some 0); LTreeId 1 6; LTreeName 1 "sub"], (LTreeName 0 "u"), [LSetLevel 30].
      split; [reflexivity |]. split; [reflexivity |]. intros o b I E. unfold sets_name in E. subst o. cbn in I. intuition discriminate.
  - exists [LNew (Some 0); LTreeId 0 5; LTreeName 0 "t"], [LTreeId 1 6; LTreeName 1 "sub"; LTreeName 0 "u"; LSetLevel 30].
    split; [reflexivity | split; [reflexivity |]]. split.
    + left. exists [], (LTreeId 1 6), [LTreeName 1 "sub"; LTreeName 0 "u"; LSetLevel 30]. split; [reflexivity |]. split; [exists 6; auto |].
      intros o b I (t & _ & ->). cbn in I. intuition discriminate.
    + left. exists [LTreeId 1 6], (LTreeName 1 "sub"), [LTreeName 0 "u"; LSetLevel 30].
      split; [reflexivity |]. split; [reflexivity |]. intros o b I E. unfold sets_name in E. subst o. cbn in I. intuition discriminate.
  - rewrite <- inactive_appears. reflexivity.
  - rewrite <- inactive_appears. discriminate.
Qed.
Example demo_log_runs :
  published (demo_log ++ [LNode (Some 1) WARN 3 "leaf" "low" false [demo_frame]; LNode (Some 0) INFO 3 "leaf" "x" false [demo_frame];
    LManager 0 ERROR "bad" false [demo_frame]]) =
  [(0, mkLog 30 "low" (Some 6) "sub" (Some 3) "leaf" demo_frame); (0, mkLog 40 "bad" (Some 5) "u" None "" demo_frame)].
Proof. reflexivity. Qed.
Definition demo_word (c : ascii) : bool :=
  let n := nat_of_ascii c in
  ((48 <=? n) && (n <=? 57)) || ((65 <=? n) && (n <=? 90)) || (n =? 95) || ((97 <=? n) && (n <=? 122)).
Fixpoint demo_id (n : nat) : string := match n with 0 => "0" | S n => String "-" (demo_id n) end.
Example demo_names :
  ros_path demo_word demo_id "bt" (Some (1, "my tree!? x"%string, Some (0, "a.b"%string))) = "bt.my_tree_x(-0).a_b(0)"%string /\
  demo_word "."%char = false /\ demo_word "("%char = false /\
  (forall i j, demo_id i = demo_id j -> i = j) /\ (forall i, ~ occurs "."%char (demo_id i)).
Proof.
  split; [reflexivity | split; [reflexivity | split; [reflexivity |]]]. split.
  - induction i as [| i IH]; intros [| j] E; try discriminate E; [reflexivity |]. injection E as E. f_equal. auto.
  - induction i as [| i IH]; cbn [demo_id occurs]; intros [E | O]; try discriminate E; auto.
Qed.
