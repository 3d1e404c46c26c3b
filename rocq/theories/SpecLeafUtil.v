(** Vocabulary for the utility of ROS leaf nodes (C106). *)
From Coq Require Import String ZArith QArith Bool Arith List.
From Verif Require Import Base ModelData ModelTree ModelLeaf SpecLeaf ModelLeafUtil.
Import ListNotations.
Local Open Scope string_scope.
Local Open Scope list_scope.

(** The node can do its job and doing it costs nothing. *)
Definition willing (b : bounds) : Prop :=
  can_execute b = true /\
  has_ls b = true /\ ls b = 0%Q /\ has_us b = true /\ us b = 0%Q /\
  has_lf b = true /\ lf b = 0%Q /\ has_uf b = true /\ uf b = 0%Q.

Section Node.
Context {X R : Type}.
Variables (f : leafcode X) (u : iomap -> X -> R -> res bounds).
Variables (init : X -> Prop) (out : X -> X -> Prop).

(** A leaf of this class. *)
Definition ros_node (c : nid) (name : string) : obj (X * R) := make_obj (ros_env f u) c KLeaf name [].

(** Histories of one such node, oldest operation first.  Between operations ROS does what
    [out] allows and the graph changes in any way. *)
Inductive ros_history (c : nid) (name : string) : list (item (X * R)) -> world (X * R) -> Prop :=
| rh_new w : w_st w c = UNINITIALIZED -> init (fst (w_ext w)) -> ros_history c name [] w
| rh_else l w w' : ros_history c name l w -> w_st w' c = w_st w c -> out (fst (w_ext w)) (fst (w_ext w')) ->
    ros_history c name l w'
| rh_op l w o w' r : ros_history c name l w -> call o (ros_node c name) w = (w', r) ->
    ros_history c name (l ++ [mkItem w o w' r]) w'.

(** An Optional [n] whose only child [c] is such a node. *)
Definition optional_over (n : nid) (name : string) (c : nid) (cname : string) : obj (X * R) :=
  make_obj (ros_env f u) n KOptional name [ros_node c cname].

(** Histories of the Optional: both nodes start UNINITIALIZED; between operations the rest
    of the tree and the graph change in any way, but nothing else operates on the two. *)
Inductive optional_history (n : nid) (name : string) (c : nid) (cname : string)
  : list (item (X * R)) -> world (X * R) -> Prop :=
| oh_new w : w_st w n = UNINITIALIZED -> w_st w c = UNINITIALIZED -> init (fst (w_ext w)) ->
    optional_history n name c cname [] w
| oh_else l w w' : optional_history n name c cname l w ->
    w_st w' n = w_st w n -> w_mem w' n = w_mem w n -> w_st w' c = w_st w c ->
    out (fst (w_ext w)) (fst (w_ext w')) -> optional_history n name c cname l w'
| oh_op l w o w' r : optional_history n name c cname l w -> call o (optional_over n name c cname) w = (w', r) ->
    optional_history n name c cname (l ++ [mkItem w o w' r]) w'.
End Node.

(** No tick since the node was created, or since its last successful setup or reset. *)
Definition no_ticks {Y} (l : list (item Y)) : Prop := forall it, In it l -> i_op it <> OTick.
Definition restarted {Y} (it : item Y) : Prop :=
  (i_op it = OSetup \/ i_op it = OReset) /\ exists s, i_res it = Ok s.
Definition not_ticked_yet {Y} (l : list (item Y)) : Prop :=
  no_ticks l \/ exists pre it post, l = pre ++ it :: post /\ restarted it /\ no_ticks post.
(** The last operation but unticks was a tick that returned a state. *)
Definition ticked_last {Y} (l : list (item Y)) : Prop :=
  exists pre it post, l = pre ++ it :: post /\ i_op it = OTick /\ (exists s, i_res it = Ok s) /\
    forall i, In i post -> i_op i = OUntick.

(** The input topic_type holds a message class, as RosTopicType only accepts. *)
Definition holds_class (ins : iomap) : Prop :=
  forall v, io_value ins "topic_type" = Ok v -> exists k name, v = VType k name.

(** A node that nobody has set up. *)
Definition never_set_up (s : state) : Prop := s = UNINITIALIZED \/ s = SHUTDOWN \/ s = BROKEN.

(** An action node that was never set up has no client (action.py:89). *)
Definition new_action {Goal Res} (x : action Goal Res) : Prop := action_init x /\ ac_client x = false.
(** The two classes of topic subscribers. *)
Definition topic_class (mem : bool) : leafcode topic := if mem then memory_leaf else subscriber_leaf.
