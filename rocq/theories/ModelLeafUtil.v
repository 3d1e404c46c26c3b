(** What the ROS leaf nodes answer when they are asked for their utility.  The operations
    of these nodes are in ModelLeaf.v; here they are paired with the part of the ROS graph
    that only the utility looks at. *)
From Coq Require Import String ZArith QArith Bool Arith List.
From Verif Require Import Base ModelData ModelTree ModelLeaf.
Import ListNotations.
Local Open Scope string_scope.
Local Open Scope list_scope.

(** The operations of a leaf class do not look at the graph [R]. *)
Definition with_ros {X R : Type} (f : leafcode X) : leafcode (X * R) := fun o st ins e =>
  let '(x, ws, r) := f o st ins (fst e) in ((x, snd e), ws, r).
(** A tree whose leaves are of the class [f], with the utility [u] (node.py:721-745:
    calculate_utility only logs and calls _do_calculate_utility). *)
Definition ros_env {X R : Type} (f : leafcode X) (u : iomap -> X -> R -> res bounds) : env (X * R) :=
  mkEnv (X * R) (fun o _ st ins e => with_ros f o st ins e) (fun _ ins e => u ins (fst e) (snd e)) (fun e => (e, 0%Z)).

(** ServiceBase._do_calculate_utility (service.py:239-261); [ready]: what
    service_is_ready() returns.  Left out: a node without a ROS node (it cannot be set up). *)
Definition service_util {Req Resp : Type} (_ : iomap) (x : service Req Resp) (ready : bool) : res bounds :=
  if negb (sv_client x) then Ok bounds0
  else if ready then Ok bounds_free
  else Ok bounds0.

(** ActionBase._do_calculate_utility (action.py:413-429); [ready]: server_is_ready(). *)
Definition action_util {Goal Res : Type} (_ : iomap) (x : action Goal Res) (ready : bool) : res bounds :=
  if negb (ac_client x) then Ok bounds0
  else if negb ready then Ok bounds0
  else Ok bounds_free.

(** A QoSProfile; [q_rest]: the policies a node does not set, 0 for the defaults.
    topic.py:186-247. *)
Record qos : Set := mkQos { q_reliable : bool; q_transient : bool; q_depth : Z; q_rest : nat }.
(** Python: == on QoSProfile. *)
Definition qos_eqb (p q : qos) : bool :=
  Bool.eqb (q_reliable p) (q_reliable q) && Bool.eqb (q_transient p) (q_transient q) &&
  Z.eqb (q_depth p) (q_depth q) && (q_rest p =? q_rest q)%nat.
(** The publishers of a topic: the name of the message type and the profile
    (get_publishers_info_by_topic), and resolve_topic_name.  [g_checks]: whether message
    constructors reject unknown fields (always before ROS Jazzy, later only if
    ROS_PYTHON_CHECK_FIELDS is set).  The ROS graph as topic.py:186-247 sees it. *)
Record graph : Set := mkGraph {
  g_resolve : string -> string; g_publishers : string -> list (string * qos); g_checks : bool }.

(** [endpoint.topic_type == topic_type]: the left side is a str.  topic.py:186-247. *)
Definition str_eq_value (s : string) (v : value) : bool :=
  match v with VStr s' => String.eqb s s' | _ => false end.

(** The answer in the loop (topic.py:235-246, 438-449).  The constructor is called with
    has_lower_bound_failre. *)
Definition topic_found (checks : bool) : res bounds :=
  if checks then Raise else Ok (mkBounds true true 0%Q true 0%Q false 0%Q true 0%Q).

(** TopicSubscriber._do_calculate_utility and TopicMemorySubscriber's (topic.py:186-247,
    389-450; the same text). *)
Definition topic_util (ins : iomap) (_ : topic) (g : graph) : res bounds :=
  match io_value_as as_bool ins "reliable" with Err e => Err e | Raise => Raise | Ok r =>
  match io_value_as as_bool ins "transient_local" with Err e => Err e | Raise => Raise | Ok t =>
  match io_value_as as_int ins "depth" with Err e => Err e | Raise => Raise | Ok d =>
  match io_value ins "topic_type" with Err e => Err e | Raise => Raise | Ok ty =>
  match io_value_as as_str ins "topic_name" with Err e => Err e | Raise => Raise | Ok name =>
    if existsb (fun ep => str_eq_value (fst ep) ty && qos_eqb (snd ep) (mkQos r t d 0))
         (g_publishers g (g_resolve g name))
    then topic_found (g_checks g)
    else Ok bounds0
  end end end end end.

(** RosParam._do_calculate_utility (param.py:99-100). *)
Definition param_util {X R : Type} (_ : iomap) (_ : X) (_ : R) : res bounds := Ok bounds0.
