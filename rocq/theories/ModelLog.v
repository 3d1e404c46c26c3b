(** Model of the logging manager (logging_manager.py:50-243) and of the logging methods of
    nodes (node.py:303-305, 874-958).  Files are below /repo/ros_bt_py/ros_bt_py.

    Simplifications: a text is a [string]; a uuid is a [nat]; the time stamp of a message is
    left out; the two [print] calls (129, 138) are left out; what the ROS logger does with a
    message is not modelled, only which logger gets it.  No proofs in this file. *)
From Coq Require Import String Ascii Bool Arith List.
From Verif Require Import Base.
Import ListNotations.
Local Open Scope string_scope.
Local Open Scope list_scope.

(** The constants of BTLogMessage.msg. *)
Inductive severity : Set := DEBUG | INFO | WARN | ERROR | FATAL.
Definition number (s : severity) : nat :=
  match s with DEBUG => 10 | INFO => 20 | WARN => 30 | ERROR => 40 | FATAL => 50 end.

(** A frame of the Python stack: file, function, line. *)
Record frame : Set := mkFr { fr_file : string; fr_fun : string; fr_line : nat }.

(** BTLogMessage; [None] for an id: the empty text.  logging_manager.py:108-141. *)
Record logmsg : Set := mkLog
  { lm_level : nat; lm_msg : string; lm_tree_id : option nat; lm_tree_name : string;
    lm_node_id : option nat; lm_node_name : string; lm_frame : frame }.

(** One LoggingManager (55-63); [lg_cb]: the topic its callback publishes on. *)
Record lman : Set := mkLM { lg_cb : option nat; lg_tree_id : option nat; lg_tree_name : string }.

(** The process: the level kept in the class (53), the managers, what was published on which
    topic and which ROS logger (tree, node) got which text. *)
Record lworld : Set := mkLW
  { lw_min : nat; lw_mans : list lman; lw_pub : list (nat * logmsg);
    lw_ros : list (option (nat * string * option (nat * string)) * severity * string) }.

(** logging_manager.py:55-63. *)
Definition lstart : lworld := mkLW (number INFO) [] [] [].

(** log_level_inactive (80-82). *)
Definition inactive (w : lworld) (s : severity) : bool := (number s <? lw_min w)%nat.

(** The stack in [log] (128): the frame of [log] itself, then those of its callers. *)
Definition pick (stacklevel : option nat) (stack : list frame) (outermost : frame) : frame :=
  match stacklevel with
  | None => last stack outermost                                        (* < 0 *)
  | Some k => if (length stack <=? k)%nat then last stack outermost else nth k stack outermost
  end.

(** get_ros_logger (92-106): the child loggers below that of the ROS node. *)
Definition ros_logger (m : lman) (nd : option nat) (nname : string) : option (nat * string * option (nat * string)) :=
  match lg_tree_id m with
  | None => None
  | Some t => Some (t, lg_tree_name m, match nd with None => None | Some n => Some (n, nname) end)
  end.

(** log (108-141). *)
Definition log (m : lman) (level : nat) (msg : string) (nd : option nat) (nname : string)
    (stacklevel : option nat) (callers : list frame) (w : lworld) : lworld :=
  let here := mkFr "logging_manager.py" "log" 128 in
  let fr := pick stacklevel (here :: callers) here in
  let x := mkLog level msg (lg_tree_id m) (lg_tree_name m) nd nname fr in
  match lg_cb m with
  | None => w
  | Some c => mkLW (lw_min w) (lw_mans w) (lw_pub w ++ [(c, x)]) (lw_ros w)
  end.

(** debug, info, warn, error and fatal (143-243), which differ in the level only. *)
Definition line_of (s : severity) : nat :=
  match s with DEBUG => 155 | INFO => 175 | WARN => 195 | ERROR => 215 | FATAL => 237 end.
Definition name_of (s : severity) : string :=
  match s with DEBUG => "debug" | INFO => "info" | WARN => "warn" | ERROR => "error" | FATAL => "fatal" end.
Definition emit (s : severity) (m : lman) (msg : string) (nd : option nat) (nname : string)
    (stacklevel : option nat) (internal : bool) (callers : list frame) (w : lworld) : lworld :=
  if inactive w s then w
  else
    let w := mkLW (lw_min w) (lw_mans w) (lw_pub w) (lw_ros w ++ [(ros_logger m nd nname, s, msg)]) in
    if internal then w
    else log m (number s) msg nd nname stacklevel (mkFr "logging_manager.py" (name_of s) (line_of s) :: callers) w.

(** logdebug ... logfatal of a node (node.py:874-958) with its default [stacklevel]. *)
Definition node_line (s : severity) : nat :=
  match s with DEBUG => 883 | INFO => 900 | WARN => 917 | ERROR => 934 | FATAL => 951 end.
Definition node_fun (s : severity) : string :=
  match s with DEBUG => "logdebug" | INFO => "loginfo" | WARN => "logwarn" | ERROR => "logerr" | FATAL => "logfatal" end.
Definition node_log (s : severity) (m : option lman) (n : nat) (nname : string) (msg : string)
    (internal : bool) (callers : list frame) (w : lworld) : lworld :=
  match m with
  | None => w
  | Some m => emit s m msg (Some n) nname (Some 3) internal (mkFr "node.py" (node_fun s) (node_line s) :: callers) w
  end.

(** What can happen.  Managers are numbered in the order in which they are made.
    [callers]: the frames around the call, innermost first, so the first is the one of the
    caller. *)
Inductive lop : Set :=
| LSetLevel (l : nat)                                  (* set_min_log_level (71-78) *)
| LNew (cb : option nat)                               (* LoggingManager(...) (55-63) *)
| LTreeId (i : nat) (t : nat)                          (* set_tree_id (65-66) *)
| LTreeName (i : nat) (s : string)                     (* set_tree_name (68-69) *)
| LManager (i : nat) (s : severity) (msg : string) (internal : bool) (callers : list frame)
                                                       (* tree manager: get_logger().warn(msg) *)
| LNode (i : option nat) (s : severity) (n : nat) (nname msg : string) (internal : bool) (callers : list frame).
                                                       (* node.logwarn(msg) *)

(** Helper; no code of its own. *)
Fixpoint change {A} (i : nat) (f : A -> A) (l : list A) : list A :=
  match l, i with
  | [], _ => []
  | x :: l, 0 => f x :: l
  | x :: l, S i => x :: change i f l
  end.

(** logging_manager.py:55-243, node.py:874-958. *)
Definition lstep (w : lworld) (o : lop) : lworld :=
  match o with
  | LSetLevel l => mkLW l (lw_mans w) (lw_pub w) (lw_ros w)
  | LNew cb => mkLW (lw_min w) (lw_mans w ++ [mkLM cb None ""]) (lw_pub w) (lw_ros w)
  | LTreeId i t =>
      mkLW (lw_min w) (change i (fun m => mkLM (lg_cb m) (Some t) (lg_tree_name m)) (lw_mans w)) (lw_pub w) (lw_ros w)
  | LTreeName i s =>
      mkLW (lw_min w) (change i (fun m => mkLM (lg_cb m) (lg_tree_id m) s) (lw_mans w)) (lw_pub w) (lw_ros w)
  | LManager i s msg internal callers =>
      match nth_error (lw_mans w) i with
      | None => w
      | Some m => emit s m msg None "" (Some 2) internal callers w
      end
  | LNode i s n nname msg internal callers =>
      match i with
      | None => node_log s None n nname msg internal callers w
      | Some i =>
          match nth_error (lw_mans w) i with
          | None => w
          | Some m => node_log s (Some m) n nname msg internal callers w
          end
      end
  end.
(** Helper; no code of its own. *)
Definition lrun (h : list lop) : lworld := fold_left lstep h lstart.

(** ** The names of the ROS loggers *)

Section Names.
(** [\w] of the module [re], and [str] of a uuid. *)
Variable wordc : ascii -> bool.
Variable show_id : nat -> string.

(** [re.sub(r"\W+", "_", name)] (89): [inside]: the character before was replaced. *)
Fixpoint clean (inside : bool) (s : string) : string :=
  match s with
  | EmptyString => EmptyString
  | String c s =>
      if wordc c then String c (clean false s)
      else if inside then clean true s else String "_" (clean true s)
  end.
(** get_ros_log_name (84-90). *)
Definition ros_log_name (i : nat) (name : string) : string :=
  (clean false name ++ "(" ++ show_id i ++ ")")%string.
(** [get_child] of a ROS logger: the names joined by a dot. *)
Definition ros_path (base : string) (p : option (nat * string * option (nat * string))) : string :=
  match p with
  | None => base
  | Some (t, tn, None) => (base ++ "." ++ ros_log_name t tn)%string
  | Some (t, tn, Some (n, nn)) => (base ++ "." ++ ros_log_name t tn ++ "." ++ ros_log_name n nn)%string
  end.
End Names.
