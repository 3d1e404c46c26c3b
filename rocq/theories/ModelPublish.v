(** Model of what is published about the data of a tree:
    /repo/ros_bt_py/ros_bt_py/data_flow_manager.py:186-227,
    /repo/ros_bt_py/ros_bt_py/tree_exec_manager.py:550-583, 944-954, 1457-1465.
    No proofs in this file. *)
From Coq Require Import List String Ascii ZArith Bool Arith.
From Verif Require Import Base ModelData ModelTree ModelSubtreeNode ModelJson.
Import ListNotations.
Local Open Scope string_scope.

(** ---- WiringData (/repo/ros_bt_py_interfaces/msg/WiringData.msg) ---- *)

(** [wd_types]: source_type and target_type, [None] if they were not assigned.  WiringData.msg. *)
Record wdata : Set := mkWD {
  wd_src : nid; wd_skey : string; wd_tgt : nid; wd_tkey : string;
  wd_types : option (tmsg * tmsg);
  wd_text : option json;
  wd_current : bool
}.

Section Data.
Context {E : Type}.
Variable r : ros.
Variable fuel : nat.

(** DataFlowManager._get_wiring_data (data_flow_manager.py:186-213).  [self.nodes] are the
    nodes given to initialize, those that have an entry in [self.connections].  What
    serialize_value raises is no KeyError and is passed on. *)
Definition wiring_data (w : world E) (n : nid) (k : conn) : res wdata :=
  let blank := Ok (mkWD n (k_src k) (k_tid k) (k_tkey k) None None false) in
  match w_conns w n with
  | None => blank
  | Some _ =>
      match dget (k_src k) (w_outs w n) with
      | None => blank
      | Some s =>
          match w_conns w (k_tid k) with
          | None => blank
          | Some _ =>
              match dget (k_tkey k) (w_ins w (k_tid k)) with
              | None => blank
              | Some t =>
                  match serialize_value r fuel s with
                  | Ok text =>
                      match serialize_value r fuel t with
                      | Ok text' =>
                          Ok (mkWD n (k_src k) (k_tid k) (k_tkey k)
                                (Some (serialize_type (runtime_type s), serialize_type (runtime_type t)))
                                text (text_eqb text text'))
                      | _ => Raise
                      end
                  | _ => Raise
                  end
              end
          end
      end
  end.

(** get_wiring_data (215-227).  [ids] are the keys of [self.connections], in the order of
    the dictionary, which is the order of [self.nodes] (91). *)
Fixpoint collect (l : list (res wdata)) : res (list wdata) :=
  match l with
  | [] => Ok []
  | Ok d :: q => match collect q with Ok ds => Ok (d :: ds) | Err e => Err e | Raise => Raise end
  | Err e :: _ => Err e
  | Raise :: _ => Raise
  end.
Definition get_wiring_data (ids : list nid) (w : world E) : res (list wdata) :=
  collect (flat_map (fun n => match w_conns w n with
                              | Some l => map (wiring_data w n) l
                              | None => []
                              end) ids).

(** state_to_msg (tree_exec_manager.py:1457-1461; node.py:1217-1218): the states of
    [self.nodes]. *)
Definition node_states (ids : list nid) (w : world E) : list (nid * state) :=
  map (fun n => (n, w_st w n)) ids.
End Data.

(** ---- Switching data publishing on and off ---- *)

(** A message on the data topic: the data of the trees, or the empty list.
    tree_exec_manager.py:565-582. *)
Inductive dmsg (M : Type) : Type := Data (m : M) | NoData.
Arguments Data {M}. Arguments NoData {M}.

(** Where a thread is in publish_data (tree_exec_manager.py:565-582) or in set_publish_data
    (944-954).  Requests are served in a reentrant group of callbacks (tree_node.py:306,
    368-373), and the tree is ticked by a thread of its own. *)
Inductive place : Set :=
| PData                     (* at line 577 *)
| PSend                     (* at line 578, the test was passed *)
| PSet (v : bool)           (* at line 945 *)
| PNested (v : bool)        (* at line 946 *)
| PClear (v : bool)         (* at line 949 *)
| PEnd.

(** tree_exec_manager.py:565-582, 944-953. *)
Record pubsys (M : Type) : Type := mkP {
  p_on : bool;                   (* enable_publish_data *)
  p_nested : bool;               (* _publish_data of the subtree managers *)
  p_log : list (dmsg M);         (* messages sent, the latest first *)
  p_threads : list place
}.
Arguments mkP {M}. Arguments p_on {M}. Arguments p_nested {M}. Arguments p_log {M}. Arguments p_threads {M}.

(** One step of a thread; [m] are the data of the tree at this moment.  [publish_tree_data]
    is set.  Simplification: building the message and sending it is one step; the state
    message that follows (582) is left out. *)
Definition pub_step {M} (m : M) (on nested : bool) (x : place) : bool * bool * list (dmsg M) * place :=
  match x with
  | PData => (on, nested, [], if on then PSend else PEnd)
  | PSend => (on, nested, [Data m], PEnd)
  | PSet v => (v, nested, [], PNested v)
  | PNested v => (on, v, [], PClear v)
  | PClear v => (on, nested, if negb v then [NoData] else [], PEnd)
  | PEnd => (on, nested, [], PEnd)
  end.

(** What happens: a thread enters publish_data or set_publish_data, or makes a step.
    tree_exec_manager.py:565-582, 944-953. *)
Inductive pubs {M} : pubsys M -> pubsys M -> Prop :=
| pubs_call : forall s x, x = PData \/ (exists v, x = PSet v) ->
    pubs s (mkP (p_on s) (p_nested s) (p_log s) (p_threads s ++ [x]))
| pubs_step : forall s pre x post m,
    p_threads s = (pre ++ x :: post)%list ->
    pubs s (let '(on, nested, out, x') := pub_step m (p_on s) (p_nested s) x in
            mkP on nested (out ++ p_log s) (pre ++ x' :: post)).
