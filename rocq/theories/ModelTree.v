(** Model of the node life cycle (/repo/ros_bt_py/ros_bt_py/node.py), of the data
    flow between nodes (data_flow_manager.py, node_config.py) and of the flow
    control and decorator nodes (nodes/*.py, ros_nodes/throttle.py,
    ros_nodes/enum_switch.py).  No proofs in this file. *)
From Coq Require Import List String Ascii ZArith Bool Arith.
From Coq.Floats Require Import SpecFloat.
From Verif Require Import Base ModelData ModelUtility.
Import ListNotations.
Local Open Scope nat_scope.

(** Input or output map of a node: NodeDataMap (node_config.py:42-56). *)
Definition iomap := list (string * container).

(** A Connection (data_flow_manager.py:47-58). *)
Record conn : Set := mkConn { k_src : string; k_tid : nid; k_tkey : string }.

(** The five life-cycle methods of a node.  node.py:334-713. *)
Inductive op : Set := OSetup | OTick | OUntick | OReset | OShutdown.

(** Python attributes that node classes keep between calls.  Each class uses
    only some of them:
    [a_lrc] last_running_child (sequence.py:185, fallback.py:249);
    [a_count], [a_limit] _retry_count/_retry_limit, _repeat_count/_num_repeats
    (decorators.py:274-279, 342-347); [a_needed], [a_tol] _needed_successes,
    _tolerate_failures (parallel.py:77, 332); [a_ris] _running_is_success
    (decorators.py:94); [a_exec] execute_child (decorators.py:611);
    [a_last] _last_tick (throttle.py:59) or _last_success_tick (throttle.py:124);
    [a_lastres] _last_result (throttle.py:60); [a_interval] _tick_interval;
    [a_counter], [a_outch] counter, output_changed (list.py:185-187);
    [a_stale] succeed_on_stale_data (getters.py:64).
    Simplification: attributes exist from the start; reading one before _do_setup
    is an AttributeError in Python, which the state checks of node.py prevent. *)
Record attrs : Set := mkA {
  a_lrc : nat;
  a_count : Z; a_limit : Z;
  a_needed : Z; a_tol : Z;
  a_ris : bool; a_exec : bool;
  a_last : option Z;
  a_lastres : res state;
  a_interval : spec_float;
  a_counter : nat; a_outch : bool;
  a_stale : bool
}.

(** Everything node methods can read and change.  [w_conns n] is
    [data_flow_manager.connections[n]], [None] for an id the data flow manager
    does not know; [w_outg] is outgoing_data; [w_ext] is the world outside the
    tree (ROS, clocks, private state of leaf nodes).
    Simplification: every node has a data flow manager.
    node.py:132-263, data_flow_manager.py:60-84. *)
Record world (E : Type) : Type := mkW {
  w_st : nid -> state;
  w_mem : nid -> attrs;
  w_ins : nid -> iomap;
  w_outs : nid -> iomap;
  w_conns : nid -> option (list conn);
  w_outg : list (nid * string * container);
  w_ext : E
}.
Arguments mkW {E}. Arguments w_st {E}. Arguments w_mem {E}. Arguments w_ins {E}.
Arguments w_outs {E}. Arguments w_conns {E}. Arguments w_outg {E}. Arguments w_ext {E}.

(** What the model leaves open: the code of leaf nodes (any function of their
    state, inputs and the outside world, which may change the outside world,
    write outputs and return any result), the utility of leaf nodes, and the
    ROS clock.  node.py:392-769. *)
Record env (E : Type) : Type := mkEnv {
  ev_leaf : op -> nid -> state -> iomap -> E -> E * list (string * value) * res state;
  ev_util : nid -> iomap -> E -> res bounds;
  ev_now : E -> E * Z
}.
Arguments ev_leaf {E}. Arguments ev_util {E}. Arguments ev_now {E}.

Section Tree.
Context {E : Type}.
Notation W := (world E).

(** Field update; no code of its own. *)
Definition set_st (w : W) (n : nid) (s : state) : W :=
  mkW (upd (w_st w) n s) (w_mem w) (w_ins w) (w_outs w) (w_conns w) (w_outg w) (w_ext w).
(** Field update; no code of its own. *)
Definition set_mem (w : W) (n : nid) (a : attrs) : W :=
  mkW (w_st w) (upd (w_mem w) n a) (w_ins w) (w_outs w) (w_conns w) (w_outg w) (w_ext w).
(** Field update; no code of its own. *)
Definition set_ins (w : W) (n : nid) (m : iomap) : W :=
  mkW (w_st w) (w_mem w) (upd (w_ins w) n m) (w_outs w) (w_conns w) (w_outg w) (w_ext w).
(** Field update; no code of its own. *)
Definition set_outs (w : W) (n : nid) (m : iomap) : W :=
  mkW (w_st w) (w_mem w) (w_ins w) (upd (w_outs w) n m) (w_conns w) (w_outg w) (w_ext w).
(** Field update; no code of its own. *)
Definition set_outg (w : W) (l : list (nid * string * container)) : W :=
  mkW (w_st w) (w_mem w) (w_ins w) (w_outs w) (w_conns w) l (w_ext w).
(** Field update; no code of its own. *)
Definition set_ext (w : W) (e : E) : W :=
  mkW (w_st w) (w_mem w) (w_ins w) (w_outs w) (w_conns w) (w_outg w) e.

(** Updates of one attribute of a node object.  Field update; no code of its own. *)
Definition mem_lrc (w : W) n x := let a := w_mem w n in
  set_mem w n (mkA x (a_count a) (a_limit a) (a_needed a) (a_tol a) (a_ris a) (a_exec a)
    (a_last a) (a_lastres a) (a_interval a) (a_counter a) (a_outch a) (a_stale a)).
(** Field update; no code of its own. *)
Definition mem_count (w : W) n x := let a := w_mem w n in
  set_mem w n (mkA (a_lrc a) x (a_limit a) (a_needed a) (a_tol a) (a_ris a) (a_exec a)
    (a_last a) (a_lastres a) (a_interval a) (a_counter a) (a_outch a) (a_stale a)).
(** Field update; no code of its own. *)
Definition mem_limit (w : W) n x := let a := w_mem w n in
  set_mem w n (mkA (a_lrc a) (a_count a) x (a_needed a) (a_tol a) (a_ris a) (a_exec a)
    (a_last a) (a_lastres a) (a_interval a) (a_counter a) (a_outch a) (a_stale a)).
(** Field update; no code of its own. *)
Definition mem_needed (w : W) n x := let a := w_mem w n in
  set_mem w n (mkA (a_lrc a) (a_count a) (a_limit a) x (a_tol a) (a_ris a) (a_exec a)
    (a_last a) (a_lastres a) (a_interval a) (a_counter a) (a_outch a) (a_stale a)).
(** Field update; no code of its own. *)
Definition mem_tol (w : W) n x := let a := w_mem w n in
  set_mem w n (mkA (a_lrc a) (a_count a) (a_limit a) (a_needed a) x (a_ris a) (a_exec a)
    (a_last a) (a_lastres a) (a_interval a) (a_counter a) (a_outch a) (a_stale a)).
(** Field update; no code of its own. *)
Definition mem_ris (w : W) n x := let a := w_mem w n in
  set_mem w n (mkA (a_lrc a) (a_count a) (a_limit a) (a_needed a) (a_tol a) x (a_exec a)
    (a_last a) (a_lastres a) (a_interval a) (a_counter a) (a_outch a) (a_stale a)).
(** Field update; no code of its own. *)
Definition mem_exec (w : W) n x := let a := w_mem w n in
  set_mem w n (mkA (a_lrc a) (a_count a) (a_limit a) (a_needed a) (a_tol a) (a_ris a) x
    (a_last a) (a_lastres a) (a_interval a) (a_counter a) (a_outch a) (a_stale a)).
(** Field update; no code of its own. *)
Definition mem_last (w : W) n x := let a := w_mem w n in
  set_mem w n (mkA (a_lrc a) (a_count a) (a_limit a) (a_needed a) (a_tol a) (a_ris a) (a_exec a)
    x (a_lastres a) (a_interval a) (a_counter a) (a_outch a) (a_stale a)).
(** Field update; no code of its own. *)
Definition mem_lastres (w : W) n x := let a := w_mem w n in
  set_mem w n (mkA (a_lrc a) (a_count a) (a_limit a) (a_needed a) (a_tol a) (a_ris a) (a_exec a)
    (a_last a) x (a_interval a) (a_counter a) (a_outch a) (a_stale a)).
(** Field update; no code of its own. *)
Definition mem_interval (w : W) n x := let a := w_mem w n in
  set_mem w n (mkA (a_lrc a) (a_count a) (a_limit a) (a_needed a) (a_tol a) (a_ris a) (a_exec a)
    (a_last a) (a_lastres a) x (a_counter a) (a_outch a) (a_stale a)).
(** Field update; no code of its own. *)
Definition mem_iter (w : W) n (c : nat) (oc : bool) := let a := w_mem w n in
  set_mem w n (mkA (a_lrc a) (a_count a) (a_limit a) (a_needed a) (a_tol a) (a_ris a) (a_exec a)
    (a_last a) (a_lastres a) (a_interval a) c oc (a_stale a)).
(** Field update; no code of its own. *)
Definition mem_stale (w : W) n x := let a := w_mem w n in
  set_mem w n (mkA (a_lrc a) (a_count a) (a_limit a) (a_needed a) (a_tol a) (a_ris a) (a_exec a)
    (a_last a) (a_lastres a) (a_interval a) (a_counter a) (a_outch a) x).

(** A call that continues only on [Ok]: the ubiquitous
    [match x: case Err(e): return Err(e)  case Ok(v): ...].  Python. *)
Definition bind {A B} (x : W * res A) (k : A -> W -> W * res B) : W * res B :=
  match x with
  | (w, Ok a) => k a w
  | (w, Err e) => (w, Err e)
  | (w, Raise) => (w, Raise)
  end.

(** ---- Input and output maps (node_config.py:62-132) ---- *)

(** NodeInputMap.get_value (node_config.py:64-76). *)
Definition in_value (w : W) (n : nid) (key : string) : res value :=
  match dget key (w_ins w n) with
  | None => Err EConfig
  | Some c => match c_val c with Some v => Ok v | None => Err EConfig end
  end.

(** NodeInputMap.get_value_as (node_config.py:78-92). *)
Definition in_value_as {A} (conv : value -> option A) (w : W) (n : nid) (key : string) : res A :=
  match dget key (w_ins w n) with
  | None => Err EConfig
  | Some c => match c_val c with
              | Some v => match conv v with Some a => Ok a | None => Err EConfig end
              | None => Err EConfig
              end
  end.

(** NodeInputMap.any_updated (node_config.py:94-104). *)
Fixpoint any_updated (w : W) (n : nid) (keys : list string) : res bool :=
  match keys with
  | [] => Ok false
  | k :: r =>
      match dget k (w_ins w n) with
      | None => Err EConfig
      | Some c => res_map (fun b => c_upd c || b) (any_updated w n r)
      end
  end.

(** NodeOutputMap.set_value (node_config.py:109-123). *)
Definition out_set (w : W) (n : nid) (key : string) (v : value) : W * res unit :=
  match dget key (w_outs w n) with
  | None => (w, Err EConfig)
  | Some c =>
      match set_value c v with
      | (c', Ok _) => (set_outs w n (dset key c' (w_outs w n)), Ok tt)
      | (c', Err _) => (set_outs w n (dset key c' (w_outs w n)), Err EConfig)
      | (c', Raise) => (set_outs w n (dset key c' (w_outs w n)), Raise)
      end
  end.

(** NodeOutputMap.set_multiple_values (node_config.py:125-132), also the order
    in which a leaf's writes are applied; the first refused write ends it. *)
Fixpoint out_set_all (w : W) (n : nid) (l : list (string * value)) : W * res unit :=
  match l with
  | [] => (w, Ok tt)
  | (k, v) :: r => bind (out_set w n k v) (fun _ w' => out_set_all w' n r)
  end.

(** Apply a function to every container of a map.  Helper; no code of its own. *)
Definition map_io (f : container -> container) (m : iomap) : iomap :=
  map (fun kc => (fst kc, f (snd kc))) m.

(** ---- DataFlowManager.push_outputs (data_flow_manager.py:114-159) ---- *)

(** Lines 120-142: one pass over the connections of the node. *)
Fixpoint push_conns (w : W) (n : nid) (l : list conn) : W * res unit :=
  match l with
  | [] => (w, Ok tt)
  | k :: r =>
      match dget (k_src k) (w_outs w n) with
      | None => (w, Err EWire)
      | Some c =>
          if negb (c_upd c) then push_conns w n r
          else match c_val c with
               | None => push_conns w n r
               | Some v =>
                   match w_conns w (k_tid k) with
                   | None => (w, Err EWire)
                   | Some _ =>
                       match dget (k_tkey k) (w_ins w (k_tid k)) with
                       | None => (w, Err EWire)
                       | Some t =>
                           match set_value t v with
                           | (t', Ok _) =>
                               push_conns (set_ins w (k_tid k)
                                 (dset (k_tkey k) t' (w_ins w (k_tid k)))) n r
                           | (_, Err e) => (w, Err e)
                           | (_, Raise) => (w, Raise)
                           end
                       end
                   end
               end
      end
  end.

(** Lookup and update in outgoing_data, keyed by f"{node_id}.{key}".
    data_flow_manager.py:114-159. *)
Fixpoint og_get (n : nid) (key : string) (l : list (nid * string * container)) : option container :=
  match l with
  | [] => None
  | (m, k, c) :: r => if Nat.eqb n m && String.eqb key k then Some c else og_get n key r
  end.
(** data_flow_manager.py:114-159. *)
Fixpoint og_set (n : nid) (key : string) (c : container) (l : list (nid * string * container)) :=
  match l with
  | [] => []
  | (m, k, c') :: r => if Nat.eqb n m && String.eqb key k then (m, k, c) :: r
                       else (m, k, c') :: og_set n key c r
  end.

(** Lines 143-158: copy updated outputs to the outgoing data of a subtree. *)
Fixpoint push_outgoing (w : W) (n : nid) (l : iomap) : W * res unit :=
  match l with
  | [] => (w, Ok tt)
  | (key, c) :: r =>
      if negb (c_upd c) then push_outgoing w n r
      else match og_get n key (w_outg w) with
           | None => push_outgoing w n r
           | Some t =>
               match c_val c with
               | None => push_outgoing w n r
               | Some v =>
                   match set_value t v with
                   | (t', Ok _) => push_outgoing (set_outg w (og_set n key t' (w_outg w))) n r
                   | (_, Err e) => (w, Err e)
                   | (_, Raise) => (w, Raise)
                   end
               end
           end
  end.

(** data_flow_manager.py:114-159. *)
Definition push_outputs (w : W) (n : nid) : W * res unit :=
  match w_conns w n with
  | None => (w, Err EWire)
  | Some l => bind (push_conns w n l) (fun _ w' => push_outgoing w' n (w_outs w' n))
  end.

(** ---- Node wrappers (node.py:334-713) ---- *)

(** What a node method does: read and change the world, return a state.  node.py:392-728. *)
Definition act := W -> W * res state.

(** Node.setup (node.py:334-390). *)
Definition node_setup (n : nid) (d : act) : act := fun w =>
  match w_st w n with
  | UNINITIALIZED | SHUTDOWN =>
      let w1 := set_ins w n (map_io (fun c => flag_updated (reset_value c)) (w_ins w n)) in
      let w2 := set_outs w1 n (map_io (fun c => reset_updated (reset_value c)) (w_outs w1 n)) in
      match d w2 with
      | (w3, Err e) => (set_st w3 n BROKEN, Err e)
      | (w3, Raise) => (w3, Raise)
      | (w3, Ok s) =>
          let w4 := set_st w3 n s in
          if state_in s [IDLE] then (w4, Ok s) else (w4, Err EState)
      end
  | _ => (w, Err EGuard)
  end.

(** Node.tick (node.py:407-482). *)
Definition node_tick (n : nid) (d : act) : act := fun w =>
  match w_st w n with
  | UNINITIALIZED | SHUTDOWN | BROKEN => (w, Err EGuard)
  | _ =>
      if negb (forallb (fun kc => has_value (snd kc)) (w_ins w n))
      then (set_st w n BROKEN, Err EUnset)
      else
        let w1 := set_outs w n (map_io reset_updated (w_outs w n)) in
        match d w1 with
        | (w2, Err e) => (set_st w2 n BROKEN, Err e)
        | (w2, Raise) => (w2, Raise)
        | (w2, Ok s) =>
            let w3 := set_st w2 n s in
            let w4 := set_ins w3 n (map_io reset_updated (w_ins w3 n)) in
            if state_in s [RUNNING; SUCCEEDED; FAILED; ASSIGNED; UNASSIGNED] then
              match push_outputs w4 n with
              | (w5, Err e) => (set_st w5 n BROKEN, Err e)
              | (w5, Raise) => (w5, Raise)
              | (w5, Ok _) => (w5, Ok (w_st w5 n))
              end
            else (w4, Err EState)
        end
  end.

(** Node.untick (node.py:514-558). *)
Definition node_untick (n : nid) (d : act) : act := fun w =>
  match w_st w n with
  | UNINITIALIZED | SHUTDOWN | BROKEN => (w, Err EGuard)
  | _ =>
      match d w with
      | (w1, Err e) => (set_st w1 n BROKEN, Err e)
      | (w1, Raise) => (w1, Raise)
      | (w1, Ok s) =>
          let w2 := set_st w1 n s in
          if state_in s [IDLE; PAUSED] then
            (set_outs w2 n (map_io reset_updated (w_outs w2 n)), Ok s)
          else (w2, Err EState)
      end
  end.

(** Node.reset (node.py:578-626). *)
Definition node_reset (n : nid) (d : act) : act := fun w =>
  match w_st w n with
  | UNINITIALIZED | SHUTDOWN | BROKEN => (w, Err EGuard)
  | _ =>
      let w1 := set_ins w n (map_io flag_updated (w_ins w n)) in
      let w2 := set_outs w1 n (map_io (fun c => reset_updated (reset_value c)) (w_outs w1 n)) in
      match d w2 with
      | (w3, Err e) => (set_st w3 n BROKEN, Err e)
      | (w3, Raise) => (w3, Raise)
      | (w3, Ok s) =>
          let w4 := set_st w3 n s in
          if state_in s [IDLE] then (w4, Ok s) else (w4, Err EState)
      end
  end.

(** A node as other nodes see it.  node.py:334-744. *)
Record obj : Type := mkObj {
  o_id : nid;
  o_name : string;
  o_setup : act;
  o_tick : act;
  o_untick : act;
  o_reset : act;
  o_shutdown : act;
  o_util : W -> res bounds    (* calculate_utility *)
}.

(** Lines 688-697 of node.py: shut down every child, remember the last error.
    (A raised exception leaves the loop.) *)
Fixpoint shutdown_children (cs : list obj) (w : W) (error : option err) : W * res (option err) :=
  match cs with
  | [] => (w, Ok error)
  | c :: r =>
      match o_shutdown c w with
      | (w', Ok _) => shutdown_children r w' error
      | (w', Err e) => shutdown_children r w' (Some e)
      | (w', Raise) => (w', Raise)
      end
  end.

(** Node.shutdown (node.py:647-713). *)
Definition node_shutdown (n : nid) (cs : list obj) (d : act) : act := fun w =>
  let own :=
    match w_st w n with
    | SHUTDOWN => (w, Ok SHUTDOWN)
    | _ =>
        match d w with
        | (w1, Err e) => (set_st w1 n BROKEN, Err EState)
        | (w1, Raise) => (w1, Raise)
        | (w1, Ok s) =>
            if state_in s [SHUTDOWN] then (set_st w1 n s, Ok s)
            else (set_st w1 n s, Err EState)
        end
    end in
  bind own (fun _ w1 =>
    match shutdown_children cs w1 None with
    | (w2, Ok None) => (w2, Ok (w_st w2 n))
    | (w2, Ok (Some e)) => (w2, Err e)
    | (w2, Err e) => (w2, Err e)
    | (w2, Raise) => (w2, Raise)
    end).

(** ---- Loops over children ---- *)

(** [for child in children: match child.X(): Err(e) -> return Err(e)].
    Python: the loop in all _do_ methods. *)
Fixpoint for_each (f : obj -> act) (cs : list obj) (w : W) : W * res unit :=
  match cs with
  | [] => (w, Ok tt)
  | c :: r => bind (f c w) (fun _ w' => for_each f r w')
  end.

(** [for child in children: ...X...; return Ok(s)].  Python: the loop in all _do_ methods. *)
Definition each_then (f : obj -> act) (cs : list obj) (s : state) : act := fun w =>
  bind (for_each f cs w) (fun _ w' => (w', Ok s)).

(** [for child in self.children: return child.X()] followed by [return Ok(s)].
    Python: the loop in all decorators (decorators.py:47-700). *)
Definition first_or (f : obj -> act) (cs : list obj) (s : state) : act := fun w =>
  match cs with
  | c :: _ => f c w
  | [] => (w, Ok s)
  end.

(** Python: state in [SUCCEEDED, FAILED]. *)
Definition finished (s : state) : bool := state_in s [SUCCEEDED; FAILED].

(** The reset of all children when the node itself has finished
    (sequence.py:89-96, 201-208, fallback.py:68-75, 158-164, 268-275,
    parallel.py:97-103). *)
Definition reset_if_finished (n : nid) (cs : list obj) (w : W) : W * res unit :=
  if finished (w_st w n) then for_each o_reset cs w else (w, Ok tt).

(** Sequence's loop (sequence.py:98-117). *)
Fixpoint sequence_loop (cs : list obj) (w : W) : W * res state :=
  match cs with
  | [] => (w, Ok SUCCEEDED)
  | c :: r =>
      bind (o_tick c w) (fun s w1 =>
        if negb (state_eqb s SUCCEEDED) then
          if negb (state_eqb s RUNNING) then
            bind (for_each o_untick r w1) (fun _ w2 => (w2, Ok s))
          else (w1, Ok s)
        else sequence_loop r w1)
  end.

(** Sequence._do_tick (sequence.py:84-117). *)
Definition sequence_tick (n : nid) (cs : list obj) : act := fun w =>
  match cs with
  | [] => (w, Ok SUCCEEDED)
  | _ => bind (reset_if_finished n cs w) (fun _ w1 => sequence_loop cs w1)
  end.

(** MemorySequence's loop (sequence.py:210-235); [index] counts from 0. *)
Fixpoint memory_sequence_loop (n : nid) (index : nat) (cs : list obj) (w : W) : W * res state :=
  match cs with
  | [] => (w, Ok SUCCEEDED)
  | c :: r =>
      if Nat.ltb index (a_lrc (w_mem w n)) then memory_sequence_loop n (S index) r w
      else
        bind (o_tick c w) (fun s w1 =>
          if negb (state_eqb s SUCCEEDED) then
            if state_eqb s RUNNING then (mem_lrc w1 n index, Ok s)
            else bind (for_each o_untick r w1) (fun _ w2 => (w2, Ok s))
          else memory_sequence_loop n (S index) r w1)
  end.

(** MemorySequence._do_tick (sequence.py:194-235). *)
Definition memory_sequence_tick (n : nid) (cs : list obj) : act := fun w =>
  match cs with
  | [] => (w, Ok SUCCEEDED)
  | _ =>
      bind (if finished (w_st w n) then for_each o_reset cs (mem_lrc w n 0) else (w, Ok tt))
        (fun _ w1 => memory_sequence_loop n 0 cs w1)
  end.

(** Fallback's loop (fallback.py:166-185). *)
Fixpoint fallback_loop (cs : list obj) (w : W) : W * res state :=
  match cs with
  | [] => (w, Ok FAILED)
  | c :: r =>
      bind (o_tick c w) (fun s w1 =>
        if state_in s [SUCCEEDED; RUNNING] then
          if state_eqb s SUCCEEDED then
            bind (for_each o_untick r w1) (fun _ w2 => (w2, Ok s))
          else (w1, Ok s)
        else fallback_loop r w1)
  end.

(** Fallback._do_tick (fallback.py:152-185). *)
Definition fallback_tick (n : nid) (cs : list obj) : act := fun w =>
  match cs with
  | [] => (w, Ok FAILED)
  | _ => bind (reset_if_finished n cs w) (fun _ w1 => fallback_loop cs w1)
  end.

(** MemoryFallback's loop (fallback.py:277-300). *)
Fixpoint memory_fallback_loop (n : nid) (index : nat) (cs : list obj) (w : W) : W * res state :=
  match cs with
  | [] => (w, Ok FAILED)
  | c :: r =>
      if Nat.ltb index (a_lrc (w_mem w n)) then memory_fallback_loop n (S index) r w
      else
        bind (o_tick c w) (fun s w1 =>
          if state_in s [SUCCEEDED; RUNNING] then
            if state_eqb s RUNNING then (mem_lrc w1 n index, Ok s)
            else bind (for_each o_untick r w1) (fun _ w2 => (w2, Ok s))
          else memory_fallback_loop n (S index) r w1)
  end.

(** MemoryFallback._do_tick (fallback.py:261-300). *)
Definition memory_fallback_tick (n : nid) (cs : list obj) : act := fun w =>
  match cs with
  | [] => (w, Ok FAILED)
  | _ =>
      bind (if finished (w_st w n) then for_each o_reset cs (mem_lrc w n 0) else (w, Ok tt))
        (fun _ w1 => memory_fallback_loop n 0 cs w1)
  end.

(** Common tail of NameSwitch._do_tick and EnumSwitch._do_tick
    (fallback.py:64-85, enum_switch.py:134-151): [m] is self.child_map. *)
Definition switch_tick (n : nid) (cs : list obj) (m : list (string * obj)) (name : string) : act :=
  fun w =>
  match dget name m with
  | None => (w, Ok FAILED)
  | Some chosen =>
      bind (reset_if_finished n cs w) (fun _ w1 =>
      bind (for_each o_untick
              (map snd (filter (fun kc => negb (String.eqb (fst kc) name)) m)) w1)
        (fun _ w2 => o_tick chosen w2))
  end.

(** NameSwitch.child_map (fallback.py:49). *)
Definition name_map (cs : list obj) : list (string * obj) :=
  py_dict (map (fun c => (o_name c, c)) cs).

(** [s.split(".")[-1]].  Python; enum_switch.py:104. *)
Fixpoint after_last_dot_aux (acc s : string) : string :=
  match s with
  | EmptyString => acc
  | String a r => if Ascii.eqb a "."%char then after_last_dot_aux r r else after_last_dot_aux acc r
  end.
(** Python; enum_switch.py:104. *)
Definition after_last_dot (s : string) : string := after_last_dot_aux s s.

(** EnumSwitch.child_map (enum_switch.py:104). *)
Definition enum_map (cs : list obj) : list (string * obj) :=
  py_dict (map (fun c => (after_last_dot (o_name c), c)) cs).

(** [pchild_dict[case]] with Python equality of keys; [pd] lists constant value
    and field name, later entries win (enum_switch.py:100-102, 122-126). *)
Fixpoint enum_lookup (case : value) (pd : list (value * string)) : option string :=
  match pd with
  | [] => None
  | (v, nm) :: r =>
      match enum_lookup case r with
      | Some x => Some x
      | None => if py_eq v case then Some nm else None
      end
  end.

(** NameSwitch._do_tick (fallback.py:58-85). *)
Definition name_switch_tick (n : nid) (cs : list obj) : act := fun w =>
  match in_value_as as_str w n "name" with
  | Err e => (w, Err e)
  | Raise => (w, Raise)
  | Ok name => switch_tick n cs (name_map cs) name w
  end.

(** EnumSwitch._do_tick (enum_switch.py:115-151). *)
Definition enum_switch_tick (n : nid) (pd : list (value * string)) (cs : list obj) : act := fun w =>
  match in_value w n "case" with
  | Err e => (w, Err e)
  | Raise => (w, Raise)
  | Ok case =>
      match enum_lookup case pd with
      | None => (w, Ok FAILED)
      | Some name => switch_tick n cs (enum_map cs) name w
      end
  end.

(** Parallel's tick loop (parallel.py:105-117, 347-359): returns the numbers of
    succeeded and failed children. *)
Fixpoint parallel_loop (cs : list obj) (succ fail : Z) (w : W) : W * res (Z * Z) :=
  match cs with
  | [] => (w, Ok (succ, fail))
  | c :: r =>
      bind (if negb (finished (w_st w (o_id c)))
            then bind (o_tick c w) (fun _ w' => (w', Ok tt))
            else (w, Ok tt))
        (fun _ w1 =>
           let s := w_st w1 (o_id c) in
           parallel_loop r (if state_eqb s SUCCEEDED then succ + 1 else succ)%Z
                           (if state_eqb s FAILED then fail + 1 else fail)%Z w1)
  end.

(** Untick the children that have not finished (parallel.py:119-127). *)
Fixpoint untick_unfinished (cs : list obj) (w : W) : W * res unit :=
  match cs with
  | [] => (w, Ok tt)
  | c :: r =>
      if finished (w_st w (o_id c)) then untick_unfinished r w
      else bind (o_untick c w) (fun _ w' => untick_unfinished r w')
  end.

(** Parallel._do_tick (parallel.py:94-140) and ParallelFailureTolerance._do_tick
    (336-382); [tolerated] is the number of failures allowed. *)
Definition parallel_tick (n : nid) (cs : list obj) (tolerated : W -> Z) : act := fun w =>
  bind (reset_if_finished n cs w) (fun _ w1 =>
  bind (parallel_loop cs 0 0 w1) (fun sf w2 =>
    if Z.leb (a_needed (w_mem w2 n)) (fst sf) then
      bind (untick_unfinished cs w2) (fun _ w3 => (w3, Ok SUCCEEDED))
    else if Z.ltb (tolerated w2) (snd sf) then
      bind (untick_unfinished cs w2) (fun _ w3 => (w3, Ok FAILED))
    else (w2, Ok RUNNING))).

(** [child.tick().map(f)] on the first child, [Ok(s)] without children.
    decorators.py:54-63, 99-153, 228-241. *)
Definition map_tick (f : state -> state) (cs : list obj) (s : state) : act := fun w =>
  match cs with
  | c :: _ => bind (o_tick c w) (fun s' w' => (w', Ok (f s')))
  | [] => (w, Ok s)
  end.

(** [child.reset().map(lambda _: RUNNING)].  decorators.py:284-302, 352-368. *)
Definition reset_running (c : obj) : act := fun w =>
  bind (o_reset c w) (fun _ w' => (w', Ok RUNNING)).

(** Retry._do_tick (decorators.py:284-302). *)
Definition retry_tick (n : nid) (cs : list obj) : act := fun w =>
  match cs with
  | [] => (w, Ok SUCCEEDED)
  | c :: _ =>
      bind (o_tick c w) (fun s w1 =>
        if state_eqb s FAILED then
          if Z.ltb (a_count (w_mem w1 n)) (a_limit (w_mem w1 n)) then
            reset_running c (mem_count w1 n (a_count (w_mem w1 n) + 1)%Z)
          else (mem_count w1 n 0%Z, Ok FAILED)
        else (w1, Ok s))
  end.

(** The part of Repeat._do_tick after the child's tick (decorators.py:352-368). *)
Definition repeat_tick (n : nid) (cs : list obj) : act := fun w =>
  match cs with
  | [] => (w, Ok SUCCEEDED)
  | c :: _ =>
      bind (o_tick c w) (fun s w1 =>
        if state_eqb s SUCCEEDED then
          if Z.ltb (a_count (w_mem w1 n)) (a_limit (w_mem w1 n)) then
            reset_running c (mem_count w1 n (a_count (w_mem w1 n) + 1)%Z)
          else (w1, Ok SUCCEEDED)
        else (w1, Ok s))
  end.

(** RepeatNoAutoReset._do_tick (decorators.py:411-437). *)
Definition repeat_nar_tick (n : nid) (cs : list obj) : act := fun w =>
  match in_value_as as_bool w n "reset" with
  | Err e => (w, Err e)
  | Raise => (w, Raise)
  | Ok r =>
      let w1 := if r then mem_count w n 0%Z else w in
      if Z.ltb (a_count (w_mem w1 n)) (a_limit (w_mem w1 n)) then repeat_tick n cs w1
      else (w1, Ok SUCCEEDED)
  end.

(** RepeatAlways._do_tick (decorators.py:463-479). *)
Definition repeat_always_tick (cs : list obj) : act := fun w =>
  match cs with
  | [] => (w, Ok SUCCEEDED)
  | c :: _ =>
      bind (o_tick c w) (fun s w1 =>
        if negb (state_eqb s RUNNING) then reset_running c w1 else (w1, Ok RUNNING))
  end.

(** UntilSuccess._do_tick and RepeatIfFail._do_tick with [s = FAILED]
    (decorators.py:185-196, 565-577), RepeatUntilFail._do_tick with
    [s = SUCCEEDED] (516-528). *)
Definition restart_on_tick (s0 : state) (cs : list obj) : act := fun w =>
  match cs with
  | [] => (w, Ok SUCCEEDED)
  | c :: _ =>
      bind (o_tick c w) (fun s w1 =>
        if state_eqb s s0 then reset_running c w1 else (w1, Ok s))
  end.

(** Optional._do_setup (decorators.py:610-621). *)
Fixpoint optional_setup_loop (n : nid) (cs : list obj) (w : W) : W * res state :=
  match cs with
  | [] => (w, Ok IDLE)
  | c :: r =>
      match o_util c w with
      | Err e => (w, Err e)
      | Raise => (w, Raise)
      | Ok u => if can_execute u then o_setup c (mem_exec w n true)
                else optional_setup_loop n r w
      end
  end.

(** [self.children[0].X()] if execute_child else [Ok(s)] (decorators.py:623-642). *)
Definition optional_do (f : obj -> act) (n : nid) (cs : list obj) (s : state) : act := fun w =>
  if a_exec (w_mem w n) then
    match cs with c :: _ => f c w | [] => (w, Raise) end
  else (w, Ok s).

(** Watch._do_tick (decorators.py:677-695). *)
Definition watch_tick (n : nid) (cs : list obj) : act := fun w =>
  match cs with
  | [] => (w, Ok SUCCEEDED)
  | c :: _ =>
      match any_updated w n ["watch"%string] with
      | Err e => (w, Err e)
      | Raise => (w, Raise)
      | Ok u =>
          bind (if u then bind (o_untick c w) (fun _ w' => (w', Ok tt)) else (w, Ok tt))
            (fun _ w1 => o_tick c w1)
      end
  end.

(** [(now - last).nanoseconds / 1e9 > interval] in double arithmetic
    (throttle.py:74, 138-139). *)
Definition elapsed_gt (now last : Z) (interval : spec_float) : bool :=
  SFltb interval (SFdiv prec emax (float_of_Z (now - last)) (float_of_Z 1000000000)).

(** Throttle._do_tick (throttle.py:70-86). *)
Definition throttle_tick (ev : env E) (n : nid) (cs : list obj) : act := fun w =>
  let '(e', now) := ev_now ev (w_ext w) in
  let w0 := set_ext w e' in
  let a := w_mem w0 n in
  if match a_last a with None => true | Some l => elapsed_gt now l (a_interval a) end then
    match cs with
    | [] => (w0, a_lastres a)
    | c :: _ =>
        match o_tick c w0 with
        | (w1, Raise) => (w1, Raise)
        | (w1, Ok RUNNING) => (w1, Ok RUNNING)
        | (w1, r) =>
            let w2 := mem_last (mem_lastres w1 n r) n (Some now) in
            match o_reset c w2 with
            | (w3, Ok _) => (w3, a_lastres (w_mem w3 n))
            | (w3, Err e) => (w3, Err e)
            | (w3, Raise) => (w3, Raise)
            end
        end
    end
  else (w0, a_lastres a).

(** ThrottleSuccess._do_tick (throttle.py:134-148).  [result == RUNNING] compares
    a Result object with a state name and is always False
    (vendor/result: Ok.__eq__, Err.__eq__), so no branch returns the child's
    result. *)
Definition throttle_success_tick (ev : env E) (n : nid) (cs : list obj) : act := fun w =>
  let '(e', now) := ev_now ev (w_ext w) in
  let w0 := set_ext w e' in
  let a := w_mem w0 n in
  if match a_last a with None => true | Some l => elapsed_gt now l (a_interval a) end then
    match cs with
    | [] => (w0, Ok FAILED)
    | c :: _ =>
        match o_tick c w0 with
        | (w1, Raise) => (w1, Raise)
        | (w1, _) => (w1, Ok FAILED)
        end
    end
  else (w0, Ok FAILED).

(** IterateList._do_tick (list.py:189-242). *)
Definition iterate_tick (n : nid) (cs : list obj) : act := fun w =>
  match any_updated w n ["list"%string] with
  | Err e => (w, Err e)
  | Raise => (w, Raise)
  | Ok u =>
      let w0 := if u then mem_iter w n 0 true else w in
      match in_value_as as_list w0 n "list" with
      | Err e => (w0, Err e)
      | Raise => (w0, Raise)
      | Ok l =>
          match l with
          | [] => (w0, Ok SUCCEEDED)
          | _ =>
              match nth_error l (a_counter (w_mem w0 n)) with
              | None => (w0, Raise)
              | Some v =>
                  bind (out_set w0 n "list_item" v) (fun _ w1 =>
                    let a := w_mem w1 n in
                    match cs with
                    | [] =>
                        let w2 := mem_iter w1 n (S (a_counter a)) (a_outch a) in
                        if Nat.eqb (S (a_counter a)) (List.length l)
                        then (mem_iter w2 n 0 true, Ok SUCCEEDED)
                        else (w2, Ok RUNNING)
                    | c :: _ =>
                        if a_outch a then (mem_iter w1 n (a_counter a) false, Ok RUNNING)
                        else
                          bind (o_tick c w1) (fun s w2 =>
                            let a2 := w_mem w2 n in
                            if state_eqb s SUCCEEDED then
                              let w3 := mem_iter w2 n (S (a_counter a2)) true in
                              if Nat.eqb (S (a_counter a2)) (List.length l)
                              then (mem_iter w3 n 0 true, Ok SUCCEEDED)
                              else (w3, Ok RUNNING)
                            else if state_eqb s FAILED then (w2, Ok FAILED)
                            else (w2, Ok RUNNING))
                    end)
              end
          end
      end
  end.

(** Getter nodes (getters.py:59-315).  [GListItem] GetListItem, [GDictItem]
    GetDictItem, [GMultiDict] GetMultipleDictItems, [GAttr] GetAttr; the function
    tells what Python's getattr gives for a value and a name ([None]: AttributeError). *)
Inductive getter : Set :=
| GListItem | GDictItem | GMultiDict | GAttr (attr : value -> string -> option value).

(** The inputs checked for updates (getters.py:113-315). *)
Definition getter_keys (g : getter) : list string :=
  match g with
  | GListItem => ["list"; "index"]
  | GDictItem => ["dict"; "key"]
  | GMultiDict => ["dict"; "keys"]
  | GAttr _ => ["object"; "attr_name"]
  end%string.

(** The output of each class (getters.py:88-315). *)
Definition getter_out (g : getter) : string :=
  match g with GListItem => "item" | GDictItem => "value" | GMultiDict => "values" | GAttr _ => "attr" end.

(** [li[i]] for a Python list index, negative indices counting from the end. *)
Definition py_index {A} (l : list A) (i : Z) : option A :=
  if Z.leb 0 i then nth_error l (Z.to_nat i)
  else if Z.leb 0 (Z.of_nat (List.length l) + i)
       then nth_error l (Z.to_nat (Z.of_nat (List.length l) + i)) else None.

(** [[d[k] for k in li]]: None on a KeyError.  A key that is not a string can
    never be found in a dictionary with string keys.  getters.py:219-252. *)
Fixpoint all_items (d : list (string * value)) (ks : list value) : option (list value) :=
  match ks with
  | [] => Some []
  | k :: r =>
      match k with
      | VStr s => match dget s d, all_items d r with
                  | Some v, Some vs => Some (v :: vs)
                  | _, _ => None
                  end
      | _ => None
      end
  end.

(** [s.split(".")].  helpers.py:99-103. *)
Fixpoint split_dots (s : string) : list string :=
  match s with
  | EmptyString => [EmptyString]
  | String a r =>
      if Ascii.eqb a "."%char then EmptyString :: split_dots r
      else match split_dots r with x :: l => String a x :: l | [] => [] end
  end.

(** rgetattr (helpers.py:99-103): one name after the other. *)
Fixpoint rgetattr (attr : value -> string -> option value) (v : value) (names : list string) : option value :=
  match names with
  | [] => Some v
  | a :: r => match attr v a with Some x => rgetattr attr x r | None => None end
  end.

(** The value read by the getter: [Ok None] is the caught IndexError/KeyError/AttributeError.
    getters.py:113-315. *)
Definition getter_read (g : getter) (w : W) (n : nid) : res (option value) :=
  match g with
  | GListItem =>
      match in_value_as as_list w n "list" with
      | Ok l => res_map (fun i => py_index l i) (in_value_as as_int w n "index")
      | Err e => Err e | Raise => Raise end
  | GDictItem =>
      match in_value_as as_dict w n "dict" with
      | Ok d => res_map (fun k => dget k d) (in_value_as as_str w n "key")
      | Err e => Err e | Raise => Raise end
  | GMultiDict =>
      match in_value_as as_dict w n "dict" with
      | Ok d => res_map (fun ks => option_map VList (all_items d ks))
                        (in_value_as as_list w n "keys")
      | Err e => Err e | Raise => Raise end
  | GAttr attr =>
      match in_value w n "object" with
      | Ok v => res_map (fun s => rgetattr attr v (split_dots s)) (in_value_as as_str w n "attr_name")
      | Err e => Err e | Raise => Raise end
  end.

(** GetListItem/GetDictItem/GetMultipleDictItems/GetAttr._do_tick
    (getters.py:113-149, 166-202, 219-254, 279-315). *)
Definition getter_tick (g : getter) (n : nid) (cs : list obj) : act := fun w =>
  bind (first_or o_tick cs SUCCEEDED w) (fun s w1 =>
    if state_in s [FAILED; RUNNING] then (w1, Ok s)
    else
      match any_updated w1 n (getter_keys g) with
      | Err e => (w1, Err e)
      | Raise => (w1, Raise)
      | Ok u =>
          match getter_read g w1 n with
          | Err e => (w1, Err e)
          | Raise => (w1, Raise)
          | Ok None => (w1, Ok FAILED)
          | Ok (Some v) =>
              if u || a_stale (w_mem w1 n) then
                bind (out_set w1 n (getter_out g) v) (fun _ w2 => (w2, Ok SUCCEEDED))
              else (w1, Ok RUNNING)
          end
      end).

(** The node classes.  [KLeaf] stands for every leaf class.
    The classes of nodes/*.py; node.py:1317-1360. *)
Inductive kind : Set :=
| KLeaf
| KSequence | KMemorySequence | KFallback | KMemoryFallback
| KNameSwitch | KEnumSwitch (pd : list (value * string))
| KParallel | KParallelTolerance
| KIgnoreFailure | KIgnoreRunning | KIgnoreSuccess | KUntilSuccess | KInverter
| KRetry | KRepeat | KRepeatNoAutoReset
| KRepeatAlways | KRepeatUntilFail | KRepeatIfFail
| KOptional | KWatch | KThrottle | KThrottleSuccess | KIterateList
| KGetter (g : getter).

(** User code of a leaf: run it, apply its output writes, return its result.
    The _do_ methods of leaves (node.py:392-728). *)
Definition leaf_act (ev : env E) (o : op) (n : nid) : act := fun w =>
  let '(e', ws, r) := ev_leaf ev o n (w_st w n) (w_ins w n) (w_ext w) in
  bind (out_set_all (set_ext w e') n ws) (fun _ w' => (w', r)).

(** Continue with [k] on the value of an input option.  Python. *)
Definition with_in {A} (r : res A) (w : W) (k : A -> W * res state) : W * res state :=
  match r with Ok a => k a | Err e => (w, Err e) | Raise => (w, Raise) end.

(** [_do_setup] of each class (line references as for the tick functions). *)
Definition do_setup (ev : env E) (n : nid) (k : kind) (cs : list obj) : act := fun w =>
  match k with
  | KLeaf => leaf_act ev OSetup n w
  | KSequence | KFallback | KNameSwitch | KEnumSwitch _ => each_then o_setup cs IDLE w
  | KMemorySequence | KMemoryFallback => each_then o_setup cs IDLE (mem_lrc w n 0)
  | KParallel =>                                             (* parallel.py:72-92 *)
      with_in (in_value_as as_int w n "needed_successes") w (fun i =>
        let w1 := mem_needed w n i in
        if Z.ltb (Z.of_nat (List.length cs)) i then (w1, Err EConfig)
        else each_then o_setup cs IDLE w1)
  | KParallelTolerance =>                                    (* parallel.py:307-334 *)
      with_in (in_value_as as_int w n "needed_successes") w (fun i =>
        let w1 := mem_needed w n i in
        if Z.ltb (Z.of_nat (List.length cs)) i then (w1, Err EConfig)
        else with_in (in_value_as as_int w1 n "tolerate_failures") w1 (fun t =>
               each_then o_setup cs IDLE (mem_tol w1 n t)))
  | KIgnoreRunning =>                                        (* decorators.py:89-97 *)
      with_in (in_value_as as_bool w n "running_is_success") w (fun b =>
        first_or o_setup cs IDLE (mem_ris w n b))
  | KRetry =>                                                (* decorators.py:273-282 *)
      let w1 := mem_count w n 0%Z in
      with_in (in_value_as as_int w1 n "num_retries") w1 (fun i =>
        first_or o_setup cs IDLE (mem_limit w1 n i))
  | KRepeat | KRepeatNoAutoReset =>                          (* decorators.py:341-350 *)
      let w1 := mem_count w n 0%Z in
      with_in (in_value_as as_int w1 n "num_repeats") w1 (fun i =>
        first_or o_setup cs IDLE (mem_limit w1 n i))
  | KOptional => optional_setup_loop n cs (mem_exec w n false)
  | KThrottle =>                                             (* throttle.py:54-68 *)
      let w1 := mem_lastres (mem_last w n None) n (Ok FAILED) in
      with_in (in_value_as as_float w1 n "tick_interval") w1 (fun f =>
        first_or o_setup cs IDLE (mem_interval w1 n f))
  | KThrottleSuccess =>                                      (* throttle.py:118-132 *)
      let w1 := mem_last w n None in
      with_in (in_value_as as_float w1 n "tick_interval") w1 (fun f =>
        first_or o_setup cs IDLE (mem_interval w1 n f))
  | KIterateList => first_or o_setup cs IDLE (mem_iter w n 0 true)  (* list.py:179-183 *)
  | KGetter _ =>                                             (* getters.py:60-68 *)
      with_in (in_value_as as_bool w n "succeed_on_stale_data") w (fun b =>
        first_or o_setup cs IDLE (mem_stale w n b))
  | KIgnoreFailure | KIgnoreSuccess | KUntilSuccess | KInverter
  | KRepeatAlways | KRepeatUntilFail | KRepeatIfFail | KWatch =>
      first_or o_setup cs IDLE w
  end.

(** [_do_tick] of each class. *)
Definition do_tick (ev : env E) (n : nid) (k : kind) (cs : list obj) : act := fun w =>
  match k with
  | KLeaf => leaf_act ev OTick n w
  | KSequence => sequence_tick n cs w
  | KMemorySequence => memory_sequence_tick n cs w
  | KFallback => fallback_tick n cs w
  | KMemoryFallback => memory_fallback_tick n cs w
  | KNameSwitch => name_switch_tick n cs w
  | KEnumSwitch pd => enum_switch_tick n pd cs w
  | KParallel =>
      parallel_tick n cs (fun w' => (Z.of_nat (List.length cs) - a_needed (w_mem w' n))%Z) w
  | KParallelTolerance => parallel_tick n cs (fun w' => a_tol (w_mem w' n)) w
  | KIgnoreFailure =>                                        (* decorators.py:54-63 *)
      map_tick (fun s => if state_eqb s FAILED then SUCCEEDED else s) cs SUCCEEDED w
  | KIgnoreRunning =>                                        (* decorators.py:99-114 *)
      match cs with
      | c :: _ => bind (o_tick c w) (fun s w' =>
          (w', Ok (if negb (state_eqb s RUNNING) then s
                   else if a_ris (w_mem w' n) then SUCCEEDED else FAILED)))
      | [] => (w, Ok FAILED)
      end
  | KIgnoreSuccess =>                                        (* decorators.py:144-153 *)
      map_tick (fun s => if state_eqb s SUCCEEDED then FAILED else s) cs FAILED w
  | KUntilSuccess => restart_on_tick FAILED cs w
  | KInverter =>                                             (* decorators.py:228-241 *)
      map_tick (fun s => if state_eqb s FAILED then SUCCEEDED
                         else if state_eqb s SUCCEEDED then FAILED else s) cs SUCCEEDED w
  | KRetry => retry_tick n cs w
  | KRepeat => repeat_tick n cs w
  | KRepeatNoAutoReset => repeat_nar_tick n cs w
  | KRepeatAlways => repeat_always_tick cs w
  | KRepeatUntilFail => restart_on_tick SUCCEEDED cs w
  | KRepeatIfFail => restart_on_tick FAILED cs w
  | KOptional => optional_do o_tick n cs SUCCEEDED w
  | KWatch => watch_tick n cs w
  | KThrottle => throttle_tick ev n cs w
  | KThrottleSuccess => throttle_success_tick ev n cs w
  | KIterateList => iterate_tick n cs w
  | KGetter g => getter_tick g n cs w
  end.

(** [_do_untick] of each class. *)
Definition do_untick (ev : env E) (n : nid) (k : kind) (cs : list obj) : act := fun w =>
  match k with
  | KLeaf => leaf_act ev OUntick n w
  | KSequence | KFallback | KMemoryFallback | KNameSwitch | KEnumSwitch _
  | KParallel | KParallelTolerance => each_then o_untick cs IDLE w
  | KMemorySequence => each_then o_untick cs IDLE (mem_lrc w n 0)  (* sequence.py:237-246 *)
  | KRetry | KRepeat | KRepeatNoAutoReset | KRepeatAlways | KRepeatUntilFail
  | KRepeatIfFail | KIterateList => each_then o_untick cs PAUSED w
  | KOptional => optional_do o_untick n cs IDLE w
  | KIgnoreFailure | KIgnoreRunning | KIgnoreSuccess | KUntilSuccess | KInverter
  | KWatch | KThrottle | KThrottleSuccess | KGetter _ => first_or o_untick cs IDLE w
  end.

(** [_do_reset] of each class. *)
Definition do_reset (ev : env E) (n : nid) (k : kind) (cs : list obj) : act := fun w =>
  match k with
  | KLeaf => leaf_act ev OReset n w
  | KSequence | KFallback | KNameSwitch | KEnumSwitch _
  | KParallel | KParallelTolerance => each_then o_reset cs IDLE w
  | KMemorySequence | KMemoryFallback => each_then o_reset cs IDLE (mem_lrc w n 0)
  | KRetry | KRepeat => first_or o_reset cs IDLE (mem_count w n 0%Z)
  | KRepeatNoAutoReset =>                                    (* decorators.py:439-444 *)
      if Z.ltb (a_count (w_mem w n)) (a_limit (w_mem w n))
      then first_or o_reset cs IDLE w else (w, Ok IDLE)
  | KOptional => optional_do o_reset n cs IDLE w
  | KThrottleSuccess => first_or o_reset cs IDLE (mem_last w n None) (* throttle.py:153-157 *)
  | KIterateList => first_or o_reset cs IDLE (mem_iter w n 0 true)   (* list.py:253-257 *)
  | KIgnoreFailure | KIgnoreRunning | KIgnoreSuccess | KUntilSuccess | KInverter
  | KRepeatAlways | KRepeatUntilFail | KRepeatIfFail | KWatch | KThrottle
  | KGetter _ => first_or o_reset cs IDLE w
  end.

(** [_do_shutdown] of each class: every class but the leaves returns SHUTDOWN;
    the memory nodes also forget the child index (sequence.py:258-260,
    fallback.py:321-323). *)
Definition do_shutdown (ev : env E) (n : nid) (k : kind) : act := fun w =>
  match k with
  | KLeaf => leaf_act ev OShutdown n w
  | KMemorySequence | KMemoryFallback => (mem_lrc w n 0, Ok SHUTDOWN)
  | _ => (w, Ok SHUTDOWN)
  end.

(** [_do_calculate_utility] of each class.  node.py:747-769, 1327-1339. *)
Definition do_util (ev : env E) (n : nid) (k : kind) (cs : list obj) (w : W) : res bounds :=
  let us := map (fun c => o_util c w) cs in
  match k with
  | KLeaf => ev_util ev n (w_ins w n) (w_ext w)
  | KSequence | KMemorySequence => utility_sequence us
  | KFallback | KMemoryFallback | KNameSwitch => utility_fallback us
  | KEnumSwitch _ => Ok bounds_free
  | KParallel | KParallelTolerance => utility_parallel (a_needed (w_mem w n)) us
  | KOptional => utility_optional us
  | _ => utility_decorator us
  end.

(** A node of class [k] with the given children.  node.py:334-744. *)
Definition make_obj (ev : env E) (n : nid) (k : kind) (name : string) (cs : list obj) : obj :=
  mkObj n name
    (node_setup n (do_setup ev n k cs))
    (node_tick n (do_tick ev n k cs))
    (node_untick n (do_untick ev n k cs))
    (node_reset n (do_reset ev n k cs))
    (node_shutdown n cs (do_shutdown ev n k))
    (do_util ev n k cs).

End Tree.

Arguments obj E : clear implicits.
Arguments act E : clear implicits.

(** The tree of node objects linked by [children] (node.py:238, 790-820). *)
Inductive tree : Set := T (n : nid) (k : kind) (name : string) (cs : list tree).

(** node.py:334-744. *)
Fixpoint obj_of {E} (ev : env E) (t : tree) : obj E :=
  match t with
  | T n k name cs => make_obj ev n k name (map (obj_of ev) cs)
  end.

(** Helper; no code of its own. *)
Definition t_id (t : tree) : nid := match t with T n _ _ _ => n end.
(** Helper; no code of its own. *)
Definition t_kind (t : tree) : kind := match t with T _ k _ _ => k end.
(** Helper; no code of its own. *)
Definition t_children (t : tree) : list tree := match t with T _ _ _ cs => cs end.

(** Identifiers of a tree in pre-order: Node.get_children_recursive
    (node.py:1070-1077). *)
Fixpoint ids (t : tree) : list nid :=
  match t with T n _ _ cs => n :: flat_map ids cs end.

(** Call one of the life-cycle methods of a node.  node.py:334-713. *)
Definition call {E} (o : op) (c : obj E) : act E :=
  match o with
  | OSetup => o_setup c
  | OTick => o_tick c
  | OUntick => o_untick c
  | OReset => o_reset c
  | OShutdown => o_shutdown c
  end.
