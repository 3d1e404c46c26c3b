(** Model of the editing services: tree_edit_manager.py, the parts of
    tree_exec_manager.py they use, Node.add_child and Node.remove_child, and
    NodeConfig.extend.  No proofs in this file.

    Python node objects live in a heap, so that an object that is no longer
    registered in [self.nodes] can still be referenced as parent or child.
    Line numbers without a file name refer to
    /repo/ros_bt_py/ros_bt_py/tree_edit_manager.py. *)
From Coq Require Import List String ZArith Bool Arith.
From Verif Require Import Base ModelData.
Import ListNotations.
Local Open Scope bool_scope.

(** ** NodeConfig (/repo/ros_bt_py/ros_bt_py/node_config.py:136-257) *)

(** node_config.py:42-51. *)
Definition ios := list (string * container).
(** node_config.py:137-189. *)
Record config : Set := mkCfg { f_ins : ios; f_outs : ios; f_max : option nat }.

(** NodeConfig.__init__ (node_config.py:137-189): outputs are forced to be dynamic
    only; a TypeContainer as output raises.  ReferenceContainer is not modelled. *)
Definition force_output (c : container) : container :=
  mkC (c_ty c) true false false (c_val c) (c_upd c).
Definition make_config (ins outs : ios) (mx : option nat) : option config :=
  if existsb (fun kc => is_type_container (c_ty (snd kc))) outs then None
  else Some (mkCfg ins (map (fun kc => (fst kc, force_output (snd kc))) outs) mx).

(** Helper; no code of its own. *)
Definition opt_nat_eqb (a b : option nat) : bool :=
  match a, b with None, None => true | Some x, Some y => Nat.eqb x y | _, _ => false end.

(** Python: key in map (node_config.py:224-235). *)
Definition has_key (k : string) (l : ios) : bool := match dget k l with Some _ => true | None => false end.

(** The two loops of NodeConfig.extend (node_config.py:224-235): the keys that
    occur twice are collected, the others are added. *)
Fixpoint extend_io (self other : ios) : ios * list string :=
  match other with
  | [] => (self, [])
  | (k, c) :: r =>
      if has_key k self then let (s', d) := extend_io self r in (s', k :: d)
      else extend_io (dset k c self) r
  end.

(** NodeConfig.extend (node_config.py:211-246). *)
Definition extend (self other : config) : config * res unit :=
  if negb (opt_nat_eqb (f_max self) (f_max other)) then (self, Err EConfig)
  else
    let (i, di) := extend_io (f_ins self) (f_ins other) in
    let (o, do) := extend_io (f_outs self) (f_outs other) in
    (mkCfg i o (f_max self),
     match di, do with [], [] => Ok tt | _, _ => Err EConfig end).

(** ** Dictionaries keyed by UUID *)

(** Python: d.get(k). *)
Fixpoint nget {A} (k : nid) (l : list (nid * A)) : option A :=
  match l with [] => None | (k', v) :: r => if Nat.eqb k k' then Some v else nget k r end.
(** [d[k] = v]: overwrite in place, or append.  Python. *)
Fixpoint nset {A} (k : nid) (v : A) (l : list (nid * A)) : list (nid * A) :=
  match l with
  | [] => [(k, v)]
  | (k', v') :: r => if Nat.eqb k k' then (k, v) :: r else (k', v') :: nset k v r
  end.
(** [d.pop(k, None)].  Python. *)
Definition ndel {A} (k : nid) (l : list (nid * A)) : list (nid * A) :=
  filter (fun kv => negb (Nat.eqb k (fst kv))) l.
(** Python: k in d. *)
Definition nhas {A} (k : nid) (l : list (nid * A)) : bool :=
  match nget k l with Some _ => true | None => false end.
(** [x in list].  Python. *)
Definition mem (x : nid) (l : list nid) : bool := existsb (Nat.eqb x) l.

(** ** Identifiers and wirings in messages *)

(** ROS messages carry identifiers as text.  [Good n v] is one of the spellings of
    the UUID [n] that [uuid.UUID] accepts (the spelling 0 is the one that [str]
    writes), [Bad n] some other text.  The UUID 0 is [uuid.UUID(int=0)]. *)
Inductive idtext : Set := Good (n : nid) (spelling : nat) | Bad (n : nat).
(** ros_to_uuid (/repo/ros_bt_py/ros_bt_py/ros_helpers.py:44-48). *)
Definition ros_to_uuid (t : idtext) : option nid := match t with Good n _ => Some n | Bad _ => None end.
Definition uuid_to_ros (n : nid) : idtext := Good n 0.
Definition idtext_eqb (a b : idtext) : bool :=
  match a, b with
  | Good n v, Good m u => Nat.eqb n m && Nat.eqb v u
  | Bad n, Bad m => Nat.eqb n m
  | _, _ => false
  end.

(** Wiring messages (/repo/ros_bt_py_interfaces/msg/Wiring.msg); [==] compares the
    fields. *)
Record wiring : Set := mkWi { wi_src : idtext; wi_skey : string; wi_tgt : idtext; wi_tkey : string }.
Definition wiring_eqb (a b : wiring) : bool :=
  idtext_eqb (wi_src a) (wi_src b) && String.eqb (wi_skey a) (wi_skey b) &&
  idtext_eqb (wi_tgt a) (wi_tgt b) && String.eqb (wi_tkey a) (wi_tkey b).

(** wiring_has_id (ros_helpers.py:55-60). *)
Definition wiring_has_id (w : wiring) (n : nid) : bool :=
  match ros_to_uuid (wi_src w), ros_to_uuid (wi_tgt w) with
  | Some s, Some t => Nat.eqb s n || Nat.eqb t n
  | _, _ => false
  end.

(** ** Node objects and the manager *)

(** Python objects; no code of its own. *)
Definition oid := nat.

(** The attributes of a node object that editing uses (node.py:132-222). *)
Record nobj : Set := mkN {
  n_id : nid; n_cfg : config; n_parent : option oid; n_children : list oid }.

(** Field update; no code of its own. *)
Definition set_parent (x : nobj) (p : option oid) : nobj := mkN (n_id x) (n_cfg x) p (n_children x).
(** Field update; no code of its own. *)
Definition set_children (x : nobj) (l : list oid) : nobj := mkN (n_id x) (n_cfg x) (n_parent x) l.

(** Tree states (/repo/ros_bt_py_interfaces/msg/TreeState.msg). *)
Inductive tstate : Set := EDITABLE | TIDLE | TICKING | WAITING_FOR_TICK | STOP_REQUESTED | TERROR.
Definition tstate_eqb (a b : tstate) : bool :=
  match a, b with
  | EDITABLE, EDITABLE | TIDLE, TIDLE | TICKING, TICKING | WAITING_FOR_TICK, WAITING_FOR_TICK
  | STOP_REQUESTED, STOP_REQUESTED | TERROR, TERROR => true
  | _, _ => false
  end.

(** TreeExecManager (tree_exec_manager.py:233-385): the node objects, [self.nodes],
    [self._children], [self.wirings], [self.state], [self.root_id], [self.name], and
    whether a callback for publishing the structure was given.  Allocation of
    objects uses [g_next].  Subtree manager, messages and publishers are not
    modelled. *)
Record mgr : Set := mkG {
  g_heap : oid -> nobj; g_next : oid; g_nodes : list (nid * oid); g_kids : list (nid * list nid);
  g_wires : list wiring; g_state : tstate; g_root : option nid; g_name : string; g_pub : bool }.

(** Field update; no code of its own. *)
Definition set_heap (g : mgr) (h : oid -> nobj) : mgr :=
  mkG h (g_next g) (g_nodes g) (g_kids g) (g_wires g) (g_state g) (g_root g) (g_name g) (g_pub g).
(** Field update; no code of its own. *)
Definition set_nodes (g : mgr) (l : list (nid * oid)) : mgr :=
  mkG (g_heap g) (g_next g) l (g_kids g) (g_wires g) (g_state g) (g_root g) (g_name g) (g_pub g).
(** Field update; no code of its own. *)
Definition set_kids (g : mgr) (l : list (nid * list nid)) : mgr :=
  mkG (g_heap g) (g_next g) (g_nodes g) l (g_wires g) (g_state g) (g_root g) (g_name g) (g_pub g).
(** wirings (tree_exec_manager.py:459-462). *)
Definition set_wires (g : mgr) (l : list wiring) : mgr :=
  mkG (g_heap g) (g_next g) (g_nodes g) (g_kids g) l (g_state g) (g_root g) (g_name g) (g_pub g).
(** state (tree_exec_manager.py:429-436). *)
Definition set_tstate (g : mgr) (s : tstate) : mgr :=
  mkG (g_heap g) (g_next g) (g_nodes g) (g_kids g) (g_wires g) s (g_root g) (g_name g) (g_pub g).
(** root_id (tree_exec_manager.py:418-422). *)
Definition set_root (g : mgr) (r : option nid) : mgr :=
  mkG (g_heap g) (g_next g) (g_nodes g) (g_kids g) (g_wires g) (g_state g) r (g_name g) (g_pub g).
(** name (tree_exec_manager.py:406-411). *)
Definition set_name (g : mgr) (s : string) : mgr :=
  mkG (g_heap g) (g_next g) (g_nodes g) (g_kids g) (g_wires g) (g_state g) (g_root g) s (g_pub g).

(** ** Node.add_child, Node.remove_child (node.py:771-836) *)

(** [l[i:i] = [x]]: a negative index counts from the end; both ends are clamped.
    Python; node.py:816. *)
Definition slice_insert {A} (i : Z) (x : A) (l : list A) : list A :=
  let n := Z.of_nat (List.length l) in
  let j := Z.to_nat (if Z.ltb i 0 then Z.max 0 (i + n) else Z.min i n) in
  (firstn j l ++ x :: skipn j l)%list.

(** Node.add_child (node.py:789-820). *)
Definition add_child (h : oid -> nobj) (p c : oid) (at_index : option Z) : res (oid -> nobj) :=
  let cs := n_children (h p) in
  if match f_max (n_cfg (h p)) with Some m => Nat.eqb (List.length cs) m | None => false end
  then Err EGuard
  else if mem (n_id (h c)) (map (fun o => n_id (h o)) cs) then Err ETopo
  else
    let i := match at_index with None => Z.of_nat (List.length cs) | Some i => i end in
    let i := if Z.ltb i 0 then (i + Z.of_nat (List.length cs) + 1)%Z else i in
    let h1 := upd h p (set_children (h p) (slice_insert i c cs)) in
    Ok (upd h1 c (set_parent (h1 c) (Some p))).

(** get_child_index: the first child with that id.  Node.get_child_index (node.py:771-787). *)
Fixpoint index_of (x : nid) (l : list nid) : option nat :=
  match l with
  | [] => None
  | y :: r => if Nat.eqb x y then Some 0 else option_map S (index_of x r)
  end.
(** Node.get_child_index (node.py:771-787). *)
Definition child_index (h : oid -> nobj) (p : oid) (i : nid) : option nat :=
  index_of i (map (fun o => n_id (h o)) (n_children (h p))).

(** Python: del l[k]; node.py:822-836. *)
Definition del_at {A} (k : nat) (l : list A) : list A := (firstn k l ++ skipn (S k) l)%list.

(** Node.remove_child (node.py:822-836). *)
Definition remove_child (h : oid -> nobj) (p : oid) (i : nid) : res ((oid -> nobj) * oid) :=
  match child_index h p i with
  | None => Err EKey
  | Some k =>
      match nth_error (n_children (h p)) k with
      | None => Raise
      | Some c =>
          let h1 := upd h p (set_children (h p) (del_at k (n_children (h p)))) in
          Ok (upd h1 c (set_parent (h1 c) None), c)
      end
  end.

(** ** Root and adjacency (tree_exec_manager.py:467-472, 585-621) *)

(** Helper; no code of its own. *)
Definition ids_of (h : oid -> nobj) (l : list oid) : list nid := map (fun o => n_id (h o)) l.

(** _sync_children (tree_exec_manager.py:467-472). *)
Definition sync_children (g : mgr) : mgr :=
  set_kids g (map (fun io => (fst io, ids_of (g_heap g) (n_children (g_heap g (snd io))))) (g_nodes g)).

(** find_root (tree_exec_manager.py:584-621). *)
Definition find_root (g : mgr) : mgr * res (option oid) :=
  let g := sync_children g in
  match g_nodes g with
  | [] => (g, Ok None)
  | _ =>
      let all := flat_map snd (g_kids g) in
      match filter (fun o => negb (mem (n_id (g_heap g o)) all)) (map snd (g_nodes g)) with
      | [] => (g, Err ETopo)
      | [o] => (set_root g (Some (n_id (g_heap g o))), Ok (Some o))
      | _ => (g, Err ETopo)
      end
  end.

(** publish_structure (tree_exec_manager.py:529-546, 1431-1455), as far as it changes
    the manager: with a callback, structure_to_msg calls find_root. *)
Definition publish_structure (g : mgr) : mgr := if g_pub g then fst (find_root g) else g.

(** is_edit_service (tree_exec_manager.py:92-124), for one service call that no
    other thread interferes with. *)
Definition edit_service {A} (f : mgr -> mgr * res A) (g : mgr) : mgr * res A :=
  if negb (tstate_eqb (g_state g) EDITABLE) then (g, Err EGuard)
  else let (g', r) := f g in (publish_structure g', r).

(** ** Building nodes (tree_exec_manager.py:1346-1371, node.py:960-1068) *)

(** The outcome of [Node.from_msg] is left open: a class-dependent configuration
    (the constructor may also raise something else than BehaviorTreeException).
    node.py:959-1068. *)
Definition instance := res config.

(** [self.nodes[id] = instance; self._children.setdefault(id, [])].
    tree_exec_manager.py:1346-1371. *)
Definition register (g : mgr) (i : nid) (c : config) : mgr * oid :=
  let o := g_next g in
  (mkG (upd (g_heap g) o (mkN i c None [])) (S o) (nset i o (g_nodes g))
       (if nhas i (g_kids g) then g_kids g else nset i [] (g_kids g))
       (g_wires g) (g_state g) (g_root g) (g_name g) (g_pub g), o).

(** instantiate_node_from_msg (tree_exec_manager.py:1346-1371). *)
Definition instantiate (g : mgr) (i : idtext) (x : instance) : mgr * res oid :=
  match x with
  | Err e => (g, Err e)
  | Raise => (g, Raise)
  | Ok c => match ros_to_uuid i with
            | None => (g, Err EKey)
            | Some n => let (g', o) := register g n c in (g', Ok o)
            end
  end.

(** ** Cycles (69-96) *)

(** The [while] loop of one starting node: new values of [safe_node_ids] and the
    cycle found.  [None]: not finished after [fuel] iterations.
    find_nodes_in_cycles (68-96), inner loop. *)
Fixpoint chain (fuel : nat) (g : mgr) (start : nid) (safe cands : list nid) (cur : oid)
    : option (list nid * list nid) :=
  match fuel with
  | 0 => None
  | S f =>
      let h := g_heap g in
      match n_parent (h cur) with
      | None => Some ((safe ++ cands)%list, [])
      | Some p =>
          match nget (n_id (h p)) (g_nodes g) with
          | None => Some ((safe ++ cands)%list, [])
          | Some o =>
              let cands' := (cands ++ [n_id (h o)])%list in
              let tail s := match n_parent (h o) with None => (s ++ cands')%list | Some _ => s end in
              if Nat.eqb (n_id (h o)) start then Some (tail safe, cands')
              else if mem (n_id (h o)) safe then Some (tail (safe ++ cands')%list, [])
              else chain f g start safe cands' o
          end
      end
  end.

(** find_nodes_in_cycles (68-96), outer loop. *)
Fixpoint cycles_from (fuel : nat) (g : mgr) (l : list (nid * oid)) (safe cyc : list nid)
    : option (list nid) :=
  match l with
  | [] => Some cyc
  | (i, o) :: r =>
      match chain fuel g i safe [i] o with
      | None => None
      | Some (safe', c) => cycles_from fuel g r safe' (cyc ++ c)%list
      end
  end.

(** find_nodes_in_cycles (68-96). *)
Definition find_nodes_in_cycles (fuel : nat) (g : mgr) : option (list nid) :=
  cycles_from fuel g (g_nodes g) [] [].

(** ** wire_data, unwire_data (918-984) *)

(** validate_wiring (tree_exec_manager.py:1373-1429). *)
Definition validate_wiring (g : mgr) (w : wiring) : bool :=
  match ros_to_uuid (wi_src w), ros_to_uuid (wi_tgt w) with
  | Some s, Some t =>
      match nget s (g_nodes g), nget t (g_nodes g) with
      | Some so, Some tobj =>
          match dget (wi_skey w) (f_outs (n_cfg (g_heap g so))), dget (wi_tkey w) (f_ins (n_cfg (g_heap g tobj))) with
          | Some sc, Some tc => is_compatible (runtime_type tc) (runtime_type sc)
          | _, _ => false
          end
      | _, _ => false
      end
  | _, _ => false
  end.

(** wire_data (918-952), the loop. *)
Fixpoint check_wirings (g : mgr) (ignore : bool) (l : list wiring) : option (list wiring) :=
  match l with
  | [] => Some []
  | w :: r =>
      if validate_wiring g w then option_map (cons w) (check_wirings g ignore r)
      else if ignore then check_wirings g ignore r else None
  end.

(** wire_data (918-952). *)
Definition wire_data (l : list wiring) (ignore : bool) : mgr -> mgr * res unit :=
  edit_service (fun g =>
    match check_wirings g ignore l with
    | None => (g, Err EWire)
    | Some s => (set_wires g (g_wires g ++ s)%list, Ok tt)
    end).

(** Python: x in list. *)
Definition wmem (w : wiring) (l : list wiring) : bool := existsb (wiring_eqb w) l.

(** unwire_data (954-984), the loop. *)
Fixpoint check_unwirings (g : mgr) (ignore : bool) (l : list wiring) : option (list wiring) :=
  match l with
  | [] => Some []
  | w :: r =>
      if wmem w (g_wires g) then option_map (cons w) (check_unwirings g ignore r)
      else if ignore then check_unwirings g ignore r else None
  end.

(** [list.remove(x)]: the first occurrence; ValueError if there is none.  Python. *)
Fixpoint wremove (w : wiring) (l : list wiring) : option (list wiring) :=
  match l with
  | [] => None
  | x :: r => if wiring_eqb x w then Some r else option_map (cons x) (wremove w r)
  end.
(** unwire_data (954-984), the second loop. *)
Fixpoint wremove_all (l : list wiring) (g : mgr) : mgr * res unit :=
  match l with
  | [] => (g, Ok tt)
  | w :: r => match wremove w (g_wires g) with
              | None => (g, Raise)
              | Some l' => wremove_all r (set_wires g l')
              end
  end.

(** unwire_data (954-984). *)
Definition unwire_data (l : list wiring) (ignore : bool) : mgr -> mgr * res unit :=
  edit_service (fun g =>
    match check_unwirings g ignore l with
    | None => (g, Err EWire)
    | Some s => wremove_all s g
    end).

(** ** remove_node (267-355) *)

(** The children of [i] that exist and were not seen before (310-313). *)
Fixpoint push_new (nodes : list (nid * oid)) (l : list nid) (seen pending : list nid) : list nid * list nid :=
  match l with
  | [] => (seen, pending)
  | c :: r => if nhas c nodes && negb (mem c seen) then push_new nodes r (c :: seen) (c :: pending)
              else push_new nodes r seen pending
  end.
(** The [while] loop (308-313); every node is pushed at most once, so [fuel] is the
    number of nodes. *)
Fixpoint collect (fuel : nat) (g : mgr) (pending seen : list nid) : list nid :=
  match fuel with
  | 0 => seen
  | S f =>
      match pending with
      | [] => seen
      | c :: rest =>
          let (seen', pending') :=
            push_new (g_nodes g) (match nget c (g_kids g) with Some l => l | None => [] end) seen rest in
          collect f g pending' seen'
      end
  end.

(** remove_node (267-355): the nodes to remove. *)
Definition to_remove (g : mgr) (i : nid) (children : bool) : list nid :=
  if children then collect (S (List.length (g_nodes g))) g [i] [i] else [i].

(** The five passes over wirings, adjacency, parents and the removed nodes
    (317-354).  The adjacency was synchronised before, so its keys are in
    [self.nodes]. *)
Definition drop_nodes (g : mgr) (rm : list nid) : mgr :=
  let removed := filter (fun w => existsb (wiring_has_id w) rm) (g_wires g) in
  let wires := filter (fun w => negb (wmem w removed)) (g_wires g) in
  let kids := map (fun ic => (fst ic, if mem (fst ic) rm then snd ic
                                      else filter (fun c => negb (mem c rm)) (snd ic))) (g_kids g) in
  let registered (o : oid) := match nget (n_id (g_heap g o)) (g_nodes g) with Some o' => Nat.eqb o o' | None => false end in
  let h1 (o : oid) := let x := g_heap g o in
    if registered o && negb (mem (n_id x) rm)
    then set_children x (filter (fun c => negb (mem (n_id (g_heap g c)) rm)) (n_children x)) else x in
  let h2 (o : oid) := let x := h1 o in
    if registered o && negb (mem (n_id x) rm) &&
       match n_parent x with Some p => mem (n_id (g_heap g p)) rm | None => false end
    then set_parent x None else x in
  let h3 (o : oid) := let x := h2 o in
    if registered o && mem (n_id x) rm then set_children (set_parent x None) [] else x in
  mkG h3 (g_next g) (filter (fun io => negb (mem (fst io) rm)) (g_nodes g))
      (filter (fun ic => negb (mem (fst ic) rm)) kids) wires (g_state g) (g_root g) (g_name g) (g_pub g).

(** remove_node (267-355). *)
Definition remove_node (i : idtext) (children : bool) : mgr -> mgr * res unit :=
  edit_service (fun g =>
    match ros_to_uuid i with
    | None => (g, Err EKey)
    | Some n =>
        if negb (nhas n (g_nodes g)) then (g, Err EKey)
        else let g := sync_children g in (drop_nodes g (to_remove g n children), Ok tt)
    end).

(** ** add_node_at_index (127-253) *)

(** [child_id in self.nodes] (190) compares the text of an identifier with UUID
    objects, which is always false, so every entry of [child_ids] is missing.
    [u] is the result of [uuid.uuid4()].  [None]: the cycle check did not finish
    within [fuel] iterations per node. *)
Definition add_node_at_index (fuel : nat) (u : nid) (parent : idtext) (x : instance)
    (child_ids : list idtext) (index : Z) (g : mgr) : option (mgr * res nid) :=
  if negb (tstate_eqb (g_state g) EDITABLE) then Some (g, Err EGuard)
  else
    let done (g : mgr) (r : res nid) := Some (publish_structure g, r) in
    match instantiate g (uuid_to_ros u) x with
    | (g1, Err e) => done g1 (Err e)
    | (g1, Raise) => done g1 Raise
    | (g1, Ok o) =>
        match ros_to_uuid parent with
        | None => done g1 (Err EKey)
        | Some p =>
            if negb (Nat.eqb p 0) && negb (nhas p (g_nodes g1))
            then done (fst (remove_node (uuid_to_ros u) false g1)) (Err EKey)   (* 166-181 *)
            else
            match (if Nat.eqb p 0 then Ok (g_heap g1)
                   else match nget p (g_nodes g1) with
                        | None => Raise
                        | Some po => add_child (g_heap g1) po o (Some index)
                        end) with
            | Err e => done g1 (Err e)                       (* 186-189: the new node stays *)
            | Raise => done g1 Raise
            | Ok h =>
                let g2 := set_heap g1 h in
                let missing := negb (match child_ids with [] => true | _ => false end) in
                let g3 := if missing then fst (remove_node (uuid_to_ros u) false g2) else g2 in
                match find_nodes_in_cycles fuel g3 with
                | None => None
                | Some (_ :: _) =>                           (* 220-239 *)
                    let h' := fold_left (fun h c => match remove_child h o (n_id (g_heap g3 c)) with
                                                    | Ok (h', _) => h' | _ => h end)
                                        (n_children (g_heap g3 o)) (g_heap g3) in
                    done (fst (remove_node (uuid_to_ros u) false (set_heap g3 h'))) (Err ETopo)
                | Some [] =>                                 (* 241-249 *)
                    let kids1 := if Nat.eqb p 0 then g_kids g3
                                 else nset p (match nget p (g_kids g3) with Some l => l ++ [u] | None => [u] end)%list
                                           (g_kids g3) in
                    let kids2 := if nhas u kids1 then kids1 else nset u [] kids1 in
                    done (set_kids g3 kids2) (if missing then Err EKey else Ok u)
                end
            end
        end
    end.

(** add_node (102-125): index -1. *)
Definition add_node (fuel : nat) (u : nid) (parent : idtext) (x : instance) (child_ids : list idtext) (g : mgr) :=
  if negb (tstate_eqb (g_state g) EDITABLE) then Some (g, Err EGuard)
  else match add_node_at_index fuel u parent x child_ids (-1) g with
       | None => None
       | Some (g', r) => Some (publish_structure g', r)
       end.

(** ** move_node (645-755) *)

(** The [while] loop over the descendants (707-714); the fuel bounds the number of
    identifiers that can ever be pushed. *)
Fixpoint descend (fuel : nat) (kids : list (nid * list nid)) (pending seen : list nid) : list nid :=
  match fuel with
  | 0 => seen
  | S f =>
      match pending with
      | [] => seen
      | d :: rest =>
          if mem d seen then descend f kids rest seen
          else descend f kids (match nget d kids with Some l => l | None => [] end ++ rest)%list (d :: seen)
      end
  end.
Definition kids_of (kids : list (nid * list nid)) (i : nid) : list nid :=
  match nget i kids with Some l => l | None => [] end.
Definition descendants (g : mgr) (i : nid) : list nid :=
  descend (S (List.length (kids_of (g_kids g) i) + List.length (flat_map snd (g_kids g)))) (g_kids g)
          (kids_of (g_kids g) i) [].

Definition move_node (i parent : idtext) (index : Z) : mgr -> mgr * res unit :=
  edit_service (fun g =>
    match ros_to_uuid i, ros_to_uuid parent with
    | Some n, Some p =>
        match nget n (g_nodes g) with
        | None => (g, Err EKey)
        | Some o =>
            if Nat.eqb p 0 then                              (* 676-690 *)
              match n_parent (g_heap g o) with
              | None => (sync_children g, Ok tt)
              | Some po => match remove_child (g_heap g) po n with
                           | Ok (h, _) => (sync_children (set_heap g h), Ok tt)
                           | Err e => (g, Err e)
                           | Raise => (g, Raise)
                           end
              end
            else
              match nget p (g_nodes g) with
              | None => (g, Err EKey)
              | Some np =>
                  if match f_max (n_cfg (g_heap g np)) with
                     | Some m => Nat.eqb (List.length (n_children (g_heap g np))) m
                     | None => false end
                  then (g, Err EGuard)
                  else if mem (n_id (g_heap g np)) (descendants g n) then (g, Err ETopo)
                  else
                    match (match n_parent (g_heap g o) with
                           | None => Ok (g_heap g)
                           | Some po => match remove_child (g_heap g) po (n_id (g_heap g o)) with
                                        | Ok (h, _) => Ok h | Err e => Err e | Raise => Raise end
                           end) with
                    | Err e => (g, Err e)
                    | Raise => (g, Raise)
                    | Ok h =>
                        match add_child h np o (Some index) with
                        | Ok h' => (sync_children (set_heap g h'), Ok tt)
                        | Err e => (set_heap g h, Err e)
                        | Raise => (set_heap g h, Raise)
                        end
                    end
              end
        end
    | _, _ => (g, Err EKey)
    end).

(** ** replace_node (757-916) *)

(** The loop that moves the children (860-883). *)
Fixpoint transfer (h : oid -> nobj) (old new : oid) (cs : list nid) : (oid -> nobj) * res unit :=
  match cs with
  | [] => (h, Ok tt)
  | c :: r =>
      match remove_child h old c with
      | Err e => (h, Err e)
      | Raise => (h, Raise)
      | Ok (h1, co) =>
          if Nat.eqb c (n_id (h1 new)) then transfer h1 old new r
          else match add_child h1 new co None with
               | Ok h2 => transfer h2 old new r
               | Err e => (h1, Err e)
               | Raise => (h1, Raise)
               end
      end
  end.

(** replace_node (757-916). *)
Definition replace_node (old new : idtext) : mgr -> mgr * res unit :=
  edit_service (fun g =>
    match ros_to_uuid old, ros_to_uuid new with
    | Some a, Some b =>
        match nget a (g_nodes g), nget b (g_nodes g) with
        | Some oo, Some no =>
            let h := g_heap g in
            if match f_max (n_cfg (h no)) with
               | Some m => Nat.ltb m (List.length (n_children (h oo))) | None => false end
            then (g, Err EGuard)
            else
              let op := n_parent (h oo) in
              let i0 := match op with
                        | None => 0
                        | Some po => match child_index h po (n_id (h oo)) with Some k => k | None => 0 end
                        end in
              let i1 := match n_parent (h no), op with
                        | Some np, Some po =>
                            if Nat.eqb (n_id (h np)) (n_id (h po)) && Nat.ltb 0 i0
                            then match child_index h np (n_id (h no)) with
                                 | Some k => if Nat.ltb k i0 then i0 - 1 else i0
                                 | None => i0 end
                            else i0
                        | _, _ => i0
                        end in
              match transfer h oo no (ids_of h (n_children (h oo))) with
              | (h1, Err e) => (set_heap g h1, Err e)
              | (h1, Raise) => (set_heap g h1, Raise)
              | (h1, Ok _) =>
                  match remove_node (uuid_to_ros (n_id (h1 oo))) true (set_heap g h1) with
                  | (g2, Ok _) =>
                      match op with
                      | None => (g2, Ok tt)
                      | Some po =>
                          move_node (uuid_to_ros (n_id (h1 no))) (uuid_to_ros (n_id (h1 po))) (Z.of_nat i1) g2
                      end
                  | (g2, r) => (g2, r)
                  end
              end
        | _, _ => (g, Err EKey)
        end
    | _, _ => (g, Err EKey)
    end).

(** ** morph_node (357-484) and set_options (486-643) *)

(** Put the new object in the place of the old one among the children of its
    parent (422-452, 577-610); [Err] also tells the heap in which it failed. *)
Definition put_in_place (h : oid -> nobj) (old new : oid) : (oid -> nobj) * res unit :=
  match n_parent (h old) with
  | None => (h, Ok tt)
  | Some p =>
      match child_index h p (n_id (h old)) with
      | None => (h, Err EKey)
      | Some k =>
          match remove_child h p (n_id (h old)) with
          | Err e => (h, Err e)
          | Raise => (h, Raise)
          | Ok (h1, _) =>
              match add_child h1 p new (Some (Z.of_nat k)) with
              | Ok h2 => (h2, Ok tt)
              | Err e => (match add_child h1 p old (Some (Z.of_nat k)) with Ok h2 => h2 | _ => h1 end, Err e)
              | Raise => (h1, Raise)
              end
          end
      end
  end.

(** The loop that moves the children to the new instance (456-472, 620-634). *)
Fixpoint hand_over (h : oid -> nobj) (old new : oid) (cs : list nid) : (oid -> nobj) * res unit :=
  match cs with
  | [] => (h, Ok tt)
  | c :: r =>
      match remove_child h old c with
      | Err e => (h, Err e)
      | Raise => (h, Raise)
      | Ok (h1, co) =>
          match add_child h1 new co None with
          | Ok h2 => hand_over h2 old new r
          | Err e => (h1, Err e)
          | Raise => (h1, Raise)
          end
      end
  end.

(** 357-484, 486-643: the wirings of the node. *)
Definition wires_of (g : mgr) (n : nid) : list wiring := filter (fun w => wiring_has_id w n) (g_wires g).

(** When putting the new node in place failed after it was removed, the wirings are
    restored; when the parent does not list the node they are not (426-432). *)
Definition morph_node (i : idtext) (x : instance) : mgr -> mgr * res unit :=
  edit_service (fun g =>
    match ros_to_uuid i with
    | None => (g, Err EKey)
    | Some n =>
        match nget n (g_nodes g) with
        | None => (g, Err EKey)
        | Some oo =>
            match instantiate g (uuid_to_ros n) x with
            | (g1, Err e) => (g1, Err e)
            | (g1, Raise) => (g1, Raise)
            | (g1, Ok no) =>
                let ws := wires_of g1 (n_id (g_heap g1 oo)) in
                match unwire_data ws false g1 with
                | (g2, Err e) => (g2, Err e)
                | (g2, Raise) => (g2, Raise)
                | (g2, Ok _) =>
                    match put_in_place (g_heap g2) oo no with
                    | (h, Err EKey) => (set_heap g2 h, Err EKey)
                    | (h, Err e) => (fst (wire_data ws true (set_heap g2 h)), Err e)
                    | (h, Raise) => (set_heap g2 h, Raise)
                    | (h, Ok _) =>
                        match hand_over h oo no (ids_of h (n_children (h oo))) with
                        | (h', Err e) => (set_heap g2 h', Err e)
                        | (h', Raise) => (set_heap g2 h', Raise)
                        | (h', Ok _) =>
                            let g3 := set_nodes (set_heap g2 h') (nset n no (ndel n (g_nodes g2))) in
                            let g4 := set_kids g3 (nset n (ids_of h' (n_children (h' no))) (ndel n (g_kids g3))) in
                            wire_data ws true g4
                        end
                    end
                end
            end
        end
    end).

(** The construction of the message for the new node (513-536) is part of [x]. *)
Definition set_options (i : idtext) (x : instance) : mgr -> mgr * res unit :=
  edit_service (fun g =>
    match ros_to_uuid i with
    | None => (g, Err EKey)
    | Some n =>
        match nget n (g_nodes g) with
        | None => (g, Err EKey)
        | Some oo =>
            match instantiate (sync_children g) (uuid_to_ros n) x with
            | (g1, Err e) => (g1, Err e)
            | (g1, Raise) => (g1, Raise)
            | (g1, Ok no) =>
                let ws := wires_of g1 n in
                match unwire_data ws false g1 with
                | (g2, Err e) => (g2, Err e)
                | (g2, Raise) => (g2, Raise)
                | (g2, Ok _) =>
                    match put_in_place (g_heap g2) oo no with
                    | (h, Err EKey) => (set_heap g2 h, Err EKey)
                    | (h, Err e) => (fst (wire_data ws true (set_heap g2 h)), Err e)
                    | (h, Raise) => (set_heap g2 h, Raise)
                    | (h, Ok _) =>
                        let g3 := set_nodes (set_heap g2 h) (nset n no (g_nodes g2)) in
                        let g4 := set_kids g3 (nset n (ids_of h (n_children (h no))) (g_kids g3)) in
                        let g5 := fst (wire_data ws true g4) in
                        match hand_over (g_heap g5) oo no (ids_of (g_heap g5) (n_children (g_heap g5 oo))) with
                        | (h', Err e) => (set_heap g5 h', Err e)
                        | (h', Raise) => (set_heap g5 h', Raise)
                        | (h', Ok _) => (sync_children (set_heap g5 h'), Ok tt)
                        end
                    end
                end
            end
        end
    end).

(** ** change_tree_name (255-265), clear (tree_exec_manager.py:754-780) *)

(** change_tree_name (255-265). *)
Definition change_tree_name (s : string) : mgr -> mgr * res unit :=
  edit_service (fun g => (set_name g s, Ok tt)).

(** clear (tree_exec_manager.py:754-780). *)
Definition clear : mgr -> mgr * res unit :=
  edit_service (fun g => (mkG (g_heap g) (g_next g) [] [] [] EDITABLE (Some 0) "UNKNOWN TREE" (g_pub g), Ok tt)).

(** ** load_tree (tree_exec_manager.py:818-922), from a message *)

(** A node in a TreeStructure message: identifier, what Node.from_msg makes of it,
    child identifiers.  tree_exec_manager.py:818-922. *)
Record nmsg : Set := mkM { ms_id : idtext; ms_inst : instance; ms_children : list idtext }.

(** load_tree (tree_exec_manager.py:818-922): the nodes. *)
Fixpoint load_nodes (l : list nmsg) (g : mgr) : mgr * res unit :=
  match l with
  | [] => (g, Ok tt)
  | m :: r => match instantiate g (ms_id m) (ms_inst m) with
              | (g1, Ok _) => load_nodes r g1
              | (g1, Err e) => (g1, Err e)
              | (g1, Raise) => (g1, Raise)
              end
  end.

(** [self.nodes[child_id]] raises KeyError for an unknown child (875). *)
Fixpoint load_children (o : oid) (l : list idtext) (g : mgr) : mgr * res unit :=
  match l with
  | [] => (g, Ok tt)
  | t :: r =>
      match ros_to_uuid t with
      | None => (g, Err EKey)
      | Some c => match nget c (g_nodes g) with
                  | None => (g, Raise)
                  | Some co => match add_child (g_heap g) o co None with
                               | Ok h => load_children o r (set_heap g h)
                               | Err e => (g, Err e)
                               | Raise => (g, Raise)
                               end
                  end
      end
  end.
Fixpoint load_links (l : list nmsg) (g : mgr) : mgr * res unit :=
  match l with
  | [] => (g, Ok tt)
  | m :: r =>
      match ros_to_uuid (ms_id m) with
      | None => (g, Raise)
      | Some n => match nget n (g_nodes g) with
                  | None => (g, Raise)
                  | Some o => match load_children o (ms_children m) g with
                              | (g1, Ok _) => load_links r g1
                              | (g1, x) => (g1, x)
                              end
                  end
      end
  end.

(** load_tree (tree_exec_manager.py:818-922). *)
Definition load_tree (nodes : list nmsg) (ws : list wiring) (name : string) : mgr -> mgr * res unit :=
  edit_service (fun g =>
    match clear g with
    | (g0, Ok _) =>
        match load_nodes nodes g0 with
        | (g1, Ok _) =>
            match load_links nodes g1 with
            | (g2, Ok _) =>
                let g3 := sync_children g2 in
                match check_wirings g3 false ws with
                | None => (g3, Err EWire)
                | Some ws' => (fst (find_root (set_name (set_wires g3 ws') name)), Ok tt)
                end
            | x => x
            end
        | x => x
        end
    | x => x
    end).
