(** Everything a TreeExecManager holds, as a plant of ModelExec.v: the nodes with their
    links, the wirings and the editing services of ModelEdit.v, the life cycle of the nodes
    of ModelTree.v and the data flow manager of ModelSubtreeNode.v.  No proofs in this
    file. *)
From Coq Require Import List Bool Arith String.
From Verif Require Import Base ModelTree ModelSubtreeNode ModelEdit SpecEdit ModelExec.
Import ListNotations.

(** self.nodes, self.wirings and the attributes of the nodes
    (/repo/ros_bt_py/ros_bt_py/tree_exec_manager.py:359-371).  [sv_class]: the class and
    the name of the node with this identifier. *)
Record server (E : Type) : Type := mkSv {
  sv_mgr : mgr; sv_class : nid -> ModelTree.kind * string; sv_world : world E }.
Arguments mkSv {E}. Arguments sv_mgr {E}. Arguments sv_class {E}. Arguments sv_world {E}.

(** max_children in the NodeConfig of the classes (nodes/*.py, define_bt_node; leaves: 0,
    decorators: 1, flow control: None).  node_config.py:137-189. *)
Definition class_max (k : ModelTree.kind) : option nat :=
  match k with
  | KLeaf => Some 0
  | KSequence | KMemorySequence | KFallback | KMemoryFallback | KNameSwitch | KEnumSwitch _
  | KParallel | KParallelTolerance => None
  | _ => Some 1
  end.

(** The objects found by following [children] from an object (node.py:1070-1077), as a
    tree of ModelTree.v; there is none if the links run in a circle. *)
Inductive unfolds (g : mgr) (cl : nid -> ModelTree.kind * string) : oid -> tree -> Prop :=
| unfold_obj o cs : unfolds_all g cl (n_children (g_heap g o)) cs ->
    unfolds g cl o (T (n_id (g_heap g o)) (fst (cl (n_id (g_heap g o)))) (snd (cl (n_id (g_heap g o)))) cs)
with unfolds_all (g : mgr) (cl : nid -> ModelTree.kind * string) : list oid -> list tree -> Prop :=
| unfold_nil : unfolds_all g cl [] []
| unfold_cons o t os ts : unfolds g cl o t -> unfolds_all g cl os ts -> unfolds_all g cl (o :: os) (t :: ts).

Section Server.
Context {E : Type}.
Implicit Types (s : server E).

(** find_root (585-621). *)
Definition sv_root s : rootres :=
  match snd (find_root (sv_mgr s)) with Ok None => REmpty | Ok (Some _) => ROne | _ => RBad end.
Definition sv_state s : state :=
  match snd (find_root (sv_mgr s)) with
  | Ok (Some o) => w_st (sv_world s) (n_id (g_heap (sv_mgr s) o))
  | _ => UNINITIALIZED
  end.

(** 650-654: a node has a parent that is not in self.nodes. *)
Definition sv_orphan s : bool :=
  existsb (fun io => match n_parent (g_heap (sv_mgr s) (snd io)) with
                     | Some p => negb (nhas (n_id (g_heap (sv_mgr s) p)) (g_nodes (sv_mgr s)))
                     | None => false
                     end) (g_nodes (sv_mgr s)).

(** A call of an operation on the root.  As in ModelExecTree.v: if there is no single root
    any more when the call ends, anything may have happened to the attributes.
    tree_exec_manager.py:623-1340. *)
Definition sv_op (ev : env E) (o : op) s s' (r : res state) : Prop :=
  sv_mgr s' = sv_mgr s /\ sv_class s' = sv_class s /\
  match snd (find_root (sv_mgr s)) with
  | Ok (Some root) => exists t, unfolds (sv_mgr s) (sv_class s) root t /\
                                call o (obj_of ev t) (sv_world s) = (sv_world s', r)
  | _ => True
  end.

(** [self.data_flow_manager.initialize(self.nodes, self.wirings)] (677,
    data_flow_manager.py:85-112). *)
Definition sv_wires (g : mgr) : list iwire :=
  map (fun x => mkIW (ros_to_uuid (wi_src x)) (wi_skey x) (ros_to_uuid (wi_tgt x)) (wi_tkey x)) (g_wires g).
Definition sv_init s s' (b : bool) : Prop :=
  let (c, r) := connect (sv_wires (sv_mgr s)) (fun n => if nhas n (g_nodes (sv_mgr s)) then Some [] else None) in
  s' = mkSv (sv_mgr s) (sv_class s) (set_conns (sv_world s) c) /\
  b = match r with Raise => false | _ => true end.
(** [push_incoming_data()] (689): there are no incoming data. *)
Definition sv_push s s' (r : res unit) : Prop := s' = s /\ r = Ok tt.

(** find_root also brings self._children up to date and sets self.root_id (597, 620).
    ModelExec.v has find_root without an effect; instead, an editing service and 971-973
    may find the manager as it was left or as find_root leaves it. *)
Definition maybe_synced (g g0 : mgr) : Prop := g0 = g \/ g0 = fst (find_root g).

(** 971-973: every node loses its parent and its children. *)
Definition unlink_nodes (g : mgr) : mgr :=
  set_heap g (fun o => if existsb (fun io => Nat.eqb (snd io) o) (g_nodes g)
                       then set_children (set_parent (g_heap g o) None) [] else g_heap g o).
Definition sv_unlink s s' : Prop :=
  exists g0, maybe_synced (sv_mgr s) g0 /\ s' = mkSv (unlink_nodes g0) (sv_class s) (sv_world s).

(** An editing service (ModelEdit.v), one of those that [calls] allows.  The state
    was looked at before (92-124), so it is EDITABLE here.  A node object that was there
    before keeps its class, and its state unless it was shut down; a new one is
    UNINITIALIZED (node.py:132-222).  Everything else about the nodes is arbitrary. *)
Definition sv_edit (calls : mgr -> SpecEdit.edit -> mgr * res unit -> Prop) s s' (b : bool) : Prop :=
  exists fuel e g0 r, maybe_synced (sv_mgr s) g0 /\ SpecEdit.fresh g0 e /\
    serve fuel e g0 = Some (sv_mgr s', r) /\ calls g0 e (sv_mgr s', r) /\ b = is_ok r /\
    (forall i o, nget i (g_nodes (sv_mgr s')) = Some o ->
       f_max (n_cfg (g_heap (sv_mgr s') o)) = class_max (fst (sv_class s' i)) /\
       (nget i (g_nodes (sv_mgr s)) = Some o ->
          sv_class s' i = sv_class s i /\
          (w_st (sv_world s') i = w_st (sv_world s) i \/ w_st (sv_world s') i = SHUTDOWN)) /\
       (nget i (g_nodes (sv_mgr s)) <> Some o -> w_st (sv_world s') i = UNINITIALIZED)).

(** The information about subtrees (clear_subtrees) is not part of the nodes.
    What tree_exec_manager.py:623-1340 calls. *)
Definition server_plant (ev : env E) (calls : mgr -> SpecEdit.edit -> mgr * res unit -> Prop) : plant (server E) := {|
  p_root := sv_root; p_state := sv_state; p_orphan := sv_orphan; p_op := sv_op ev; p_init := sv_init;
  p_push := sv_push; p_unlink := sv_unlink; p_subclear := fun s s' => s' = s; p_edit := sv_edit calls |}.
End Server.
