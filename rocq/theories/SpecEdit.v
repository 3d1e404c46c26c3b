(** Vocabulary of the statements about editing: what an observer sees of a tree. *)
From Coq Require Import String ZArith Bool Arith Relations List.
From Verif Require Import Base ModelData ModelEdit.
Import ListNotations.

(** ** What a client sees: nodes, links, wirings *)

Definition obj (g : mgr) (i : nid) : option nobj := option_map (g_heap g) (nget i (g_nodes g)).
(** [i] is a node of the tree. *)
Definition present (g : mgr) (i : nid) : Prop := nget i (g_nodes g) <> None.
(** Its children, in order. *)
Definition kids (g : mgr) (i : nid) : list nid :=
  match obj g i with Some x => ids_of (g_heap g) (n_children x) | None => [] end.
(** Its parent. *)
Definition par (g : mgr) (i : nid) : option nid :=
  match obj g i with Some x => option_map (fun p => n_id (g_heap g p)) (n_parent x) | None => None end.
Definition cfg (g : mgr) (i : nid) : option config := option_map n_cfg (obj g i).
(** The nodes in dictionary order. *)
Definition order (g : mgr) : list nid := map fst (g_nodes g).

(** Nothing an observer can see differs. *)
Definition same_tree (g g' : mgr) : Prop :=
  order g' = order g /\
  (forall i, kids g' i = kids g i) /\ (forall i, par g' i = par g i) /\ (forall i, cfg g' i = cfg g i) /\
  g_wires g' = g_wires g /\ g_name g' = g_name g /\ g_state g' = g_state g.

(** ** Well-formed trees (forests) *)

(** Each node occurs once; parent and child links agree; a child is listed once and
    the number of children respects the configuration. *)
Record linked (g : mgr) : Prop := {
  li_once : NoDup (order g);
  li_child : forall i c, In c (kids g i) -> present g c /\ par g c = Some i;
  li_parent : forall i p, par g i = Some p -> present g p /\ In i (kids g p);
  li_nodup : forall i, NoDup (kids g i);
  li_max : forall i c m, cfg g i = Some c -> f_max c = Some m -> length (kids g i) <= m }.

(** [d] is a child, grandchild, ... of [i]. *)
Definition child_of (g : mgr) (i c : nid) : Prop := In c (kids g i).
Definition below (g : mgr) : nid -> nid -> Prop := clos_trans nid (child_of g).
Definition acyclic (g : mgr) : Prop := forall i, ~ below g i i.

(** [x] is inserted into [l] at a Python list index: counted from the front, or, if
    negative, from the end ([-1]: append). *)
Definition placed {A} (index : Z) (x : A) (l l' : list A) : Prop :=
  exists a b, l = (a ++ b)%list /\ l' = (a ++ x :: b)%list /\
    (0 <= index -> length a = Nat.min (Z.to_nat index) (length l))%Z /\
    (- Z.of_nat (length l) - 1 <= index < 0 -> Z.of_nat (length a) = Z.of_nat (length l) + 1 + index)%Z.

Definition without (x : nid) (l : list nid) : list nid := filter (fun y => negb (Nat.eqb x y)) l.

(** ** Wirings *)

(** The wiring connects an existing output with an existing input of a type that
    accepts it. *)
Definition good_wiring (g : mgr) (w : wiring) : Prop :=
  exists s t sc tc so ti, ros_to_uuid (wi_src w) = Some s /\ ros_to_uuid (wi_tgt w) = Some t /\
    cfg g s = Some sc /\ cfg g t = Some tc /\
    dget (wi_skey w) (f_outs sc) = Some so /\ dget (wi_tkey w) (f_ins tc) = Some ti /\
    is_compatible (runtime_type ti) (runtime_type so) = true.

Definition mentions (w : wiring) (i : nid) : Prop :=
  ros_to_uuid (wi_src w) = Some i \/ ros_to_uuid (wi_tgt w) = Some i.

(** ** Requests and histories *)

Inductive edit : Set :=
| EAdd (u : nid) (parent : idtext) (x : instance) (child_ids : list idtext) (index : Z)
| EAddLast (u : nid) (parent : idtext) (x : instance) (child_ids : list idtext)
| ERemove (i : idtext) (children : bool)
| EMove (i parent : idtext) (index : Z)
| EReplace (old new : idtext)
| EMorph (i : idtext) (x : instance)
| EOptions (i : idtext) (x : instance)
| EWireD (l : list wiring) (ignore : bool)
| EUnwire (l : list wiring) (ignore : bool)
| ERename (name : string)
| EClear
| ELoad (nodes : list nmsg) (ws : list wiring) (name : string).

(** The services return a message with a success flag.  [None]: the call has not
    returned after [fuel] rounds of the cycle search. *)
Definition serve (fuel : nat) (e : edit) (g : mgr) : option (mgr * res unit) :=
  let done (gr : mgr * res unit) := Some gr in
  let answer := option_map (fun gr : mgr * res nid => (fst gr, res_map (fun _ => tt) (snd gr))) in
  match e with
  | EAdd u p x k i => answer (add_node_at_index fuel u p x k i g)
  | EAddLast u p x k => answer (add_node fuel u p x k g)
  | ERemove i c => done (remove_node i c g)
  | EMove i p k => done (move_node i p k g)
  | EReplace a b => done (replace_node a b g)
  | EMorph i x => done (morph_node i x g)
  | EOptions i x => done (set_options i x g)
  | EWireD l b => done (wire_data l b g)
  | EUnwire l b => done (unwire_data l b g)
  | ERename s => done (change_tree_name s g)
  | EClear => done (clear g)
  | ELoad n w s => done (load_tree n w s g)
  end.

(** A manager after construction (tree_exec_manager.py:295-385). *)
Definition empty_mgr (pub : bool) : mgr :=
  mkG (fun _ => mkN 0 (mkCfg [] [] None) None []) 0 [] [] [] EDITABLE None "" pub.

(** What [uuid.uuid4()] returns is neither nil nor the id of a node, and the request
    does not mention it. *)
Definition fresh_id (g : mgr) (u : nid) (parent : idtext) : Prop :=
  u <> 0 /\ ~ present g u /\ ros_to_uuid parent <> Some u.
Definition fresh (g : mgr) (e : edit) : Prop :=
  match e with EAdd u p _ _ _ | EAddLast u p _ _ => fresh_id g u p | _ => True end.

(** States reachable by calls that returned; [P] restricts the calls. *)
Inductive history (P : mgr -> edit -> mgr * res unit -> Prop) (pub : bool) : mgr -> Prop :=
| H_new : history P pub (empty_mgr pub)
| H_call fuel g e g' r : history P pub g -> fresh g e -> serve fuel e g = Some (g', r) -> P g e (g', r) ->
    history P pub g'.

Definition any_call (g : mgr) (e : edit) (x : mgr * res unit) : Prop := True.

(** The replacement of a node by one that cannot hold its children is the only call,
    besides loading a malformed message, that tears links apart. *)
Definition room_for (g : mgr) (i : idtext) (x : instance) : Prop :=
  forall n c m, ros_to_uuid i = Some n -> x = Ok c -> f_max c = Some m -> length (kids g n) <= m.

(** A message that describes a forest: no node has two parents. *)
Definition forest_msg (nodes : list nmsg) : Prop :=
  NoDup (map (fun m => ros_to_uuid (ms_id m)) nodes) /\
  NoDup (map ros_to_uuid (flat_map ms_children nodes)).

Definition sane_call (g : mgr) (e : edit) (_ : mgr * res unit) : Prop :=
  match e with
  | EMorph i x | EOptions i x => room_for g i x
  | ELoad nodes _ _ => forest_msg nodes
  | _ => True
  end.

(** ** Effects of single requests *)

(** Everything but links is as before. *)
Definition only_links (g g' : mgr) : Prop :=
  order g' = order g /\ (forall i, cfg g' i = cfg g i) /\
  g_wires g' = g_wires g /\ g_name g' = g_name g /\ g_state g' = g_state g.

(** [i] has no parent any more. *)
Definition detached (g g' : mgr) (i : nid) : Prop :=
  only_links g g' /\ (forall j, kids g' j = without i (kids g j)) /\
  (forall j, par g' j = if Nat.eqb j i then None else par g j).

(** [i], with everything below it, is now at [index] under [p]. *)
Definition moved (g g' : mgr) (i p : nid) (index : Z) : Prop :=
  only_links g g' /\
  (forall j, j <> p -> kids g' j = without i (kids g j)) /\
  placed index i (without i (kids g p)) (kids g' p) /\
  (forall j, par g' j = if Nat.eqb j i then Some p else par g j).

(** [p] cannot take another child. *)
Definition full (g : mgr) (p : nid) : Prop :=
  exists c m, cfg g p = Some c /\ f_max c = Some m /\ length (kids g p) = m.

(** Exactly one node, [u], was added: under [p] at [index], or without parent. *)
Definition added (g g' : mgr) (u : nid) (c : config) (p : option nid) (index : Z) : Prop :=
  order g' = (order g ++ [u])%list /\
  (forall j, cfg g' j = if Nat.eqb j u then Some c else cfg g j) /\
  (forall j, par g' j = if Nat.eqb j u then p else par g j) /\
  (forall j, Some j <> p -> kids g' j = kids g j) /\
  (forall q, p = Some q -> placed index u (kids g q) (kids g' q)) /\
  g_wires g' = g_wires g /\ g_name g' = g_name g /\ g_state g' = g_state g.

(** [new] took the place and the children of [old], which is gone. *)
Definition replaced (g g' : mgr) (old new : nid) : Prop :=
  let swap x := if Nat.eqb x old then new else x in
  order g' = without old (order g) /\
  (forall j, cfg g' j = if Nat.eqb j old then None else cfg g j) /\
  kids g' new = (kids g new ++ kids g old)%list /\
  (forall j, j <> old -> j <> new -> kids g' j =
     match par g old with Some _ => map swap (without new (kids g j)) | None => kids g j end) /\
  (forall j, par g' j =
     if Nat.eqb j old then None
     else if Nat.eqb j new then match par g old with Some p => Some p | None => par g new end
     else match par g j with Some q => Some (swap q) | None => None end) /\
  g_name g' = g_name g /\ g_state g' = g_state g /\
  g_wires g' = filter (fun w => negb (wiring_has_id w old)) (g_wires g).

(** Node [n] has a new configuration; its place and its children are as before, and of
    the wirings exactly those that no longer fit are gone. *)
Definition reconfigured (g g' : mgr) (n : nid) (c : config) : Prop :=
  (forall j, cfg g' j = if Nat.eqb j n then Some c else cfg g j) /\
  (forall j, kids g' j = kids g j) /\ (forall j, par g' j = par g j) /\
  (forall w, In w (g_wires g') <-> In w (g_wires g) /\ good_wiring g' w) /\
  (forall p, (forall w, p w = true -> ~ mentions w n) -> filter p (g_wires g') = filter p (g_wires g)) /\
  g_name g' = g_name g /\ g_state g' = g_state g.

(** The tree is the one the message describes. *)
Definition loaded (g' : mgr) (nodes : list nmsg) (ws : list wiring) (name : string) : Prop :=
  map Some (order g') = map (fun m => ros_to_uuid (ms_id m)) nodes /\
  (forall m n, In m nodes -> ros_to_uuid (ms_id m) = Some n ->
     (exists c, ms_inst m = Ok c /\ cfg g' n = Some c) /\ map Some (kids g' n) = map ros_to_uuid (ms_children m)) /\
  g_wires g' = ws /\ g_name g' = name.

(** ** Requests that can be met *)

(** The new node can be built and put under the parent; the list of children in the
    request must be empty (the service cannot handle another one). *)
Definition addable (g : mgr) (parent : idtext) (x : instance) (child_ids : list idtext) : Prop :=
  (exists c, x = Ok c) /\ child_ids = [] /\
  exists p, ros_to_uuid parent = Some p /\ (p = 0 \/ (present g p /\ ~ full g p)).
(** The two requests that fail and leave the new node behind: the parent identifier is
    not an identifier, or the parent has no room. *)
Definition leaves_orphan (g : mgr) (parent : idtext) : Prop :=
  ros_to_uuid parent = None \/ exists p, ros_to_uuid parent = Some p /\ p <> 0 /\ present g p /\ full g p.
(** The nil identifier stands for "no parent". *)
Definition parent_of (t : idtext) : option nid :=
  match ros_to_uuid t with Some 0 => None | x => x end.

(** The moves that work. *)
Definition may_move (g : mgr) (i p : nid) : Prop :=
  present g i /\ (p = 0 \/ (present g p /\ ~ full g p /\ ~ below g i p)).

(** The replacements that work: neither node is inside the other, and [new] has room. *)
Definition replaceable (g : mgr) (old new : nid) : Prop :=
  present g old /\ present g new /\ old <> new /\ ~ below g old new /\ ~ below g new old /\
  (forall c m, cfg g new = Some c -> f_max c = Some m -> length (kids g new) + length (kids g old) <= m).

(** [n] moved to the end of the dictionary. *)
Definition order_last (g g' : mgr) (n : nid) : Prop := order g' = (without n (order g) ++ [n])%list.

(** Exactly the nodes [gone] were removed, with every link and wiring to them. *)
Definition dropped (g g' : mgr) (gone : nid -> Prop) : Prop :=
  exists keep : nid -> bool, (forall j, keep j = false <-> gone j) /\
  order g' = filter keep (order g) /\
  (forall j, cfg g' j = if keep j then cfg g j else None) /\
  (forall j, kids g' j = if keep j then filter keep (kids g j) else []) /\
  (forall j, par g' j = if keep j then match par g j with Some p => if keep p then Some p else None | None => None end else None) /\
  (exists stays : wiring -> bool, (forall w, In w (g_wires g) -> (stays w = false <-> exists j, mentions w j /\ gone j)) /\
     g_wires g' = filter stays (g_wires g)) /\
  g_name g' = g_name g /\ g_state g' = g_state g.

(** How often [w] is in [l]. *)
Definition times (w : wiring) (l : list wiring) : nat := length (filter (wiring_eqb w) l).

(** Only wirings differ. *)
Definition only_wires (g g' : mgr) : Prop :=
  order g' = order g /\ (forall i, kids g' i = kids g i) /\ (forall i, par g' i = par g i) /\
  (forall i, cfg g' i = cfg g i) /\ g_name g' = g_name g /\ g_state g' = g_state g.

(** The keys of both; the entries of [a] win. *)
Definition merged (a b c : ios) : Prop :=
  forall k, dget k c = match dget k a with Some v => Some v | None => dget k b end.
Definition disjoint (a b : ios) : Prop := forall k, dget k a <> None -> dget k b = None.

(** Following parents from [i] one arrives at a node without parent. *)
Definition has_root (g : mgr) (i : nid) : Prop := exists y, (y = i \/ below g y i) /\ par g y = None.
