(** Model of the tree as a message: the TreeStructure message a tree manager owns and
    publishes, get_subtree, loading from a message or a file and reloading.  No proofs
    in this file.

    Line numbers without a file name refer to
    /repo/ros_bt_py/ros_bt_py/tree_exec_manager.py. *)
From Coq Require Import Ascii String ZArith Bool Arith List.
From Verif Require Import Base ModelData ModelEdit.
Import ListNotations.
Local Open Scope string_scope.
Local Open Scope bool_scope.

(** ** TreeStructure messages (/repo/ros_bt_py_interfaces/msg/TreeStructure.msg) *)

(** An input or output of a node (NodeDataLocation.msg). *)
Definition place : Set := (idtext * string)%type.

(** [tree_id] and [root_id] are left out: no loading code reads them.  Frequencies are
    whole numbers: only whether they are zero is looked at.  TreeStructure.msg. *)
Record tmsg : Set := mkT {
  t_name : string; t_path : string; t_nodes : list nmsg; t_wires : list wiring; t_freq : Z;
  t_ins : list place; t_outs : list place }.

(** [TreeStructure()].  TreeStructure.msg. *)
Definition no_tree : tmsg := mkT "" "" [] [] 0 [] [].
(** Field update; no code of its own. *)
Definition with_path (t : tmsg) (p : string) : tmsg :=
  mkT (t_name t) p (t_nodes t) (t_wires t) (t_freq t) (t_ins t) (t_outs t).

(** ** Tree files *)

(** Versions; pre-releases and other suffixes of PEP 440 are not modelled.
    Python: packaging.version (127-165). *)
Definition version : Set := (nat * nat * nat)%type.
(** Python: packaging.version (127-165). *)
Definition version_ltb (a b : version) : bool :=
  match a, b with
  | (a1, a2, a3), (b1, b2, b3) =>
      Nat.ltb a1 b1 || (Nat.eqb a1 b1 && (Nat.ltb a2 b2 || (Nat.eqb a2 b2 && Nat.ltb a3 b3)))
  end.

(** One document of a YAML file: empty; not a dictionary; a dictionary, whose entry
    "version" is missing, not a version, or a version, and what
    [rosidl_runtime_py.set_message_fields] makes of the rest ([None]: it raises).  127-165. *)
Inductive vtext : Set := VMissing | VBad | VNum (v : version).
(** 127-165. *)
Inductive doc : Set := DNone | DOther | DTree (v : vtext) (body : option tmsg).

(** How the file goes on after the documents: it ends, there is a ScannerError, there is
    another YAML error.  127-165. *)
Inductive yend : Set := YEnd | YScan | YOther.

(** The outcome of opening and reading: IOError on opening; an exception while reading;
    the content.  168-227. *)
Inductive file : Set := FNone | FRaise | FText (docs : list doc) (e : yend).

(** What the code asks its surroundings: the installed version of ros_bt_py, the share
    directory of a package ([None]: PackageNotFoundError), and what is found when the
    [k]-th file is opened during a call (files may change in between).  127-227. *)
Record world : Set := mkWorld {
  w_version : version; w_share : string -> option string; w_file : nat -> string -> file }.

(** migrate_legacy_tree_structure
    (/repo/ros_bt_py/ros_bt_py/migrate_tree_files.py:36-46): [Ok]: version set. *)
Definition migrate (v : version) : res unit := if version_ltb v (1, 0, 0) then Err EConfig else Ok tt.

(** parse_tree_yaml (128-165): the tree and the success flag of the response, or the
    exception. *)
Inductive parsed : Set := PTree (t : tmsg) (success : bool) | PScan | PRaise.

(** 127-165. *)
Definition set_fields (body : option tmsg) (k : tmsg -> parsed) : parsed :=
  match body with Some t => k t | None => PRaise end.

(** [read]: what [read_data] stands for, and [response.tree]. *)
Fixpoint parse_docs (cur : version) (l : list doc) (e : yend) (read : option tmsg) : parsed :=
  match l with
  | [] =>
      match e with
      | YScan => PScan
      | YOther => PRaise
      | YEnd => match read with Some t => PTree t true | None => PTree no_tree false end
      end
  | DNone :: r => parse_docs cur r e read
  | d :: r =>
      match read with
      | Some t => PTree t false
      | None =>
          match d with
          | DTree v body =>
              match v with
              | VBad => PRaise
              | VMissing =>
                  if version_ltb (0, 0, 0) cur then
                    match migrate (0, 0, 0) with
                    | Ok _ => set_fields body (fun t => parse_docs cur r e (Some t))
                    | _ => PTree no_tree false
                    end
                  else PRaise
              | VNum n =>
                  if version_ltb n cur then
                    match migrate n with
                    | Ok _ => set_fields body (fun t => parse_docs cur r e (Some t))
                    | _ => PTree no_tree false
                    end
                  else set_fields body (fun t => parse_docs cur r e (Some t))
              end
          | _ => PRaise
          end
      end
  end.
Definition parse_tree_yaml (cur : version) (l : list doc) (e : yend) : parsed := parse_docs cur l e None.

(** [s.split("/", 1)[0]].  Python; 168-227. *)
Fixpoint up_to_slash (s : string) : string :=
  match s with
  | EmptyString => ""
  | String c r => if Ascii.eqb c "/"%char then "" else String c (up_to_slash r)
  end.
(** [s[n:]].  Python; 168-227. *)
Fixpoint drop (n : nat) (s : string) : string :=
  match n, s with
  | 0, _ => s
  | S n, String _ r => drop n r
  | S _, EmptyString => ""
  end.

(** The file a path names (179-204). *)
Definition file_path (w : world) (p : string) : res string :=
  if prefix "file://" p then Ok (drop 7 p)
  else if prefix "package://" p then
    let name := up_to_slash (drop 10 p) in
    match w_share w name with
    | Some dir => Ok (dir ++ drop (10 + String.length name) p)
    | None => Raise
    end
  else Err EKey.

(** load_tree_from_file (169-227).  [LOk t own]: success; [own]: the tree in the response
    is the object from the request.  [None]: not finished after [n] rounds of the loop.
    [k]: files opened so far; [p]: the path in the request. *)
Inductive found : Set := LOk (t : tmsg) (own : bool) | LErr | LRaise.

(** 168-227: the loop. *)
Fixpoint load_loop (n k : nat) (w : world) (p : string) (t : tmsg) (own : bool) : option found :=
  match t_nodes t with
  | _ :: _ => Some (LOk t own)
  | [] =>
      match n with
      | 0 => None
      | S n =>
          if String.eqb (t_path t) "" then Some LErr
          else match file_path w (t_path t) with
               | Err _ => Some LErr
               | Raise => Some LRaise
               | Ok f =>
                   match w_file w k f with
                   | FNone => Some LErr
                   | FRaise => Some LRaise
                   | FText docs e =>
                       match parse_tree_yaml (w_version w) docs e with
                       | PScan => Some LErr
                       | PRaise => Some LRaise
                       | PTree t' _ => load_loop n (S k) w p (with_path t' p) false
                       end
                   end
               end
      end
  end.
(** 168-227. *)
Definition load_tree_from_file (n : nat) (w : world) (t : tmsg) : option found := load_loop n 0 w (t_path t) t true.

(** ** The manager and the message it owns *)

(** The fields of [self._tree_structure] (233-385) that [mgr] does not have: nodes, path,
    public inputs and outputs, tick frequency.  [s_log]: the messages published about this
    tree, the last one first. *)
Record smgr : Set := mkS {
  s_g : mgr; s_nodes : list nmsg; s_path : string; s_ins : list place; s_outs : list place; s_freq : Z;
  s_log : list tmsg }.

(** Field update; no code of its own. *)
Definition set_g (s : smgr) (g : mgr) : smgr :=
  mkS g (s_nodes s) (s_path s) (s_ins s) (s_outs s) (s_freq s) (s_log s).
(** Field update; no code of its own. *)
Definition set_msg (s : smgr) (l : list nmsg) (i o : list place) : smgr :=
  mkS (s_g s) l (s_path s) i o (s_freq s) (s_log s).

(** [self._tree_structure].  242-385. *)
Definition own_msg (s : smgr) : tmsg :=
  mkT (g_name (s_g s)) (s_path s) (s_nodes s) (g_wires (s_g s)) (s_freq s) (s_ins s) (s_outs s).

Section Messages.
(** What Node.from_msg makes of the message of a node object (class-dependent). *)
Variable describe : nobj -> instance.
(** How deep Python calls may be nested. *)
Variable depth : nat.

(** Node.to_structure_msg (/repo/ros_bt_py/ros_bt_py/node.py:1170-1215). *)
Definition to_structure_msg (h : oid -> nobj) (o : oid) : nmsg :=
  mkM (uuid_to_ros (n_id (h o))) (describe (h o)) (map uuid_to_ros (ids_of h (n_children (h o)))).

(** Node.get_children_recursive (node.py:1070-1076); [None]: RecursionError. *)
Fixpoint children_recursive (d : nat) (h : oid -> nobj) (o : oid) : option (list oid) :=
  match d with
  | 0 => None
  | S d =>
      option_map (cons o)
        ((fix all (l : list oid) : option (list oid) :=
            match l with
            | [] => Some []
            | c :: r => match children_recursive d h c, all r with
                        | Some a, Some b => Some (a ++ b)%list
                        | _, _ => None
                        end
            end) (n_children (h o)))
  end.

(** Node.get_subtree_msg (node.py:1079-1167).  Nothing assigns [subscriptions] or
    [subscribers] after they were created empty (node.py:184-185), so there are no wirings
    and no public inputs and outputs.  Its name is irrelevant here. *)
Definition get_subtree_msg (h : oid -> nobj) (o : oid) : res tmsg :=
  match children_recursive depth h o with
  | Some l => Ok (mkT "" "" (map (to_structure_msg h) l) [] 0 [] [])
  | None => Raise
  end.

(** TreeEditManager.get_subtree (/repo/ros_bt_py/ros_bt_py/tree_edit_manager.py:986-1013);
    not an edit service. *)
Definition get_subtree (i : idtext) (g : mgr) : res tmsg :=
  match ros_to_uuid i with
  | None => Err EKey
  | Some n => match nget n (g_nodes g) with
              | None => Err EKey
              | Some o => get_subtree_msg (g_heap g) o
              end
  end.

(** structure_to_msg (1431-1455). *)
Definition structure_to_msg (s : smgr) : smgr * res tmsg :=
  let (g, r) := find_root (s_g s) in
  let s := set_g s g in
  let all := map (fun io => to_structure_msg (g_heap g) (snd io)) (g_nodes g) in
  match r with
  | Ok (Some o) =>
      match get_subtree_msg (g_heap g) o with
      | Ok t => let s := set_msg s (t_nodes t) (t_ins t) (t_outs t) in (s, Ok (own_msg s))
      | Err _ => let s := set_msg s all (s_ins s) (s_outs s) in (s, Ok (own_msg s))
      | Raise => (s, Raise)
      end
  | Ok None => let s := set_msg s [] (s_ins s) (s_outs s) in (s, Ok (own_msg s))
  | _ => let s := set_msg s all (s_ins s) (s_outs s) in (s, Ok (own_msg s))
  end.

(** publish_structure (529-546); the messages of subtrees are not modelled here. *)
Definition publish_msg (s : smgr) : smgr * res unit :=
  if g_pub (s_g s) then
    match structure_to_msg s with
    | (s, Ok t) => (mkS (s_g s) (s_nodes s) (s_path s) (s_ins s) (s_outs s) (s_freq s) (t :: s_log s), Ok tt)
    | (s, Err e) => (s, Err e)
    | (s, Raise) => (s, Raise)
    end
  else (s, Ok tt).

(** is_edit_service (92-124), as in [ModelEdit.edit_service]; an exception while
    publishing replaces the answer. *)
Definition finally_publish (x : smgr * res unit) : smgr * res unit :=
  let (s, r) := x in
  match publish_msg s with (s, Ok _) => (s, r) | (s, _) => (s, Raise) end.
Definition edit_service_msg (f : smgr -> option (smgr * res unit)) (s : smgr) : option (smgr * res unit) :=
  if negb (tstate_eqb (g_state (s_g s)) EDITABLE) then Some (s, Err EGuard)
  else option_map finally_publish (f s).

(** clear (754-780): [_tree_structure.nodes] and the tick frequency are left alone. *)
Definition clear_msg (s : smgr) : smgr * res unit :=
  if negb (tstate_eqb (g_state (s_g s)) EDITABLE) then (s, Err EGuard)
  else
    let g := s_g s in
    finally_publish
      (mkS (mkG (g_heap g) (g_next g) [] [] [] EDITABLE (Some 0) "UNKNOWN TREE" (g_pub g))
           (s_nodes s) "" [] [] (s_freq s) (s_log s), Ok tt).

(** load_tree (818-922) after load_tree_from_file.  [look] gives the content of the
    message [tree]: when that message is the one the manager owns, it changes with the
    manager. *)
Definition load_body (look : smgr -> tmsg) (s : smgr) : smgr * res unit :=
  match clear_msg s with
  | (s0, Ok _) =>
      let t := look s0 in
      match load_nodes (t_nodes t) (s_g s0) with
      | (g1, Ok _) =>
          match load_links (t_nodes t) g1 with
          | (g2, Ok _) =>
              let g3 := sync_children g2 in
              match check_wirings g3 false (t_wires t) with
              | None => (set_g s0 g3, Err EWire)
              | Some ws =>
                  (mkS (fst (find_root (set_name (set_wires g3 ws) (t_name t)))) (s_nodes s0) (t_path t)
                       (t_ins t) (t_outs t) (if Z.eqb (t_freq t) 0 then 10%Z else t_freq t) (s_log s0), Ok tt)
              end
          | (g2, x) => (set_g s0 g2, x)
          end
      | (g1, x) => (set_g s0 g1, x)
      end
  | x => x
  end.

(** The message in the request: one from outside, or the one the manager owns.  782-922. *)
Inductive source : Set := Given (t : tmsg) | Own.

(** 818-922. *)
Definition load_tree_msg (n : nat) (w : world) (src : source) : smgr -> option (smgr * res unit) :=
  edit_service_msg (fun s =>
    match load_tree_from_file n w (match src with Given t => t | Own => own_msg s end) with
    | None => None
    | Some LErr => Some (s, Err EKey)
    | Some LRaise => Some (s, Raise)
    | Some (LOk t own) =>
        Some (load_body (match src, own with Own, true => own_msg | _, _ => fun _ => t end) s)
    end).

(** load_tree_from_path (799-816). *)
Definition load_tree_from_path (n : nat) (w : world) (p : string) : smgr -> option (smgr * res unit) :=
  edit_service_msg (load_tree_msg n w (Given (with_path no_tree p))).

(** reload_tree (782-797): the request holds [self.structure_to_msg()], which is
    [self._tree_structure] itself. *)
Definition reload_tree (n : nat) (w : world) : smgr -> option (smgr * res unit) :=
  edit_service_msg (fun s =>
    match structure_to_msg s with
    | (s, Ok _) => load_tree_msg n w Own s
    | (s, Err e) => Some (s, Err e)
    | (s, Raise) => Some (s, Raise)
    end).
End Messages.
