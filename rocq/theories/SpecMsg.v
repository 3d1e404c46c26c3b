(** Vocabulary of the statements about trees as messages and files. *)
From Coq Require Import String ZArith Bool Arith List.
From Verif Require Import Base ModelData ModelEdit ModelMsg SpecEdit.
Import ListNotations.

(** The nodes of the tree from [i] downwards: a node, then what is below its first child,
    then what is below its second child, ... *)
Inductive preorder (g : mgr) : nid -> list nid -> Prop :=
| Pre i ls : Forall2 (preorder g) (kids g i) ls -> preorder g i (i :: concat ls).

(** [m] describes the node [n]: its identifier, its children, and what [describe] says
    about the rest. *)
Definition about (describe : nobj -> instance) (g : mgr) (n : nid) (m : nmsg) : Prop :=
  ms_id m = uuid_to_ros n /\ ms_children m = map uuid_to_ros (kids g n) /\
  exists x, obj g n = Some x /\ ms_inst m = describe x.

(** The only node without parent. *)
Definition only_root (g : mgr) (r : nid) : Prop :=
  present g r /\ par g r = None /\ forall j, present g j -> par g j = None -> j = r.

(** Both ends of the wiring are in [l]. *)
Definition within (l : list nid) (w : wiring) : Prop :=
  exists s t, ros_to_uuid (wi_src w) = Some s /\ ros_to_uuid (wi_tgt w) = Some t /\ In s l /\ In t l.

(** Two configurations that take the same number of children and whose inputs and outputs
    have the same names and types. *)
Definition same_ports (a b : ios) : Prop :=
  forall k, option_map runtime_type (dget k a) = option_map runtime_type (dget k b).
Definition same_shape (c d : config) : Prop :=
  f_max c = f_max d /\ same_ports (f_ins c) (f_ins d) /\ same_ports (f_outs c) (f_outs d).

(** A node made from the message of another one has the same shape as that one. *)
Definition faithful (describe : nobj -> instance) : Prop :=
  forall x, exists c, describe x = Ok c /\ same_shape c (n_cfg x).

(** The trees differ only in the order of the nodes in the dictionary and in the values
    held by inputs and outputs. *)
Definition copied (g g' : mgr) : Prop :=
  (forall i, present g' i <-> present g i) /\
  (forall i, kids g' i = kids g i) /\ (forall i, par g' i = par g i) /\
  (forall i c, cfg g i = Some c -> exists c', cfg g' i = Some c' /\ same_shape c' c) /\
  g_wires g' = g_wires g /\ g_name g' = g_name g.

(** A message that describes a tree: identifiers are identifiers and occur once, every
    child is described and has one parent, every node can be built and has room for its
    children, and every wiring fits. *)
Definition node_of (nodes : list nmsg) (n : nid) (c : config) : Prop :=
  exists m, In m nodes /\ ros_to_uuid (ms_id m) = Some n /\ ms_inst m = Ok c.
Definition loadable (nodes : list nmsg) (ws : list wiring) : Prop :=
  forest_msg nodes /\
  (forall m, In m nodes -> exists n c, ros_to_uuid (ms_id m) = Some n /\ ms_inst m = Ok c /\
     match f_max c with Some k => length (ms_children m) <= k | None => True end) /\
  (forall m t, In m nodes -> In t (ms_children m) -> exists n c, ros_to_uuid t = Some n /\ node_of nodes n c) /\
  (forall w, In w ws -> exists s t sc tc so ti, ros_to_uuid (wi_src w) = Some s /\ ros_to_uuid (wi_tgt w) = Some t /\
     node_of nodes s sc /\ node_of nodes t tc /\ dget (wi_skey w) (f_outs sc) = Some so /\ dget (wi_tkey w) (f_ins tc) = Some ti /\
     is_compatible (runtime_type ti) (runtime_type so) = true).

(** ** Files *)

(** [p] names the file [f]. *)
Definition names_file (w : world) (p f : string) : Prop :=
  p = ("file://" ++ f)%string \/
  exists pkg rest dir, p = ("package://" ++ pkg ++ rest)%string /\ w_share w pkg = Some dir /\ f = (dir ++ rest)%string /\
    (forall a b, pkg <> (a ++ "/" ++ b)%string) /\ (rest = ""%string \/ exists r, rest = ("/" ++ r)%string).

(** Trees of an older installation than version 1 are not supported any more. *)
Definition supported (cur : version) (v : vtext) : Prop :=
  exists n, v = VNum n /\ (version_ltb n cur = true -> version_ltb n (1, 0, 0) = false).

(** The file holds the tree [t]: its first document that is not empty, in a supported
    version.  Documents behind it do not matter. *)
Definition first_tree (cur : version) (docs : list doc) (t : tmsg) : Prop :=
  exists empties v rest, docs = (empties ++ DTree v (Some t) :: rest)%list /\ Forall (eq DNone) empties /\ supported cur v.

(** At the [k]-th reading the file named by [p] holds the tree [t], which has nodes. *)
Definition yields (w : world) (k : nat) (p : string) (t : tmsg) : Prop :=
  exists f docs e, names_file w p f /\ w_file w k f = FText docs e /\ first_tree (w_version w) docs t /\ t_nodes t <> [].

(** The files do not change while they are read. *)
Definition steady_files (w : world) : Prop := forall j k f, w_file w j f = w_file w k f.

(** A well-formed file without a single node: nothing in it, or a tree of an unsupported
    version, or a tree without nodes, followed by nothing or by another document. *)
Definition nodeless (cur : version) (docs : list doc) (e : yend) : Prop :=
  (Forall (eq DNone) docs /\ e = YEnd) \/
  (exists empties v body rest, docs = (empties ++ DTree v body :: rest)%list /\ Forall (eq DNone) empties /\ v <> VBad /\
     (v = VMissing -> version_ltb (0, 0, 0) cur = true) /\ ~ supported cur v) \/
  (exists t, first_tree cur docs t /\ t_nodes t = [] /\
     ((exists a d b d' c, docs = (a ++ d :: b ++ d' :: c)%list /\ d <> DNone /\ d' <> DNone) \/ e = YEnd)).

(** The manager behind [s'] is as before, but for what it published. *)
Definition untouched (s s' : smgr) : Prop :=
  same_tree (s_g s) (s_g s') /\ s_path s' = s_path s /\ s_freq s' = s_freq s.
