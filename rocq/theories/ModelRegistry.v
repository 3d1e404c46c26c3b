(** Model of the node classes a process knows: define_bt_node and load_node_module
    (node.py:1221-1297), how from_msg finds a class (node.py:1002-1022) and
    PackageManager.get_available_nodes (package_manager.py:377-440).  Files are below
    /repo/ros_bt_py/ros_bt_py.

    What Python's import machinery does is not modelled: importing a module executes some
    decorated class statements, of this and of other modules, and ends normally or with an
    exception; both are given with the call.  Documentation strings and tags are left out.
    No proofs in this file. *)
From Coq Require Import String Ascii Bool Arith List.
From Verif Require Import Base ModelData ModelEdit.
Import ListNotations.
Local Open Scope string_scope.
Local Open Scope list_scope.

(** A decorated class statement: __module__, __name__, the __mro__ of each of the __bases__
    (class objects are numbers), whether it is abstract, and the NodeConfig given.
    node.py:1221-1277. *)
Record cdef : Set := mkDef
  { k_module : string; k_name : string; k_bases : list (list nat); k_abstract : bool; k_config : config }.

(** Class objects get numbers in the order of their statements.  [g_attr]: the classes with a
    [_node_config] of their own.  [g_classes]: Node.node_classes.  node.py:1221-1277. *)
Record reg : Set := mkReg
  { g_next : nat; g_attr : list (nat * config); g_classes : list (string * list (string * nat)) }.
(** node.py:1221-1277. *)
Definition no_classes : reg := mkReg 0 [] [].

(** [base._node_config], found along the __mro__ of the base. *)
Fixpoint find_config (attr : list (nat * config)) (mro : list nat) : option config :=
  match mro with
  | [] => None
  | c :: mro => match nget c attr with Some x => Some x | None => find_config attr mro end
  end.
(** The loop over the bases (1240-1251); [false]: an error, which is only logged. *)
Fixpoint merge (attr : list (nat * config)) (own : config) (bases : list (list nat)) : config * bool :=
  match bases with
  | [] => (own, true)
  | b :: bases =>
      match find_config attr b with
      | None => merge attr own bases
      | Some x => match extend own x with
                  | (own, Ok _) => merge attr own bases
                  | (own, _) => (own, false)
                  end
      end
  end.
(** inner_dec (1238-1276). *)
Definition define (g : reg) (d : cdef) : reg :=
  let id := g_next g in
  let (cfg, ok) := merge (g_attr g) (k_config d) (k_bases d) in
  if negb ok then mkReg (S id) (g_attr g) (g_classes g)
  else
    let attr := g_attr g ++ [(id, cfg)] in
    if k_abstract d then mkReg (S id) attr (g_classes g)
    else
      match dget (k_module d) (g_classes g) with
      | None => mkReg (S id) attr (dset (k_module d) [(k_name d, id)] (g_classes g))
      | Some l =>
          match dget (k_name d) l with
          | None => mkReg (S id) attr (dset (k_module d) (dset (k_name d) id l) (g_classes g))
          | Some _ => mkReg (S id) attr (g_classes g)
          end
      end.

(** How an import ends.  node.py:1280-1296. *)
Inductive ending : Set := Loaded | ImportOrValueError | OtherException.
(** What importing a module does at this moment.  node.py:1280-1296. *)
Definition import : Set := list cdef * ending.

Definition relative (m : string) : bool := match m with String c _ => Ascii.eqb c "."%char | EmptyString => false end.
(** load_node_module (1281-1297); importlib.import_module raises ValueError for the empty
    name and TypeError for relative names, before anything is executed. *)
Definition load_node_module (m : string) (i : import) (g : reg) : reg * res bool :=
  if String.eqb m "" then (g, Ok false)
  else if relative m then (g, Raise)
  else
    let g := fold_left define (fst i) g in
    match snd i with
    | Loaded => (g, Ok true)
    | ImportOrValueError => (g, Ok false)
    | OtherException => (g, Raise)
    end.

Definition lookup (g : reg) (m c : string) : option nat :=
  match dget m (g_classes g) with None => None | Some l => dget c l end.
(** How from_msg finds a class (node.py:1002-1022). *)
Definition find_class (m c : string) (i : import) (g : reg) : reg * res nat :=
  match lookup g m c with
  | Some k => (g, Ok k)
  | None =>
      match load_node_module m i g with
      | (g, Raise) => (g, Raise)
      | (g, _) => match lookup g m c with Some k => (g, Ok k) | None => (g, Err EKey) end
      end
  end.

(** DocumentedNode: module, class, max_children (-1: any number), inputs and outputs. *)
Record listed : Set := mkListed { l_module : string; l_class : string; l_max : option nat; l_ins : ios; l_outs : ios }.
Definition entry (attr : list (nat * config)) (m : string) (ck : string * nat) : list listed :=
  match nget (snd ck) attr with
  | Some x => [mkListed m (fst ck) (f_max x) (f_ins x) (f_outs x)]
  | None => []
  end.
(** get_available_nodes (374-440): the modules asked for, with what importing them does. *)
Fixpoint load_all (l : list (string * import)) (g : reg) : reg * res bool :=
  match l with
  | [] => (g, Ok true)
  | (m, i) :: l =>
      if String.eqb m "" then load_all l g
      else match load_node_module m i g with
           | (g, Ok true) => load_all l g
           | (g, r) => (g, r)
           end
  end.
Definition get_available_nodes (l : list (string * import)) (g : reg) : reg * res (list listed) :=
  match load_all l g with
  | (g, Ok true) => (g, Ok (flat_map (fun ml => flat_map (entry (g_attr g) (fst ml)) (snd ml)) (g_classes g)))
  | (g, Ok false) => (g, Err EKey)
  | (g, Err e) => (g, Err e)
  | (g, Raise) => (g, Raise)
  end.

(** What can happen. *)
Inductive gop : Set :=
| GLoad (m : string) (i : import)          (* at the start, tree_exec_manager.py:374-376 *)
| GFind (m c : string) (i : import)        (* a node is made from a message *)
| GList (l : list (string * import)).      (* the service *)
Definition gstep (g : reg) (o : gop) : reg :=
  match o with
  | GLoad m i => fst (load_node_module m i g)
  | GFind m c i => fst (find_class m c i g)
  | GList l => fst (get_available_nodes l g)
  end.
Definition grun (h : list gop) : reg := fold_left gstep h no_classes.
