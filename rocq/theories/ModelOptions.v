(** Model of how set_options makes the new node: which inputs it has and what they hold
    (/repo/ros_bt_py/ros_bt_py/tree_edit_manager.py:513-541, node.py:1022-1043).  What
    happens to the tree is in ModelEdit.v.

    Simplifications: classes without inputs of their own making (add_extra_inputs); the
    references in a message are not told the type they have at the moment, which nobody
    reads (data_types.py:1577-1588).  No proofs in this file. *)
From Coq Require Import String Bool List.
From Verif Require Import Base ModelData ModelDataLeaf ModelJson.
Import ListNotations.
Local Open Scope string_scope.

(** The type of an input in a message: NodeDataType, read by get_iotype_for_msg
    (data_types.py:383-395) and written by serialize_type (215-227, 1601-1608). *)
Inductive iotype : Set :=
| IPlain (m : tmsg)
| IRef (k : refkind) (target : string) (dyn sta static : bool).
(** NodeIO: key, type, text. *)
Definition io_msg : Set := (string * (iotype * option json))%type.

(** Reading: the checks of the constructor (DataContainer.__init__, 96-118) hold for
    references too.  Simplification: all failures are errors. *)
Definition read_slot (t : iotype) : res slot :=
  match t with
  | IPlain m => match from_msg m with Some c => Ok (SPlain c) | None => Err EConfig end
  | IRef k x dyn sta static =>
      if (negb dyn && negb sta) || (static && negb sta) || (negb static && negb dyn) then Err EConfig
      else Ok (SRef k x dyn sta static None)
  end.
Definition write_slot (s : slot) : iotype :=
  match s with
  | SPlain c => IPlain (serialize_type c)
  | SRef k x dyn sta static _ => IRef k x dyn sta static
  end.

Section Options.
Variable r : ros.
Variable known : string -> bool.
Variable fuel : nat.

(** serialize_value (316-332); a reference asks the container it stands for
    (1630-1633, 1655-1658). *)
Definition write_text (s : slot) : res (option json) :=
  match s with
  | SPlain c | SRef _ _ _ _ _ (Some c) => serialize_value r fuel c
  | SRef _ _ _ _ _ None => Ok None
  end.

(** What a text says to a container (343-360, 1660-1663). *)
Definition decode (t : ctype) (j : json) : text :=
  match deser r fuel t j with Ok v => TValue v | Err _ => TRefused | Raise => TNoJson end.
Definition read_text (m : smap) (s : slot) (t : option json) : text :=
  match t with
  | None => TNoJson
  | Some j =>
      match s with
      | SPlain c => decode (c_ty c) j
      | SRef _ _ _ _ _ _ => match set_type_map known m s with
                            | Ok (SRef _ _ _ _ _ (Some c)) => decode (c_ty c) j
                            | _ => TRefused
                            end
      end
  end.

(** Node.from_msg (node.py:1022-1043): the loop over the inputs. *)
Fixpoint read_slots (l : list io_msg) : res (list (string * slot * option json)) :=
  match l with
  | [] => Ok []
  | (k, (t, x)) :: q =>
      match read_slot t with
      | Ok s => res_map (cons (k, s, x)) (read_slots q)
      | Err e => Err e
      | Raise => Raise
      end
  end.

(** Node.from_msg (node.py:1022-1066): first the inputs that refer to nothing get their
    values, then the references; then the constructor. *)
Definition node_from_msg (ins outs : smap) (l : list io_msg) : res (smap * smap) :=
  match read_slots l with
  | Ok sl =>
      let texts m := map (fun x => (fst (fst x), snd (fst x), read_text m (snd (fst x)) (snd x))) sl in
      match put_plain (texts []) with
      | Ok m => node_of_msg known ins outs (texts m)
      | Err e => Err e
      | Raise => Raise
      end
  | Err e => Err e
  | Raise => Raise
  end.

(** The inputs that the request does not mention keep their types and values
    (tree_edit_manager.py:518-527). *)
Fixpoint old_inputs (given : list io_msg) (i : smap) : res (list io_msg) :=
  match i with
  | [] => Ok []
  | (k, s) :: q =>
      match dget k given with
      | Some _ => old_inputs given q
      | None => match write_text s with
                | Ok x => res_map (cons (k, (write_slot s, x))) (old_inputs given q)
                | Err e => Err e
                | Raise => Raise
                end
      end
  end.
(** set_options (517-541): the class is the same, the inputs of the request win. *)
Definition with_options (ins outs : smap) (req : list io_msg) (i : smap) : res (smap * smap) :=
  let given := py_dict req in
  match old_inputs given i with
  | Ok old => node_from_msg ins outs (given ++ old)
  | Err e => Err e
  | Raise => Raise
  end.
End Options.
