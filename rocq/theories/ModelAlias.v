(** Model of values as Python objects that can be shared and changed in place, and of the
    two methods of DataContainer that hand values over, set_value and get_value
    (/repo/ros_bt_py/ros_bt_py/data_types.py:250-303).  The other models treat values as
    immutable; this one shows why they may.  No proofs in this file. *)
From Coq Require Import String Bool Arith List.
From Verif Require Import Base ModelData.
Import ListNotations.

(** ** Objects *)

(** A Python value: an immutable one (a number, a text, bytes, a class), or a reference to
    an object that can be changed.  Such an object is a list, a dictionary or a message; it
    has components under names (the index, the key, the name of the field). *)
Definition loc := nat.
Inductive pv : Set := Imm (v : value) | Ref (l : loc).
Inductive okind : Set := KList | KDict | KMsg.
Record object : Set := mkO { o_kind : okind; o_items : list (string * pv) }.
(** The objects, and the first location that is not in use. *)
Record heap : Set := mkH { h_at : loc -> object; h_next : loc }.

(** Python assigns a component in place; no code of its own. *)
Definition write (h : heap) (l : loc) (o : object) : heap := mkH (upd (h_at h) l o) (h_next h).
(** Python makes an object; no code of its own. *)
Definition alloc (h : heap) (o : object) : heap := mkH (upd (h_at h) (h_next h) o) (S (h_next h)).

(** The objects one can get hold of through [v].  Python references; no code of its own. *)
Inductive reach (h : heap) : pv -> loc -> Prop :=
| re_here l : reach h (Ref l) l
| re_in l k x m : In (k, x) (o_items (h_at h l)) -> reach h x m -> reach h (Ref l) m.

(** ** copy.deepcopy

    A function of the Python library, described by its effect: for every object that can be
    reached it makes a new one, with the same components except that references lead to the
    new objects ([f] is the memo).  Other objects are left alone. *)
Definition rename (f : loc -> loc) (v : pv) : pv := match v with Imm x => Imm x | Ref l => Ref (f l) end.
Definition rename_obj (f : loc -> loc) (o : object) : object :=
  mkO (o_kind o) (map (fun kx => (fst kx, rename f (snd kx))) (o_items o)).
Definition deepcopy (h : heap) (v : pv) (h' : heap) (v' : pv) : Prop :=
  exists f,
    v' = rename f v /\ h_next h <= h_next h' /\
    (forall l, l < h_next h -> h_at h' l = h_at h l) /\
    (forall l, reach h v l -> h_next h <= f l < h_next h' /\ h_at h' (f l) = rename_obj f (h_at h l)) /\
    (forall l m, reach h v l -> reach h v m -> f l = f m -> l = m).

(** ** Containers (data_types.py:89-127, 245-319) *)

(** The attributes _value, is_static and _updated.  data_types.py:89-127. *)
Record cont : Set := mkK { k_value : option pv; k_static : bool; k_upd : bool }.
(** _updated (data_types.py:301-314). *)
Definition with_upd (c : cont) (b : bool) : cont := mkK (k_value c) (k_static c) b.

(** DataContainer.set_value (250-269).  [differs]: the comparison of the old value with the
    new one (261-265).  Simplification: what the classes of the types check and convert
    before (ModelData.v) is left out; it makes new objects at most. *)
Inductive set_value (differs : heap -> option pv -> pv -> bool) (h : heap) (c : cont) (v : pv)
  : heap -> cont -> res unit -> Prop :=
| sv_static : k_static c && k_upd c = true -> set_value differs h c v h c (Err EData)
| sv_same : k_static c && k_upd c = false -> differs h (k_value c) v = false ->
    set_value differs h c v h (with_upd c false) (Ok tt)
| sv_new h' v' : k_static c && k_upd c = false -> differs h (k_value c) v = true -> deepcopy h v h' v' ->
    set_value differs h c v h' (mkK (Some v') (k_static c) true) (Ok tt).

(** DataContainer.get_value (271-279). *)
Inductive get_value (h : heap) (c : cont) : heap -> option pv -> Prop :=
| gv_none : k_value c = None -> get_value h c h None
| gv_copy v h' v' : k_value c = Some v -> deepcopy h v h' v' -> get_value h c h' (Some v').

(** reset_value (297-299). *)
Definition reset_value (c : cont) : cont := if k_static c then c else mkK None (k_static c) (k_upd c).

(** ** Programs

    Nodes and managers work with containers only through their methods.  [w_vars]: every
    value they ever got or made; [held]: what they can reach from these.
    The containers of all nodes (node_config.py:42-51). *)
Record world : Set := mkW { w_heap : heap; w_cont : nat -> cont; w_vars : list pv }.
(** Helper; no code of its own. *)
Definition held (w : world) (v : pv) : Prop :=
  match v with Imm _ => True | Ref l => exists x, In x (w_vars w) /\ reach (w_heap w) x l end.
(** Helper; no code of its own. *)
Definition held_obj (w : world) (o : object) : Prop := forall k x, In (k, x) (o_items o) -> held w x.

(** The methods of containers (data_types.py:250-319), and what Python code does with values. *)
Inductive event : Set :=
| EGet (c : nat) (v : option pv)                   (* containers[c].get_value() gave this *)
| ESet (c : nat) (v : pv) (r : res unit)           (* containers[c].set_value(v) gave this *)
| EResetValue (c : nat) | EFlag (c : nat) (b : bool)
| EWrite (l : loc) (o : object)                    (* an object is changed in place *)
| ENew (o : object).                               (* an object is made *)

(** Helper; no code of its own. *)
Definition opt_list (v : option pv) : list pv := match v with Some x => [x] | None => [] end.
(** One event (data_types.py:250-319). *)
Inductive step (differs : heap -> option pv -> pv -> bool) (w : world) : event -> world -> Prop :=
| st_get c h' v : get_value (w_heap w) (w_cont w c) h' v ->
    step differs w (EGet c v) (mkW h' (w_cont w) (opt_list v ++ w_vars w))
| st_set c v h' k r : held w v -> set_value differs (w_heap w) (w_cont w c) v h' k r ->
    step differs w (ESet c v r) (mkW h' (upd (w_cont w) c k) (w_vars w))
| st_reset c : step differs w (EResetValue c) (mkW (w_heap w) (upd (w_cont w) c (reset_value (w_cont w c))) (w_vars w))
| st_flag c b : step differs w (EFlag c b) (mkW (w_heap w) (upd (w_cont w) c (with_upd (w_cont w c) b)) (w_vars w))
| st_write l o : held w (Ref l) -> held_obj w o ->
    step differs w (EWrite l o) (mkW (write (w_heap w) l o) (w_cont w) (w_vars w))
| st_new o : held_obj w o ->
    step differs w (ENew o) (mkW (alloc (w_heap w) o) (w_cont w) (Ref (h_next (w_heap w)) :: w_vars w)).
