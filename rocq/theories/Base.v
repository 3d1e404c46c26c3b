(** Shared vocabulary of the model: node states, results of Python calls,
    Python dictionaries and the utility-bounds message.  No proofs here. *)
From Coq Require Import List String Ascii ZArith QArith Bool Arith.
Import ListNotations.
Local Open Scope nat_scope.

(** [BTNodeState] (/repo/ros_bt_py/ros_bt_py/helpers.py:42-57). *)
Inductive state : Set :=
| UNINITIALIZED | IDLE | UNASSIGNED | ASSIGNED | RUNNING
| SUCCEEDED | FAILED | BROKEN | PAUSED | SHUTDOWN.

(** String equality of state names in Python ([==], [in [...]]). *)
Definition state_eqb (a b : state) : bool :=
  match a, b with
  | UNINITIALIZED, UNINITIALIZED | IDLE, IDLE | UNASSIGNED, UNASSIGNED
  | ASSIGNED, ASSIGNED | RUNNING, RUNNING | SUCCEEDED, SUCCEEDED
  | FAILED, FAILED | BROKEN, BROKEN | PAUSED, PAUSED | SHUTDOWN, SHUTDOWN => true
  | _, _ => false
  end.

Definition state_in (a : state) (l : list state) : bool := existsb (state_eqb a) l.

(** Error payloads of [Err] values.  The Python code carries exception objects
    with messages; the model keeps only where they come from
    (/repo/ros_bt_py/ros_bt_py/exceptions.py). *)
Inductive err : Set :=
| EGuard      (* operation refused in the current node state *)
| EState      (* check_if_in_invalid_state failed (node.py:485-496) *)
| EUnset      (* an input has no value (node.py:435-438) *)
| EConfig     (* NodeConfigError *)
| EData       (* a data container refused a value *)
| EWire       (* DataFlowManager.push_outputs failed *)
| EUtility    (* utility calculation failed *)
| ETopo       (* TreeTopologyError *)
| EKey        (* KeyError wrapped in Err *)
| ELeaf (n : nat).  (* error reported by user code of a node *)

(** The vendored [Result] type (/repo/ros_bt_py/ros_bt_py/vendor/result),
    extended by [Raise]: an ordinary Python exception leaves the call. *)
Inductive res (A : Type) : Type :=
| Ok (a : A)
| Err (e : err)
| Raise.
Arguments Ok {A} a.
Arguments Err {A} e.
Arguments Raise {A}.

Definition res_map {A B} (f : A -> B) (r : res A) : res B :=
  match r with Ok a => Ok (f a) | Err e => Err e | Raise => Raise end.

Definition is_ok {A} (r : res A) : bool := match r with Ok _ => true | _ => false end.

(** Python dictionaries with string keys: association lists in insertion order. *)
Fixpoint dget {A} (k : string) (l : list (string * A)) : option A :=
  match l with
  | [] => None
  | (k', v) :: r => if String.eqb k k' then Some v else dget k r
  end.

(** [d[k] = v]: overwrite in place, or append. *)
Fixpoint dset {A} (k : string) (v : A) (l : list (string * A)) : list (string * A) :=
  match l with
  | [] => [(k, v)]
  | (k', v') :: r => if String.eqb k k' then (k, v) :: r else (k', v') :: dset k v r
  end.

(** [{k: v for k, v in l}]: the last value for a key wins, at the position of
    the first occurrence. *)
Definition py_dict {A} (l : list (string * A)) : list (string * A) :=
  fold_left (fun d kv => dset (fst kv) (snd kv) d) l [].

(** Node identifiers.  Python uses [uuid.UUID]; only equality matters. *)
Definition nid := nat.

(** Functional maps over node identifiers (Python dictionaries keyed by UUID or
    attributes of node objects). *)
Definition upd {A} (f : nid -> A) (n : nid) (v : A) : nid -> A :=
  fun m => if Nat.eqb m n then v else f m.

(** UtilityBounds message (/repo/ros_bt_py_interfaces/msg/UtilityBounds.msg).
    Simplification: the float64 bounds are exact rationals, so rounding of sums
    is not modelled. *)
Record bounds : Set := mkBounds {
  can_execute : bool;
  has_ls : bool; ls : Q;   (* lower bound success *)
  has_us : bool; us : Q;   (* upper bound success *)
  has_lf : bool; lf : Q;   (* lower bound failure *)
  has_uf : bool; uf : Q    (* upper bound failure *)
}.

(** [UtilityBounds()]: a message with all fields at their ROS defaults. *)
Definition bounds0 : bounds := mkBounds false false 0 false 0 false 0 false 0.

(** The bounds with [can_execute] and every [has_*] flag set and value 0, used as
    default (node.py:761-769, node.py:1334-1342) and as start value
    (sequence.py:270-276, fallback.py:335-341). *)
Definition bounds_free : bounds := mkBounds true true 0 true 0 true 0 true 0.
