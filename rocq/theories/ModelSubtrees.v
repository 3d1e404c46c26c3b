(** Model of SubtreeManager (/repo/ros_bt_py/ros_bt_py/subtree_manager.py).

    Managers are objects: [mid] is their identity, a heap maps it to their attributes.
    Simplification: messages are values of a type [M]; the deep copies that getters return
    are equal to the originals.  No proofs in this file. *)
From Coq Require Import Bool Arith List.
From Verif Require Import Base.
Import ListNotations.

(** The identity of a manager; Python objects. *)
Definition mid := nat.

(** Dictionaries keyed by UUIDs: [d.get(k)], [d[k] = v], [del d[k]].  Python. *)
Fixpoint nget {A} (k : nid) (l : list (nid * A)) : option A :=
  match l with [] => None | (k', v) :: r => if Nat.eqb k k' then Some v else nget k r end.
(** Python. *)
Fixpoint nset {A} (k : nid) (v : A) (l : list (nid * A)) : list (nid * A) :=
  match l with
  | [] => [(k, v)]
  | (k', v') :: r => if Nat.eqb k k' then (k, v) :: r else (k', v') :: nset k v r
  end.
(** Python. *)
Definition ndel {A} (k : nid) (l : list (nid * A)) : list (nid * A) :=
  filter (fun kv => negb (Nat.eqb (fst kv) k)) l.

(** The three kinds of messages.  subtree_manager.py:86-125. *)
Inductive kind : Set := Structures | States | Data.
(** Helper; no code of its own. *)
Definition kind_eqb (a b : kind) : bool :=
  match a, b with Structures, Structures | States, States | Data, Data => true | _, _ => false end.

Section Managers.
Context {M : Type}.

(** The attributes (__init__, 50-59). *)
Record mgr : Type := mkMgr {
  m_msgs : kind -> list (nid * M);   (* subtree_structures, subtree_states, subtree_data *)
  m_nested : list (nid * mid);       (* nested_subtree_managers *)
  m_pub : bool;                      (* _publish_subtrees *)
  m_data : bool                      (* _publish_data *)
}.
Definition new_mgr : mgr := mkMgr (fun _ => []) [] true false.
Definition heap : Type := mid -> mgr.

(** subtree_manager.py:69-74. *)
Definition with_pub (v : bool) (g : mgr) : mgr := mkMgr (m_msgs g) (m_nested g) v (m_data g).
(** subtree_manager.py:80-84. *)
Definition with_data (v : bool) (g : mgr) : mgr := mkMgr (m_msgs g) (m_nested g) (m_pub g) v.

(** The setters of publish_subtrees (70-75) and publish_data (81-85): [change] is applied
    to the manager and then to the nested ones.  The manager is locked meanwhile and locks
    are not reentrant, so a manager nested in itself blocks for ever; here: [None] for
    every [fuel]. *)
Fixpoint set_all (change : mgr -> mgr) (fuel : nat) (h : heap) (m : mid) : option heap :=
  match fuel with
  | 0 => None
  | S f =>
      (fix go (l : list (nid * mid)) (h : heap) : option heap :=
         match l with
         | [] => Some h
         | (_, x) :: r => match set_all change f h x with Some h' => go r h' | None => None end
         end) (m_nested (h m)) (upd h m (change (h m)))
  end.
Definition set_pub (v : bool) : nat -> heap -> mid -> option heap := set_all (with_pub v).
Definition set_data (v : bool) : nat -> heap -> mid -> option heap := set_all (with_data v).

(** get_subtree_structures (87-94), get_subtree_states (96-103), get_subtree_data (105-112). *)
Fixpoint get (k : kind) (fuel : nat) (h : heap) (m : mid) : option (list M) :=
  match fuel with
  | 0 => None
  | S f =>
      if negb (m_pub (h m)) then Some []
      else
        (fix go (l : list (nid * mid)) (acc : list M) : option (list M) :=
           match l with
           | [] => Some acc
           | (_, x) :: r => match get k f h x with Some a => go r (acc ++ a) | None => None end
           end) (m_nested (h m)) (map snd (m_msgs (h m) k))
  end.

(** add_subtree_structure (114-118), add_subtree_state (120-122), add_subtree_data (124-126). *)
Definition add_msg (k : kind) (h : heap) (m : mid) (id : nid) (msg : M) : heap :=
  upd h m (mkMgr (fun k' => if kind_eqb k' k then nset id msg (m_msgs (h m) k) else m_msgs (h m) k')
                 (m_nested (h m)) (m_pub (h m)) (m_data (h m))).

(** add_nested_manager (128-132), in the three steps between which another thread can run. *)
Definition add_pub (fuel : nat) (h : heap) (m n : mid) : option heap := set_pub (m_pub (h m)) fuel h n.
Definition add_data (fuel : nat) (h : heap) (m n : mid) : option heap := set_data (m_data (h m)) fuel h n.
Definition add_insert (h : heap) (m : mid) (id : nid) (n : mid) : heap :=
  upd h m (mkMgr (m_msgs (h m)) (nset id n (m_nested (h m))) (m_pub (h m)) (m_data (h m))).
Definition add_nested (fuel : nat) (h : heap) (m : mid) (id : nid) (n : mid) : option heap :=
  match add_pub fuel h m n with
  | None => None
  | Some h1 => match add_data fuel h1 m n with None => None | Some h2 => Some (add_insert h2 m id n) end
  end.

(** clear_subtrees (134-139). *)
Definition clear (h : heap) (m : mid) : heap := upd h m (mkMgr (fun _ => []) [] (m_pub (h m)) (m_data (h m))).
(** remove_subtree (141-152). *)
Definition remove (h : heap) (m : mid) (id : nid) : heap :=
  upd h m (mkMgr (fun k => ndel id (m_msgs (h m) k)) (ndel id (m_nested (h m))) (m_pub (h m)) (m_data (h m))).
End Managers.
Arguments mgr : clear implicits.
Arguments heap : clear implicits.
