(** What C102 talks about: the content of a value, and histories. *)
From Coq Require Import String Bool Arith List.
From Verif Require Import Base ModelData ModelAlias.
Import ListNotations.

(** What one sees of a value when one looks [n] levels deep; the identity of objects is not
    visible. *)
Inductive tree : Set := TCut | TImm (v : value) | TObj (k : okind) (l : list (string * tree)).
Fixpoint show (n : nat) (h : heap) (v : pv) : tree :=
  match n with
  | 0 => TCut
  | S m => match v with
           | Imm x => TImm x
           | Ref l => TObj (o_kind (h_at h l)) (map (fun kx => (fst kx, show m h (snd kx))) (o_items (h_at h l)))
           end
  end.
(** The same content. *)
Definition same (h : heap) (v : pv) (h' : heap) (v' : pv) : Prop := forall n, show n h v = show n h' v'.
Definition same_opt (h : heap) (v : option pv) (h' : heap) (v' : option pv) : Prop :=
  match v, v' with None, None => True | Some x, Some y => same h x h' y | _, _ => False end.

(** The content of container [c] is the same in two worlds. *)
Definition keeps (c : nat) (w w' : world) : Prop :=
  same_opt (w_heap w) (k_value (w_cont w c)) (w_heap w') (k_value (w_cont w' c)).

(** Nothing runs yet, and all values of the containers exist. *)
Definition exists_in (h : heap) (v : pv) : Prop := forall l, reach h v l -> l < h_next h.
Definition start (w : world) : Prop :=
  w_vars w = [] /\ forall c v, k_value (w_cont w c) = Some v -> exists_in (w_heap w) v.

Inductive run (differs : heap -> option pv -> pv -> bool) : world -> list event -> world -> Prop :=
| ru_nil w : run differs w [] w
| ru_step w l w' e w'' : run differs w l w' -> step differs w' e w'' -> run differs w (l ++ [e]) w''.

(** Events that are meant to change the value of container [c]. *)
Definition assigns (c : nat) (e : event) : Prop :=
  match e with ESet d _ (Ok _) => d = c | EResetValue d => d = c | _ => False end.
