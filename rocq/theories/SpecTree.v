(** Vocabulary of the property statements about nodes and trees.  Only
    definitions; nothing here depends on how the node classes are implemented. *)
From Coq Require Import List String ZArith Bool.
From Verif Require Import Base ModelData ModelTree.
Import ListNotations.

(** States in which a node must not be executed. *)
Definition dead (s : state) : Prop := s = UNINITIALIZED \/ s = SHUTDOWN \/ s = BROKEN.
Definition live (s : state) : Prop := ~ dead s.
Definition has_result (s : state) : Prop := s = SUCCEEDED \/ s = FAILED.

(** Every input of the node has a value. *)
Definition inputs_set {E} (w : world E) (n : nid) : Prop :=
  forall key c, In (key, c) (w_ins w n) -> c_val c <> None.

(** [ran w l w']: the calls in [l] (object, method, returned result), made one
    after the other and with nothing in between, lead from [w] to [w']. *)
Inductive ran {E} : world E -> list (obj E * op * res state) -> world E -> Prop :=
| ran_nil : forall w, ran w [] w
| ran_cons : forall w c o r w1 l w2,
    call o c w = (w1, r) -> ran w1 l w2 -> ran w ((c, o, r) :: l) w2.

(** Nothing but the own state, own containers of [n] and the data delivered to
    inputs differs: states and outputs of other nodes, all private memory, the
    wirings and the outside world are the same. *)
Definition only_own {E} (n : nid) (w w' : world E) : Prop :=
  (forall m, m <> n -> w_st w' m = w_st w m) /\
  (forall m, w_mem w' m = w_mem w m) /\
  (forall m, m <> n -> w_outs w' m = w_outs w m) /\
  w_conns w' = w_conns w /\ w_ext w' = w_ext w.

(** The nodes of a tree that the tree actually uses: everything but the nodes
    below an Optional that decided not to execute its child. *)
Fixpoint active {E} (w : world E) (t : tree) : list tree :=
  match t with
  | T n k _ cs =>
      t :: match k with
           | KOptional => if a_exec (w_mem w n) then flat_map (active w) cs else []
           | _ => flat_map (active w) cs
           end
  end.

(** Subtrees of a tree (the tree itself included). *)
Fixpoint subtrees (t : tree) : list tree :=
  match t with T _ _ _ cs => t :: flat_map subtrees cs end.

(** The nodes of a tree that are not below an Optional. *)
Fixpoint unconditional (t : tree) : list tree :=
  match t with
  | T _ k _ cs => t :: match k with KOptional => [] | _ => flat_map unconditional cs end
  end.

(** Leaf classes have no children, decorators at most one
    (max_children of the node configurations). *)
Definition arity_ok (k : kind) (len : nat) : Prop :=
  match k with
  | KLeaf => len = 0
  | KSequence | KMemorySequence | KFallback | KMemoryFallback | KNameSwitch | KEnumSwitch _
  | KParallel | KParallelTolerance => True
  | _ => len <= 1
  end.
Definition wf_arity (t : tree) : Prop :=
  forall n k name cs, In (T n k name cs) (subtrees t) -> arity_ok k (List.length cs).

(** A well-formed tree: distinct identifiers, numbers of children allowed. *)
Definition wf (t : tree) : Prop := NoDup (ids t) /\ wf_arity t.

(** Histories: calls of life-cycle methods on trees, and in between arbitrary
    changes of everything but node states and private memory (new input data,
    new wirings, the outside world). *)
Inductive history {E} (ev : env E) : world E -> list (tree * op * res state) -> world E -> Prop :=
| h_nil : forall w, history ev w [] w
| h_call : forall w t o r w1 l w2,
    call o (obj_of ev t) w = (w1, r) -> history ev w1 l w2 ->
    history ev w ((t, o, r) :: l) w2
| h_env : forall w w1 l w2,
    (forall m, w_st w1 m = w_st w m) -> (forall m, w_mem w1 m = w_mem w m) ->
    history ev w1 l w2 -> history ev w l w2.

(** Nothing outside the set [S] of nodes changes, except inputs that are the
    target of a wiring whose source is in [S]. *)
Definition stays_inside {E} (S : list nid) (w w' : world E) : Prop :=
  (forall m, ~ In m S ->
     w_st w' m = w_st w m /\ w_mem w' m = w_mem w m /\ w_outs w' m = w_outs w m /\
     (forall key,
        (forall src l k, In src S -> w_conns w src = Some l -> In k l ->
           ~ (k_tid k = m /\ k_tkey k = key)) ->
        dget key (w_ins w' m) = dget key (w_ins w m)) /\
     (forall key, og_get m key (w_outg w') = og_get m key (w_outg w))) /\
  w_conns w' = w_conns w.

(** Private memory of the built-in classes right after setup. *)
Definition fresh_memory (k : kind) (a : attrs) : Prop :=
  match k with
  | KMemorySequence | KMemoryFallback => a_lrc a = 0
  | KRetry | KRepeat | KRepeatNoAutoReset => a_count a = 0%Z
  | KThrottle => a_last a = None /\ a_lastres a = Ok FAILED
  | KThrottleSuccess => a_last a = None
  | KIterateList => a_counter a = 0 /\ a_outch a = true
  | _ => True
  end.

(** Options a node reads at setup and keeps. *)
Definition same_options (a b : attrs) : Prop :=
  a_limit a = a_limit b /\ a_needed a = a_needed b /\ a_tol a = a_tol b /\ a_ris a = a_ris b /\
  a_exec a = a_exec b /\ a_interval a = a_interval b /\ a_stale a = a_stale b.

(** States each operation may report. *)
Definition op_states (o : op) (s : state) : Prop :=
  match o with
  | OSetup | OReset => s = IDLE
  | OUntick => s = IDLE \/ s = PAUSED
  | OTick => s = RUNNING \/ s = SUCCEEDED \/ s = FAILED \/ s = ASSIGNED \/ s = UNASSIGNED
  | OShutdown => s = SHUTDOWN
  end.
