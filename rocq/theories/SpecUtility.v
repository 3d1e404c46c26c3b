(** Specification of utility bounds: what it costs to execute a node. *)
From Coq Require Import List ZArith QArith Bool Permutation.
From Verif Require Import Base.
Import ListNotations.
Local Open Scope Q_scope.

(** Cost [q] respects the bounds of a node for success / for failure.  A bound
    counts only if its flag is set. *)
Definition success_cost (b : bounds) (q : Q) : Prop :=
  (has_ls b = true -> ls b <= q) /\ (has_us b = true -> q <= us b).
Definition failure_cost (b : bounds) (q : Q) : Prop :=
  (has_lf b = true -> lf b <= q) /\ (has_uf b = true -> q <= uf b).

Definition sum (l : list Q) : Q := fold_right Qplus 0 l.

(** A node whose children are executed from left to right.  [on] describes the
    costs of a child that lets the node go on to the next child, [stop] those of
    a child that ends it. *)
Definition all_on (on : bounds -> Q -> Prop) (bs : list bounds) (q : Q) : Prop :=
  exists qs, Forall2 on bs qs /\ q == sum qs.
Definition stopped (on stop : bounds -> Q -> Prop) (bs : list bounds) (q : Q) : Prop :=
  exists pre b post qs x, bs = pre ++ b :: post /\ Forall2 on pre qs /\ stop b x /\ q == sum qs + x.

(** The ways a Sequence can succeed or fail, and the ways a Fallback can. *)
Definition sequence_succeeds := all_on success_cost.
Definition sequence_fails := stopped success_cost failure_cost.
Definition fallback_fails := all_on failure_cost.
Definition fallback_succeeds := stopped failure_cost success_cost.

(** The ways of a node of which [k] children, in any choice, end with a cost in
    [c]. *)
Definition chosen (c : bounds -> Q -> Prop) (k : Z) (bs : list bounds) (q : Q) : Prop :=
  exists g rest qs, Permutation bs (g ++ rest) /\ Z.of_nat (length g) = k /\ Forall2 c g qs /\ q == sum qs.

(** The same when no cost is negative. *)
Definition chosen_pos (c : bounds -> Q -> Prop) (k : Z) (bs : list bounds) (q : Q) : Prop :=
  exists g rest qs, Permutation bs (g ++ rest) /\ Z.of_nat (length g) = k /\ Forall2 c g qs /\ Forall (fun x => 0 <= x) qs /\
    q == sum qs.
(** The numbers of bounds whose flags are not set are 0, as in a new message. *)
Definition blank (b : bounds) : Prop := (has_ls b = false -> ls b == 0) /\ (has_lf b = false -> lf b == 0).

(** Bounds that some cost respects. *)
Definition consistent (b : bounds) : Prop :=
  (has_ls b = true -> has_us b = true -> ls b <= us b) /\
  (has_lf b = true -> has_uf b = true -> lf b <= uf b).

(** [b] is the tightest interval around the costs in [P]: any other interval
    around them is wider. *)
Definition tightest (hl : bool) (l : Q) (hu : bool) (u : Q) (P : Q -> Prop) : Prop :=
  (forall m, (forall q, P q -> m <= q) -> hl = true /\ m <= l) /\
  (forall m, (forall q, P q -> q <= m) -> hu = true /\ u <= m).

(** The costs of a whole tree of Sequences, Fallbacks and leaves: [costs t true q]
    when [t] can succeed at cost [q], [costs t false q] when it can fail at cost
    [q].  [leaf] gives the bounds of the leaves. *)
From Verif Require Import ModelTree.
Section Whole.
Variable leaf : nid -> res bounds.

Fixpoint costs (t : tree) (outcome : bool) (q : Q) : Prop :=
  let every (out : bool) := fix every (l : list tree) (q : Q) : Prop :=
    match l with
    | [] => q == 0
    | c :: r => exists x y, costs c out x /\ every r y /\ q == x + y
    end in
  let first_not (out : bool) := fix first_not (l : list tree) (q : Q) : Prop :=
    match l with
    | [] => False
    | c :: r => costs c (negb out) q \/ exists x y, costs c out x /\ first_not r y /\ q == x + y
    end in
  match t with
  | T n k _ cs =>
      match k with
      | KLeaf => exists b, leaf n = Ok b /\ (if outcome then success_cost b q else failure_cost b q)
      | KSequence | KMemorySequence => if outcome then every true cs q else first_not true cs q
      | KFallback | KMemoryFallback => if outcome then first_not false cs q else every false cs q
      | _ => False
      end
  end.

(** Trees of Sequences, Fallbacks and leaves whose leaves can all execute. *)
Fixpoint executable (t : tree) : Prop :=
  match t with
  | T n k _ cs =>
      match k with
      | KLeaf => exists b, leaf n = Ok b /\ can_execute b = true
      | KSequence | KMemorySequence | KFallback | KMemoryFallback =>
          (fix all (l : list tree) : Prop := match l with [] => True | c :: r => executable c /\ all r end) cs
      | _ => False
      end
  end.
End Whole.

(** The ways of a decorator.  [runs k l o]: a decorator of class [k] ends with [o] ([true]:
    it succeeds) after runs of its child that ended with [l], in this order.  A Watch whose
    input changes, and the decorators not listed, are left out. *)
Definition runs (k : kind) (l : list bool) (o : bool) : Prop :=
  match k with
  | KOptional | KWatch => l = [o]
  | KInverter => l = [negb o]
  | KIgnoreFailure => o = true /\ exists x, l = [x]
  | KIgnoreSuccess => o = false /\ exists x, l = [x]
  | KUntilSuccess | KRepeatIfFail => o = true /\ exists n, l = repeat false n ++ [true]
  | KRepeatUntilFail => o = false /\ exists n, l = repeat true n ++ [false]
  | KRetry => exists n, l = if o then repeat false n ++ [true] else repeat false (S n)
  | KRepeat => exists n, l = if o then repeat true (S n) else repeat true n ++ [false]
  | _ => False
  end.
Definition run_costs (b : bounds) (o : bool) (q : Q) : Prop := if o then success_cost b q else failure_cost b q.
Definition decorated (k : kind) (b : bounds) (o : bool) (q : Q) : Prop :=
  exists l qs, runs k l o /\ Forall2 (run_costs b) l qs /\ q == sum qs.
(** The same when no run of the child has a negative cost. *)
Definition decorated_pos (k : kind) (b : bounds) (o : bool) (q : Q) : Prop :=
  exists l qs, runs k l o /\ Forall2 (run_costs b) l qs /\ Forall (fun x => 0 <= x) qs /\ q == sum qs.
(** An Optional whose child cannot execute succeeds without ticking it. *)
Definition optional_ends (b : bounds) (o : bool) (q : Q) : Prop :=
  if can_execute b then decorated KOptional b o q else o = true /\ q == 0.
