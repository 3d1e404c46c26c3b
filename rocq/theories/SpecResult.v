(** What it means that a chain of results stops at the first error. *)
From Verif Require Import Base ModelTree ModelResult.
Set Implicit Arguments.

Section Chains.
Variables V X S : Type.
Notation result := (result V).
Notation call := (call V X S).
Notation gen := (gen V X S).

(** [chain g s s' o]: the steps of [g] are run one after the other from the world [s], each with
    the values of those before it.  The first error is the result, the first exception is
    raised, and no later step is run; without them the last step gives the result. *)
Inductive chain : gen -> S -> S -> outcome V X result -> Prop :=
| chain_last : forall (c : call result) s s' o, c s = (s', o) -> chain (Body c) s s' o
| chain_raise : forall (c : call result) k s s' e, c s = (s', Exc e) -> chain (For c k) s s' (Exc e)
| chain_err : forall (c : call result) k s s' v, c s = (s', Ret (RErr v)) -> chain (For c k) s s' (Ret (RErr v))
| chain_ok : forall (c : call result) k s s' s'' v o, c s = (s', Ret (ROk v)) -> chain (k v) s' s'' o ->
    chain (For c k) s s'' o.

(** The chain with and_then: [a().and_then(lambda x: b().and_then(lambda y: ...))]. *)
Fixpoint with_and_then (g : gen) : call result :=
  match g with
  | Body c => c
  | For c k => seq c (fun r => and_then r (fun v => with_and_then (k v)))
  end.

(** No step raises the exception that [do] uses itself, or StopIteration. *)
Definition plain_call (c : call result) : Prop := forall s s' e, c s = (s', Exc e) -> e <> Stop /\ forall r, e <> DoExc r.
Fixpoint plain_steps (g : gen) : Prop :=
  match g with Body c => plain_call c | For c k => plain_call c /\ forall v, plain_steps (k v) end.

(** Errors for values and values for errors. *)
Definition swap (r : result) : result := match r with ROk v => RErr v | RErr v => ROk v end.
(** Two calls do the same. *)
Definition same {A} (c d : call A) : Prop := forall s, c s = d s.
(** A call that does nothing but give [a]. *)
Definition gives {A} (c : call A) (a : A) : Prop := forall s, c s = (s, Ret a).
Definition raises {A} (c : call A) (e : exn V X) : Prop := forall s, c s = (s, Exc e).
End Chains.

(** A result as the rest of the model has it: a value, an error or an exception, the last without
    its object.  [val] and [er] read values and errors. *)
Definition read {V X E A} (val : V -> A) (er : V -> err) (x : world E * outcome V X (result V)) : world E * res A :=
  match x with
  | (w, Ret (ROk v)) => (w, Ok (val v))
  | (w, Ret (RErr v)) => (w, Err (er v))
  | (w, Exc _) => (w, Raise)
  end.
