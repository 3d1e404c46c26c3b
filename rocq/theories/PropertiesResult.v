(** Theorems about results (C114).  Statements use ModelResult and SpecResult. *)
From Coq Require Import Bool List.
From Verif Require Import Base ModelTree ModelResult SpecResult ProofsResult.
Import ListNotations.

(** ** C114 *)

(** A chain written with [do] stops at the first error and gives it; what comes later is not run. *)
Theorem C114_do : forall V X S (c : call V X S (result V)) (k : V -> gen V X S),
  (forall v, plain_steps (k v)) -> forall s s' o, do_ c k s = (s', o) <-> chain (For c k) s s' o.
Proof. intros V X S c k P s s' o. rewrite (do_and_then c k P s). apply and_then_chain. Qed.
Print Assumptions C114_do.

(** So does a chain written with and_then, whatever its steps raise. *)
Theorem C114_and_then : forall V X S (g : gen V X S) s s' o, with_and_then g s = (s', o) <-> chain g s s' o.
Proof. exact and_then_chain. Qed.
Print Assumptions C114_and_then.

(** Steps that raise the exception of [do] must be excluded: [do] takes it for its own. *)
Theorem C114_leak : forall V X S (v : V) (c : call V X S (result V)), gives c (ROk v) ->
  forall u, let k := fun _ => Body (raise (DoExc (RErr u))) in
  gives (do_ c k) (RErr u) /\ raises (with_and_then (For c k)) (DoExc (RErr u)).
Proof.
  intros V X S v c G u k. split; intros s; unfold k, do_, with_and_then, seq; rewrite (G s); reflexivity.
Qed.
Print Assumptions C114_leak.

(** A result is either a value or an error: [unwrap] gives the one, [unwrap_err] the other, the
    wrong one raises and says which result it was. *)
Theorem C114_unwrap : forall V X S (r : result V), exists v : V,
  is_ok r = true /\ is_err r = false /\ get_ok r = Some v /\ get_err r = None /\ r = ROk v /\
    gives (unwrap r : call V X S V) v /\ raises (unwrap_err r : call V X S V) (Unwrap r) /\ (forall d, unwrap_or r d = v) /\
    (forall f : V -> call V X S V, gives (unwrap_or_else r f) v) /\
    (forall e, gives (unwrap_or_raise r e : call V X S V) v) \/
  is_ok r = false /\ is_err r = true /\ get_ok r = None /\ get_err r = Some v /\ r = RErr v /\
    gives (unwrap_err r : call V X S V) v /\ raises (unwrap r : call V X S V) (Unwrap r) /\ (forall d, unwrap_or r d = d) /\
    (forall f : V -> call V X S V, same (unwrap_or_else r f) (f v)) /\
    (forall e, raises (unwrap_or_raise r e : call V X S V) (e v)).
Proof. intros V X S [v|v]; exists v; [left|right]; repeat split. Qed.
Print Assumptions C114_unwrap.

(** Errors pass through what is done with values, and values through what is done with errors,
    and nothing is called. *)
Theorem C114_through : forall V X S (v d : V) (f : V -> call V X S V) (g : V -> call V X S (result V)),
  (gives (map_ok (RErr v) f) (RErr v) /\ gives (and_then (RErr v) g) (RErr v) /\ gives (inspect (RErr v) f) (RErr v) /\
   gives (map_or (RErr v) d f) d) /\
  (gives (map_err (ROk v) f) (ROk v) /\ gives (or_else (ROk v) g) (ROk v) /\ gives (inspect_err (ROk v) f) (ROk v)).
Proof. intros. repeat split. Qed.
Print Assumptions C114_through.

(** Mapping twice is mapping once; [map] is [and_then]; the functions for errors are those for
    values, with values and errors exchanged. *)
Theorem C114_laws : forall V X S (r : result V) (f g : V -> call V X S V) (h j : V -> call V X S (result V)),
  same (seq (map_ok r f) (fun q => map_ok q g)) (map_ok r (fun v => seq (f v) g)) /\
  same (seq (and_then r h) (fun q => and_then q j)) (and_then r (fun v => seq (h v) (fun q => and_then q j))) /\
  same (map_ok r f) (and_then r (fun v => seq (f v) (fun u => ret (ROk u)))) /\
  same (seq (map_err r f) (fun q => ret (swap q))) (map_ok (swap r) f) /\
  same (seq (or_else r h) (fun q => ret (swap q))) (and_then (swap r) (fun v => seq (h v) (fun q => ret (swap q)))) /\
  same (seq (inspect_err r f) (fun q => ret (swap q))) (inspect (swap r) f).
Proof.
  intros V X S [v|v] f g h j; repeat split; intros s; cbn; unfold seq, ret; cbn;
    try (destruct (f v s) as [t [u|e]]); try (destruct (h v s) as [t' [q|e']]); reflexivity.
Qed.
Print Assumptions C114_laws.

(** Equality of results is that of their values, an Ok never equals an Err, and equal results have
    equal hashes. *)
Theorem C114_equal : forall V (eqv : V -> V -> bool) (r q : result V),
  (result_eq eqv r q = true <-> exists v u, eqv v u = true /\ (r = ROk v /\ q = ROk u \/ r = RErr v /\ q = RErr u)) /\
  result_ne eqv r q = negb (result_eq eqv r q) /\
  (forall H (hashv : V -> H) pair, (forall v u, eqv v u = true -> hashv v = hashv u) -> result_eq eqv r q = true ->
     result_hash hashv pair r = result_hash hashv pair q).
Proof.
  intros V eqv r q. split; [|split; [reflexivity|]].
  - destruct r as [v|v], q as [u|u]; cbn; (split; [intros E; try discriminate E; exists v, u; auto|]);
      intros (a & b & E & [[A B]|[A B]]); congruence.
  - intros H hashv pair L E. destruct r as [v|v], q as [u|u]; cbn in *; try discriminate E; now rewrite (L _ _ E).
Qed.
Print Assumptions C114_equal.

(** as_result: listed exceptions become errors, all others pass. *)
Theorem C114_as_result : forall V X S listed obj (f : call V X S V) s s',
  (forall v, f s = (s', Ret v) -> as_result listed obj f s = (s', Ret (ROk v))) /\
  (forall e, f s = (s', Exc e) -> listed e = true -> as_result listed obj f s = (s', Ret (RErr (obj e)))) /\
  (forall e, f s = (s', Exc e) -> listed e = false -> as_result listed obj f s = (s', Exc e)).
Proof.
  intros V X S listed obj f s s'. unfold as_result. repeat split; [intros v H|intros e H L|intros e H L]; rewrite H; try rewrite L; reflexivity.
Qed.
Print Assumptions C114_as_result.

(** The rest of the model writes such chains with [bind]. *)
Theorem C114_bind : forall V X E A B (val : V -> A) (val' : V -> B) (er : V -> err)
  (c : call V X (world E) (result V)) (op : V -> call V X (world E) (result V)) (k : A -> world E -> world E * res B),
  (forall v w, read val' er (op v w) = k (val v) w) ->
  forall w, read val' er (seq c (fun r => and_then r op) w) = bind (read val er (c w)) k.
Proof.
  intros V X E A B val val' er c op k H w. unfold seq. destruct (c w) as [t [[v|v]|e]]; cbn; [apply H|reflexivity|reflexivity].
Qed.
Print Assumptions C114_bind.

(** ** The hypotheses are met: steps that write down that they were run *)
Definition demo_step (n : nat) (r : result nat) : call nat nat (list nat) (result nat) := fun s => (s ++ [n], Ret r).
Definition demo_rest (b : result nat) (x : nat) : gen nat nat (list nat) :=
  For (demo_step 2 b) (fun y => Body (demo_step 3 (ROk (x + y)))).
Example C114_example :
  (forall b v, plain_steps (demo_rest b v)) /\
  do_ (demo_step 1 (ROk 4)) (demo_rest (ROk 5)) [] = ([1; 2; 3], Ret (ROk 9)) /\
  do_ (demo_step 1 (ROk 4)) (demo_rest (RErr 7)) [] = ([1; 2], Ret (RErr 7)) /\
  do_ (demo_step 1 (RErr 8)) (demo_rest (RErr 7)) [] = ([1], Ret (RErr 8)) /\
  do_ (fun s => (s, Exc (Other 6))) (demo_rest (RErr 7)) [] = ([], Exc (Other 6)).
Proof. repeat split; intros; discriminate. Qed.
