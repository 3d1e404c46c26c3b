(** Model of the results that all functions return
    (/repo/ros_bt_py/ros_bt_py/vendor/result/result.py): Ok, Err, their methods, [do] and
    [as_result].  No proofs in this file.

    Calls act on a world [S]: a call gives a value or raises.  Left out: the variants for
    coroutines, which nothing in the package uses, the deprecated [value], [repr], and the
    texts of exceptions. *)
From Coq Require Import Bool List.
Import ListNotations.
Set Implicit Arguments.

Section Result.
(** Python objects, the exceptions of the rest of the program, and the state of the program. *)
Variables V X S : Type.

(** Ok (54-66) and Err (246-263). *)
Inductive result : Type := ROk (v : V) | RErr (v : V).
(** UnwrapError (453-476) and DoException (233-243), which carry a result.  [Stop] is
    StopIteration, [Runtime] RuntimeError. *)
Inductive exn : Type := Unwrap (r : result) | DoExc (r : result) | Stop | Runtime | Other (x : X).
(** What a call does.  Python. *)
Inductive outcome (A : Type) : Type := Ret (a : A) | Exc (e : exn).
Arguments Exc {A} e.
Definition call (A : Type) : Type := S -> S * outcome A.
Definition ret {A} (a : A) : call A := fun s => (s, Ret a).
Definition raise {A} (e : exn) : call A := fun s => (s, Exc e).
Definition seq {A B} (c : call A) (k : A -> call B) : call B := fun s =>
  match c s with (s', Ret a) => k a s' | (s', Exc e) => (s', Exc e) end.

(** is_ok, is_err (80-84, 277-281; the functions 544-575). *)
Definition is_ok (r : result) : bool := match r with ROk _ => true | RErr _ => false end.
Definition is_err (r : result) : bool := match r with ROk _ => false | RErr _ => true end.
(** ok, err (86-96, 283-293); [None] is Python's None. *)
Definition get_ok (r : result) : option V := match r with ROk v => Some v | RErr _ => None end.
Definition get_err (r : result) : option V := match r with ROk _ => None | RErr v => Some v end.
(** expect, unwrap (121-125, 133-137, 318-328, 336-346). *)
Definition unwrap (r : result) : call V := match r with ROk v => ret v | RErr _ => raise (Unwrap r) end.
(** expect_err, unwrap_err (127-131, 139-143, 330-334, 348-352). *)
Definition unwrap_err (r : result) : call V := match r with ROk _ => raise (Unwrap r) | RErr v => ret v end.
(** unwrap_or (145-149, 354-358). *)
Definition unwrap_or (r : result) (d : V) : V := match r with ROk v => v | RErr _ => d end.
(** unwrap_or_else (151-155, 360-365). *)
Definition unwrap_or_else (r : result) (op : V -> call V) : call V :=
  match r with ROk v => ret v | RErr v => op v end.
(** unwrap_or_raise (157-161, 367-371); [e]: the exception made of the value. *)
Definition unwrap_or_raise (r : result) (e : V -> exn) : call V :=
  match r with ROk v => ret v | RErr v => raise (e v) end.
(** map (163-168, 373-377). *)
Definition map_ok (r : result) (op : V -> call V) : call result :=
  match r with ROk v => seq (op v) (fun u => ret (ROk u)) | RErr _ => ret r end.
(** map_or (177-182, 386-390), map_or_else (184-189, 392-396). *)
Definition map_or (r : result) (d : V) (op : V -> call V) : call V :=
  match r with ROk v => op v | RErr _ => ret d end.
Definition map_or_else (r : result) (d : call V) (op : V -> call V) : call V :=
  match r with ROk v => op v | RErr _ => d end.
(** map_err (191-195, 398-403). *)
Definition map_err (r : result) (op : V -> call V) : call result :=
  match r with ROk _ => ret r | RErr v => seq (op v) (fun u => ret (RErr u)) end.
(** and_then (197-202, 405-409). *)
Definition and_then (r : result) (op : V -> call result) : call result :=
  match r with ROk v => op v | RErr _ => ret r end.
(** or_else (213-217, 417-422). *)
Definition or_else (r : result) (op : V -> call result) : call result :=
  match r with ROk _ => ret r | RErr v => op v end.
(** inspect (219-224, 424-428), inspect_err (226-230, 430-435). *)
Definition inspect (r : result) (op : V -> call V) : call result :=
  match r with ROk v => seq (op v) (fun _ => ret r) | RErr _ => ret r end.
Definition inspect_err (r : result) (op : V -> call V) : call result :=
  match r with ROk _ => ret r | RErr v => seq (op v) (fun _ => ret r) end.

(** __eq__ and __ne__ (71-75, 268-272), __hash__ (77-78, 274-275); [eqv] and [hashv] are those
    of the values, [pair] is the hash of a pair of a bool and a value with a hash. *)
Definition result_eq (eqv : V -> V -> bool) (r q : result) : bool :=
  match r, q with ROk v, ROk u => eqv v u | RErr v, RErr u => eqv v u | _, _ => false end.
Definition result_ne (eqv : V -> V -> bool) (r q : result) : bool := negb (result_eq eqv r q).
Definition result_hash {H} (hashv : V -> H) (pair : bool -> H -> H) (r : result) : H :=
  match r with ROk v => pair true (hashv v) | RErr v => pair false (hashv v) end.

(** Generator expressions [body for x in a for y in b ...].  Python. *)
Inductive gen : Type := Body (c : call result) | For (c : call result) (k : V -> gen).
(** Advancing the iterator of a result (62-63, 254-260). *)
Definition advance (r : result) : call V := match r with ROk v => ret v | RErr _ => raise (DoExc r) end.
(** The code of a generator up to its first yield.  Python. *)
Fixpoint run_gen (g : gen) : call result :=
  match g with
  | Body c => c
  | For c k => seq c (fun r => seq (advance r) (fun v => run_gen (k v)))
  end.
(** next(gen): StopIteration must not leave a generator.  Python. *)
Definition next (c : call result) : call result := fun s =>
  match c s with (s', Exc Stop) => (s', Exc Runtime) | o => o end.
(** The except clause of do (606-610); the one for TypeError (611-620) raises it again. *)
Definition except_do (c : call result) : call result := fun s =>
  match c s with (s', Exc (DoExc r)) => (s', Ret r) | o => o end.
(** do (578-620) of a generator expression, whose outermost result is evaluated first, outside
    of the generator.  Python requires one. *)
Definition do_ (c : call result) (k : V -> gen) : call result :=
  seq c (fun r => except_do (next (seq (advance r) (fun v => run_gen (k v))))).

(** The wrapper of as_result (479-508); [listed e]: [e] is an instance of one of the exceptions,
    [obj e] is [e] as an object. *)
Definition as_result (listed : exn -> bool) (obj : exn -> V) (f : call V) : call result := fun s =>
  match f s with
  | (s', Ret v) => (s', Ret (ROk v))
  | (s', Exc e) => if listed e then (s', Ret (RErr (obj e))) else (s', Exc e)
  end.
End Result.
Arguments Exc {V X A} e.
Arguments Ret {V X A} a.
Arguments Unwrap {V X} r. Arguments DoExc {V X} r. Arguments Stop {V X}. Arguments Runtime {V X}. Arguments Other {V X} x.
Arguments ret {V X S A} a _. Arguments raise {V X S A} e _.
Arguments unwrap {V X S} r _. Arguments unwrap_err {V X S} r _. Arguments unwrap_or_raise {V X S} r e _.
