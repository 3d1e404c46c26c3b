(** Model of the utility calculation (node.py:730-769, 1327-1339,
    nodes/sequence.py:266-349, nodes/fallback.py:329-440,
    nodes/parallel.py:163-269 and 399-502, nodes/decorators.py:644-659).
    No proofs in this file. *)
From Coq Require Import List ZArith QArith Bool Qminmax.
From Verif Require Import Base.
Import ListNotations.
Local Open Scope nat_scope.

(** One entry of [failure_bounds] / [success_bounds]: flag and value of the lower
    and of the upper bound.  sequence.py:295-331. *)
Record span : Set := mkSpan { s_hl : bool; s_l : Q; s_hu : bool; s_u : Q }.

(** sequence.py:295-331. *)
Definition span0 : span := mkSpan true 0 true 0.

(** [+=] on the values, [&=] on the flags.  sequence.py:306-331. *)
Definition span_add (a b : span) : span :=
  mkSpan (s_hl a && s_hl b) (s_l a + s_l b)%Q (s_hu a && s_hu b) (s_u a + s_u b)%Q.

(** Helper; no code of its own. *)
Definition succ_span (b : bounds) : span := mkSpan (has_ls b) (ls b) (has_us b) (us b).
(** Helper; no code of its own. *)
Definition fail_span (b : bounds) : span := mkSpan (has_lf b) (lf b) (has_uf b) (uf b).

(** The array filled by the double loop sequence.py:295-331 (and, with the roles
    of success and failure exchanged, fallback.py:375-424): entry [i] is the sum
    of the [before] spans of the children left of [i] plus the [at_] span of
    child [i].  Simplification: the running prefix sum is carried along instead
    of updating all later entries; the additions happen in the same order. *)
Fixpoint paths (before at_ : bounds -> span) (acc : span) (cs : list bounds) : list span :=
  match cs with
  | [] => []
  | c :: r => span_add acc (at_ c) :: paths before at_ (span_add acc (before c)) r
  end.

(** Sum over all children (sequence.py:306-309, fallback.py:391-394). *)
Definition total (at_ : bounds -> span) (cs : list bounds) : span :=
  fold_left (fun a c => span_add a (at_ c)) cs span0.

(** [min(...)] and [max(...)] of a non-empty generator: the first of equal values.
    Python; sequence.py:333-347. *)
Fixpoint qmin_list (l : list Q) : Q :=
  match l with
  | [] => 0
  | [x] => x
  | x :: r => let m := qmin_list r in if Qle_bool x m then x else m
  end.
(** Python; sequence.py:333-347. *)
Fixpoint qmax_list (l : list Q) : Q :=
  match l with
  | [] => 0
  | [x] => x
  | x :: r => let m := qmax_list r in if Qle_bool m x then x else m
  end.

(** min of the lower and max of the upper bounds, flags conjoined
    (sequence.py:333-347, fallback.py:426-439). *)
Definition envelope (l : list span) : span :=
  mkSpan (forallb s_hl l) (qmin_list (map s_l l)) (forallb s_hu l) (qmax_list (map s_u l)).

(** The loop of calculate_utility_sequence up to its early return
    (sequence.py:295-304): [unwrap_or(UtilityBounds(can_execute=False))] turns
    an error into a child that cannot execute, and the first such child ends
    the calculation (the generator is lazy). *)
Fixpoint sequence_scan (l : list (res bounds)) : res (option (list bounds)) :=
  match l with
  | [] => Ok (Some [])
  | Raise :: _ => Raise
  | Err _ :: _ => Ok None
  | Ok b :: r =>
      if can_execute b then
        match sequence_scan r with
        | Ok (Some bs) => Ok (Some (b :: bs))
        | Ok None => Ok None
        | Err e => Err e
        | Raise => Raise
        end
      else Ok None
  end.

(** calculate_utility_sequence (sequence.py:266-349). *)
Definition utility_sequence (children : list (res bounds)) : res bounds :=
  match children with
  | [] => Ok bounds_free
  | _ =>
      match sequence_scan children with
      | Err e => Err e
      | Raise => Raise
      | Ok None => Ok bounds0
      | Ok (Some bs) =>
          let s := total succ_span bs in
          let f := envelope (paths succ_span fail_span span0 bs) in
          Ok (mkBounds true (s_hl s) (s_l s) (s_hu s) (s_u s)
                       (s_hl f) (s_l f) (s_hu f) (s_u f))
      end
  end.

(** The loop of calculate_utility_fallback up to its early returns
    (fallback.py:375-388): the first child that errs or cannot execute decides. *)
Fixpoint fallback_scan (l : list (res bounds)) : res (option (list bounds)) :=
  match l with
  | [] => Ok (Some [])
  | Raise :: _ => Raise
  | Err e :: _ => Err e
  | Ok b :: r =>
      if can_execute b then
        match fallback_scan r with
        | Ok (Some bs) => Ok (Some (b :: bs))
        | Ok None => Ok None
        | Err e => Err e
        | Raise => Raise
        end
      else Ok None
  end.

(** calculate_utility_fallback (fallback.py:329-440). *)
Definition utility_fallback (children : list (res bounds)) : res bounds :=
  match children with
  | [] => Ok bounds_free
  | _ =>
      match fallback_scan children with
      | Err e => Err e
      | Raise => Raise
      | Ok None => Ok bounds0
      | Ok (Some bs) =>
          let f := total fail_span bs in
          let s := envelope (paths fail_span succ_span span0 bs) in
          Ok (mkBounds true (s_hl s) (s_l s) (s_hu s) (s_u s)
                       (s_hl f) (s_l f) (s_hu f) (s_u f))
      end
  end.

(** Python's stable [sorted(l, key=key)] and [sorted(l, reverse=True, key=key)]
    as insertion sorts. *)
Fixpoint ins_asc (key : bounds -> Q) (x : bounds) (l : list bounds) : list bounds :=
  match l with
  | [] => [x]
  | y :: r => if Qle_bool (key x) (key y) then x :: l else y :: ins_asc key x r
  end.
Definition sort_asc (key : bounds -> Q) (l : list bounds) : list bounds :=
  fold_right (ins_asc key) [] l.
Fixpoint ins_desc (key : bounds -> Q) (x : bounds) (l : list bounds) : list bounds :=
  match l with
  | [] => [x]
  | y :: r => if Qle_bool (key y) (key x) then x :: l else y :: ins_desc key x r
  end.
Definition sort_desc (key : bounds -> Q) (l : list bounds) : list bounds :=
  fold_right (ins_desc key) [] l.

(** math.fsum, exact here.  Python; parallel.py:215-221. *)
Definition qsum (l : list Q) : Q := fold_right Qplus 0%Q l.

(** [l[:n]] for a non-negative or negative Python slice bound. *)
Definition slice_to {A} (n : Z) (l : list A) : list A :=
  if Z.leb 0 n then firstn (Z.to_nat n) l
  else firstn (Z.to_nat (Z.of_nat (length l) + n)) l.

(** The flag and value computed from a group of children: the sum is only
    assigned when every member has the bound (parallel.py:215-221). *)
Definition group_bound (has : bounds -> bool) (key : bounds -> Q) (g : list bounds) : bool * Q :=
  if forallb has g then (true, qsum (map key g)) else (false, 0%Q).

(** Python: Result.is_err (vendor/result). *)
Definition is_err {A} (r : res A) : bool := match r with Err _ => true | _ => false end.
(** Helper; no code of its own. *)
Definition is_raise {A} (r : res A) : bool := match r with Raise => true | _ => false end.

(** [[b.unwrap() for b in results if b.is_ok()]] (parallel.py:194-198). *)
Definition oks {A} (l : list (res A)) : list A :=
  flat_map (fun r => match r with Ok a => [a] | _ => [] end) l.

(** Parallel._do_calculate_utility (parallel.py:163-269); the
    ParallelFailureTolerance version (399-502) is the same text.  [needed] is
    [self._needed_successes]. *)
Definition utility_parallel (needed : Z) (children : list (res bounds)) : res bounds :=
  if Z.ltb (Z.of_nat (length children)) needed then Err EUtility else
  if existsb is_raise children then Raise else
  if existsb is_err children then Err EUtility else
  let bs := oks children in
  if forallb can_execute bs then
    let failure_threshold := (1 + (Z.of_nat (length children) - needed))%Z in
    let '(hls, vls) := group_bound has_ls ls (slice_to needed (sort_asc ls bs)) in
    let '(hus, vus) := group_bound has_us us (slice_to needed (sort_desc us bs)) in
    let '(hlf, vlf) := group_bound has_lf lf (slice_to failure_threshold (sort_asc lf bs)) in
    let '(huf, vuf) := group_bound has_uf uf (slice_to failure_threshold (sort_desc uf bs)) in
    Ok (mkBounds true hls vls hus vus hlf vlf huf vuf)
  else Ok bounds0.

(** Decorator._do_calculate_utility (node.py:1327-1339). *)
Definition utility_decorator (children : list (res bounds)) : res bounds :=
  match children with
  | [] => Ok bounds_free
  | c :: _ => c
  end.

(** Optional._do_calculate_utility (decorators.py:644-659). *)
Fixpoint utility_optional (children : list (res bounds)) : res bounds :=
  match children with
  | [] => Ok (mkBounds true false 0 false 0 false 0 false 0)
  | Ok b :: r => if can_execute b then Ok b else utility_optional r
  | Err e :: _ => Err e
  | Raise :: _ => Raise
  end.
