(** Properties C25-C27: Throttle, ThrottleSuccess, IterateList. *)
From Coq Require Import List String ZArith Bool.
From Coq.Floats Require Import SpecFloat.
From Verif Require Import Base ModelData ModelUtility ModelTree SpecTree SpecControl SpecTimed ProofsTree ProofsLife
  ProofsWhole ProofsControl ProofsMemory ProofsParallel ProofsDeco ProofsRun ProofsTimed Demo.
Import ListNotations.
Local Open Scope string_scope.

(** ** C25 Throttle limits how often its child is started *)

(** Every tick of every history after a setup with tick_interval [f]: without a
    completed execution so far, or more than the interval after the last one, the
    child is ticked (and reset when it has finished); otherwise it is not touched
    and the last result is repeated. *)
Theorem C25_throttle : forall E (ev : env E) n name c cs wb w0 s recs d f,
  Forall (blind n) (c :: cs) ->
  dget "tick_interval" (w_ins wb n) = Some d -> c_static d = true -> c_val d = Some (VFloat f) ->
  call OSetup (make_obj ev n KThrottle name (c :: cs)) wb = (w0, Ok s) ->
  op_run (make_obj ev n KThrottle name (c :: cs)) w0 recs ->
  exists ls, Forall2 (did_timed ev n) recs ls /\
    forall pre w r w' post, recs = (pre ++ (OTick, w, r, w') :: post)%list -> live (w_st w n) ->
      exists lp lt lr b, ls = (lp ++ lt :: lr)%list /\ List.length lp = List.length pre /\
        does_timed ev OTick n w lt b w' r /\
        match last_completion ev pre lp with
        | None => throttle_plan c lt b
        | Some (t, x) => if elapsed_gt (now ev w) t f then throttle_plan c lt b else lt = [] /\ b = x
        end.
Proof. intros E. exact (@throttle_from_setup E). Qed.
Print Assumptions C25_throttle.

(** Two ticks [w] and [v] of the same history, the first of which completed an
    execution of the child, with no completed execution in between: the child is
    started again exactly when the interval is over. *)
Theorem C25_pacing : forall E (ev : env E) n name c cs wb w0 s recs d f,
  Forall (blind n) (c :: cs) ->
  dget "tick_interval" (w_ins wb n) = Some d -> c_static d = true -> c_val d = Some (VFloat f) ->
  call OSetup (make_obj ev n KThrottle name (c :: cs)) wb = (w0, Ok s) ->
  op_run (make_obj ev n KThrottle name (c :: cs)) w0 recs ->
  exists ls, Forall2 (did_timed ev n) recs ls /\
    forall pre w r w' mid v q v' post lp lx lm ly lr y,
      recs = (pre ++ (OTick, w, r, w') :: mid ++ (OTick, v, q, v') :: post)%list ->
      ls = (lp ++ lx :: lm ++ ly :: lr)%list ->
      List.length lp = List.length pre -> List.length lm = List.length mid ->
      live (w_st v n) ->
      (exists rest, lx = (c, OTick, y) :: rest) -> y <> Ok RUNNING -> y <> Raise ->
      Forall (fun p => note_completion ev None p = None) (combine mid lm) ->
      (elapsed_gt (now ev v) (now ev w) f = true -> exists x rest, ly = (c, OTick, x) :: rest) /\
      (elapsed_gt (now ev v) (now ev w) f = false ->
         ly = [] /\ exists b, b = y /\ does_timed ev OTick n v ly b v' q).
Proof. intros E. exact (@throttle_pacing E). Qed.
Print Assumptions C25_pacing.

(** An outside world with a clock. *)
Definition tE := ((nid -> res state) * Z)%type.
Definition tenv : env tE := mkEnv tE
  (fun o n _ _ e => (e, [], match o with
     | OSetup | OReset | OUntick => Ok IDLE | OTick => fst e n | OShutdown => Ok SHUTDOWN end))
  (fun _ _ _ => Ok bounds_free) (fun e => (e, snd e)).
Definition tworld (ins : nid -> iomap) (e : tE) : world tE :=
  mkW (all_st UNINITIALIZED) (fun _ => attrs0) ins (fun _ => []) (fun _ => Some []) [] e.
Fixpoint tplay (c : obj tE) (w : world tE) (l : list (op * tE)) : world tE * list (res state) :=
  match l with
  | [] => (w, [])
  | (o, e) :: r =>
      let (w1, x) := call o c (set_ext w e) in
      let (w2, xs) := tplay c w1 r in (w2, x :: xs)
  end.
Definition one_second : value := VFloat (float_of_Z 1).
Definition throttled (k : kind) := T 0 k "throttle" [leaf 1].
Definition throttle_in (n : nid) : iomap :=
  match n with 0 => [("tick_interval", static_in (TFloat DBL_MIN DBL_MAX) one_second)] | _ => [] end.
Definition at_ms (t : Z) (r : res state) : tE := (fun _ => r, (t * 1000000)%Z).

(** With an interval of one second: an execution that ends at 100 ms, a repeated
    result at 600 ms and at 1100 ms, the next execution at 1101 ms. *)
Example C25_example :
  snd (tplay (obj_of tenv (throttled KThrottle)) (tworld throttle_in (at_ms 0 (Ok IDLE)))
    [(OSetup, at_ms 0 (Ok IDLE)); (OTick, at_ms 50 (Ok RUNNING)); (OTick, at_ms 100 (Ok SUCCEEDED));
     (OTick, at_ms 600 (Ok RUNNING)); (OTick, at_ms 1100 (Ok FAILED)); (OTick, at_ms 1101 (Ok FAILED))])
  = [Ok IDLE; Ok RUNNING; Ok SUCCEEDED; Ok SUCCEEDED; Ok SUCCEEDED; Ok FAILED].
Proof. vm_compute. reflexivity. Qed.

Lemma throttled_blind : forall k, Forall (blind 0) (map (obj_of tenv) (t_children (throttled k))).
Proof.
  intros k. apply (tree_blind tE tenv 0 k "throttle" (t_children (throttled k))).
  simpl. repeat constructor; simpl; intuition discriminate.
Qed.

(** ** C26 ThrottleSuccess reports its child's success *)

(** What ThrottleSuccess does instead: every tick ends with FAILED, whatever the
    child returned. *)
Theorem C26_always_failed_partial : forall E (ev : env E) n name cs w w' r,
  live (w_st w n) -> inputs_set w n ->
  call OTick (make_obj ev n KThrottleSuccess name cs) w = (w', r) ->
  exists l b, does_timed ev OTick n w l b w' r /\ (b = Ok FAILED \/ b = Raise).
Proof. intros E. exact (@throttle_success_always E). Qed.
Print Assumptions C26_always_failed_partial.

(** The child succeeds, or reports an error: the node returns FAILED. *)
Theorem C26_success_refuted : exists (w : world tE) w1,
  live (w_st w 0) /\ inputs_set w 0 /\ a_last (w_mem w 0) = None /\
  call OTick (obj_of tenv (leaf 1)) w = (w1, Ok SUCCEEDED) /\
  snd (call OTick (obj_of tenv (throttled KThrottleSuccess)) w) = Ok FAILED.
Proof.
  exists (fst (tplay (obj_of tenv (throttled KThrottleSuccess)) (tworld throttle_in (at_ms 0 (Ok SUCCEEDED)))
    [(OSetup, at_ms 5000 (Ok SUCCEEDED))])).
  eexists. split; [intros [H|[H|H]]; discriminate|].
  split. { intros key c H. vm_compute in H. destruct H as [H|[]]. inversion H. discriminate. }
  split; [reflexivity|]. split; [vm_compute; reflexivity|]. vm_compute. reflexivity.
Qed.
Print Assumptions C26_success_refuted.

Theorem C26_error_refuted : exists (w : world tE) w1,
  live (w_st w 0) /\ inputs_set w 0 /\
  call OTick (obj_of tenv (leaf 1)) w = (w1, Err (ELeaf 7)) /\
  snd (call OTick (obj_of tenv (throttled KThrottleSuccess)) w) = Ok FAILED.
Proof.
  exists (fst (tplay (obj_of tenv (throttled KThrottleSuccess)) (tworld throttle_in (at_ms 0 (Err (ELeaf 7))))
    [(OSetup, at_ms 5000 (Err (ELeaf 7)))])).
  eexists. split; [intros [H|[H|H]]; discriminate|].
  split. { intros key c H. vm_compute in H. destruct H as [H|[]]. inversion H. discriminate. }
  split; [vm_compute; reflexivity|]. vm_compute. reflexivity.
Qed.
Print Assumptions C26_error_refuted.

(** ** C27 IterateList visits every element once and in order *)

(** Without a child: tick number i since setup or reset (counted from 0) puts
    element i mod (length l) on the output; the result is SUCCEEDED on the last
    element and RUNNING on the others. *)
Theorem C27_no_child : forall E (ev : env E) n name l o wb w0 s recs,
  o = OSetup \/ o = OReset ->
  call o (make_obj ev n KIterateList name []) wb = (w0, Ok s) ->
  op_run (make_obj ev n KIterateList name []) w0 recs ->
  Forall (fun x => fst (fst (fst x)) <> OReset /\ exists s, snd (fst x) = Ok s) recs ->
  l <> [] -> steady n l true recs ->
  forall pre w r w' post, recs = (pre ++ (OTick, w, r, w') :: post)%list ->
    let i := ticks_in pre in
    exists v, nth_error l (i mod List.length l) = Some v /\ received n "list_item" v w w' /\
      ticks_private n w [] r w' r /\
      r = Ok (if Nat.eqb ((S i) mod List.length l) 0 then SUCCEEDED else RUNNING).
Proof.
  intros E ev n name l o wb w0 s recs Ho Hset Hrun HF Hne Hs pre w r w' post Heq i.
  destruct (iterate_start ev n name [] o wb w0 s Ho (Forall_nil _) Hset) as [Hc _].
  assert (Hc0 : a_counter (w_mem w0 n) = 0 mod List.length l).
  { rewrite Hc. destruct l; [congruence|]. symmetry. apply PeanoNat.Nat.mod_0_l. discriminate. }
  exact (iterate_alone_run ev n name l w0 recs Hrun Hne true 0 HF Hs Hc0 (fun _ => eq_refl) pre w r w' post Heq).
Qed.
Print Assumptions C27_no_child.

(** With a child: the element on the output is the one whose index is the number
    of successes of the child so far; a new element is shown for one tick before
    the child is ticked. *)
Theorem C27_child : forall E (ev : env E) n name c cs l o wb w0 s recs,
  Forall (blind n) (c :: cs) -> keeps_outs n c ->
  o = OSetup \/ o = OReset ->
  call o (make_obj ev n KIterateList name (c :: cs)) wb = (w0, Ok s) ->
  op_run (make_obj ev n KIterateList name (c :: cs)) w0 recs ->
  Forall (fun x => fst (fst (fst x)) <> OReset /\ exists s, snd (fst x) = Ok s) recs ->
  l <> [] -> steady n l true recs ->
  exists ls, Forall2 (did_private n) recs ls /\
  forall pre w r w' post, recs = (pre ++ (OTick, w, r, w') :: post)%list ->
    exists lp lt lr s, ls = (lp ++ lt :: lr)%list /\ List.length lp = List.length pre /\
      r = Ok s /\ ticks_private n w lt r w' r /\
      let p := (completions (List.concat lp)) mod List.length l in
      (exists v, nth_error l p = Some v /\ received n "list_item" v w w') /\
      if new_item pre lp then lt = [] /\ s = RUNNING
      else exists x, lt = [(c, OTick, Ok x)] /\
        s = match x with
            | SUCCEEDED => if Nat.eqb (S p) (List.length l) then SUCCEEDED else RUNNING
            | FAILED => FAILED
            | _ => RUNNING
            end.
Proof.
  intros E ev n name c cs l o wb w0 s recs Hb Hk Ho Hset Hrun HF Hne Hs.
  destruct (iterate_start ev n name (c :: cs) o wb w0 s Ho Hb Hset) as [Hc Hoc].
  assert (Hc0 : a_counter (w_mem w0 n) = 0 mod List.length l).
  { rewrite Hc. destruct l; [congruence|]. symmetry. apply PeanoNat.Nat.mod_0_l. discriminate. }
  exact (iterate_child_run ev n name c cs l w0 recs Hb Hk Hrun Hne true 0 true HF Hs Hc0 Hoc (fun _ => conj eq_refl eq_refl)).
Qed.
Print Assumptions C27_child.

(** Children of a tree meet the hypothesis on outputs. *)
Lemma tree_keeps_outs : forall E (ev : env E) n k name cs, NoDup (ids (T n k name cs)) ->
  Forall (keeps_outs n) (map (obj_of ev) cs).
Proof.
  intros E ev n k name cs Hn. apply Forall_forall. intros c Hc. apply in_map_iff in Hc.
  destruct Hc as [t [<- Ht]]. intros o w. inversion Hn; subst.
  assert (Hno : ~ In n (ids t)) by (eapply child_disj; eauto).
  destruct (frame_tree E ev t o w) as [Hf _]. destruct (Hf n Hno) as [_ [_ [Hx _]]]. exact Hx.
Qed.

Definition three : list value := [VInt 5; VInt 6; VInt 7].
Definition iter_world := set_outs (set_ins (dworld (all_st UNINITIALIZED) (says [])) 0
    [("list", static_in (TList (TInt 0 10) true 10 false) (VList three))]) 0
    [("list_item", mkC (TInt 0 10) true false false None false)].
Definition item (w : world dE) : option value :=
  match dget "list_item" (w_outs w 0) with Some c => c_val c | None => None end.
Example C27_example :
  map (fun k => let p := play (obj_of denv (T 0 KIterateList "it" [])) iter_world
                  ((OSetup, says []) :: repeat (OTick, says []) k) in (item (fst p), last (snd p) Raise)) [1; 2; 3; 4]
  = [(Some (VInt 5), Ok RUNNING); (Some (VInt 6), Ok RUNNING); (Some (VInt 7), Ok SUCCEEDED); (Some (VInt 5), Ok RUNNING)].
Proof. vm_compute. reflexivity. Qed.
Example C27_example_child :
  map (fun k => let p := play (obj_of denv (T 0 KIterateList "it" [leaf 1])) iter_world
                  ((OSetup, says []) :: repeat (OTick, says []) k) in (item (fst p), last (snd p) Raise)) [1; 2; 3; 4; 5; 6]
  = [(Some (VInt 5), Ok RUNNING); (Some (VInt 5), Ok RUNNING); (Some (VInt 6), Ok RUNNING); (Some (VInt 6), Ok RUNNING);
     (Some (VInt 7), Ok RUNNING); (Some (VInt 7), Ok SUCCEEDED)].
Proof. vm_compute. reflexivity. Qed.

(** Outside the property's premise: a list can be replaced without being marked as updated,
    because the mark is lost when the same value arrives twice (C33).  Then the node goes on
    counting, and if the new list is shorter the tick raises IndexError.  Here leaf 3 puts
    a list out, which is wired to the IterateList (5), leaf 4 fails once and UntilSuccess (1)
    starts both again. *)
Definition giver : env nat := mkEnv nat
  (fun o n _ _ k => match o, n with
     | OTick, 3 => (S k, [("list", VList (if Nat.ltb k 2 then three else [VInt 5]))], Ok SUCCEEDED)
     | OTick, _ => (k, [], Ok (if Nat.eqb k 3 then FAILED else SUCCEEDED))
     | OShutdown, _ => (k, [], Ok SHUTDOWN)
     | _, _ => (k, [], Ok IDLE)
     end)
  (fun _ _ _ => Ok bounds_free)
  (fun k => (k, 0%Z)).
Definition giver_tree : tree :=
  T 0 KSequence "root" [T 1 KUntilSuccess "until" [T 2 KSequence "seq" [leaf 3; leaf 4]]; T 5 KIterateList "it" []].
Definition unset_list : container := mkC (TList (TInt 0 10) true 10 false) true false false None false.
Definition giver_world : world nat :=
  mkW (fun _ => UNINITIALIZED) (fun _ => attrs0) (fun n => if Nat.eqb n 5 then [("list", unset_list)] else [])
    (fun n => if Nat.eqb n 3 then [("list", unset_list)]
              else if Nat.eqb n 5 then [("list_item", mkC (TInt 0 10) true false false None false)] else [])
    (fun n => Some (if Nat.eqb n 3 then [mkConn "list" 5 "list"] else [])) [] 0.
Fixpoint answers {E} (c : obj E) (w : world E) (l : list op) : list (res state) :=
  match l with [] => [] | o :: l => let (w', r) := call o c w in r :: answers c w' l end.
Theorem C27_shrunk_list_refuted : exists E (ev : env E) t (w : world E),
  (forall n, w_st w n = UNINITIALIZED) /\ NoDup (ids t) /\
  answers (obj_of ev t) w [OSetup; OTick; OTick; OTick; OTick] = [Ok IDLE; Ok RUNNING; Ok RUNNING; Ok RUNNING; Raise].
Proof.
  exists nat, giver, giver_tree, giver_world. split; [reflexivity|]. split; [|vm_compute; reflexivity].
  vm_compute. repeat constructor; simpl; intuition discriminate.
Qed.
Print Assumptions C27_shrunk_list_refuted.
