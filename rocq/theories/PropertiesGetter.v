(** Property C110: the getter nodes. *)
From Coq Require Import List String ZArith Bool.
From Verif Require Import Base ModelData ModelUtility ModelTree SpecTree SpecControl SpecGetter ProofsTree ProofsLife
  ProofsWhole ProofsControl ProofsMemory ProofsGetter Demo.
Import ListNotations.
Local Open Scope string_scope.

(** ** C110 Getters deliver the item their inputs ask for *)

(** Every tick of every history after a setup: the child is ticked first, and its FAILED or
    RUNNING is passed on.  Otherwise the result is FAILED if there is no such item; else, if an
    input was updated or succeed_on_stale_data is set, the item is on the output and the result
    is SUCCEEDED; else nothing is written and the result is RUNNING.  Missing: that the tick gets
    this far when an input is wired to the child, which is false (below). *)
Theorem C110_tick_partial : forall E (ev : env E) n g name cs wb w0 s recs c stale,
  Forall (blind n) cs ->
  dget "succeed_on_stale_data" (w_ins wb n) = Some c -> c_static c = true -> c_val c = Some (VBool stale) ->
  call OSetup (make_obj ev n (KGetter g) name cs) wb = (w0, Ok s) ->
  op_run (make_obj ev n (KGetter g) name cs) w0 recs ->
  forall pre w r w' post, recs = (pre ++ (OTick, w, r, w') :: post)%list -> live (w_st w n) ->
  forall w2 b, child_first cs (begin_tick n w) w2 b -> getter_goes_on g n stale b w2 w' r.
Proof.
  intros E ev n g name cs wb w0 s recs c stale F D S V HS R pre w r w' post Eq L w2 b C.
  destruct (getter_run ev n g name cs w0 recs F R pre w r w' post Eq) as [M [I T]].
  rewrite (getter_setup ev n g name cs wb w0 s c stale F D S V HS) in M. rewrite <- M.
  replace (w_mem w n) with (w_mem w2 n); [exact (getter_step ev n g name cs w w' w2 r b L I C T)|].
  destruct cs as [|x l]; simpl in C; [destruct C as [-> _]; reflexivity|]. inversion F; subst.
  destruct (H1 OTick (begin_tick n w)) as [_ A]. simpl in A. rewrite C in A. exact A.
Qed.
Print Assumptions C110_tick_partial.

(** Inputs of the right types ask for exactly one thing. *)
Theorem C110_asks : forall E (w : world E) n g,
  match g with
  | GListItem => exists l i, holds w n "list" (VList l) /\ holds w n "index" (VInt i)
  | GDictItem => exists d k, holds w n "dict" (VDict d) /\ holds w n "key" (VStr k)
  | GMultiDict => exists d ks, holds w n "dict" (VDict d) /\ holds w n "keys" (VList ks)
  | GAttr _ => exists v a, holds w n "object" v /\ holds w n "attr_name" (VStr a)
  end -> exists x, asks w n g x /\ forall y, asks w n g y -> y = x.
Proof.
  intros E w n g H. assert (Q : exists x, asks w n g x).
  { exact (asks_total w n g H). }
  destruct Q as [x A]. exists x. split; auto. intros y B. apply asks_read in A, B. congruence.
Qed.
Print Assumptions C110_asks.

Definition demo_attr (v : value) (a : string) : option value :=
  match v with
  | VMsg _ 0 => if String.eqb a "stamp" then Some (VMsg "Time" 1) else None
  | VMsg _ _ => if String.eqb a "sec" then Some (VInt 7) else None
  | _ => None
  end.
Definition gworld (stale : bool) (obj : value) (path : string) : world dE :=
  set_outs (set_ins (dworld (all_st UNINITIALIZED) (says [])) 0
    [("succeed_on_stale_data", static_in TBool (VBool stale));
     ("object", static_in (TRosMsg "Header" 0) obj); ("attr_name", static_in (TStr 20 None) (VStr path))]) 0
    [("attr", mkC (TInt 0 10) true false false None false)].
Definition got (w : world dE) : option value :=
  match dget "attr" (w_outs w 0) with Some c => c_val c | None => None end.
Definition gplay (stale : bool) (path : string) :=
  let p := play (obj_of denv (T 0 (KGetter (GAttr demo_attr)) "get" [])) (gworld stale (VMsg "Header" 0) path)
             [(OSetup, says []); (OTick, says []); (OTick, says [])] in (got (fst p), snd p).
Example C110_example :
  gplay false "stamp.sec" = (Some (VInt 7), [Ok IDLE; Ok SUCCEEDED; Ok RUNNING]) /\
  gplay true "stamp.sec" = (Some (VInt 7), [Ok IDLE; Ok SUCCEEDED; Ok SUCCEEDED]) /\
  gplay true "stamp.nsec" = (None, [Ok IDLE; Ok FAILED; Ok FAILED]).
Proof. vm_compute. auto. Qed.

(** The child of a getter cannot produce what the getter reads, although the child is ticked
    first for this purpose: a node is refused its tick while an input has no value, before any
    of its own code runs, and setup takes the value of every input that is wired.  So the first
    tick after setup breaks the node, for every class of node and every such input. *)
Theorem C110_own_child_refuted : forall E (ev : env E) n k name cs (w w' : world E) s key c,
  NoDup (ids (T n k name cs)) -> dget key (w_ins w n) = Some c -> c_static c = false ->
  call OSetup (obj_of ev (T n k name cs)) w = (w', Ok s) ->
  call OTick (obj_of ev (T n k name cs)) w' = (set_st w' n BROKEN, Err EUnset).
Proof. exact @unset_tick. Qed.
Print Assumptions C110_own_child_refuted.

(** The getter 0 reads the list that its child 1 puts out. *)
Definition list_giver : env nat := mkEnv nat
  (fun o n _ _ k => match o with
     | OTick => (S k, [("list", VList [VInt 5; VInt 6])], Ok SUCCEEDED)
     | OShutdown => (k, [], Ok SHUTDOWN)
     | _ => (k, [], Ok IDLE)
     end)
  (fun _ _ _ => Ok bounds_free)
  (fun k => (k, 0%Z)).
Definition fed_tree : tree := T 0 (KGetter GListItem) "get" [leaf 1].
Definition fed_world : world nat :=
  mkW (fun _ => UNINITIALIZED) (fun _ => attrs0)
    (fun n => if Nat.eqb n 0 then
       [("succeed_on_stale_data", static_in TBool (VBool true)); ("index", static_in (TInt 0 10) (VInt 1));
        ("list", mkC (TList (TInt 0 10) true 10 false) true false false (Some (VList [])) false)] else [])
    (fun n => if Nat.eqb n 0 then [("item", mkC (TInt 0 10) true false false None false)]
              else [("list", mkC (TList (TInt 0 10) true 10 false) true false false None false)])
    (fun n => Some (if Nat.eqb n 1 then [mkConn "list" 0 "list"] else [])) [] 0.
Fixpoint replies {E} (c : obj E) (w : world E) (l : list op) : list (res state) * E :=
  match l with
  | [] => ([], w_ext w)
  | o :: l => let (w', r) := call o c w in let (rs, e) := replies c w' l in (r :: rs, e)
  end.
Example C110_own_child_example :
  replies (obj_of list_giver fed_tree) fed_world [OSetup; OTick; OTick; OShutdown; OSetup; OTick] =
    ([Ok IDLE; Err EUnset; Err EGuard; Ok SHUTDOWN; Ok IDLE; Err EUnset], 0).
Proof. vm_compute. reflexivity. Qed.
