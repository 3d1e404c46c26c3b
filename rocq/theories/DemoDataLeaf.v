(** Concrete nodes for the examples of C75-C80: a node is created from a message, set up, and
    given values. *)
From Coq Require Import String Ascii ZArith Bool SpecFloat Arith List.
From Verif Require Import Base ModelData ModelUtility ModelTree ModelLeaf ModelDataLeaf SpecData SpecLeaf SpecDataLeaf.
From Verif Require Import Demo DemoLeaf ProofsData ProofsDataLeaf.
Import ListNotations.
Local Open Scope string_scope.
Local Open Scope list_scope.

Lemma map_eq_in : forall A B (f g : A -> B) l, map f l = map g l -> forall x, In x l -> f x = g x.
Proof. intros A B f g. induction l as [|y l IH]; cbn; intros E x J; [destruct J|]. injection E as E1 E2. destruct J as [<-|J]; auto. Qed.

Section Demo.
Context {X : Type}.
Variables (known : string -> bool) (ins outs : smap) (f : leafcode X) (msg : list (string * slot * text)).

Definition arrive (w : world X) (kv : string * value) : world X :=
  match dget (fst kv) (w_ins w 0) with
  | Some c => set_ins w 0 (dset (fst kv) (fst (set_value c (snd kv))) (w_ins w 0))
  | None => w
  end.
(** The node, alone in its tree, after setup and the arrival of [vals]. *)
Definition demo (x : X) (vals : list (string * value)) : option (world X) :=
  match node_of_msg known ins outs msg with
  | Ok (i, o) =>
      match containers i, containers o with
      | Some mi, Some mo => Some (fold_left arrive vals (fst (call OSetup (the_leaf f 0 "n") (new_world mi mo x))))
      | _, _ => None
      end
  | _ => None
  end.
Definition starts_ok : Prop :=
  match node_of_msg known ins outs msg with
  | Ok (i, _) => match containers i with
                 | Some mi => map (fun kc => option_map (check (c_ty (snd kc))) (c_val (snd kc))) mi =
                              map (fun kc => option_map Ok (c_val (snd kc))) mi
                 | None => False
                 end
  | _ => False
  end.

Lemma arrive_life : forall i o vals w, life f i o 0 "n" w -> life f i o 0 "n" (fold_left arrive vals w).
Proof.
  intros i o. induction vals as [|[k v] vals IH]; intros w H; [exact H|]. cbn. apply IH. unfold arrive. cbn [fst snd].
  destruct (dget k (w_ins w 0)) as [c|] eqn:D; [|exact H]. destruct (set_value c v) as [c' r] eqn:S. exact (l_data _ _ _ _ _ _ _ _ _ _ _ H D S).
Qed.
Lemma demo_built : forall x vals w, proper msg -> starts_ok -> demo x vals = Some w -> built known ins outs f 0 "n" w.
Proof.
  intros x vals w P SO H. unfold demo in H. unfold starts_ok in SO. destruct (node_of_msg known ins outs msg) as [[i o]|e|] eqn:N; try discriminate.
  destruct (containers i) as [mi|] eqn:CI; [|discriminate]. destruct (containers o) as [mo|] eqn:CO; [|discriminate]. injection H as <-.
  exists msg, i, o, mi, mo. split; [exact P|]. split; [exact N|]. split; [exact CI|]. split; [exact CO|]. split.
  - intros k c v D V. apply dget_In in D. pose proof (map_eq_in _ _ _ _ _ SO _ D) as K. cbn in K. rewrite V in K. injection K as K.
    exact (check_stored _ _ _ K).
  - apply arrive_life. apply (l_op f mi mo 0 "n" (new_world mi mo x) OSetup _ (snd (call OSetup (the_leaf f 0 "n") (new_world mi mo x)))).
    + apply l_new; reflexivity.
    + apply surjective_pairing.
Qed.
Lemma demo_ticks : forall x vals w, proper msg -> starts_ok -> demo x vals = Some w ->
  executes 0 w = true -> w_conns w 0 = Some [] -> w_outg w = [] ->
  ticks known ins outs f 0 "n" w (fst (call OTick (the_leaf f 0 "n") w)) (snd (call OTick (the_leaf f 0 "n") w)).
Proof.
  intros x vals w P SO H EX CN OG. split; [eapply demo_built; eauto|]. split; [|destruct (call OTick _ w); reflexivity].
  split; [exact EX|]. split.
  - exists []. split; [exact CN|]. intros k [].
  - intros k c t _ E. rewrite OG in E. discriminate.
Qed.
Definition ready_demo (x : X) (vals : list (string * value)) : bool :=
  match demo x vals with
  | Some w => executes 0 w && match w_conns w 0 with Some [] => true | _ => false end && match w_outg w with [] => true | _ => false end
  | None => false
  end.
(** Inputs as they are at the tick, and its answer. *)
Definition shown (x : X) (vals : list (string * value)) : list (string * option value) * res state :=
  match demo x vals with
  | Some w => (map (fun kc => (fst kc, c_val (snd kc))) (w_ins w 0), snd (call OTick (the_leaf f 0 "n") w))
  | None => ([], Raise)
  end.
Lemma demo_shown : forall x vals a r, proper msg -> starts_ok -> ready_demo x vals = true -> shown x vals = (a, r) ->
  exists w w', ticks known ins outs f 0 "n" w w' r /\ map (fun kc => (fst kc, c_val (snd kc))) (w_ins w 0) = a.
Proof.
  intros x vals a r P SO RD SH. unfold ready_demo in RD. unfold shown in SH. destruct (demo x vals) as [w|] eqn:D; [|discriminate].
  apply andb_true_iff in RD. destruct RD as [RD OG]. apply andb_true_iff in RD. destruct RD as [EX CN].
  injection SH as <- <-. exists w. eexists. split; [|reflexivity]. refine (demo_ticks x vals w P SO D EX _ _).
  - destruct (w_conns w 0) as [[|]|]; congruence.
  - destruct (w_outg w); congruence.
Qed.
End Demo.

Definition int_desc (a b : Z) : value := VDict [("type_identifier", VInt 2); ("min_value", VInt a); ("max_value", VInt b)].
Definition bool_desc : value := VDict [("type_identifier", VInt 1)].
Definition no_msgs (s : string) : bool := false.
(** An input of the message: a type; a value that comes by a wiring; a fixed value. *)
Definition ty_in (k : string) (l : list bty) (d : value) : string * slot * text := (k, SPlain (mkC (TGeneric l) false true true None false), TValue d).
Definition wired_in (k : string) (r : refkind) (t : string) : string * slot * text := (k, SRef r t true true false None, TNoJson).
Definition fixed_in (k : string) (r : refkind) (t : string) (v : value) : string * slot * text := (k, SRef r t false true true None, TValue v).
Definition plain_in (k : string) (t : ctype) (v : value) : string * slot * text := (k, static_of t, TValue v).
Ltac is_proper := split; [vm_compute; repeat (apply NoDup_cons; [cbn; intuition discriminate|]); apply NoDup_nil
  |cbn; intros ? ? ? H; repeat (destruct H as [H|H]; [injection H as <- <- <-; cbn; auto|]); contradiction].
Ltac starts := vm_compute; reflexivity.
