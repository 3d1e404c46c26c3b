(** Schedules over the plant of ModelServer.v, for the examples and the refutation of
    C109. *)
From Coq Require Import List String Bool Arith.
From Verif Require Import Base ModelTree SpecTree ModelSubtreeNode ModelEdit SpecEdit DemoEdit ProofsEdit.
From Verif Require Import ModelExec SpecExec ModelServer SpecServer SpecFlowExec DemoExec.
From Verif Require Demo.
Import ListNotations.
Local Open Scope string_scope.
Local Open Scope list_scope.

(** The classes of the nodes of DemoEdit.v. *)
Definition demo_class (n : nid) : ModelTree.kind * string :=
  match n with 1 => (KSequence, "box") | 4 => (KInverter, "deco") | _ => (KLeaf, "leaf") end.
Definition sv0 : server Demo.dE := mkSv (empty_mgr true) demo_class (Demo.dworld (Demo.all_st UNINITIALIZED) (Demo.says [])).
Definition splant : plant (server Demo.dE) := server_plant Demo.denv sane_call.

(** The edits are taken from a list, the one whose place is the number of nodes and
    wirings that there are. *)
Section Script.
Variable script : list SpecEdit.edit.
Definition sedit (s : server Demo.dE) : option (server Demo.dE * bool) :=
  match nth_error script (List.length (g_nodes (sv_mgr s)) + List.length (g_wires (sv_mgr s))) with
  | None => None
  | Some e =>
      match serve 100 e (sv_mgr s) with
      | None => None
      | Some (g', r) =>
          if freshb (sv_mgr s) e && saneb (sv_mgr s) e &&
             forallb (fun io => opt_nat_eqb (f_max (n_cfg (g_heap g' (snd io)))) (class_max (fst (sv_class s (fst io)))) &&
                                (opt_nat_eqb (nget (fst io) (g_nodes (sv_mgr s))) (Some (snd io)) ||
                                 state_eqb (w_st (sv_world s) (fst io)) UNINITIALIZED)) (g_nodes g')
          then Some (mkSv g' (sv_class s) (sv_world s), is_ok r) else None
      end
  end.
Lemma opt_nat_eqb_ok : forall a b, opt_nat_eqb a b = true -> a = b.
Proof. intros [a|] [b|] H; cbn in H; try discriminate; [apply Nat.eqb_eq in H; congruence|reflexivity]. Qed.
Lemma sedit_ok : forall s s' b, sedit s = Some (s', b) -> sv_edit sane_call s s' b.
Proof.
  intros s s' b H. unfold sedit in H. destruct (nth_error script _) as [e|]; [|discriminate].
  destruct (serve 100 e (sv_mgr s)) as [[g' r]|] eqn:S; [|discriminate].
  match type of H with (if ?x then _ else _) = _ => destruct x eqn:C; [|discriminate] end.
  apply andb_true_iff in C. destruct C as [C K]. apply andb_true_iff in C. destruct C as [C1 C2]. injection H as <- <-.
  exists 100, e, (sv_mgr s), r. split; [left; reflexivity|]. split; [apply freshb_fresh; exact C1|]. split; [exact S|].
  split; [apply saneb_sane; exact C2|]. split; [reflexivity|]. cbn [sv_mgr sv_class sv_world].
  intros i o X. rewrite forallb_forall in K. specialize (K _ (nget_In _ _ _ X)). cbn [fst snd] in K.
  apply andb_true_iff in K. destruct K as [K1 K2]. split; [apply opt_nat_eqb_ok; exact K1|]. split; [auto|].
  intros N. apply orb_true_iff in K2. destruct K2 as [K2|K2]; [elim N; apply opt_nat_eqb_ok; exact K2|].
  destruct (w_st (sv_world s) i); try discriminate; reflexivity.
Qed.

(** The tree below an object. *)
Fixpoint unf (fuel : nat) (g : mgr) (cl : nid -> ModelTree.kind * string) (o : oid) : option tree :=
  match fuel with
  | 0 => None
  | S m =>
      let fix go (l : list oid) : option (list tree) :=
        match l with
        | [] => Some []
        | c :: l => match unf m g cl c, go l with Some t, Some ts => Some (t :: ts) | _, _ => None end
        end in
      option_map (T (n_id (g_heap g o)) (fst (cl (n_id (g_heap g o)))) (snd (cl (n_id (g_heap g o)))))
                 (go (n_children (g_heap g o)))
  end.
Lemma unf_ok : forall fuel g cl o t, unf fuel g cl o = Some t -> unfolds g cl o t.
Proof.
  induction fuel as [|m IH]; intros g cl o t H; [discriminate|]. cbn in H.
  match type of H with option_map _ ?x = _ => destruct x as [cs|] eqn:X; [|discriminate] end. injection H as <-.
  constructor. revert cs X. induction (n_children (g_heap g o)) as [|c l IHl]; intros cs X.
  - injection X as <-. constructor.
  - destruct (unf m g cl c) as [t1|] eqn:U; [|discriminate].
    match type of X with match ?y with _ => _ end = _ => destruct y as [ts|] eqn:Y; [|discriminate] end.
    injection X as <-. constructor; [apply IH; exact U|apply IHl; reflexivity].
Qed.

(** The same plant with an initialisation and edits that change nothing, for which
    DemoExec.v plays schedules. *)
Definition splain : plant (server Demo.dE) := {|
  p_root := p_root splant; p_state := p_state splant; p_orphan := p_orphan splant; p_op := p_op splant;
  p_init := fun w w' b => w' = w /\ b = true; p_push := p_push splant; p_unlink := p_unlink splant;
  p_subclear := p_subclear splant; p_edit := fun w w' b => w' = w /\ b = true |}.
Definition sop (o : op) (s : server Demo.dE) : option (server Demo.dE * res state) :=
  match snd (find_root (sv_mgr s)) with
  | Ok (Some root) =>
      match unf 20 (sv_mgr s) (sv_class s) root with
      | Some t => let (w', r) := call o (obj_of Demo.denv t) (sv_world s) in Some (mkSv (sv_mgr s) (sv_class s) w', r)
      | None => None
      end
  | _ => None
  end.
Lemma sop_ok : forall o w w' r, sop o w = Some (w', r) -> p_op splain o w w' r.
Proof.
  intros o w w' r H. unfold sop in H. destruct (snd (find_root (sv_mgr w))) as [[root|]|e|] eqn:R; try discriminate.
  destruct (unf 20 (sv_mgr w) (sv_class w) root) as [t|] eqn:U; [|discriminate].
  destruct (call o _ _) as [w1 r1] eqn:C. injection H as <- <-. split; [reflexivity|]. split; [reflexivity|]. rewrite R.
  exists t. split; [exact (unf_ok _ _ _ _ _ U)|exact C].
Qed.
Definition sinit (s : server Demo.dE) : option (server Demo.dE) :=
  let (c, r) := connect (sv_wires (sv_mgr s)) (fun n => if nhas n (g_nodes (sv_mgr s)) then Some [] else None) in
  match r with
  | Raise => None
  | _ => Some (mkSv (sv_mgr s) (sv_class s) (set_conns (sv_world s) c))
  end.

Definition snext (y : sys (server Demo.dE)) (p : nat) (c : code) : option (action * code * sys (server Demo.dE)) :=
  match c with
  | Init k => match sinit (y_world y) with Some w' => Some (AInit true, k, with_world y w') | None => None end
  | InEdit k => match sedit (y_world y) with Some (w', b) => Some (AEditEnd b, k b, with_world y w') | None => None end
  | Unlink k => Some (AUnlink, k, with_world y (mkSv (unlink_nodes (sv_mgr (y_world y))) (sv_class (y_world y)) (sv_world (y_world y))))
  | _ => DemoExec.next splain sop y p c
  end.
Lemma effect_splain : forall p y a y', effect splain p y a y' ->
  match a with AInit _ | AEditEnd _ => False | _ => True end -> effect splant p y a y'.
Proof. intros p y a y' E H. destruct E; cbn in H; try tauto; first [exact (ef_ro splant p y)|exact (ef_rs splant p y)|exact (ef_or splant p y)|econstructor; eauto; fail]. Qed.
Lemma step_splain : forall y p a z, step splain y (EAct p a) z ->
  match a with AInit _ | AEditEnd _ => False | _ => True end -> step splant y (EAct p a) z.
Proof. intros y p a z H X. inversion H; subst. eapply st_act; eauto using effect_splain. Qed.
Lemma snext_step : forall y p k c a c' y', nth_error (y_procs y) p = Some (k, Some c) ->
  snext y p c = Some (a, c', y') -> step splant y (EAct p a) (with_proc y' p (k, Some c')).
Proof.
  intros y p k c a c' y' A N.
  assert (G : DemoExec.next splain sop y p c = Some (a, c', y') -> match a with AInit _ | AEditEnd _ => False | _ => True end ->
    step splant y (EAct p a) (with_proc y' p (k, Some c'))).
  { intros X Z. pose proof (next_step splain sop sop_ok (fun w => conj eq_refl eq_refl) (fun w => conj eq_refl eq_refl)
      (fun w => eq_refl) (fun w => conj eq_refl eq_refl) _ _ _ _ _ _ _ A X) as ST.
    apply step_splain; assumption. }
  destruct c; cbn [snext] in N;
    try (apply G; [exact N|]; cbn -[body sop] in N; try discriminate; try (injection N as <- <- <-; exact I)).
  - destruct (nth_error (y_procs y) t) as [[[] [?|]]|]; try discriminate; injection N as <- <- <-; exact I.
  - destruct (sop o (y_world y)) as [[? ?]|]; [|discriminate]. injection N as <- <- <-; exact I.
  - unfold sinit in N. destruct (connect _ _) as [cc r] eqn:C. destruct r as [u|e|]; try discriminate;
      injection N as <- <- <-; (eapply st_act; [exact A|apply (ls_it _ true)|]); constructor;
      cbn; unfold sv_init; rewrite C; auto.
  - injection N as <- <- <-. eapply st_act; [exact A|apply ls_ul|]. constructor. eexists. split; [left; reflexivity|reflexivity].
  - destruct (y_lock y); [discriminate|]. injection N as <- <- <-; exact I.
  - destruct (sedit (y_world y)) as [[w' b]|] eqn:Gw; [|discriminate]. injection N as <- <- <-.
    eapply st_act; [exact A|apply (ls_ie _ b)|]. constructor. exact (sedit_ok _ _ _ Gw).
Qed.

Definition s_may_come (y : sys (server Demo.dE)) (k : kind) : bool :=
  calmb y && match k with KEdit _ => none_alive y | _ => true end.
Definition sturn (y : sys (server Demo.dE)) (x : kind + nat) : option (event * sys (server Demo.dE)) :=
  match x with
  | inl KTick => None
  | inl k => if negb (s_may_come y k) then None else Some (EArrive k, arrived y k)
  | inr p => match nth_error (y_procs y) p with
             | Some (k, Some c) => match snext y p c with
                                   | Some (AOk false, _, _) | None => None
                                   | Some (a, c', y') => Some (EAct p a, with_proc y' p (k, Some c'))
                                   end
             | _ => None
             end
  end.
Fixpoint splay (y : sys (server Demo.dE)) (l : list (kind + nat)) : option (list event * sys (server Demo.dE)) :=
  match l with
  | [] => Some ([], y)
  | x :: l => match sturn y x with
              | Some (e, y1) => match splay y1 l with
                                | Some (es, y2) => Some (e :: es, y2)
                                | None => None
                                end
              | None => None
              end
  end.
Lemma sturn_step : forall y x e y', sturn y x = Some (e, y') -> step splant y e y' /\ patient y e.
Proof.
  intros y x e y' H. destruct x as [k|p]; cbn in H.
  - assert (NK : k <> KTick) by (intros ->; discriminate).
    assert (X : (if negb (s_may_come y k) then None else Some (EArrive k, arrived y k)) = Some (e, y'))
      by (destruct k; [discriminate|exact H|exact H]). clear H.
    destruct (s_may_come y k) eqn:C1; [|discriminate]. injection X as <- <-.
    split; [constructor; exact NK|]. unfold s_may_come in C1. apply andb_true_iff in C1. destruct C1 as [C1 C2].
    split; [apply calmb_calm; exact C1|]. destruct k; try exact I. apply none_alive_none; exact C2.
  - destruct (nth_error (y_procs y) p) as [[k [c|]]|] eqn:A; try discriminate.
    destruct (snext y p c) as [[[a c'] y1]|] eqn:N; [|discriminate].
    pose proof (snext_step _ _ _ _ _ _ _ A N) as ST.
    assert (X : a <> AOk false /\ (EAct p a, with_proc y1 p (k, Some c')) = (e, y')).
    { destruct a; try (injection H as <- <-; split; [discriminate|reflexivity]).
      destruct b; [|discriminate]. injection H as <- <-. split; [discriminate|reflexivity]. }
    destruct X as [NO X]. injection X as <- <-. split; [exact ST|]. split; [|exact I].
    cbn. destruct a; try exact I. destruct b; [reflexivity|congruence].
Qed.
Lemma splay_runs : forall l y es y', splay y l = Some (es, y') -> runs patient splant y es y'.
Proof.
  intros l. induction l as [|x l IH]; intros y es y' H; cbn in H.
  - injection H as <- <-. constructor.
  - destruct (sturn y x) as [[e y1]|] eqn:T; [|discriminate].
    destruct (splay y1 l) as [[es2 y2]|] eqn:PL; [|discriminate]. injection H as <- <-.
    destruct (sturn_step _ _ _ _ T) as [S G]. change (e :: es2) with ([e] ++ es2).
    eapply runs_trans; [|apply IH; exact PL].
    apply (runs_snoc _ _ y [] y e y1); [constructor|exact G|exact S].
Qed.
End Script.

(** Two schedules, one after the other. *)
Lemma splay_two : forall script l0 l1 (Q : list event -> sys (server Demo.dE) -> list event -> sys (server Demo.dE) -> Prop),
  match splay script (fresh sv0) l0 with
  | Some (es0, y0) => match splay script y0 l1 with Some (es1, y) => Q es0 y0 es1 y | None => False end
  | None => False
  end ->
  exists es0 y0 es1 y, runs patient splant (fresh sv0) es0 y0 /\ runs patient splant y0 es1 y /\ Q es0 y0 es1 y.
Proof.
  intros script l0 l1 Q H. destruct (splay script (fresh sv0) l0) as [[es0 y0]|] eqn:A; [|destruct H].
  destruct (splay script y0 l1) as [[es1 y]|] eqn:B; [|destruct H]. exists es0, y0, es1, y.
  split; [exact (splay_runs _ _ _ _ _ A)|]. split; [exact (splay_runs _ _ _ _ _ B)|exact H].
Qed.

(** The tree of DemoEdit.v and its wiring; two roots, the first with a child. *)
Definition one_tree : list SpecEdit.edit := demo_edits.
Definition two_roots : list SpecEdit.edit :=
  [EAddLast 1 (id 0) (Ok box) []; EAddLast 2 (id 1) (Ok out_leaf) []; EAddLast 3 (id 0) (Ok in_leaf) []].
