(** Basic lemmas about the tree model: induction over trees, worlds seen through
    preorders, frames. *)
From Coq Require Import List String ZArith Bool Arith Lia.
From Verif Require Import Base ModelData ModelUtility ModelTree SpecTree.
Import ListNotations.
Local Open Scope nat_scope.

(** ** Small facts *)

Lemma state_eqb_spec : forall a b, Bool.reflect (a = b) (state_eqb a b).
Proof. intros a b; destruct a, b; simpl; constructor; congruence. Qed.

Lemma state_eqb_true : forall a b, state_eqb a b = true <-> a = b.
Proof. intros a b; destruct (state_eqb_spec a b); split; congruence. Qed.

Lemma state_eqb_false : forall a b, state_eqb a b = false <-> a <> b.
Proof. intros a b; destruct (state_eqb_spec a b); split; congruence. Qed.

Lemma state_in_spec : forall a l, state_in a l = true <-> In a l.
Proof.
  intros a l. unfold state_in. rewrite existsb_exists. split.
  - intros [x [Hx He]]. apply state_eqb_true in He. congruence.
  - intros H. exists a. split; auto. apply state_eqb_true. reflexivity.
Qed.

Lemma upd_eq : forall A (f : nid -> A) n v, upd f n v n = v.
Proof. intros. unfold upd. rewrite Nat.eqb_refl. reflexivity. Qed.

Lemma upd_neq : forall A (f : nid -> A) n m v, m <> n -> upd f n v m = f m.
Proof. intros. unfold upd. destruct (Nat.eqb_spec m n); congruence. Qed.

(** ** Induction over trees *)

Section TreeInd.
  Variable P : tree -> Prop.
  Hypothesis step : forall n k name cs, Forall P cs -> P (T n k name cs).
  Fixpoint tree_ind' (t : tree) : P t :=
    match t with
    | T n k name cs =>
        step n k name cs
          ((fix go (l : list tree) : Forall P l :=
              match l with
              | [] => Forall_nil P
              | x :: r => Forall_cons x (tree_ind' x) (go r)
              end) cs)
    end.
End TreeInd.

(** ** One definition for the five [_do_*] methods *)

Definition do_op {E} (ev : env E) (o : op) (n : nid) (k : kind) (cs : list (obj E)) : act E :=
  match o with
  | OSetup => do_setup ev n k cs
  | OTick => do_tick ev n k cs
  | OUntick => do_untick ev n k cs
  | OReset => do_reset ev n k cs
  | OShutdown => do_shutdown ev n k
  end.

(** ** World preorders

    A reflexive and transitive relation on worlds that is closed under changes
    of the private memory and outputs of one node, of the outside world, and
    under the methods of the children is closed under [_do_*]. *)
Section Rel.
  Context {E : Type}.
  Variable ev : env E.
  Variable R : world E -> world E -> Prop.
  Hypothesis Rrefl : forall w, R w w.
  Hypothesis Rtrans : forall a b c, R a b -> R b c -> R a c.
  Variable n : nid.
  (** [phase] holds while the options of the node may be read again (setup). *)
  Variable phase : Prop.
  Hypothesis Rmem : forall w a, phase \/ same_options a (w_mem w n) -> R w (set_mem w n a).
  Hypothesis Routs : forall w m, map fst m = map fst (w_outs w n) -> R w (set_outs w n m).
  Hypothesis Rext : forall w e, R w (set_ext w e).

  Lemma R_bind : forall A B w (x : world E * res A) (k : A -> world E -> world E * res B),
    R w (fst x) ->
    (forall a w1, R w w1 -> R w (fst (k a w1))) ->
    R w (fst (bind x k)).
  Proof.
    intros A B w [w1 [a|e|]] k H1 H2; simpl in *; auto.
  Qed.

  Lemma keys_dset : forall A k (v : A) l, dget k l <> None -> map fst (dset k v l) = map fst l.
  Proof.
    induction l as [|[k' v'] r IH]; simpl; intros H; [congruence|].
    destruct (String.eqb_spec k k'); simpl; [congruence|]. f_equal. auto.
  Qed.

  Lemma R_out_set : forall w0 w key v, R w0 w -> R w0 (fst (out_set w n key v)).
  Proof.
    intros w0 w key v H. unfold out_set.
    destruct (dget key (w_outs w n)) eqn:Eg; simpl; auto.
    destruct (set_value c v) as [c' [|e|]] eqn:Es; simpl;
      (eapply Rtrans; [exact H|]; apply Routs; apply keys_dset; congruence).
  Qed.

  Lemma R_out_set_all : forall l w0 w, R w0 w -> R w0 (fst (out_set_all w n l)).
  Proof.
    induction l as [|[k v] r IH]; simpl; intros w0 w H; auto.
    apply R_bind; [apply R_out_set; auto|]. intros _ w1 H1. apply IH; auto.
  Qed.

  Lemma R_leaf : forall o w0 w, R w0 w -> R w0 (fst (leaf_act ev o n w)).
  Proof.
    intros o w0 w H. unfold leaf_act.
    destruct (ev_leaf ev o n (w_st w n) (w_ins w n) (w_ext w)) as [[e' ws] r].
    apply R_bind; [|simpl; auto].
    apply R_out_set_all. eapply Rtrans; eauto.
  Qed.

  (** [okop]: methods the relation allows on children. *)
  Variable okop : op -> Prop.
  Hypothesis okT : okop OTick.
  Hypothesis okU : okop OUntick.
  Hypothesis okR : okop OReset.
  Hypothesis okS : phase -> okop OSetup.

  Variable cs : list (obj E).
  Hypothesis Rcs : forall c o w, okop o -> In c cs -> R w (fst (call o c w)).

  Ltac dcs := let l := fresh "l" in
    let Ec := fresh "Ec" in
    remember cs as l eqn:Ec in |- *; symmetry in Ec; destruct l.

  Lemma R_call : forall o c w0 w, okop o -> In c cs -> R w0 w -> R w0 (fst (call o c w)).
  Proof. intros. eapply Rtrans; eauto. Qed.

  Lemma R_for_each : forall o l w0 w, okop o -> incl l cs -> R w0 w -> R w0 (fst (for_each (call o) l w)).
  Proof.
    induction l as [|c r IH]; simpl; intros w0 w Ho Hi H; auto.
    apply R_bind; [apply R_call; auto; apply Hi; left; auto|].
    intros _ w1 H1. apply IH; auto. intros x Hx. apply Hi. right; auto.
  Qed.

  Lemma R_each_then : forall o s w0 w, okop o -> R w0 w -> R w0 (fst (each_then (call o) cs s w)).
  Proof.
    intros. unfold each_then. apply R_bind; [apply R_for_each; auto using incl_refl|]. auto.
  Qed.

  Lemma R_first_or : forall o s w0 w, okop o -> R w0 w -> R w0 (fst (first_or (call o) cs s w)).
  Proof.
    intros o s w0 w Ho H. unfold first_or. dcs; simpl; auto.
    eapply Rtrans; [exact H|]. apply Rcs; auto. rewrite Ec. left; auto.
  Qed.

  Lemma R_mem : forall w0 w a, phase \/ same_options a (w_mem w n) -> R w0 w -> R w0 (set_mem w n a).
  Proof. intros. eapply Rtrans; eauto. Qed.

  Lemma R_reset_if : forall w0 w, R w0 w -> R w0 (fst (reset_if_finished n cs w)).
  Proof.
    intros. unfold reset_if_finished. destruct (finished _); simpl; auto.
    apply (R_for_each OReset); [solve [auto]|..]; auto using incl_refl.
  Qed.

  Lemma R_reset_running : forall c w0 w, In c cs -> R w0 w -> R w0 (fst (reset_running c w)).
  Proof.
    intros. unfold reset_running. apply R_bind; auto. apply (R_call OReset); [solve [auto]|..]; auto.
  Qed.

  Ltac mm := apply R_mem; [solve [right; repeat split; reflexivity | left; assumption]|].

  Ltac rt :=
    repeat first
      [ assumption
      | mm
      | progress (unfold mem_lrc, mem_count, mem_limit, mem_needed, mem_tol, mem_ris, mem_exec,
           mem_last, mem_lastres, mem_interval, mem_iter, mem_stale) ].

  Lemma R_sequence_loop : forall l w0 w, incl l cs -> R w0 w -> R w0 (fst (sequence_loop l w)).
  Proof.
    induction l as [|c r IH]; simpl; intros w0 w Hi H; auto.
    apply R_bind; [apply (R_call OTick); [solve [auto]|..]; auto; apply Hi; left; auto|].
    assert (Hr : incl r cs) by (intros x Hx; apply Hi; right; auto).
    intros s w1 H1. destruct (negb (state_eqb s SUCCEEDED)).
    - destruct (negb (state_eqb s RUNNING)); simpl; auto.
      apply R_bind; auto. apply (R_for_each OUntick); [solve [auto]|..]; auto.
    - apply IH; auto.
  Qed.

  Lemma R_fallback_loop : forall l w0 w, incl l cs -> R w0 w -> R w0 (fst (fallback_loop l w)).
  Proof.
    induction l as [|c r IH]; simpl; intros w0 w Hi H; auto.
    apply R_bind; [apply (R_call OTick); [solve [auto]|..]; auto; apply Hi; left; auto|].
    assert (Hr : incl r cs) by (intros x Hx; apply Hi; right; auto).
    intros s w1 H1. destruct (state_eqb s SUCCEEDED || (state_eqb s RUNNING || false)).
    - destruct (state_eqb s SUCCEEDED); simpl; auto.
      apply R_bind; auto. apply (R_for_each OUntick); [solve [auto]|..]; auto.
    - apply IH; auto.
  Qed.

  Lemma R_memory_sequence_loop : forall l i w0 w, incl l cs -> R w0 w ->
    R w0 (fst (memory_sequence_loop n i l w)).
  Proof.
    induction l as [|c r IH]; simpl; intros i w0 w Hi H; auto.
    assert (Hr : incl r cs) by (intros x Hx; apply Hi; right; auto).
    destruct (Nat.ltb i _); [apply IH; auto|].
    apply R_bind; [apply (R_call OTick); [solve [auto]|..]; auto; apply Hi; left; auto|].
    intros s w1 H1. destruct (negb (state_eqb s SUCCEEDED)).
    - destruct (state_eqb s RUNNING); simpl; rt.
      apply R_bind; auto. apply (R_for_each OUntick); [solve [auto]|..]; auto.
    - apply IH; auto.
  Qed.

  Lemma R_memory_fallback_loop : forall l i w0 w, incl l cs -> R w0 w ->
    R w0 (fst (memory_fallback_loop n i l w)).
  Proof.
    induction l as [|c r IH]; simpl; intros i w0 w Hi H; auto.
    assert (Hr : incl r cs) by (intros x Hx; apply Hi; right; auto).
    destruct (Nat.ltb i _); [apply IH; auto|].
    apply R_bind; [apply (R_call OTick); [solve [auto]|..]; auto; apply Hi; left; auto|].
    intros s w1 H1. destruct (state_eqb s SUCCEEDED || (state_eqb s RUNNING || false)).
    - destruct (state_eqb s RUNNING); simpl; rt.
      apply R_bind; auto. apply (R_for_each OUntick); [solve [auto]|..]; auto.
    - apply IH; auto.
  Qed.

  Lemma R_parallel_loop : forall l a b w0 w, incl l cs -> R w0 w ->
    R w0 (fst (parallel_loop l a b w)).
  Proof.
    induction l as [|c r IH]; simpl; intros a b w0 w Hi H; auto.
    assert (Hr : incl r cs) by (intros x Hx; apply Hi; right; auto).
    apply R_bind.
    - destruct (negb _); simpl; auto. apply R_bind; auto.
      apply (R_call OTick); [solve [auto]|..]; auto; apply Hi; left; auto.
    - intros _ w1 H1. apply IH; auto.
  Qed.

  Lemma R_untick_unfinished : forall l w0 w, incl l cs -> R w0 w ->
    R w0 (fst (untick_unfinished l w)).
  Proof.
    induction l as [|c r IH]; simpl; intros w0 w Hi H; auto.
    assert (Hr : incl r cs) by (intros x Hx; apply Hi; right; auto).
    destruct (finished _); [apply IH; auto|].
    apply R_bind; [apply (R_call OUntick); [solve [auto]|..]; auto; apply Hi; left; auto|].
    intros _ w1 H1. apply IH; auto.
  Qed.

  Lemma dget_In : forall A k (l : list (string * A)) v, dget k l = Some v -> In v (map snd l).
  Proof.
    induction l as [|[k' v'] r IH]; simpl; intros v H; [discriminate|].
    destruct (String.eqb k k'); [left; congruence|right; auto].
  Qed.

  Lemma dset_incl : forall A k (v : A) l x, In x (map snd (dset k v l)) -> x = v \/ In x (map snd l).
  Proof.
    induction l as [|[k' v'] r IH]; simpl; intros x H.
    - destruct H; auto.
    - destruct (String.eqb k k'); simpl in H; destruct H; auto.
      apply IH in H. destruct H; auto.
  Qed.

  Lemma py_dict_incl : forall A (l : list (string * A)) x,
    In x (map snd (py_dict l)) -> In x (map snd l).
  Proof.
    intros A l. unfold py_dict.
    assert (G : forall l d x, In x (map snd (fold_left (fun d kv => dset (fst kv) (snd kv) d) l d)) ->
                In x (map snd d) \/ In x (map (@snd string A) l)).
    { clear l. induction l as [|kv r IH]; simpl; intros d x H; auto.
      apply IH in H. destruct H as [H|H]; auto. apply dset_incl in H. destruct H; auto. }
    intros x H. apply G in H. destruct H as [[]|H]; auto.
  Qed.

  Lemma R_switch : forall m name w0 w, incl (map snd m) cs -> R w0 w ->
    R w0 (fst (switch_tick n cs m name w)).
  Proof.
    intros m name w0 w Hi H. unfold switch_tick.
    destruct (dget name m) as [c|] eqn:Ed; simpl; auto.
    apply R_bind; [apply R_reset_if; auto|]. intros _ w1 H1.
    apply R_bind.
    - apply (R_for_each OUntick); [solve [auto]|..]; auto. intros x Hx. apply Hi.
      apply in_map_iff in Hx. destruct Hx as [kc [He Hf]]. apply filter_In in Hf.
      apply in_map_iff. exists kc. tauto.
    - intros _ w2 H2. apply (R_call OTick); [solve [auto]|..]; auto. apply Hi. eapply dget_In; eauto.
  Qed.

  Lemma map_incl_objs : forall f : obj E -> string,
    incl (map snd (py_dict (map (fun c => (f c, c)) cs))) cs.
  Proof.
    intros f x Hx. apply py_dict_incl in Hx. rewrite map_map in Hx. simpl in Hx.
    rewrite map_id in Hx. auto.
  Qed.

  Ltac go :=
    repeat match goal with
    | H : R ?a ?w |- R ?a ?w => exact H
    | |- R _ (fst (bind _ _)) => apply R_bind; [|intros ? ? ?]
    | |- R _ (set_mem _ n _) => mm
    | |- R _ (fst (match ?x with _ => _ end)) => destruct x eqn:?
    | |- R _ (fst (if ?x then _ else _)) => destruct x eqn:?
    | |- R _ (fst (call _ _ _)) => apply R_call; [solve [auto] | solve [auto | left; auto]|]
    | |- R _ (fst (for_each (call _) cs _)) => apply R_for_each; [solve [auto] | apply incl_refl|]
    | |- R _ (fst (each_then (call _) cs _ _)) => apply R_each_then; [solve [auto]|]
    | |- R _ (fst (first_or (call _) cs _ _)) => apply R_first_or; [solve [auto]|]
    | |- R _ (fst (reset_if_finished n cs _)) => apply R_reset_if
    | |- R _ (fst (out_set _ n _ _)) => apply R_out_set
    | |- R _ (fst (with_in ?x _ _)) => unfold with_in; destruct x eqn:?
    | _ => progress (cbn [fst snd] in *)
    | _ => progress (unfold mem_lrc, mem_count, mem_limit, mem_needed, mem_tol, mem_ris, mem_exec,
           mem_last, mem_lastres, mem_interval, mem_iter, mem_stale)
    end.

  Lemma R_optional_loop : phase -> forall l w0 w, incl l cs -> R w0 w ->
    R w0 (fst (optional_setup_loop n l w)).
  Proof.
    intros Hph. induction l as [|c r IH]; intros w0 w Hi H; simpl; auto.
    destruct (o_util c w); simpl; auto.
    destruct (can_execute a).
    - apply (R_call OSetup); [solve [auto]|..]; [apply Hi; left; auto|]. go.
    - apply IH; auto. intros x Hx. apply Hi. right; auto.
  Qed.

  Lemma do_setup_rel : phase -> forall k w0 w, R w0 w -> R w0 (fst (do_setup ev n k cs w)).
  Proof.
    intros Hph k w0 w H.
    destruct k; unfold do_setup; try change (@o_setup E) with (call (E:=E) OSetup); go;
      try (apply R_leaf; assumption).
    apply R_optional_loop; [assumption|apply incl_refl|]. go.
  Qed.

  Lemma do_untick_rel : forall k w0 w, R w0 w -> R w0 (fst (do_untick ev n k cs w)).
  Proof.
    intros k w0 w H.
    destruct k; unfold do_untick; try change (@o_untick E) with (call (E:=E) OUntick); go;
      try (apply R_leaf; assumption).
    unfold optional_do. destruct (a_exec _); simpl; auto.
    dcs; simpl; auto. eapply Rtrans; [exact H|].
    apply (Rcs _ OUntick); [solve [auto]|]. rewrite Ec. left; auto.
  Qed.

  Lemma do_reset_rel : forall k w0 w, R w0 w -> R w0 (fst (do_reset ev n k cs w)).
  Proof.
    intros k w0 w H.
    destruct k; unfold do_reset; try change (@o_reset E) with (call (E:=E) OReset); go;
      try (apply R_leaf; assumption).
    unfold optional_do. destruct (a_exec _); simpl; auto.
    dcs; simpl; auto. eapply Rtrans; [exact H|].
    apply (Rcs _ OReset); [solve [auto]|]. rewrite Ec. left; auto.
  Qed.

  Lemma do_shutdown_rel : forall k w0 w, R w0 w -> R w0 (fst (do_shutdown ev n k w)).
  Proof.
    intros k w0 w H. destruct k; unfold do_shutdown; go; apply R_leaf; assumption.
  Qed.

  Lemma R_head : forall c r w0 w o, okop o -> cs = c :: r -> R w0 w -> R w0 (fst (call o c w)).
  Proof. intros c r w0 w o Ho Hc H. apply R_call; auto. rewrite Hc. left; auto. Qed.

  Lemma do_tick_rel : forall k w0 w, R w0 w -> R w0 (fst (do_tick ev n k cs w)).
  Proof.
    intros k w0 w H.
    assert (Hinc : incl cs cs) by apply incl_refl.
    assert (Hh : forall c r o w', okop o -> cs = c :: r -> R w0 w' -> R w0 (fst (call o c w')))
      by (intros; eapply R_head; eauto).
    assert (Hrr : forall c r w', cs = c :: r -> R w0 w' -> R w0 (fst (reset_running c w'))).
    { intros. apply R_reset_running; auto. rewrite H0; left; auto. }
    destruct k; simpl.
    - apply R_leaf; auto.
    - unfold sequence_tick. dcs; auto. rewrite <- Ec in *.
      apply R_bind; [apply R_reset_if; auto|]. intros _ w1 H1. apply R_sequence_loop; auto.
    - unfold memory_sequence_tick. dcs; auto. rewrite <- Ec in *.
      apply R_bind; [destruct (finished _); simpl; auto; apply (R_for_each OReset); [solve [auto]|..]; auto; rt|].
      intros _ w1 H1. apply R_memory_sequence_loop; auto.
    - unfold fallback_tick. dcs; auto. rewrite <- Ec in *.
      apply R_bind; [apply R_reset_if; auto|]. intros _ w1 H1. apply R_fallback_loop; auto.
    - unfold memory_fallback_tick. dcs; auto. rewrite <- Ec in *.
      apply R_bind; [destruct (finished _); simpl; auto; apply (R_for_each OReset); [solve [auto]|..]; auto; rt|].
      intros _ w1 H1. apply R_memory_fallback_loop; auto.
    - unfold name_switch_tick. destruct (in_value_as _ _ _ _); simpl; auto.
      apply R_switch; auto. apply map_incl_objs.
    - unfold enum_switch_tick. destruct (in_value _ _ _); simpl; auto.
      destruct (enum_lookup _ _); simpl; auto. apply R_switch; auto. apply map_incl_objs.
    - unfold parallel_tick. apply R_bind; [apply R_reset_if; auto|]. intros _ w1 H1.
      apply R_bind; [apply R_parallel_loop; auto|]. intros sf w2 H2.
      destruct (Z.leb _ _); [apply R_bind; auto; apply R_untick_unfinished; auto|].
      destruct (Z.ltb _ _); [apply R_bind; auto; apply R_untick_unfinished; auto|]. auto.
    - unfold parallel_tick. apply R_bind; [apply R_reset_if; auto|]. intros _ w1 H1.
      apply R_bind; [apply R_parallel_loop; auto|]. intros sf w2 H2.
      destruct (Z.leb _ _); [apply R_bind; auto; apply R_untick_unfinished; auto|].
      destruct (Z.ltb _ _); [apply R_bind; auto; apply R_untick_unfinished; auto|]. auto.
    - unfold map_tick. dcs; simpl; auto. apply R_bind; auto.
      apply (Hh _ _ OTick _ ltac:(auto) Ec); auto.
    - dcs; simpl; auto. apply R_bind; auto. apply (Hh _ _ OTick _ ltac:(auto) Ec); auto.
    - unfold map_tick. dcs; simpl; auto. apply R_bind; auto.
      apply (Hh _ _ OTick _ ltac:(auto) Ec); auto.
    - unfold restart_on_tick. dcs; simpl; auto.
      apply R_bind; [apply (Hh _ _ OTick _ ltac:(auto) Ec); auto|]. intros s w1 H1.
      destruct (state_eqb _ _); simpl; eauto.
    - unfold map_tick. dcs; simpl; auto. apply R_bind; auto.
      apply (Hh _ _ OTick _ ltac:(auto) Ec); auto.
    - unfold retry_tick. dcs; simpl; auto.
      apply R_bind; [apply (Hh _ _ OTick _ ltac:(auto) Ec); auto|]. intros s w1 H1.
      destruct (state_eqb _ _); simpl; auto.
      destruct (Z.ltb _ _); simpl; [eapply Hrr; eauto; rt | rt].
    - unfold repeat_tick. dcs; simpl; auto.
      apply R_bind; [apply (Hh _ _ OTick _ ltac:(auto) Ec); auto|]. intros s w1 H1.
      destruct (state_eqb _ _); simpl; auto.
      destruct (Z.ltb _ _); simpl; auto. eapply Hrr; eauto; rt.
    - unfold repeat_nar_tick. destruct (in_value_as _ _ _ _); simpl; auto.
      assert (H' : R w0 (if a then mem_count w n 0%Z else w)) by (destruct a; rt).
      remember (if a then mem_count w n 0%Z else w) as wx eqn:Ew.
      destruct (Z.ltb _ _); simpl; auto.
      unfold repeat_tick. dcs; simpl; auto.
      apply R_bind; [apply (Hh _ _ OTick _ ltac:(auto) Ec); auto|]. intros s w1 H1.
      destruct (state_eqb _ _); simpl; auto.
      destruct (Z.ltb _ _); simpl; auto. eapply Hrr; eauto; rt.
    - unfold repeat_always_tick. dcs; simpl; auto.
      apply R_bind; [apply (Hh _ _ OTick _ ltac:(auto) Ec); auto|]. intros s w1 H1.
      destruct (negb _); simpl; eauto.
    - unfold restart_on_tick. dcs; simpl; auto.
      apply R_bind; [apply (Hh _ _ OTick _ ltac:(auto) Ec); auto|]. intros s w1 H1.
      destruct (state_eqb _ _); simpl; eauto.
    - unfold restart_on_tick. dcs; simpl; auto.
      apply R_bind; [apply (Hh _ _ OTick _ ltac:(auto) Ec); auto|]. intros s w1 H1.
      destruct (state_eqb _ _); simpl; eauto.
    - unfold optional_do. destruct (a_exec _); simpl; auto.
      dcs; simpl; auto. apply (Hh _ _ OTick _ ltac:(auto) Ec); auto.
    - unfold watch_tick. dcs; auto. destruct (any_updated _ _ _); simpl; auto.
      apply R_bind.
      + destruct a; simpl; auto. apply R_bind; auto. apply (Hh _ _ OUntick _ ltac:(auto) Ec); auto.
      + intros _ w1 H1. apply (Hh _ _ OTick _ ltac:(auto) Ec); auto.
    - unfold throttle_tick. destruct (ev_now ev (w_ext w)) as [e' now].
      assert (H0 : R w0 (set_ext w e')) by (eapply Rtrans; eauto).
      match goal with |- context [if ?b then _ else _] => destruct b end; [|simpl; auto].
      dcs; simpl; auto.
      pose proof (Hh _ _ OTick _ ltac:(auto) Ec H0) as H1. simpl in H1.
      destruct (o_tick o (set_ext w e')) as [w1 r1]; simpl in H1.
      assert (H2 : forall r, R w0 (mem_last (mem_lastres w1 n r) n (Some now)))
        by (intros; rt).
      assert (H3 : forall r, R w0 (fst (call OReset o (mem_last (mem_lastres w1 n r) n (Some now)))))
        by (intros; eapply Hh; eauto).
      simpl in H3.
      destruct r1 as [s|e|]; simpl; auto.
      + pose proof (H3 (Ok s)) as H3'.
        destruct (o_reset o (mem_last (mem_lastres w1 n (Ok s)) n (Some now))) as [w3 r3];
          destruct s, r3; simpl; auto.
      + pose proof (H3 (Err e)) as H3'.
        destruct (o_reset o (mem_last (mem_lastres w1 n (Err e)) n (Some now))) as [w3 r3];
          destruct r3; simpl; auto.
    - unfold throttle_success_tick. destruct (ev_now ev (w_ext w)) as [e' now].
      assert (H0 : R w0 (set_ext w e')) by (eapply Rtrans; eauto).
      match goal with |- context [if ?b then _ else _] => destruct b end; [|simpl; auto].
      dcs; simpl; auto.
      pose proof (Hh _ _ OTick _ ltac:(auto) Ec H0) as H1. simpl in H1.
      destruct (o_tick o (set_ext w e')) as [w1 r1]; simpl in H1. destruct r1; simpl; auto.
    - unfold iterate_tick. destruct (any_updated _ _ _); simpl; auto.
      assert (H' : R w0 (if a then mem_iter w n 0 true else w)) by (destruct a; rt).
      remember (if a then mem_iter w n 0 true else w) as wx eqn:Ew.
      destruct (in_value_as _ _ _ _) as [l| |]; simpl; auto.
      destruct l as [|v0 l']; simpl; auto.
      destruct (nth_error _ _); simpl; auto.
      apply R_bind; [apply R_out_set; auto|]. intros _ w1 H1.
      dcs.
      + destruct (Nat.eqb _ _); simpl; rt.
      + destruct (a_outch _); simpl; [rt|].
        apply R_bind; [apply (Hh _ _ OTick _ ltac:(auto) Ec); auto|]. intros s w2 H2.
        destruct (state_eqb s SUCCEEDED); simpl.
        * destruct (Nat.eqb _ _); simpl; rt.
        * destruct (state_eqb s FAILED); simpl; rt.
    - unfold getter_tick. apply R_bind; [apply (R_first_or OTick); [solve [auto]|..]; auto|]. intros s w1 H1.
      destruct (state_in s [FAILED; RUNNING]); simpl; auto.
      destruct (any_updated _ _ _); simpl; auto.
      destruct (getter_read _ _ _) as [[v|]| |]; simpl; auto.
      match goal with |- context [if ?b then _ else _] => destruct b end; simpl; auto.
      apply R_bind; auto. apply R_out_set; auto.
  Qed.

  Lemma do_op_rel : forall o, (o = OSetup -> phase) -> forall k w0 w, R w0 w -> R w0 (fst (do_op ev o n k cs w)).
  Proof.
    intros o Hph k w0 w H. destruct o; simpl.
    - apply do_setup_rel; auto.
    - apply do_tick_rel; auto.
    - apply do_untick_rel; auto.
    - apply do_reset_rel; auto.
    - apply do_shutdown_rel; auto.
  Qed.
End Rel.
