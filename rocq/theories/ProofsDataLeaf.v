(** Proofs about reference types and data leaves. *)
From Coq Require Import String Ascii ZArith Bool SpecFloat Arith Lia List.
From Verif Require Import Base ModelData ModelUtility ModelTree ModelLeaf ModelDataLeaf SpecData SpecLeaf SpecDataLeaf.
From Verif Require Import ProofsData ProofsLeaf.
Import ListNotations.
Local Open Scope string_scope.
Local Open Scope list_scope.

(** ** Dictionaries *)
Lemma dget_dset_eq : forall A k (v : A) d, dget k (dset k v d) = Some v.
Proof.
  intros A k v d. induction d as [|[k' v'] d IH]; simpl; [rewrite String.eqb_refl; auto|].
  destruct (String.eqb k k') eqn:E; simpl; rewrite ?String.eqb_refl, ?E; auto.
Qed.
Lemma dget_dset_ne : forall A k k' (v : A) d, k' <> k -> dget k' (dset k v d) = dget k' d.
Proof.
  intros A k k' v d N. apply String.eqb_neq in N. induction d as [|[k2 v2] d IH]; simpl; [rewrite N; auto|].
  destruct (String.eqb_spec k k2) as [->|]; simpl; [rewrite N; auto|]. destruct (String.eqb k' k2); auto.
Qed.

(** ** Types *)
Lemma check_stored : forall t v v', check t v = Ok v' -> stored t v'.
Proof.
  intros t v v' H. split; [exact (proj2 (check_admits _ _ _ H))|]. intros a b ->. cbn [check] in H.
  destruct (match v with VFloat f => Ok f | _ => _ end); try discriminate.
  repeat match type of H with (if ?x then _ else _) = _ => destruct x; try discriminate end. injection H as <-. eauto.
Qed.
Lemma admits_check : forall t v, bytes_plain t -> admits t v -> exists v', check t v = Ok v'.
Proof.
  induction t; intros v B H; try (destruct (check_complete _ _ B H) as (v' & E & _); eauto; fail).
  - destruct H as (f & F & L1 & L2). cbn [check]. inversion F as [g|u z g I P]; subst; [rewrite L1, L2; eauto|].
    inversion I; subst; [rewrite P, L1, L2; eauto|..].
    + assert (Q : float_of_Z (Z_of_bool true) = f).
      { assert (X : py_float 1 = Some (float_of_Z (Z_of_bool true))) by reflexivity. rewrite P in X. congruence. }
      rewrite Q, L1, L2. eauto.
    + assert (Q : float_of_Z (Z_of_bool false) = f).
      { assert (X : py_float 0 = Some (float_of_Z (Z_of_bool false))) by reflexivity. rewrite P in X. congruence. }
      rewrite Q, L1, L2. eauto.
  - destruct H as (l & -> & L & E). cbn [check]. fold (list_go t).
    assert (G : list_go t l = Ok tt) by (apply list_go_ok; intros x I; apply IHt; auto).
    rewrite G, (proj2 (len_check_ok _ _ _) L). eauto.
  - destruct H as (l & -> & L & E). cbn [check]. fold (dict_go t).
    assert (G : dict_go t l = Ok tt) by (apply dict_go_ok; intros k x I; apply IHt; eauto).
    rewrite G, (proj2 (len_check_ok _ _ _) L). eauto.
Qed.
Lemma check_id : forall t v v', check t v = Ok v' -> v' = v \/ exists a b, t = TFloat a b.
Proof.
  intros t v v' E. destruct t; eauto; left; cbn [check] in E; destruct v; try discriminate.
  all: try congruence.
  all: repeat match type of E with
       | (if ?x then _ else _) = _ => destruct x; try discriminate
       | (match ?x with _ => _ end) = _ => destruct x; try discriminate
       end; try congruence.
Qed.
Lemma stored_check : forall t v, bytes_plain t -> stored t v -> check t v = Ok v.
Proof.
  intros t v B [H F]. destruct (admits_check _ _ B H) as (v' & E). rewrite E.
  destruct (check_id _ _ _ E) as [->|(a & b & ->)]; auto. destruct (F _ _ eq_refl) as (f & ->). cbn [check] in E.
  repeat match type of E with (if ?x then _ else _) = _ => destruct x; try discriminate end. congruence.
Qed.
Lemma set_keeps : forall c v c' r, set_value c v = (c', r) ->
  c_ty c' = c_ty c /\ c_static c' = c_static c /\
  ((forall x, c_val c = Some x -> stored (c_ty c) x) -> forall x, c_val c' = Some x -> stored (c_ty c') x).
Proof.
  intros c v c' r H.
  destruct (set_value_cases c v) as [(e & E)|[E|[(v' & _ & _ & _ & E)|(v' & K & _ & E)]]]; rewrite E in H; injection H as <- <-; auto.
  cbn. split; [auto|]. split; [auto|]. intros O x.
  destruct (changed (c_val c) v'); [intros [= <-]; eapply check_stored; eauto|auto].
Qed.
(** An output takes what fits. *)
Lemma set_fits : forall c v, bytes_plain (c_ty c) -> c_static c = false -> stored (c_ty c) v -> exists c', set_value c v = (c', Ok tt).
Proof.
  intros c v B S F. unfold set_value. rewrite (stored_check _ _ B F). unfold base_set. rewrite S. cbn.
  destruct (c_ty c); cbn; destruct (changed (c_val c) v); eauto.
Qed.

(** ** A node in use *)
Definition okin (a b : string * container) : Prop :=
  fst b = fst a /\ c_ty (snd b) = c_ty (snd a) /\ forall v, c_val (snd b) = Some v -> stored (c_ty (snd b)) v.
Definition okout (a b : string * container) : Prop :=
  fst b = fst a /\ c_ty (snd b) = c_ty (snd a) /\ c_static (snd b) = false /\
  (c_upd (snd b) = true -> forall v, c_val (snd b) = Some v -> admits (c_ty (snd b)) v).

Lemma all2_map_io : forall (R : string * container -> string * container -> Prop) f i m,
  (forall a k c, R a (k, c) -> R a (k, f c)) -> Forall2 R i m -> Forall2 R i (map_io f m).
Proof. intros R f i m H F. induction F as [|a [k c] i m R1 F IH]; cbn; constructor; auto. Qed.
Lemma all2_dset : forall (R : string * container -> string * container -> Prop) k c c' i m,
  (forall a, R a (k, c) -> R a (k, c')) -> Forall2 R i m -> dget k m = Some c -> Forall2 R i (dset k c' m).
Proof.
  intros R k c c' i m H F. induction F as [|a [k1 c1] i m R1 F IH]; cbn; [discriminate|].
  destruct (String.eqb_spec k k1) as [->|]; intros D; constructor; auto. injection D as ->. auto.
Qed.
Lemma all2_dget : forall (R : string * container -> string * container -> Prop) i m k,
  (forall a b, R a b -> fst b = fst a) -> Forall2 R i m ->
  (forall c, dget k i = Some c -> exists c', dget k m = Some c' /\ R (k, c) (k, c')) /\
  (forall c', dget k m = Some c' -> exists c, dget k i = Some c /\ R (k, c) (k, c')).
Proof.
  intros R i m k H F. induction F as [|[k1 c1] [k2 c2] i m R1 F IH]; cbn; [split; discriminate|].
  pose proof (H _ _ R1) as E. cbn in E. subst k2. destruct (String.eqb_spec k k1) as [->|]; [|exact IH].
  split; intros c [= <-]; eauto.
Qed.

Lemma In_dget : forall A (l : list (string * A)) k c, NoDup (map fst l) -> In (k, c) l -> dget k l = Some c.
Proof.
  induction l as [|[k1 c1] l IH]; intros k c N J; [destruct J|]. cbn in *. inversion N as [|? ? N1 N2]; subst.
  destruct J as [[= -> ->]|J]; [rewrite String.eqb_refl; auto|].
  destruct (String.eqb_spec k k1) as [->|]; [|auto]. exfalso. apply N1. apply (in_map fst) in J. exact J.
Qed.
Lemma start_okin : forall l, (forall k c, In (k, c) l -> forall v, c_val c = Some v -> stored (c_ty c) v) -> Forall2 okin l l.
Proof.
  induction l as [|[k c] l IH]; intros F; constructor; [|apply IH; intros k' c' J; apply (F k' c'); right; exact J].
  unfold okin; cbn. split; [auto|]. split; [auto|]. apply (F k c). left. auto.
Qed.
Lemma start_okout : forall l, (forall k c, In (k, c) l -> c_static c = false /\ c_upd c = false) -> Forall2 okout l l.
Proof.
  induction l as [|[k c] l IH]; intros F; constructor; [|apply IH; intros k' c' J; apply (F k' c'); right; exact J].
  destruct (F k c (or_introl eq_refl)) as [A B]. unfold okout; cbn. split; [auto|]. split; [auto|]. split; [auto|]. congruence.
Qed.

Section InUse.
Context {X : Type}.
Variables (n : nid) (i o : iomap).
Notation W := (world X).
Definition inv (w : W) : Prop := Forall2 okin i (w_ins w n) /\ Forall2 okout o (w_outs w n).

Lemma inv_set_ins : forall (w : W) k c c' v r m, inv w -> dget k (w_ins w m) = Some c -> set_value c v = (c', r) ->
  inv (set_ins w m (dset k c' (w_ins w m))).
Proof.
  intros w k c c' v r m [A B] D S. split; [|exact B]. cbn. unfold upd. destruct (Nat.eqb_spec n m) as [E|]; [|exact A].
  subst m. refine (all2_dset _ _ _ _ _ _ _ A D). intros a (K1 & K2 & K3). destruct (set_keeps _ _ _ _ S) as (T & _ & V).
  cbn in *. unfold okin; cbn. split; [auto|]. split; [congruence|]. apply V. auto.
Qed.
Lemma inv_map_ins : forall (w : W) f, inv w ->
  (forall c, c_ty (f c) = c_ty c /\ (c_val (f c) = c_val c \/ c_val (f c) = None)) -> inv (set_ins w n (map_io f (w_ins w n))).
Proof.
  intros w f [A B] H. split; [|exact B]. cbn. rewrite upd_same. apply all2_map_io; auto.
  intros a k c (K1 & K2 & K3). destruct (H c) as (T & V). unfold okin; cbn in *. split; [auto|]. split; [congruence|].
  intros v E. rewrite T. destruct V as [V|V]; rewrite V in E; [auto|discriminate].
Qed.
Lemma inv_map_outs : forall (w : W) f, inv w ->
  (forall c, c_ty (f c) = c_ty c /\ c_static (f c) = c_static c /\ c_upd (f c) = false) -> inv (set_outs w n (map_io f (w_outs w n))).
Proof.
  intros w f [A B] H. split; [exact A|]. cbn. rewrite upd_same. apply all2_map_io; auto.
  intros a k c (K1 & K2 & K3 & K4). destruct (H c) as (T & V & U). unfold okout; cbn in *.
  split; [auto|]. split; [congruence|]. split; [congruence|]. congruence.
Qed.
Lemma out_ok : forall a k c v c' r, okout a (k, c) -> set_value c v = (c', r) -> okout a (k, c').
Proof.
  intros a k c v c' r (K1 & K2 & K3 & K4) S. unfold okout; cbn in *.
  destruct (set_value_cases c v) as [(e & E)|[E|[(v' & _ & _ & _ & E)|(v' & K & _ & E)]]]; rewrite E in S; injection S as <- <-; auto.
  cbn. split; [auto|]. split; [auto|]. split; [auto|]. intros U. rewrite U. intros x [= <-].
  exact (proj2 (check_admits _ _ _ K)).
Qed.
Lemma inv_out_set_all : forall l (w w' : W) r, inv w -> out_set_all w n l = (w', r) -> inv w'.
Proof.
  induction l as [|[k v] l IH]; intros w w' r I H; cbn in H; [injection H as <- <-; auto|].
  unfold out_set in H. destruct (dget k (w_outs w n)) as [c|] eqn:D; cbn in H; [|injection H as <- <-; auto].
  destruct (set_value c v) as [c' r1] eqn:S.
  assert (I2 : inv (set_outs w n (dset k c' (w_outs w n)))).
  { destruct I as [A B]. split; [exact A|]. cbn. rewrite upd_same. refine (all2_dset _ _ _ _ _ _ _ B D). intros a K. eapply out_ok; eauto. }
  destruct r1; cbn in H; try (injection H as <- <-; exact I2). exact (IH _ _ _ I2 H).
Qed.
Lemma inv_push : forall (w w' : W) r, inv w -> push_outputs w n = (w', r) -> inv w'.
Proof.
  assert (PC : forall l (w w' : W) r, inv w -> push_conns w n l = (w', r) -> inv w').
  { induction l as [|k l IH]; intros w w' r I H; cbn in H; [injection H as <- <-; auto|].
    destruct (dget (k_src k) (w_outs w n)) as [c|]; [|injection H as <- <-; auto].
    destruct (c_upd c); cbn in H; [|eauto]. destruct (c_val c) as [v|]; [|eauto].
    destruct (w_conns w (k_tid k)); [|injection H as <- <-; auto].
    destruct (dget (k_tkey k) (w_ins w (k_tid k))) as [t|] eqn:D; [|injection H as <- <-; auto].
    destruct (set_value t v) as [t' [u|e|]] eqn:S; [|injection H as <- <-; auto..].
    eapply IH; [|exact H]. eapply inv_set_ins; eauto. }
  assert (PO : forall l (w w' : W) r, inv w -> push_outgoing w n l = (w', r) -> inv w').
  { induction l as [|[k c] l IH]; intros w w' r I H; cbn in H; [injection H as <- <-; auto|].
    destruct (c_upd c); cbn in H; [|eauto]. destruct (og_get n k (w_outg w)) as [t|]; [|eauto].
    destruct (c_val c) as [v|]; [|eauto]. destruct (set_value t v) as [t' [u|e|]]; [|injection H as <- <-; auto..].
    eapply IH; [|exact H]. exact I. }
  intros w w' r I H. unfold push_outputs in H. destruct (w_conns w n) as [l|]; [|injection H as <- <-; auto].
  destruct (push_conns w n l) as [w1 [u|e|]] eqn:E; cbn in H; pose proof (PC _ _ _ _ I E) as I1; try (injection H as <- <-; exact I1).
  eapply PO; eauto.
Qed.
Variables (f : leafcode X) (name : string).
Lemma inv_leaf : forall op (w w' : W) r, inv w -> leaf_act (leaf_env f) op n w = (w', r) -> inv w'.
Proof.
  intros op w w' r I H. unfold leaf_act in H. cbn in H. destruct (f op (w_st w n) (w_ins w n) (w_ext w)) as [[x' ws] r0].
  destruct (out_set_all (set_ext w x') n ws) as [w1 [u|e|]] eqn:E;
    assert (I1 : inv w1) by (eapply inv_out_set_all; [|exact E]; exact I); cbn in H; injection H as <- <-; exact I1.
Qed.
Lemma reset_outs : forall c, c_ty (reset_updated (reset_value c)) = c_ty c /\ c_static (reset_updated (reset_value c)) = c_static c /\
  c_upd (reset_updated (reset_value c)) = false.
Proof. intros c. cbn. auto. Qed.
Lemma reset_upd : forall c, c_ty (reset_updated c) = c_ty c /\ c_static (reset_updated c) = c_static c /\ c_upd (reset_updated c) = false.
Proof. intros c. cbn. auto. Qed.
Lemma inv_call : forall op (w w' : W) r, inv w -> call op (the_leaf f n name) w = (w', r) -> inv w'.
Proof.
  intros op w w' r I H.
  assert (ST : forall (v : W) s, inv v -> inv (set_st v n s)) by (intros v s J; exact J).
  destruct op; cbn -[state_in map_io] in H.
  - unfold node_setup in H. destruct (w_st w n); try (injection H as <- <-; exact I).
    all: match type of H with context [do_setup ?a ?b ?c ?d ?w0] => set (w2 := w0) in H;
      assert (I2 : inv w2) by (apply (inv_map_outs (set_ins w n (map_io (fun z => flag_updated (reset_value z)) (w_ins w n))));
        [apply inv_map_ins; auto; intros c0; cbn; destruct (c_static c0); auto|exact reset_outs]) end.
    all: cbn [do_setup] in H; destruct (leaf_act (leaf_env f) OSetup n w2) as [w3 [s|e|]] eqn:D; pose proof (inv_leaf _ _ _ _ I2 D) as I3;
      [destruct (state_in s [IDLE])|..]; injection H as <- <-; auto.
  - unfold node_tick in H.
    assert (H' : (w', r) = (w, Err EGuard) \/ (w', r) = (set_st w n BROKEN, Err EUnset) \/
      (let w1 := set_outs w n (map_io reset_updated (w_outs w n)) in
        match leaf_act (leaf_env f) OTick n w1 with
        | (w2, Err e) => (set_st w2 n BROKEN, Err e)
        | (w2, Raise) => (w2, Raise)
        | (w2, Ok s) =>
            let w3 := set_st w2 n s in
            let w4 := set_ins w3 n (map_io reset_updated (w_ins w3 n)) in
            if state_in s [RUNNING; SUCCEEDED; FAILED; ASSIGNED; UNASSIGNED] then
              match push_outputs w4 n with
              | (w5, Err e) => (set_st w5 n BROKEN, Err e)
              | (w5, Raise) => (w5, Raise)
              | (w5, Ok _) => (w5, Ok (w_st w5 n))
              end
            else (w4, Err EState)
        end) = (w', r)).
    { destruct (w_st w n); auto; destruct (forallb _ _); auto. }
    clear H. destruct H' as [[= -> ->]|[[= -> ->]|H]]; auto. cbn zeta in H.
    assert (I1 : inv (set_outs w n (map_io reset_updated (w_outs w n)))) by (apply inv_map_outs; auto using reset_upd).
    destruct (leaf_act _ _ _ _) as [w2 [s|e|]] eqn:D; pose proof (inv_leaf _ _ _ _ I1 D) as I2; try (injection H as <- <-; auto; fail).
    assert (I3 : inv (set_ins (set_st w2 n s) n (map_io reset_updated (w_ins (set_st w2 n s) n)))) by (apply inv_map_ins; auto).
    destruct (state_in s _); [|injection H as <- <-; auto].
    destruct (push_outputs _ n) as [w5 [u|e|]] eqn:P; pose proof (inv_push _ _ _ I3 P) as I4; injection H as <- <-; auto.
  - unfold node_untick in H.
    destruct (w_st w n); try (injection H as <- <-; exact I).
    all: destruct (do_untick _ _ _ _ w) as [w1 [s|e|]] eqn:D; cbn [do_untick] in D; pose proof (inv_leaf _ _ _ _ I D) as I1;
      [destruct (state_in s [IDLE; PAUSED])|..].
    all: try (injection H as <- <-; auto; fail).
    all: injection H as <- <-; apply (inv_map_outs (set_st w1 n s)); auto using reset_upd.
  - unfold node_reset in H.
    destruct (w_st w n); try (injection H as <- <-; exact I).
    all: match type of H with context [do_reset ?a ?b ?c ?d ?w0] => set (w2 := w0) in H;
      assert (I2 : inv w2) by (apply (inv_map_outs (set_ins w n (map_io flag_updated (w_ins w n))));
        [apply inv_map_ins; auto|exact reset_outs]) end.
    all: cbn [do_reset] in H; destruct (leaf_act (leaf_env f) OReset n w2) as [w3 [s|e|]] eqn:D; pose proof (inv_leaf _ _ _ _ I2 D) as I3;
      [destruct (state_in s [IDLE])|..]; injection H as <- <-; auto.
  - unfold node_shutdown in H. cbn -[state_in] in H.
    destruct (leaf_act (leaf_env f) OShutdown n w) as [w1 r1] eqn:D. pose proof (inv_leaf _ _ _ _ I D) as I1.
    destruct (w_st w n); cbn -[state_in] in H; try (injection H as <- <-; exact I);
      destruct r1 as [s|e|]; cbn -[state_in] in H; try (destruct (state_in s [SHUTDOWN]); cbn in H); injection H as <- <-; auto.
Qed.
Hypothesis start_in : fits i.
Hypothesis start_out : forall k c, In (k, c) o -> c_static c = false /\ c_upd c = false.
Hypothesis dist : NoDup (map fst i).
Lemma life_inv : forall w, life f i o n name w -> inv w.
Proof.
  induction 1 as [w S A B|w w' L IH S A B|w k c v c' r L IH D S|w op w' r L IH C].
  - split; rewrite ?A, ?B.
    + apply start_okin. intros k c J. intros v V. exact (start_in k c v (In_dget _ _ _ _ dist J) V).
    + apply start_okout. exact start_out.
  - destruct IH as [P Q]. split; congruence.
  - eapply inv_set_ins; eauto.
  - eapply inv_call; eauto.
Qed.
End InUse.

(** ** Ticks *)
Lemma set_admits : forall c v, bytes_plain (c_ty c) -> c_static c = false -> admits (c_ty c) v -> exists c', set_value c v = (c', Ok tt).
Proof.
  intros c v B S A. destruct (admits_check _ _ B A) as (v' & E). unfold set_value. rewrite E. unfold base_set. rewrite S. cbn [andb].
  destruct (c_ty c); cbn [fst]; destruct (changed (c_val c) v'); eauto.
Qed.

Lemma dget_map_io : forall f m k, dget k (map_io f m) = option_map f (dget k m).
Proof. intros f m k. induction m as [|[k1 c1] m IH]; cbn; auto. destruct (String.eqb k k1); auto. Qed.
Lemma og_set_ne : forall n key c l k, k <> key -> og_get n k (og_set n key c l) = og_get n k l.
Proof.
  intros n key c l k N. apply String.eqb_neq in N. induction l as [|[[m k1] c1] l IH]; cbn; auto.
  destruct (Nat.eqb n m && String.eqb key k1) eqn:E; cbn.
  - apply andb_true_iff in E. destruct E as [-> E]. apply String.eqb_eq in E. subst k1. rewrite N. auto.
  - destruct (Nat.eqb n m && String.eqb k k1); auto.
Qed.

Section Ticks.
Context {X : Type}.
Variables (n : nid) (i o : iomap).
Notation W := (world X).
Notation inv := (inv (X := X) n i o).

Definition same_ty (c c' : container) : Prop := c_ty c' = c_ty c /\ c_static c' = c_static c.
Lemma takes_same : forall t s t' s', takes t s -> same_ty t t' -> c_ty s' = c_ty s -> takes t' s'.
Proof. intros t s t' s' (A & B & C) [D E] F. unfold takes. rewrite D, E, F. auto. Qed.

Lemma push_conns_ok : forall l (w : W), Forall2 okout o (w_outs w n) ->
  (forall k, In k l -> exists c t, dget (k_src k) (w_outs w n) = Some c /\ w_conns w (k_tid k) <> None /\
     dget (k_tkey k) (w_ins w (k_tid k)) = Some t /\ takes t c) ->
  exists w', push_conns w n l = (w', Ok tt) /\ w_outg w' = w_outg w /\ w_outs w' = w_outs w.
Proof.
  induction l as [|k l IH]; intros w O H; cbn; [eauto|].
  destruct (H k (or_introl eq_refl)) as (c & t & D1 & CN & D2 & T). rewrite D1.
  assert (H' : forall k0, In k0 l -> exists c0 t0, dget (k_src k0) (w_outs w n) = Some c0 /\ w_conns w (k_tid k0) <> None /\
     dget (k_tkey k0) (w_ins w (k_tid k0)) = Some t0 /\ takes t0 c0) by (intros; apply H; right; auto).
  destruct (c_upd c) eqn:U; cbn; [|exact (IH _ O H')]. destruct (c_val c) as [v|] eqn:V; [|exact (IH _ O H')].
  destruct (w_conns w (k_tid k)); [|congruence]. rewrite D2.
  destruct (proj2 (all2_dget _ _ _ (k_src k) (fun a b (R : okout a b) => proj1 R) O) _ D1) as (c0 & _ & (_ & _ & _ & A)).
  cbn in A. specialize (A U _ V). destruct T as (T1 & T2 & T3).
  destruct (set_admits t v T2 T1 (T3 _ A)) as (t' & S). rewrite S.
  destruct (set_keeps _ _ _ _ S) as (K1 & K2 & _).
  assert (N : exists w', push_conns (set_ins w (k_tid k) (dset (k_tkey k) t' (w_ins w (k_tid k)))) n l = (w', Ok tt) /\
     w_outg w' = w_outg w /\ w_outs w' = w_outs w).
  { refine (IH (set_ins w (k_tid k) (dset (k_tkey k) t' (w_ins w (k_tid k)))) O _). intros k0 J. destruct (H' k0 J) as (c1 & t1 & E1 & E2 & E3 & E4). cbn.
    exists c1. unfold upd. destruct (Nat.eqb_spec (k_tid k0) (k_tid k)) as [Q|Q].
    - destruct (String.eqb_spec (k_tkey k0) (k_tkey k)) as [Q2|Q2].
      + rewrite Q2, dget_dset_eq. exists t'. split; [exact E1|]. split; [exact E2|]. split; [auto|].
        rewrite Q, Q2, D2 in E3. injection E3 as <-. eapply takes_same; [exact E4|split; auto|auto].
      + rewrite dget_dset_ne by auto. exists t1. rewrite Q in E3. auto.
    - exists t1. auto. }
  exact N.
Qed.
Lemma push_outgoing_ok : forall l (w : W), (forall k c, In (k, c) l -> okout (k, c) (k, c)) ->
  (forall k c t, In (k, c) l -> og_get n k (w_outg w) = Some t -> takes t c) ->
  NoDup (map fst l) ->
  exists w', push_outgoing w n l = (w', Ok tt).
Proof.
  induction l as [|[k c] l IH]; intros w O H N; cbn; [eauto|]. cbn in N. inversion N as [|? ? N1 N2]; subst.
  assert (O' : forall k c, In (k, c) l -> okout (k, c) (k, c)) by (intros; apply O; right; auto).
  assert (H' : forall k c t, In (k, c) l -> og_get n k (w_outg w) = Some t -> takes t c) by (intros; eapply H; [right|]; eauto).
  destruct (c_upd c) eqn:U; cbn; [|exact (IH _ O' H' N2)]. destruct (og_get n k (w_outg w)) as [t|] eqn:G; [|exact (IH _ O' H' N2)].
  destruct (c_val c) as [v|] eqn:V; [|exact (IH _ O' H' N2)].
  destruct (O k c (or_introl eq_refl)) as (_ & _ & _ & A). cbn in A. specialize (A U _ V).
  destruct (H k c t (or_introl eq_refl) G) as (T1 & T2 & T3).
  destruct (set_admits t v T2 T1 (T3 _ A)) as (t' & S). rewrite S. apply IH; auto.
  intros k0 c0 t0 J G0. assert (Q : k0 <> k) by (intros ->; apply N1; apply (in_map fst) in J; exact J).
  apply (H' k0 c0 t0 J). cbn in G0. rewrite og_set_ne in G0; auto.
Qed.

Lemma okout_self : forall a b, okout a b -> okout b b.
Proof. intros a b (A & B & C & D). unfold okout. auto. Qed.
Lemma keys_same : forall (R : string * container -> string * container -> Prop) l m,
  (forall a b, R a b -> fst b = fst a) -> Forall2 R l m -> map fst m = map fst l.
Proof. intros R l m H F. induction F as [|a b l m R1 F IH]; cbn; auto. rewrite IH, (H _ _ R1). auto. Qed.

Lemma push_ok : forall (w : W), NoDup (map fst o) -> Forall2 okout o (w_outs w n) -> deliverable n w ->
  exists w', push_outputs w n = (w', Ok tt) /\ w_outs w' = w_outs w.
Proof.
  intros w N O [(l & CN & H) G]. unfold push_outputs. rewrite CN.
  destruct (push_conns_ok l w O H) as (w1 & E1 & G1 & O1). rewrite E1. cbn.
  assert (E2 : exists w', push_outgoing w1 n (w_outs w1 n) = (w', Ok tt)).
  { rewrite O1. assert (K : NoDup (map fst (w_outs w n))) by (rewrite (keys_same _ _ _ (fun a b (R : okout a b) => proj1 R) O); auto).
    apply push_outgoing_ok; [| |exact K].
    - intros k c J. pose proof (In_dget _ _ _ _ K J) as D.
      destruct (proj2 (all2_dget _ _ _ k (fun a b (R : okout a b) => proj1 R) O) _ D) as (c0 & _ & Q). exact (okout_self _ _ Q).
    - intros k c t J. rewrite G1. apply G. exact (In_dget _ _ _ _ K J). }
  destruct E2 as (w2 & E2). rewrite E2. exists w2. split; auto.
  apply push_outgoing_same in E2. destruct E2 as (_ & _ & ->). auto.
Qed.

Lemma deliverable_same : forall (w w' : W), deliverable n w -> w_conns w' = w_conns w -> w_outg w' = w_outg w ->
  (forall m k t, dget k (w_ins w m) = Some t -> exists t', dget k (w_ins w' m) = Some t' /\ same_ty t t') ->
  map (fun kc => (fst kc, c_ty (snd kc))) (w_outs w' n) = map (fun kc => (fst kc, c_ty (snd kc))) (w_outs w n) ->
  deliverable n w'.
Proof.
  intros w w' [(l & CN & H) G] EC EG EI EO.
  assert (DG : forall (a b : iomap), map (fun kc => (fst kc, c_ty (snd kc))) a = map (fun kc => (fst kc, c_ty (snd kc))) b ->
    forall k c, dget k a = Some c -> exists c', dget k b = Some c' /\ c_ty c' = c_ty c).
  { induction a as [|[k1 c1] a IH]; intros [|[k2 c2] b] E k c D; cbn in *; try discriminate.
    injection E as E1 E2 E3. subst k2. destruct (String.eqb k k1); [|exact (IH _ E3 _ _ D)].
    injection D as <-. exists c2. auto. }
  split.
  - exists l. rewrite EC. split; [exact CN|]. intros k J. destruct (H k J) as (c & t & D1 & C1 & D2 & T).
    destruct (DG _ _ (eq_sym EO) _ _ D1) as (c' & D1' & K). destruct (EI _ _ _ D2) as (t' & D2' & K2).
    exists c', t'. split; [auto|]. split; [auto|]. split; [auto|]. eapply takes_same; eauto.
  - intros k c t D. rewrite EG. intros GG. destruct (DG _ _ EO _ _ D) as (c' & D' & K).
    eapply takes_same; [exact (G _ _ _ D' GG)|split; auto|auto].
Qed.

(** Writing distinct outputs. *)
Lemma write_ok : forall ws (w : W), Forall2 okout o (w_outs w n) -> NoDup (map fst ws) ->
  (forall k v, In (k, v) ws -> exists c, dget k (w_outs w n) = Some c /\ bytes_plain (c_ty c) /\ admits (c_ty c) v) ->
  exists w', out_set_all w n ws = (w', Ok tt) /\ w_conns w' = w_conns w /\ w_outg w' = w_outg w /\
    map (fun kc => (fst kc, c_ty (snd kc))) (w_outs w' n) = map (fun kc => (fst kc, c_ty (snd kc))) (w_outs w n) /\
    (forall k, ~ In k (map fst ws) -> dget k (w_outs w' n) = dget k (w_outs w n)) /\
    forall k v, In (k, v) ws -> exists c c', dget k (w_outs w n) = Some c /\ set_value c v = (c', Ok tt) /\ dget k (w_outs w' n) = Some c'.
Proof.
  induction ws as [|[k v] ws IH]; intros w O N H; cbn [out_set_all].
  - exists w. repeat (split; [auto|]). intros k v [].
  - cbn in N. inversion N as [|? ? N1 N2]; subst. destruct (H k v (or_introl eq_refl)) as (c & D & B & A).
    destruct (proj2 (all2_dget _ _ _ k (fun a b (R : okout a b) => proj1 R) O) _ D) as (c0 & _ & Q).
    destruct (set_admits c v B (proj1 (proj2 (proj2 Q))) A) as (c' & S). unfold out_set. rewrite D, S. cbn [bind].
    set (w1 := set_outs w n (dset k c' (w_outs w n))).
    assert (EO : w_outs w1 n = dset k c' (w_outs w n)) by (apply upd_same).
    destruct (set_keeps _ _ _ _ S) as (K1 & K2 & _).
    destruct (IH w1) as (w' & E & C1 & G1 & T1 & F1 & R1).
    + rewrite EO. refine (all2_dset _ _ _ _ _ _ _ O D). intros a K. eapply out_ok; eauto.
    + exact N2.
    + intros k0 v0 J. destruct (H k0 v0 (or_intror J)) as (c1 & D1 & B1 & A1). exists c1. rewrite EO.
      rewrite dget_dset_ne; auto. intros ->. apply N1. apply (in_map fst) in J. exact J.
    + rewrite E. exists w'. split; [auto|]. split; [auto|]. split; [auto|]. split.
      { rewrite T1, EO. clear -D K1. induction (w_outs w n) as [|[k1 c1] l IHl]; cbn in *; [discriminate|].
        destruct (String.eqb_spec k k1) as [->|]; cbn; [injection D as ->; rewrite K1; auto|]. rewrite IHl; auto. }
      split.
      { intros k0 J. cbn in J. rewrite F1 by tauto. rewrite EO. apply dget_dset_ne. intros ->. tauto. }
      intros k0 v0 [[= -> ->]|J].
      * exists c, c'. split; [auto|]. split; [auto|]. rewrite F1, EO by auto. apply dget_dset_eq.
      * destruct (R1 k0 v0 J) as (c1 & c1' & D1 & S1 & D2). exists c1, c1'. split; [|auto].
        rewrite EO, dget_dset_ne in D1; auto. intros ->. apply N1. apply (in_map fst) in J. exact J.
Qed.

Variables (f : leafcode X) (name : string).
Hypothesis distinct_outs : NoDup (map fst o).

Lemma tick_eq : forall (w : W), executes n w = true -> call OTick (the_leaf f n name) w =
  match leaf_act (leaf_env f) OTick n (set_outs w n (map_io reset_updated (w_outs w n))) with
  | (w2, Err e) => (set_st w2 n BROKEN, Err e)
  | (w2, Raise) => (w2, Raise)
  | (w2, Ok s) =>
      let w3 := set_st w2 n s in
      let w4 := set_ins w3 n (map_io reset_updated (w_ins w3 n)) in
      if state_in s [RUNNING; SUCCEEDED; FAILED; ASSIGNED; UNASSIGNED] then
        match push_outputs w4 n with
        | (w5, Err e) => (set_st w5 n BROKEN, Err e)
        | (w5, Raise) => (w5, Raise)
        | (w5, Ok _) => (w5, Ok (w_st w5 n))
        end
      else (w4, Err EState)
  end.
Proof.
  intros w H. unfold executes in H. apply andb_true_iff in H. destruct H as [S F]. cbn -[state_in leaf_act]. unfold node_tick.
  rewrite F. cbn [negb]. destruct (w_st w n); try discriminate S; reflexivity.
Qed.
Lemma tick_ok : forall (w : W) x' ws s, inv w -> ready n w ->
  f OTick (w_st w n) (w_ins w n) (w_ext w) = (x', ws, Ok s) -> In s [RUNNING; SUCCEEDED; FAILED] -> NoDup (map fst ws) ->
  (forall k v, In (k, v) ws -> exists c, dget k (w_outs w n) = Some c /\ bytes_plain (c_ty c) /\ admits (c_ty c) v) ->
  forall w' r, call OTick (the_leaf f n name) w = (w', r) ->
  r = Ok s /\ w_ext w' = x' /\ (forall k v, In (k, v) ws -> written n k v w w') /\
  forall k c, dget k (w_outs w n) = Some c -> ~ In k (map fst ws) -> dget k (w_outs w' n) = Some (reset_updated c).
Proof.
  intros w x' ws s I [EX DE] F S N H w' r C. rewrite (tick_eq _ EX) in C.
  unfold leaf_act in C. cbn -[out_set_all state_in map_io] in C. rewrite F in C.
  set (w1 := set_outs w n (map_io reset_updated (w_outs w n))) in *.
  assert (I1 : inv w1) by (apply inv_map_outs; auto using reset_upd).
  assert (DM : forall k, dget k (w_outs w1 n) = option_map reset_updated (dget k (w_outs w n))).
  { intros k. unfold w1. cbn. rewrite upd_same. apply dget_map_io. }
  destruct (write_ok ws (set_ext w1 x')) as (w2 & E & C2 & G2 & T2 & U2 & R2).
  { exact (proj2 I1). } { exact N. }
  { intros k v J. destruct (H k v J) as (c & D & B & A). exists (reset_updated c).
    change (w_outs (set_ext w1 x') n) with (w_outs w1 n). rewrite DM, D. cbn. auto. }
  rewrite E in C. cbn -[state_in map_io] in C.
  assert (SI : state_in s [RUNNING; SUCCEEDED; FAILED; ASSIGNED; UNASSIGNED] = true)
    by (destruct S as [<-|[<-|[<-|[]]]]; reflexivity).
  rewrite SI in C. pose proof E as E0. apply out_set_all_same in E0. destruct E0 as (S2 & X2 & I2). cbn in S2, X2, I2.
  set (w4 := set_ins (set_st w2 n s) n (map_io reset_updated (w_ins w2 n))) in *.
  assert (J2 : inv w2) by (eapply inv_out_set_all; [|exact E]; exact I1).
  destruct (push_ok w4) as (w5 & P & O5); [exact distinct_outs|exact (proj2 J2)| |].
  { apply (deliverable_same w); [exact DE|exact C2|exact G2| |].
    - intros m k t D. unfold w4. cbn. unfold upd. rewrite I2. cbn. destruct (Nat.eqb_spec m n) as [->|Q].
      + exists (reset_updated t). split; [|split; auto]. rewrite dget_map_io, D. auto.
      + exists t. split; [auto|split; auto].
    - unfold w4. change (w_outs (set_ins (set_st w2 n s) n (map_io reset_updated (w_ins w2 n))) n) with (w_outs w2 n). rewrite T2.
      change (w_outs (set_ext w1 x') n) with (w_outs w1 n). unfold w1. cbn. rewrite upd_same. unfold map_io. rewrite map_map. reflexivity. }
  rewrite P in C. injection C as <- <-. pose proof P as P0. apply push_outputs_same in P0. destruct P0 as (S5 & X5 & _).
  split; [rewrite S5; unfold w4; cbn; rewrite upd_same; auto|].
  split; [rewrite X5; unfold w4; cbn; congruence|]. split.
  - intros k v J. destruct (R2 k v J) as (c & c' & D & SV & D').
    change (w_outs (set_ext w1 x') n) with (w_outs w1 n) in D. rewrite DM in D.
    destruct (dget k (w_outs w n)) as [c0|] eqn:D0; [|discriminate]. cbn in D. injection D as <-.
    exists c0, c'. split; [auto|]. split; [auto|]. rewrite O5. exact D'.
  - intros k c D J. rewrite O5. change (w_outs w4 n) with (w_outs w2 n). rewrite U2 by exact J.
    change (w_outs (set_ext w1 x') n) with (w_outs w1 n). rewrite DM, D. reflexivity.
Qed.
(** Errors and exceptions of the leaf. *)
Lemma tick_bad : forall (w : W) x' r0, executes n w = true ->
  f OTick (w_st w n) (w_ins w n) (w_ext w) = (x', [], r0) -> (forall s, r0 <> Ok s) ->
  forall w' r, call OTick (the_leaf f n name) w = (w', r) ->
  r = r0 /\ w_st w' n = match r0 with Raise => w_st w n | _ => BROKEN end.
Proof.
  intros w x' r0 EX F NR w' r C. rewrite (tick_eq _ EX) in C. unfold leaf_act in C. cbn -[state_in map_io] in C. rewrite F in C.
  cbn -[state_in map_io] in C. destruct r0 as [s|e|]; [destruct (NR s eq_refl)|..]; injection C as <- <-; cbn; rewrite ?upd_same; auto.
Qed.
(** A single output refuses the value. *)
Lemma tick_refused : forall (w : W) x' k v s c e, executes n w = true ->
  f OTick (w_st w n) (w_ins w n) (w_ext w) = (x', [(k, v)], Ok s) ->
  dget k (w_outs w n) = Some c -> check (c_ty c) v = Err e ->
  forall w' r, call OTick (the_leaf f n name) w = (w', r) ->
  (exists e', r = Err e') /\ w_st w' n = BROKEN /\ dget k (w_outs w' n) = Some (reset_updated c).
Proof.
  intros w x' k v s c e EX F D CK w' r C. rewrite (tick_eq _ EX) in C. unfold leaf_act in C. cbn -[state_in map_io out_set] in C. rewrite F in C.
  assert (DM : dget k (map_io reset_updated (w_outs w n)) = Some (reset_updated c)).
  { rewrite dget_map_io, D. auto. }
  cbn -[state_in map_io] in C. unfold out_set in C. cbn -[state_in map_io] in C. rewrite upd_same, DM in C.
  assert (SV : set_value (reset_updated c) v = (reset_updated c, Err e)) by (unfold set_value; cbn; rewrite CK; auto).
  rewrite SV in C. cbn -[state_in map_io] in C. injection C as <- <-. split; [eauto|]. cbn. rewrite !upd_same. split; auto.
  apply dget_dset_eq.
Qed.
End Ticks.
