(** Proofs about the data leaves, class by class. *)
From Coq Require Import String Ascii ZArith Bool SpecFloat Arith Lia List.
From Verif Require Import Base ModelData ModelUtility ModelTree ModelLeaf ModelDataLeaf SpecData SpecLeaf SpecDataLeaf.
From Verif Require Import ProofsData ProofsLeaf ProofsDataLeaf ProofsDataRefs.
Import ListNotations.
Local Open Scope string_scope.
Local Open Scope list_scope.

Lemma value_field_selects : forall known ct t, is_type_container (c_ty ct) = true -> value_field known ct = Ok t ->
  selects known (SPlain ct) t /\ tame t.
Proof.
  intros known ct t T V. unfold value_field in V. unfold selects. destruct (c_ty ct) eqn:E; try discriminate T.
  - destruct (c_val ct) as [v|] eqn:CV; [|discriminate]. destruct (iotype_names known v t V) as [N M]. split; [|auto].
    exists ct, v. rewrite E. auto.
  - destruct (c_val ct) as [v|] eqn:CV; [|discriminate]. destruct v; try discriminate. injection V as <-.
    split; [|split; cbn; auto]. exists ct. eexists. split; [auto|]. split; [exact CV|]. rewrite E. eauto.
Qed.
Lemma selects_value_field : forall known d t, selects known d t ->
  exists ct, d = SPlain ct /\ is_type_container (c_ty ct) = true /\ value_field known ct = Ok t.
Proof.
  intros known d t (c & v & -> & CV & H). exists c. split; [auto|]. unfold value_field. rewrite CV. destruct (c_ty c); try contradiction.
  - split; [auto|]. apply names_iotype; auto.
  - destruct H as (i & n & -> & ->). auto.
Qed.
Lemma selects_fun : forall known d t u, selects known d t -> selects known d u -> t = u.
Proof.
  intros known d t u A B. destruct (selects_value_field _ _ _ A) as (c & -> & _ & V). destruct (selects_value_field _ _ _ B) as (c' & E & _ & V').
  injection E as <-. congruence.
Qed.
Lemma sel_selects : forall known i r t, sel known i r t <-> exists d, dget r i = Some d /\ selects known d t.
Proof.
  intros known i r t. split.
  - intros (ct & D & T & V). exists (SPlain ct). split; [auto|]. apply (value_field_selects known ct t T V).
  - intros (d & D & H). destruct (selects_value_field _ _ _ H) as (ct & -> & T & V). exists ct. auto.
Qed.
Lemma ref_type_kind : forall K sta t, of_kind K t (ref_type K sta t).
Proof. intros [| |] sta t; cbn; eauto. Qed.

(** ** What a class relies on *)
Section Class.
Context {X : Type}.
Variables (known : string -> bool) (ins outs : smap) (f : leafcode X) (n : nid) (name : string).
Hypothesis ins_distinct : NoDup (map fst ins).
Hypothesis outs_distinct : NoDup (map fst outs).
Hypothesis outs_fresh : forall k c, dget k outs = Some (SPlain c) -> c_upd c = false.

Definition in_type (T : string -> ctype -> Prop) (d : slot) (u : ctype) : Prop :=
  match d with
  | SPlain c => u = c_ty c \/ ty_compat (c_ty c) u = true
  | SRef K r _ _ _ _ => exists sta t, T r t /\ u = ref_type K sta t
  end.
Definition out_type (T : string -> ctype -> Prop) (d : slot) (u : ctype) : Prop :=
  match d with
  | SPlain c => u = c_ty c
  | SRef K r _ _ _ _ => exists t, T r t /\ u = ref_type K false t
  end.
Definition facts (T : string -> ctype -> Prop) (w : world X) : Prop :=
  (forall r t u, T r t -> T r u -> t = u) /\ (forall r t, T r t -> tame t) /\
  (forall k d, dget k ins = Some d -> exists c, dget k (w_ins w n) = Some c /\ in_type T d (c_ty c) /\
     forall v, c_val c = Some v -> stored (c_ty c) v) /\
  (forall k d, dget k outs = Some d -> exists c, dget k (w_outs w n) = Some c /\ out_type T d (c_ty c)) /\
  map fst (w_ins w n) = map fst ins.

Lemma built_facts : forall w, built known ins outs f n name w -> exists i o T, facts T w /\ inv n i o w /\ NoDup (map fst o).
Proof.
  intros w (msg & si & so & i & o & PM & NM & CI & CO & FI & LI).
  destruct (node_types known _ _ _ _ _ PM NM) as (K1 & K2 & A & B).
  destruct (containers_get _ _ CI) as (K3 & C1 & C2). destruct (containers_get _ _ CO) as (K4 & C3 & C4).
  assert (DO : NoDup (map fst o)) by (rewrite K4, K2; auto).
  assert (IV : inv n i o w).
  { refine (life_inv n i o f name FI _ _ w LI); [|rewrite K3, K1; auto].
    intros k c J. apply (In_dget _ _ _ _ DO) in J. destruct (C3 _ _ J) as (s & D & E). destruct (B _ _ D) as (d & D0 & R).
    destruct d as [c0|]; [destruct R as (c' & -> & _ & S1 & U)|destruct R as (c' & -> & U & t & _ & _ & S1)].
    - subst c'. split; [auto|]. rewrite U. eauto.
    - injection E as <-. auto. }
  exists i, o, (fun r t => exists d, dget r si = Some d /\ selects known d t). split; [|split; [exact IV|exact DO]].
  destruct IV as [FA FB].
  split; [|split; [|split; [|split]]].
  - intros r t u (d & D & S1) (d' & D' & S2). rewrite D in D'. injection D' as <-. eapply selects_fun; eauto.
  - intros r t (d & D & S1). destruct (selects_value_field _ _ _ S1) as (ct & -> & T & V). exact (proj2 (value_field_selects _ _ _ T V)).
  - intros k d D. assert (NN : dget k si <> None) by (apply (proj2 (dget_keys _ si k)); rewrite K1; apply (proj1 (dget_keys _ ins k)); rewrite D; discriminate).
    destruct (dget k si) as [s|] eqn:DS; [|congruence]. destruct (A _ _ DS) as (d' & D' & R). rewrite D in D'. injection D' as <-.
    destruct (C2 _ _ DS) as (c & DC & E). destruct (proj1 (all2_dget _ _ _ k (fun a b (R : okin a b) => proj1 R) FA) _ DC) as (c1 & D1 & (_ & E1 & E2)).
    cbn in E1, E2. exists c1. split; [auto|]. split; [|exact E2]. rewrite E1. destruct d as [c0|K r dyn sta static i0]; cbn.
    + destruct R as (c' & -> & R). subst c'. destruct R as [->|R]; auto.
    + destruct R as (dyn' & sta' & static' & inner & -> & R & _). subst inner. destruct (R c eq_refl) as (t & S1 & Q & _).
      exists sta', t. split; [apply sel_selects; auto|auto].
  - intros k d D. assert (NN : dget k so <> None) by (apply (proj2 (dget_keys _ so k)); rewrite K2; apply (proj1 (dget_keys _ outs k)); rewrite D; discriminate).
    destruct (dget k so) as [s|] eqn:DS; [|congruence]. destruct (B _ _ DS) as (d' & D' & R). rewrite D in D'. injection D' as <-.
    destruct (C4 _ _ DS) as (c & DC & E). destruct (proj1 (all2_dget _ _ _ k (fun a b (R : okout a b) => proj1 R) FB) _ DC) as (c1 & D1 & (_ & E1 & _)).
    cbn in E1. exists c1. split; [auto|]. rewrite E1. destruct d as [c0|K r dyn sta static i0]; cbn.
    + destruct R as (c' & -> & R & _). subst c'. auto.
    + destruct R as (c' & -> & _ & t & S1 & Q & _). injection E as <-. exists t. split; [apply sel_selects; auto|auto].
  - rewrite (keys_same okin i (w_ins w n) (fun a b R => proj1 R) FA). congruence.
Qed.

Variable w : world X.
Variable T : string -> ctype -> Prop.
Hypothesis F : facts T w.
Hypothesis EX : executes n w = true.

Lemma in_value : forall k d, dget k ins = Some d -> exists u v, value_at (w_ins w n) k v /\ io_value (w_ins w n) k = Ok v /\
  in_type T d u /\ stored u v.
Proof.
  intros k d D. destruct F as (_ & _ & A & _). destruct (A _ _ D) as (c & D1 & I & V).
  unfold executes in EX. apply andb_true_iff in EX. destruct EX as [_ H]. rewrite forallb_forall in H.
  pose proof (H _ (dget_In _ _ _ _ D1)) as HV. cbn in HV. unfold has_value in HV. destruct (c_val c) as [v|] eqn:E; [|discriminate].
  exists (c_ty c), v. split; [exists c; auto|]. split; [unfold io_value; rewrite D1, E; auto|]. auto.
Qed.
Lemma in_str : forall k c, dget k ins = Some (SPlain c) -> (exists va, c_ty c = TStr INT_FLOAT_MAX va) -> exists s,
  value_at (w_ins w n) k (VStr s) /\ io_value_as as_str (w_ins w n) k = Ok s /\ (zlen s <= INT_FLOAT_MAX)%Z.
Proof.
  intros k c D (va & E). destruct (in_value _ _ D) as (u & v & A & B & I & [S1 _]). cbn in I. rewrite E in I.
  assert (P : exists m va', u = TStr m va' /\ (m <= INT_FLOAT_MAX)%Z).
  { destruct I as [->|I]; [exists INT_FLOAT_MAX, va; split; [reflexivity|apply Z.le_refl]|]. destruct u; try discriminate I.
    cbn [ty_compat] in I. unfold str_compat in I. apply andb_true_iff in I.
    destruct I as [I _]. apply Z.leb_le in I. eexists; eexists; split; [reflexivity|exact I]. }
  destruct P as (m & va' & -> & L). destruct S1 as (s & -> & S1 & _). exists s. split; [auto|]. unfold io_value_as. rewrite B. split; [auto|]. exact (Z.le_trans _ _ _ S1 L).
Qed.
Lemma in_int : forall k c a b, dget k ins = Some (SPlain c) -> c_ty c = TInt a b -> exists v z,
  value_at (w_ins w n) k v /\ io_value_as as_int (w_ins w n) k = Ok z /\ is_int v z /\ (a <= z <= b)%Z.
Proof.
  intros k c a b D E. destruct (in_value _ _ D) as (u & v & A & B & I & [S1 _]). cbn in I. rewrite E in I.
  assert (P : exists a' b', u = TInt a' b' /\ (a <= a')%Z /\ (b' <= b)%Z).
  { destruct I as [->|I]; [exists a, b; split; [reflexivity|split; apply Z.le_refl]|]. destruct u; try discriminate I.
    cbn [ty_compat] in I. apply andb_true_iff in I. destruct I as [I J].
    apply negb_true_iff in I, J. apply Z.ltb_ge in I, J. eauto. }
  destruct P as (a' & b' & -> & L1 & L2). destruct S1 as (z & S1 & S2). exists v, z. split; [auto|]. unfold io_value_as. rewrite B.
  split; [inversion S1; reflexivity|]. split; [auto|lia].
Qed.
Lemma in_item : forall k r dyn sta static i, dget k ins = Some (SRef RefItem r dyn sta static i) -> exists t v,
  value_at (w_ins w n) k v /\ io_value (w_ins w n) k = Ok v /\ T r t /\ stored t v.
Proof. intros k r dyn sta static i D. destruct (in_value _ _ D) as (u & v & A & B & (sta' & t & I & ->) & S1). eauto 8. Qed.
Lemma in_list : forall k r dyn sta static i, dget k ins = Some (SRef RefList r dyn sta static i) -> exists t l,
  value_at (w_ins w n) k (VList l) /\ io_value_as as_list (w_ins w n) k = Ok l /\ T r t /\ (Z.of_nat (length l) <= INT_FLOAT_MAX)%Z /\
  forall x, In x l -> admits t x.
Proof.
  intros k r dyn sta static i D. destruct (in_value _ _ D) as (u & v & A & B & (sta' & t & I & ->) & [S1 _]). cbn in S1.
  destruct S1 as (l & -> & [L _] & S1). exists t, l. split; [auto|]. unfold io_value_as. rewrite B. auto 6.
Qed.
Lemma in_dict : forall k r dyn sta static i, dget k ins = Some (SRef RefDict r dyn sta static i) -> exists t d,
  value_at (w_ins w n) k (VDict d) /\ io_value_as as_dict (w_ins w n) k = Ok d /\ T r t /\ (Z.of_nat (length d) <= INT_FLOAT_MAX)%Z /\
  forall q x, In (q, x) d -> admits t x.
Proof.
  intros k r dyn sta static i D. destruct (in_value _ _ D) as (u & v & A & B & (sta' & t & I & ->) & [S1 _]). cbn in S1.
  destruct S1 as (l & -> & [L _] & S1). exists t, l. split; [auto|]. unfold io_value_as. rewrite B. auto 6.
Qed.
Lemma out_ref : forall k K r dyn sta static i, dget k outs = Some (SRef K r dyn sta static i) -> exists c t,
  dget k (w_outs w n) = Some c /\ T r t /\ c_ty c = ref_type K false t /\ tame t.
Proof.
  intros k K r dyn sta static i D. destruct F as (_ & TM & _ & B & _). destruct (B _ _ D) as (c & D1 & t & I & E). eauto 8.
Qed.
Lemma out_plain : forall k c, dget k outs = Some (SPlain c) -> exists c', dget k (w_outs w n) = Some c' /\ c_ty c' = c_ty c.
Proof. intros k c D. destruct F as (_ & _ & _ & B & _). destruct (B _ _ D) as (c' & D1 & I). eauto. Qed.
Lemma T_fun : forall r t u, T r t -> T r u -> t = u.
Proof. exact (proj1 F). Qed.
End Class.

(** ** Ticks *)
Section Ran.
Context {X : Type}.
Variables (known : string -> bool) (ins outs : smap) (g : X -> iomap -> list (string * value) * res state) (n : nid) (name : string).
Lemma ran : forall i o (w w' : world X) r ws s, inv n i o w -> NoDup (map fst o) -> ready n w ->
  call OTick (the_leaf (tick_only g) n name) w = (w', r) ->
  g (w_ext w) (w_ins w n) = (ws, Ok s) -> In s [RUNNING; SUCCEEDED; FAILED] -> NoDup (map fst ws) ->
  (forall k v, In (k, v) ws -> exists c, dget k (w_outs w n) = Some c /\ bytes_plain (c_ty c) /\ admits (c_ty c) v) ->
  r = Ok s /\ forall k v, In (k, v) ws -> written n k v w w'.
Proof.
  intros i o w w' r ws s I ND R C G S N A.
  destruct (tick_ok n i o (tick_only g) name ND w (w_ext w) ws s I R) with (w' := w') (r := r) as (E & _ & W & _); auto.
  cbn. rewrite G. reflexivity.
Qed.
Lemma ran_one : forall i o (w w' : world X) r k v c, inv n i o w -> NoDup (map fst o) -> ready n w ->
  call OTick (the_leaf (tick_only g) n name) w = (w', r) ->
  g (w_ext w) (w_ins w n) = put_out k v -> dget k (w_outs w n) = Some c -> bytes_plain (c_ty c) -> admits (c_ty c) v ->
  r = Ok SUCCEEDED /\ written n k v w w'.
Proof.
  intros i o w w' r k v c I ND R C G D B A. destruct (ran i o w w' r [(k, v)] SUCCEEDED) as [E W]; auto; [cbn; auto|cbn; constructor; [cbn; auto|constructor]| |].
  - intros k0 v0 [[= <- <-]|[]]. eauto.
  - split; [auto|]. apply W. cbn. auto.
Qed.
Lemma ran_none : forall i o (w w' : world X) r s, inv n i o w -> NoDup (map fst o) -> ready n w ->
  call OTick (the_leaf (tick_only g) n name) w = (w', r) ->
  g (w_ext w) (w_ins w n) = ([], Ok s) -> In s [RUNNING; SUCCEEDED; FAILED] -> r = Ok s.
Proof.
  intros i o w w' r s I ND R C G S. destruct (ran i o w w' r [] s) as [E W]; auto; [constructor|]. intros k v [].
Qed.
End Ran.

Ltac nodup := cbn; repeat match goal with
  | |- NoDup [] => apply NoDup_nil
  | |- NoDup (_ :: _) => apply NoDup_cons; [cbn; intuition discriminate|]
  end.
Ltac fresh_outs := let k := fresh in let c := fresh in let D := fresh in intros k c D; cbn in D;
  repeat match type of D with (if ?b then _ else _) = _ => destruct b; [try discriminate; injection D as <-; reflexivity|] end; discriminate.
Ltac start H := let B := fresh in let i := fresh "i" in let o := fresh "o" in
  destruct H as (B & R & C); apply built_facts in B; [|nodup|nodup|fresh_outs]; destruct B as (i & o & T & F & IV & ND); pose proof (proj1 R) as EX.

Section Classes.
Context {X : Type}.
Variables (known : string -> bool) (n : nid) (name : string).
Notation leaf g := (tick_only (fun _ : X => g)).

Lemma pass_like : forall kt ki ko ins outs dyn sta static dyn' sta' static' (w w' : world X) r T,
  facts ins outs n T w -> (exists i o, inv n i o w /\ NoDup (map fst o)) -> ready n w ->
  dget ki ins = Some (SRef RefItem kt dyn sta static None) -> dget ko outs = Some (SRef RefItem kt dyn' sta' static' None) ->
  call OTick (the_leaf (leaf (fun ins => get (io_value ins ki) (put_out ko))) n name) w = (w', r) ->
  exists v, value_at (w_ins w n) ki v /\ r = Ok SUCCEEDED /\ written n ko v w w'.
Proof.
  intros kt ki ko ins outs dyn sta static dyn' sta' static' w w' r T F (i & o & IV & ND) R DI DO C.
  destruct (in_item ins outs n w T F (proj1 R) _ _ _ _ _ _ DI) as (t & v & A & V & T1 & [S1 _]).
  destruct (out_ref ins outs n w T F _ _ _ _ _ _ _ DO) as (c & t' & DC & T2 & E & [BP _]).
  rewrite <- (T_fun ins outs n w T F _ _ _ T1 T2) in *. cbn in E. exists v. split; [auto|].
  eapply ran_one; eauto; [cbn; rewrite V; reflexivity|rewrite E; auto|rewrite E; auto].
Qed.
Theorem constant_ticks : forall (w w' : world X) r, ticks known constant_ins constant_outs (leaf constant_tick) n name w w' r ->
  exists v, value_at (w_ins w n) "constant_value" v /\ r = Ok SUCCEEDED /\ written n "constant" v w w'.
Proof. intros w w' r H. start H. eapply pass_like; eauto; reflexivity. Qed.
Theorem io_ticks : forall (w w' : world X) r, ticks known io_ins io_outs (leaf pass_tick) n name w w' r ->
  exists v, value_at (w_ins w n) "in" v /\ r = Ok SUCCEEDED /\ written n "out" v w w'.
Proof. intros w w' r H. start H. eapply pass_like; eauto; reflexivity. Qed.
Theorem pass_ticks : forall (w w' : world X) r, ticks known pass_ins pass_outs (leaf pass_tick) n name w w' r ->
  exists v, value_at (w_ins w n) "in" v /\ r = Ok SUCCEEDED /\ written n "out" v w w'.
Proof. intros w w' r H. start H. eapply pass_like; eauto; reflexivity. Qed.

Lemma decide_ran : forall g i o (w w' : world X) r b, inv n i o w -> NoDup (map fst o) -> ready n w ->
  call OTick (the_leaf (leaf g) n name) w = (w', r) -> g (w_ins w n) = decide b -> r = Ok (success_if b).
Proof.
  intros g i o w w' r b IV ND R C G. refine (ran_none (fun _ => g) n name i o w w' r (success_if b) IV ND R C G _). destruct b; cbn; auto.
Qed.
Theorem compare_ticks : forall (w w' : world X) r, ticks known compare_ins [] (leaf compare_tick) n name w w' r ->
  exists a b, value_at (w_ins w n) "a" a /\ value_at (w_ins w n) "b" b /\ r = Ok (success_if (py_eq a b)).
Proof.
  intros w w' r H. start H.
  destruct (in_item _ _ n w T F EX "a" _ _ _ _ _ eq_refl) as (t & a & A & V & _).
  destruct (in_item _ _ n w T F EX "b" _ _ _ _ _ eq_refl) as (t' & b & A' & V' & _).
  exists a, b. split; [auto|]. split; [auto|]. eapply decide_ran; eauto. unfold compare_tick. rewrite V, V'. reflexivity.
Qed.
Theorem compare_new_ticks : forall (w w' : world X) r, ticks known compare_ins [] (leaf compare_new_tick) n name w w' r ->
  exists a b, value_at (w_ins w n) "a" a /\ value_at (w_ins w n) "b" b /\
    r = Ok (if is_updated (w_ins w n) ["a"; "b"] then success_if (py_eq a b) else RUNNING).
Proof.
  intros w w' r H. start H.
  destruct (in_item _ _ n w T F EX "a" _ _ _ _ _ eq_refl) as (t & a & A & V & _).
  destruct (in_item _ _ n w T F EX "b" _ _ _ _ _ eq_refl) as (t' & b & A' & V' & _).
  exists a, b. split; [auto|]. split; [auto|].
  assert (U : exists u, io_any_updated (w_ins w n) ["a"; "b"] = Ok u).
  { destruct A as (c & D & _). destruct A' as (c' & D' & _). cbn [io_any_updated]. rewrite D, D'. cbn. eauto. }
  destruct U as (u & U). unfold is_updated. rewrite U.
  assert (G : compare_new_tick (w_ins w n) = if u then decide (py_eq a b) else ([], Ok RUNNING)).
  { unfold compare_new_tick. rewrite U. cbn [get]. destruct u; [|reflexivity]. unfold compare_tick. rewrite V, V'. reflexivity. }
  destruct u; [eapply decide_ran; eauto|]. refine (ran_none (fun _ => compare_new_tick) n name _ _ w w' r RUNNING IV ND R C G _). cbn. auto.
Qed.

Theorem less_ticks : forall (w w' : world X) r, ticks known less_ins [] (leaf less_tick) n name w w' r ->
  exists a b, value_at (w_ins w n) "a" a /\ value_at (w_ins w n) "b" b /\
    (forall x y, is_int a x -> is_int b y -> r = Ok (success_if (Z.ltb x y))) /\
    (forall x y, a = VFloat x -> b = VFloat y -> r = Ok (success_if (SFltb x y))).
Proof.
  intros w w' r H. start H.
  destruct (in_item _ _ n w T F EX "a" _ _ _ _ _ eq_refl) as (t & a & A & V & _).
  destruct (in_item _ _ n w T F EX "b" _ _ _ _ _ eq_refl) as (t' & b & A' & V' & _).
  exists a, b. split; [auto|]. split; [auto|].
  assert (G : less_tick (w_ins w n) = get (py_lt a b) decide) by (unfold less_tick; rewrite V, V'; reflexivity).
  split; intros x y P Q; eapply decide_ran; eauto; rewrite G.
  - inversion P; inversion Q; subst; reflexivity.
  - subst. reflexivity.
Qed.

Theorem length_ticks : forall (w w' : world X) r, ticks known length_ins length_outs (leaf length_tick) n name w w' r ->
  exists l, value_at (w_ins w n) "list" (VList l) /\ r = Ok SUCCEEDED /\ written n "length" (VInt (Z.of_nat (length l))) w w'.
Proof.
  intros w w' r H. start H.
  destruct (in_list _ _ n w T F EX "list" _ _ _ _ _ eq_refl) as (t & l & A & V & _ & L & _).
  destruct (out_plain _ _ n w T F "length" _ eq_refl) as (c & D & E). exists l. split; [auto|].
  eapply (ran_one (fun _ => length_tick)); eauto; [unfold length_tick; rewrite V; reflexivity|rewrite E; exact I|rewrite E].
  cbn. exists (Z.of_nat (length l)). split; [constructor|]. split.
  - apply (Z.le_trans _ 0); [vm_compute; discriminate|apply Nat2Z.is_nonneg].
  - apply (Z.le_trans _ _ _ L). vm_compute. discriminate.
Qed.

Lemma list_admits : forall t l sta, (Z.of_nat (length l) <= INT_FLOAT_MAX)%Z -> (forall x, In x l -> admits t x) ->
  admits (TList t sta INT_FLOAT_MAX false) (VList l).
Proof. intros t l sta L H. exists l. split; [auto|]. split; [|auto]. split; [auto|discriminate]. Qed.
Lemma dict_admits : forall t l sta, (Z.of_nat (length l) <= INT_FLOAT_MAX)%Z -> (forall q x, In (q, x) l -> admits t x) ->
  admits (TDict t sta INT_FLOAT_MAX false) (VDict l).
Proof. intros t l sta L H. exists l. split; [auto|]. split; [|auto]. split; [auto|discriminate]. Qed.
Lemma py_insert_ok : forall l i v, (0 <= i)%Z -> inserted l i v (py_insert l i v).
Proof.
  intros l i v P. unfold py_insert. apply Z.ltb_ge in P. rewrite P. apply Z.ltb_ge in P.
  set (k := Z.to_nat (Z.min i (Z.of_nat (length l)))). exists (firstn k l), (skipn k l).
  split; [symmetry; apply firstn_skipn|]. split; [reflexivity|]. rewrite firstn_length. unfold k. lia.
Qed.
Lemma succ_le : forall (l : nat), (Z.of_nat l < INT_FLOAT_MAX)%Z -> (Z.of_nat (S l) <= INT_FLOAT_MAX)%Z.
Proof. intros l H. rewrite Nat2Z.inj_succ. apply Z.le_succ_l. exact H. Qed.
Lemma inserted_in : forall l i v l' x, inserted l i v l' -> In x l' -> x = v \/ In x l.
Proof.
  intros l i v l' x (a & b & -> & -> & _) H. apply in_app_iff in H. rewrite in_app_iff. destruct H as [H|[H|H]]; auto.
Qed.
Lemma inserted_length : forall l i v l', inserted l i v l' -> length l' = S (length l).
Proof. intros l i v l' (a & b & -> & -> & _). rewrite !app_length. cbn. lia. Qed.

Theorem insert_ticks : forall (w w' : world X) r, ticks known insert_ins insert_outs (leaf insert_tick) n name w w' r ->
  exists l iv i v, value_at (w_ins w n) "list" (VList l) /\ value_at (w_ins w n) "index" iv /\ is_int iv i /\ value_at (w_ins w n) "element" v /\
    ((Z.of_nat (length l) < INT_FLOAT_MAX)%Z -> exists l', inserted l i v l' /\ r = Ok SUCCEEDED /\ written n "list" (VList l') w w').
Proof.
  intros w w' r H. start H.
  destruct (in_list _ _ n w T F EX "list" _ _ _ _ _ eq_refl) as (t & l & A & V & T1 & L & AD).
  destruct (in_int _ _ n w T F EX "index" _ 0%Z UINT64_MAX eq_refl eq_refl) as (iv & z & A2 & V2 & Z1 & Z2).
  destruct (in_item _ _ n w T F EX "element" _ _ _ _ _ eq_refl) as (t' & v & A3 & V3 & T3 & [S3 _]).
  destruct (out_ref _ _ n w T F "list" _ _ _ _ _ _ eq_refl) as (c & t2 & D & T2 & E & [BP _]).
  rewrite (T_fun _ _ n w T F _ _ _ T3 T1) in S3. rewrite (T_fun _ _ n w T F _ _ _ T2 T1) in E, BP.
  exists l, iv, z, v. split; [auto|]. split; [auto|]. split; [auto|]. split; [auto|]. intros LL.
  pose proof (py_insert_ok l z v (proj1 Z2)) as PI. exists (py_insert l z v). split; [exact PI|].
  eapply (ran_one (fun _ => insert_tick)); eauto; [unfold insert_tick; rewrite V, V2, V3; reflexivity|rewrite E; exact BP|rewrite E].
  apply list_admits; [rewrite (inserted_length _ _ _ _ PI); apply succ_le; auto|]. intros x J. destruct (inserted_in _ _ _ _ _ PI J) as [->|]; auto.
Qed.
Theorem isin_ticks : forall (w w' : world X) r, ticks known isin_ins [] (leaf isin_tick) n name w w' r ->
  exists l v, value_at (w_ins w n) "list" (VList l) /\ value_at (w_ins w n) "in" v /\
    (r = Ok SUCCEEDED <-> exists x, In x l /\ py_eq x v = true) /\ (r = Ok FAILED <-> ~ exists x, In x l /\ py_eq x v = true).
Proof.
  intros w w' r H. start H.
  destruct (in_list _ _ n w T F EX "list" _ _ _ _ _ eq_refl) as (t & l & A & V & _).
  destruct (in_item _ _ n w T F EX "in" _ _ _ _ _ eq_refl) as (t' & v & A3 & V3 & _).
  exists l, v. split; [auto|]. split; [auto|].
  assert (E : r = Ok (success_if (existsb (fun x => py_eq x v) l))).
  { eapply decide_ran; eauto. unfold isin_tick. rewrite V, V3. reflexivity. }
  rewrite E, <- existsb_exists. destruct (existsb (fun x => py_eq x v) l); cbn; split; split; intros Q; auto; try discriminate; try congruence.
Qed.
Theorem append_ticks : forall (w w' : world X) r, ticks known append_ins append_outs (leaf append_tick) n name w w' r ->
  exists l v, value_at (w_ins w n) "list" (VList l) /\ value_at (w_ins w n) "value" v /\
    ((Z.of_nat (length l) < INT_FLOAT_MAX)%Z -> r = Ok SUCCEEDED /\ written n "new_list" (VList (l ++ [v])) w w').
Proof.
  intros w w' r H. start H.
  destruct (in_list _ _ n w T F EX "list" _ _ _ _ _ eq_refl) as (t & l & A & V & T1 & L & AD).
  destruct (in_item _ _ n w T F EX "value" _ _ _ _ _ eq_refl) as (t' & v & A3 & V3 & T3 & [S3 _]).
  destruct (out_ref _ _ n w T F "new_list" _ _ _ _ _ _ eq_refl) as (c & t2 & D & T2 & E & [BP _]).
  rewrite (T_fun _ _ n w T F _ _ _ T3 T1) in S3. rewrite (T_fun _ _ n w T F _ _ _ T2 T1) in E, BP.
  exists l, v. split; [auto|]. split; [auto|]. intros LL.
  eapply (ran_one (fun _ => append_tick)); eauto; [unfold append_tick; rewrite V, V3; reflexivity|rewrite E; exact BP|rewrite E].
  apply list_admits; [rewrite app_length, Nat.add_comm; apply succ_le; auto|]. intros x J. apply in_app_iff in J. destruct J as [J|[<-|[]]]; auto.
Qed.
Lemma dset_length : forall A k (v : A) d, length (dset k v d) <= S (length d).
Proof. intros A k v d. induction d as [|[k1 v1] d IH]; cbn; [auto|]. destruct (String.eqb k k1); cbn; lia. Qed.
Lemma dset_in : forall A k (v : A) d q x, In (q, x) (dset k v d) -> (q = k /\ x = v) \/ In (q, x) d.
Proof.
  intros A k v d q x. induction d as [|[k1 v1] d IH]; cbn; [intros [[= -> ->]|[]]; auto|].
  destruct (String.eqb_spec k k1) as [->|N]; cbn; intros [[= <- <-]|J]; auto. destruct (IH J); auto.
Qed.
Theorem setdict_ticks : forall (w w' : world X) r, ticks known setdict_ins setdict_outs (leaf setdict_tick) n name w w' r ->
  exists d k v, value_at (w_ins w n) "object" (VDict d) /\ value_at (w_ins w n) "attr_name" (VStr k) /\ value_at (w_ins w n) "attr_value" v /\
    ((Z.of_nat (length d) < INT_FLOAT_MAX)%Z -> exists d', updated_dict d k v d' /\ r = Ok SUCCEEDED /\ written n "new_object" (VDict d') w w').
Proof.
  intros w w' r H. start H.
  destruct (in_dict _ _ n w T F EX "object" _ _ _ _ _ eq_refl) as (t & d & A & V & T1 & L & AD).
  destruct (in_str _ _ n w T F EX "attr_name" _ eq_refl (ex_intro _ None eq_refl)) as (k & A2 & V2 & _).
  destruct (in_item _ _ n w T F EX "attr_value" _ _ _ _ _ eq_refl) as (t' & v & A3 & V3 & T3 & [S3 _]).
  destruct (out_ref _ _ n w T F "new_object" _ _ _ _ _ _ eq_refl) as (c & t2 & D & T2 & E & [BP _]).
  rewrite (T_fun _ _ n w T F _ _ _ T3 T1) in S3. rewrite (T_fun _ _ n w T F _ _ _ T2 T1) in E, BP.
  exists d, k, v. split; [auto|]. split; [auto|]. split; [auto|]. intros LL. exists (dset k v d).
  split; [split; [apply dget_dset_eq|intros; apply dget_dset_ne; auto]|].
  eapply (ran_one (fun _ => setdict_tick)); eauto; [unfold setdict_tick; rewrite V, V2, V3; reflexivity|rewrite E; exact BP|rewrite E].
  apply dict_admits; [|intros q x J; destruct (dset_in _ _ _ _ _ _ J) as [[-> ->]|J']; [auto|exact (AD _ _ J')]].
  apply succ_le in LL. refine (Z.le_trans _ _ _ _ LL). apply inj_le. apply dset_length.
Qed.
Lemma str_admits : forall s, (zlen s <= INT_FLOAT_MAX)%Z -> admits any_str (VStr s).
Proof. intros s L. exists s. split; [auto|]. split; [exact L|discriminate]. Qed.
Theorem concat_ticks : forall (w w' : world X) r, ticks known concat_ins concat_outs (leaf concat_tick) n name w w' r ->
  exists a b, value_at (w_ins w n) "a" (VStr a) /\ value_at (w_ins w n) "b" (VStr b) /\
    ((zlen (a ++ b)%string <= INT_FLOAT_MAX)%Z -> r = Ok SUCCEEDED /\ written n "formatted_string" (VStr (a ++ b)%string) w w').
Proof.
  intros w w' r H. start H.
  destruct (in_str _ _ n w T F EX "a" _ eq_refl (ex_intro _ None eq_refl)) as (a & A2 & V2 & _).
  destruct (in_str _ _ n w T F EX "b" _ eq_refl (ex_intro _ None eq_refl)) as (b & A3 & V3 & _).
  destruct (out_plain _ _ n w T F "formatted_string" _ eq_refl) as (c & D & E).
  exists a, b. split; [auto|]. split; [auto|]. intros LL.
  eapply (ran_one (fun _ => concat_tick)); eauto; [unfold concat_tick; rewrite V2, V3; reflexivity|rewrite E; exact I|rewrite E].
  apply str_admits; auto.
Qed.

Theorem format_ticks : forall fmt (w w' : world X) r, ticks known format_ins format_outs (leaf (format_tick fmt)) n name w w' r ->
  exists s d, value_at (w_ins w n) "format_string" (VStr s) /\ value_at (w_ins w n) "dict" (VDict d) /\
    (forall k x, In (k, x) d -> exists z, is_int x z) /\
    (fmt s d = None -> r = Ok FAILED) /\
    (forall q, fmt s d = Some q -> (zlen q <= INT_FLOAT_MAX)%Z -> r = Ok SUCCEEDED /\ written n "formatted_string" (VStr q) w w').
Proof.
  intros fmt w w' r H. start H.
  destruct (in_str _ _ n w T F EX "format_string" _ eq_refl (ex_intro _ None eq_refl)) as (a & A2 & V2 & _).
  destruct (in_value _ _ n w T F EX "dict" _ eq_refl) as (u & v & A3 & V3 & I3 & [S3 _]).
  assert (DD : exists d, v = VDict d /\ forall k x, In (k, x) d -> exists z, is_int x z).
  { cbn in I3. assert (Q : exists a b s0 m st, u = TDict (TInt a b) s0 m st).
    { destruct I3 as [->|I3]; [unfold any_int; eauto 8|]. destruct u; try discriminate I3. cbn [ty_compat any_int] in I3.
      apply andb_true_iff in I3. destruct I3 as [_ I3]. destruct u; try discriminate I3. eauto 8. }
    destruct Q as (a0 & b0 & s0 & m & st & ->). destruct S3 as (d & -> & _ & S3). exists d. split; [auto|].
    intros k x J. destruct (S3 k x J) as (z & Z1 & _). eauto. }
  destruct DD as (d & -> & DD).
  destruct (out_plain _ _ n w T F "formatted_string" _ eq_refl) as (c & D & E).
  exists a, d. split; [auto|]. split; [auto|]. split; [auto|].
  assert (G : format_tick fmt (w_ins w n) = match fmt a d with Some r => put_out "formatted_string" (VStr r) | None => ([], Ok FAILED) end).
  { unfold format_tick, io_value_as at 2. rewrite V2, V3. reflexivity. }
  split.
  - intros Q. rewrite Q in G. refine (ran_none (fun _ => format_tick fmt) n name _ _ w w' r FAILED IV ND R C G _). cbn. auto.
  - intros q Q L. rewrite Q in G. eapply (ran_one (fun _ => format_tick fmt)); eauto; [rewrite E; exact I|rewrite E]. apply str_admits; auto.
Qed.
End Classes.
