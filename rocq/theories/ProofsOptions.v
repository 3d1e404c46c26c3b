(** Proofs for C103. *)
From Coq Require Import String Ascii ZArith Bool Arith Lia List.
From Coq.Floats Require Import SpecFloat.
From Verif Require Import Base ModelData ModelDataLeaf ModelJson ModelOptions SpecData SpecDataLeaf SpecJson SpecOptions.
From Verif Require Import ProofsData ProofsLeaf ProofsDataLeaf ProofsDataRefs ProofsJson.
From Verif Require ModelFields SpecFields.
Import ListNotations.
Local Open Scope string_scope.
Local Open Scope list_scope.

(** ** One container *)

Definition fresh (c : container) (t : ctype) : Prop :=
  c_ty c = t /\ c_upd c = false /\ c_val c = adjust_default t (class_default t).

Definition kept_value (t : ctype) (x v : value) : Prop :=
  x = v \/ (adjust_default t (class_default t) = Some x /\ py_eq x v = true).
Lemma kept_equal : forall t x v, kept_value t x v -> SpecFields.equal_to x v.
Proof. intros t x v [->|[_ H]]; [left; reflexivity|right; exact H]. Qed.

Lemma set_fresh : forall c t v, fresh c t -> good t v -> exists c2 x res, set_value c v = (c2, res) /\ res <> Raise /\
  c_ty c2 = t /\ c_dyn c2 = c_dyn c /\ c_sta c2 = c_sta c /\ c_static c2 = c_static c /\ c_val c2 = Some x /\ kept_value t x v.
Proof.
  intros c t v (T & U & D) G.
  assert (Acc : check t v = Ok v -> exists c2 x res, set_value c v = (c2, res) /\ res <> Raise /\
    c_ty c2 = t /\ c_dyn c2 = c_dyn c /\ c_sta c2 = c_sta c /\ c_static c2 = c_static c /\ c_val c2 = Some x /\ kept_value t x v).
  { intros Hc. destruct (set_value_cases c v) as [[e X]|[X|[[v' [_ [X0 _]]]|[v' [Hc' [_ X]]]]]].
    - exfalso. unfold set_value, base_set in X. rewrite T, Hc, U, andb_false_r in X. destruct t; discriminate.
    - exfalso. unfold set_value, base_set in X. rewrite T, Hc, U, andb_false_r in X. destruct t; discriminate.
    - rewrite U, andb_false_r in X0. discriminate.
    - rewrite T, Hc in Hc'. injection Hc' as <-. rewrite X. unfold changed. destruct (c_val c) as [d|] eqn:Ed; [destruct (py_eq d v) eqn:Pe; cbn [negb]|].
      + eexists. exists d. eexists. split; [reflexivity|]. cbn [c_ty c_static c_val c_dyn c_sta]. repeat (split; [first [discriminate|auto]|]). right. split; [congruence|exact Pe].
      + eexists. exists v. eexists. split; [reflexivity|]. cbn [c_ty c_static c_val c_dyn c_sta]. repeat (split; [first [discriminate|auto]|]). left; reflexivity.
      + eexists. exists v. eexists. split; [reflexivity|]. cbn [c_ty c_static c_val c_dyn c_sta]. repeat (split; [first [discriminate|auto]|]). left; reflexivity. }
  destruct G as [Hc|Hd]; [exact (Acc Hc)|].
  destruct (default_form t v Hd) as [Nr Eq]. destruct (check t v) as [w|e|] eqn:Hc; [|clear Acc|congruence].
  - rewrite (Eq w eq_refl) in Acc. exact (Acc eq_refl).
  - assert (X : set_value c v = (c, Err e)) by (unfold set_value; rewrite T, Hc; reflexivity). rewrite X. exists c, v, (Err e).
    split; [reflexivity|]. split; [discriminate|]. split; [exact T|]. repeat (split; [reflexivity|]). split; [congruence|left; reflexivity].
Qed.

Lemma construct_fresh : forall t dyn sta static c, construct t dyn sta (Some static) None = Some c -> static = true -> fresh c t.
Proof.
  intros t dyn sta static c H ->. destruct (default_of _ _ _ _ H) as [A B]. destruct (construct_flags _ _ _ _ _ _ H) as (T & _). split; [exact T|auto].
Qed.
Lemma ref_fresh : forall K dyn sta static t c, ref_inner K dyn sta static t = Some c ->
  fresh c (ref_type K sta t) /\ c_dyn c = dyn /\ c_sta c = sta /\ c_static c = static.
Proof.
  intros K dyn sta static t c H. unfold ref_inner in H. destruct (construct (ref_type K sta t) true true None None) as [d|] eqn:E; [|discriminate].
  injection H as <-. assert (E' : construct (ref_type K sta t) true true (Some true) None = Some d) by exact E.
  destruct (construct_fresh _ _ _ _ _ E' eq_refl) as (A & B & C). split; [split; [exact A|split; [exact B|exact C]]|]. cbn. auto.
Qed.

(** What a static container holds. *)
Definition sound_value (c : container) : Prop := forall v, c_val c = Some v -> shape (c_ty c) v /\ good (c_ty c) v.
Lemma fresh_sound : forall c t, fresh c t -> sound_value c.
Proof.
  intros c t (T & _ & D) v V. rewrite T. rewrite D in V. split; [|right; exact V].
  eapply adjust_shape; [|exact V]. intros y Hy. apply (default_shape t y Hy).
Qed.
Lemma set_sound : forall c v, sound_value c -> sound_value (fst (set_value c v)).
Proof.
  intros c v H x X. assert (T : c_ty (fst (set_value c v)) = c_ty c) by (exact (cops_keep_ty [CSet v] c)). rewrite T. split.
  - apply (ops_shape [CSet v] c x); [intros y Hy; apply H; exact Hy|exact X].
  - apply (ops_good (c_ty c) [CSet v] c eq_refl); [intros y Hy; apply H; exact Hy|exact X].
Qed.
Lemma cops_noset : forall ops c, c_static c = true -> existsb sets ops = false -> c_val (cops_run ops c) = c_val c.
Proof.
  unfold cops_run. induction ops as [|o q IH]; intros c S N; cbn [fold_left]; [reflexivity|]. cbn [existsb] in N. apply orb_false_iff in N. destruct N as [N1 N2].
  rewrite IH; [|destruct o; cbn; auto; discriminate|exact N2]. destruct o; cbn; auto; [discriminate|rewrite S; reflexivity].
Qed.

(** ** The description of a type that equals a default *)


Lemma py_eq_dict : forall x v, py_eq (VDict x) v = true -> exists y, v = VDict y /\ forall k a, In (k, a) x -> exists b, dget k y = Some b /\ py_eq a b = true.
Proof.
  intros x v H. destruct v as [| | | | | |y| |]; try discriminate. exists y. split; [reflexivity|]. cbn [py_eq] in H. apply andb_true_iff in H. destruct H as [_ H].
  induction x as [|[k a] q IH]; intros k0 a0 I; [destruct I|]. destruct (dget k y) as [b|] eqn:D; [|discriminate]. apply andb_true_iff in H. destruct H as [H1 H2].
  destruct I as [[= <- <-]|I]; [eauto|exact (IH H2 _ _ I)].
Qed.
Lemma py_eq_int : forall a z, py_eq (VInt a) (VInt z) = true -> z = a.
Proof. intros a z H. cbn in H. apply Z.eqb_eq in H. congruence. Qed.
Lemma py_eq_fin : forall sg m e f, py_eq (VFloat (S754_finite sg m e)) (VFloat f) = true -> f = S754_finite sg m e.
Proof.
  intros sg m e f H. cbn [py_eq] in H. unfold SFeqb in H. destruct f as [s|s| |s m1 e1]; cbn [SFcompare] in H; try (destruct sg; discriminate H); try (destruct sg, s; discriminate H).
  destruct (Z.compare_spec e e1) as [Q|L|L]; destruct (Pos.compare_spec m m1) as [Q1|L1|L1];
    change (Pos.compare_cont Eq m m1) with (Pos.compare m m1) in H; destruct sg, s; try discriminate H; subst; try reflexivity;
    try (rewrite (proj2 (Pos.compare_lt_iff _ _) L1) in H; discriminate H); rewrite (proj2 (Pos.compare_gt_iff _ _) L1) in H; discriminate H.
Qed.

Lemma iotype_default : forall known b v t, py_eq (VDict (generic_map b)) v = true -> iotype_of known v = Ok t ->
  iotype_of known (VDict (generic_map b)) = Ok t.
Proof.
  intros known b v t E H.
  assert (G : forall b, (b = BBool \/ b <> BList /\ b <> BDict) -> forall v t, py_eq (VDict (generic_map b)) v = true -> iotype_of known v = Ok t ->
    iotype_of known (VDict (generic_map b)) = Ok t).
  { clear. intros b Nb v t E H. destruct (py_eq_dict _ _ E) as (y & -> & A). rewrite iotype_step in *.
    destruct (dget IDENTIFIER_KEY (generic_map b)) as [i0|] eqn:D0; [|destruct b; discriminate]. destruct (A _ _ (dget_In _ _ _ _ D0)) as (i & Di & Pi). rewrite Di in H.
    assert (exists z, i0 = VInt z) as [z ->] by (destruct b; injection D0 as <-; eauto). unfold step_io in *. rewrite !(has_id_as _ _ _ Pi) in H.
    destruct b; injection D0 as <-; cbn [generic_map In] in A; try (destruct Nb as [Nb|[N1 N2]]; congruence); cbn -[INT64_MIN INT64_MAX DBL_MIN DBL_MAX INT_FLOAT_MAX SFltb] in H |- *.
    - exact H.
    - destruct (A "min_value" _ ltac:(auto)) as (x1 & Dx & P1). destruct (A "max_value" _ ltac:(auto)) as (x2 & Dy & P2). rewrite Dx, Dy in H.
      destruct x1; try discriminate. destruct x2; try discriminate. apply py_eq_int in P1. apply py_eq_int in P2. subst. exact H.
    - destruct (A "min_value" _ ltac:(auto)) as (x1 & Dx & P1). destruct (A "max_value" _ ltac:(auto)) as (x2 & Dy & P2). rewrite Dx, Dy in H.
      destruct x1; try discriminate. destruct x2; try discriminate. apply py_eq_fin in P1. apply py_eq_fin in P2. subst. exact H.
    - destruct (A "max_length" _ ltac:(auto)) as (x1 & Dx & P1). rewrite Dx in H. destruct x1; try discriminate. apply py_eq_int in P1. subst. exact H.
    - destruct (A "max_length" _ ltac:(auto)) as (x1 & Dx & P1). rewrite Dx in H. destruct x1; try discriminate. apply py_eq_int in P1. subst. exact H.
    - destruct (A MESSAGE_KEY _ ltac:(auto)) as (x1 & Dx & P1). rewrite Dx in H. destruct x1 as [| | |x1| | | | |]; try discriminate. cbn [py_eq] in P1. apply String.eqb_eq in P1. subst. exact H. }
  destruct b; try (refine (G _ _ v t E H); right; split; discriminate).
  - pose proof (py_eq_dict _ _ E) as (y & -> & A). rewrite iotype_step in *. cbn [generic_map In] in A.
    destruct (A IDENTIFIER_KEY _ ltac:(auto)) as (i & Di & Pi). rewrite Di in H. unfold step_io in *. rewrite !(has_id_as _ _ _ Pi) in H.
    destruct (A "max_length" _ ltac:(auto)) as (x1 & Dx & P1). destruct (A "strict_length" _ ltac:(auto)) as (x2 & Dy & P2).
    destruct (A ELEMENT_KEY _ ltac:(auto 6)) as (x3 & Dz & P3). rewrite Dx, Dy, Dz in H.
    cbn -[INT_FLOAT_MAX iotype_of] in H |- *. destruct (iotype_of known x3) as [e|e|] eqn:Ee; try discriminate.
    pose proof (G BBool ltac:(auto) _ _ P3 Ee) as Gb. cbn [generic_map] in Gb. change 1%Z with ID_BOOL. rewrite Gb. destruct x1; try discriminate. destruct x2; try discriminate. apply py_eq_int in P1. cbn in P2. destruct b; [discriminate|]. subst. exact H.
  - pose proof (py_eq_dict _ _ E) as (y & -> & A). rewrite iotype_step in *. cbn [generic_map In] in A.
    destruct (A IDENTIFIER_KEY _ ltac:(auto)) as (i & Di & Pi). rewrite Di in H. unfold step_io in *. rewrite !(has_id_as _ _ _ Pi) in H.
    destruct (A "max_length" _ ltac:(auto)) as (x1 & Dx & P1). destruct (A "strict_length" _ ltac:(auto)) as (x2 & Dy & P2).
    destruct (A ELEMENT_KEY _ ltac:(auto 6)) as (x3 & Dz & P3). rewrite Dx, Dy, Dz in H.
    cbn -[INT_FLOAT_MAX iotype_of] in H |- *. destruct (iotype_of known x3) as [e|e|] eqn:Ee; try discriminate.
    pose proof (G BBool ltac:(auto) _ _ P3 Ee) as Gb. cbn [generic_map] in Gb. change 1%Z with ID_BOOL. rewrite Gb. destruct x1; try discriminate. destruct x2; try discriminate. apply py_eq_int in P1. cbn in P2. destruct b; [discriminate|]. subst. exact H.
Qed.

(** ** Reading a message, input by input *)

Lemma dget_unique : forall A (l : list (string * A)) k x, NoDup (map fst l) -> In (k, x) l -> dget k l = Some x.
Proof.
  intros A. induction l as [|[k0 y] l IH]; cbn; intros k x N I; [destruct I|]. inversion N as [|? ? N1 N2]; subst.
  destruct (String.eqb_spec k k0) as [->|Ne].
  - destruct I as [[= <-]|I]; [reflexivity|]. destruct (N1 (in_map fst _ _ I)).
  - destruct I as [[= <- <-]|I]; [congruence|exact (IH _ _ N2 I)].
Qed.

Section Read.
Variable r : ros.
Variable known : string -> bool.
Variable fuel : nat.

Lemma put_plain_at : forall l m, put_plain l = Ok m -> NoDup (map (fun x => fst (fst x)) l) ->
  forall k s v, In (k, s, v) l -> exists s', dget k m = Some s' /\
    match s with SPlain _ => put_value s v = Ok s' | SRef _ _ _ _ _ _ => s' = s end.
Proof.
  induction l as [|[[k0 s0] v0] l IH]; intros m H N k s v I; [destruct I|]. cbn [put_plain] in H.
  destruct (match s0 with SPlain _ => put_value s0 v0 | _ => Ok s0 end) as [s1|e|] eqn:E; destruct (put_plain l) as [m1|e1|]; try discriminate.
  injection H as <-. cbn in N. inversion N as [|? ? N1 N2]; subst. cbn [dget]. destruct I as [[= -> -> ->]|I].
  - rewrite String.eqb_refl. exists s1. split; [reflexivity|]. destruct s; [exact E|congruence].
  - destruct (String.eqb_spec k k0) as [->|Ne]; [destruct N1; exact (in_map (fun x => fst (fst x)) _ _ I)|]. exact (IH m1 eq_refl N2 k s v I).
Qed.
Lemma put_refs_at : forall m l given, put_refs known m l = Ok given -> NoDup (map (fun x => fst (fst x)) l) ->
  (forall k, In k (map (fun x => fst (fst x)) l) -> dget k m <> None) ->
  forall k s v, In (k, s, v) l -> exists s', dget k given = Some s' /\
    match s with
    | SPlain _ => dget k m = Some s'
    | SRef _ _ _ _ _ _ => exists s1, (set_type_map known m s = Ok s1 \/ ((exists e, set_type_map known m s = Err e) /\ s1 = s)) /\ put_value s1 v = Ok s'
    end.
Proof.
  intros m. induction l as [|[[k0 s0] v0] l IH]; intros given H N M k s v I; [destruct I|]. cbn [put_refs] in H. cbn in N. inversion N as [|? ? N1 N2]; subst.
  assert (M' : forall k, In k (map (fun x => fst (fst x)) l) -> dget k m <> None) by (intros k1 I1; apply M; right; exact I1).
  assert (X : exists s1 g1, given = (k0, s1) :: g1 /\ put_refs known m l = Ok g1 /\ match s0 with
      | SPlain _ => dget k0 m = Some s1
      | SRef _ _ _ _ _ _ => exists s2, (set_type_map known m s0 = Ok s2 \/ ((exists e, set_type_map known m s0 = Err e) /\ s2 = s0)) /\ put_value s2 v0 = Ok s1
      end).
  { destruct s0 as [c|K y dyn sta static i0].
    - specialize (M k0 (or_introl eq_refl)). destruct (dget k0 m) as [s1|]; [|congruence]. unfold res_map in H.
      destruct (put_refs known m l) as [g1|e|]; try discriminate. injection H as <-. eauto.
    - destruct (match set_type_map known m (SRef K y dyn sta static i0) with Ok s' => Ok s' | Err _ => Ok (SRef K y dyn sta static i0) | Raise => Raise end)
        as [s1|e|] eqn:E; try discriminate.
      destruct (put_value s1 v0) as [s2|e|] eqn:PV; try discriminate. unfold res_map in H.
      destruct (put_refs known m l) as [g1|e|]; try discriminate. injection H as <-. exists s2, g1. split; [auto|]. split; [auto|].
      destruct (set_type_map known m (SRef K y dyn sta static i0)) as [s3|e|] eqn:ST; try discriminate; injection E as <-; eauto 6. }
  destruct X as (s1 & g1 & -> & G & P). cbn [dget]. destruct I as [[= -> -> ->]|I].
  - rewrite String.eqb_refl. exists s1. auto.
  - destruct (String.eqb_spec k k0) as [->|Ne]; [destruct N1; exact (in_map (fun x => fst (fst x)) _ _ I)|]. exact (IH g1 G N2 M' k s v I).
Qed.

(** The inputs of the node: those of the message, and for the rest those of the class. *)
Lemma node_at : forall ins outs l i o, proper l -> node_of_msg known ins outs l = Ok (i, o) -> exists m given,
  put_plain l = Ok m /\ put_refs known m l = Ok given /\ map fst given = map (fun x => fst (fst x)) l /\
  map fst i = map fst ins /\
  (forall k s, dget k given = Some s -> dget k i = Some s) /\
  (forall k s, dget k i = Some s -> dget k given = Some s \/ (dget k given = None /\ exists d, dget k ins = Some d /\
     match d with
     | SPlain c => s = d
     | SRef K y dyn sta static _ => exists t c, ref_inner K dyn sta static t = Some c /\ s = SRef K y dyn sta static (Some c)
     end)).
Proof.
  intros ins outs l i o PM H. pose proof (node_types known _ _ _ _ _ PM H) as (NT & _). unfold node_of_msg in H.
  destruct (inputs_of_msg known l) as [given|e|] eqn:G; try discriminate.
  destruct (given_ok _ _ _ PM G) as (GK & GN & _). unfold inputs_of_msg in G. destruct (put_plain l) as [m|e|] eqn:PP; try discriminate.
  exists m, given. split; [reflexivity|]. split; [exact G|]. split; [rewrite GK; unfold decl; rewrite map_map; reflexivity|]. split; [exact NT|].
  unfold node_new in H.
  destruct (node_config known ins outs) as [[ins1 outs1]|e|] eqn:NC; try discriminate.
  destruct (replace_inputs given ins1) as [ins2|e|] eqn:RI; try discriminate.
  destruct (resolve known ins2 (is_given given) ins2) as [i'|e|] eqn:R1; try discriminate;
    destruct (resolve known ins2 (fun _ => false) outs1) as [o'|e'|] eqn:R2; try discriminate.
  injection H as -> ->.
  unfold node_config in NC. destruct (existsb _ outs); [discriminate|].
  destruct (resolve known ins (fun _ => false) ins) as [x1|e|] eqn:R3; try discriminate;
    destruct (resolve known ins (fun _ => false) (out_slots outs)) as [x2|e'|] eqn:R4; try discriminate.
  injection NC as -> ->.
  destruct (resolve_ok _ _ _ _ _ R1) as (A1 & B1 & C1). destruct (resolve_ok _ _ _ _ _ R3) as (A3 & B3 & C3).
  destruct (replace_ok _ _ _ GN RI) as (AR & BR & CR). split.
  - intros k s D. destruct (BR _ _ D) as (D2 & _). destruct (C1 _ _ D2) as (s' & D'). destruct (B1 _ _ D') as (s0 & D0 & E).
    rewrite D2 in D0. injection D0 as <-. unfold is_given in E. rewrite D in E. congruence.
  - intros k s D. destruct (B1 _ _ D) as (s2 & D2 & E). unfold is_given in E. destruct (dget k given) as [sg|] eqn:EG.
    + left. destruct (BR _ _ EG) as (X & _). congruence.
    + right. split; [reflexivity|]. rewrite (CR _ EG) in D2. destruct (B3 _ _ D2) as (d & D0 & T). exists d. split; [auto|].
      destruct d as [c|K y dyn sta static i0]; [cbn in T; injection T as <-; cbn in E; congruence|].
      apply set_type_map_ok in T. destruct T as (c & -> & _). cbn [set_type_map] in E.
      destruct (dget y ins2) as [[ct|]|]; try discriminate. destruct (is_type_container (c_ty ct)); [|discriminate].
      destruct (value_field known ct) as [t|e|]; try discriminate. destruct (ref_inner K dyn sta static t) as [c'|] eqn:RR; [|discriminate].
      injection E as <-. eauto.
Qed.

Lemma read_slots_in : forall l sl, read_slots l = Ok sl -> map (fun x => fst (fst x)) sl = map fst l /\
  (forall k t x, In (k, (t, x)) l -> exists s, read_slot t = Ok s /\ In (k, s, x) sl) /\
  (forall k s x, In (k, s, x) sl -> exists t, read_slot t = Ok s /\ In (k, (t, x)) l).
Proof.
  induction l as [|[k0 [t0 x0]] l IH]; intros sl H; cbn [read_slots] in H.
  - injection H as <-. split; [reflexivity|]. split; intros ? ? ? [].
  - destruct (read_slot t0) as [s0|e|] eqn:E; try discriminate. destruct (read_slots l) as [q|e|]; try discriminate. injection H as <-.
    destruct (IH q eq_refl) as (A & B & C). split; [cbn; congruence|]. split.
    + intros k t x [[= -> -> ->]|I]; [exists s0; split; [exact E|left; reflexivity]|]. destruct (B _ _ _ I) as (s & S & I'). exists s. split; [exact S|right; exact I'].
    + intros k s x [[= -> -> ->]|I]; [exists t0; split; [exact E|left; reflexivity]|]. destruct (C _ _ _ I) as (t & T & I'). exists t. split; [exact T|right; exact I'].
Qed.

Definition texts (m : smap) (sl : list (string * slot * option json)) : list (string * slot * text) :=
  map (fun x => (fst (fst x), snd (fst x), read_text r known fuel m (snd (fst x)) (snd x))) sl.
Lemma put_plain_texts : forall m m' sl, put_plain (texts m sl) = put_plain (texts m' sl).
Proof.
  intros m m'. induction sl as [|[[k s] x] sl IH]; [reflexivity|]. cbn [texts map fst snd put_plain]. fold (texts m sl) (texts m' sl). rewrite IH.
  destruct s; [|reflexivity]. reflexivity.
Qed.
Lemma read_plain_none : forall t K y dyn sta static i0, read_slot t = Ok (SRef K y dyn sta static i0) -> i0 = None.
Proof. intros [m|K' y' dyn' sta' static'] K y dyn sta static i0 H; cbn in H; [destruct (from_msg m); discriminate|]. destruct (_ || _ || _); congruence. Qed.

Lemma from_msg_at : forall ins outs l i o, NoDup (map fst l) -> node_from_msg r known fuel ins outs l = Ok (i, o) -> exists m lt,
  proper lt /\ node_of_msg known ins outs lt = Ok (i, o) /\ (forall k, mentions lt k <-> In k (map fst l)) /\ map fst i = map fst ins /\
  (forall k tm x, In (k, (IPlain tm, x)) l -> exists c c', from_msg tm = Some c /\ put_value (SPlain c) (read_text r known fuel [] (SPlain c) x) = Ok (SPlain c') /\
     dget k m = Some (SPlain c') /\ dget k i = Some (SPlain c')) /\
  (forall k K y dyn sta static x, In (k, (IRef K y dyn sta static, x)) l -> let s := SRef K y dyn sta static None in exists s1 s2,
     (set_type_map known m s = Ok s1 \/ ((exists e, set_type_map known m s = Err e) /\ s1 = s)) /\
     put_value s1 (read_text r known fuel m s x) = Ok s2 /\ dget k i = Some s2) /\
  (forall k s, dget k i = Some s -> In k (map fst l) \/ exists d, dget k ins = Some d /\
     match d with
     | SPlain c => s = d
     | SRef K y dyn sta static _ => exists t c, ref_inner K dyn sta static t = Some c /\ s = SRef K y dyn sta static (Some c)
     end).
Proof.
  intros ins outs l i o N H. unfold node_from_msg in H. destruct (read_slots l) as [sl|e|] eqn:E; try discriminate.
  destruct (read_slots_in _ _ E) as (SK & S1 & S2). fold (texts [] sl) in H. destruct (put_plain (texts [] sl)) as [m|e|] eqn:PP; try discriminate.
  fold (texts m sl) in H. exists m, (texts m sl).
  assert (KT : map (fun x => fst (fst x)) (texts m sl) = map fst l) by (unfold texts; rewrite map_map; cbn [fst]; exact SK).
  assert (PR : proper (texts m sl)).
  { split; [rewrite KT; exact N|]. intros k s v I. unfold texts in I. apply in_map_iff in I. destruct I as ([[k1 s1] x1] & Q & I). cbn [fst snd] in Q. injection Q as -> -> _.
    destruct (S2 _ _ _ I) as (t & T & _). destruct s; [exact Logic.I|]. exact (read_plain_none _ _ _ _ _ _ _ T). }
  split; [exact PR|]. split; [exact H|]. split; [intros k; unfold mentions; rewrite KT; tauto|].
  destruct (node_at _ _ _ _ _ PR H) as (m' & given & PP' & PRf & GK & NT & G1 & G2). rewrite (put_plain_texts m []) in PP'. rewrite PP in PP'. injection PP' as <-.
  split; [exact NT|]. assert (N' : NoDup (map (fun x => fst (fst x)) (texts m sl))) by (rewrite KT; exact N).
  assert (PPm : put_plain (texts m sl) = Ok m) by (rewrite (put_plain_texts m []); exact PP).
  assert (M : forall k, In k (map (fun x => fst (fst x)) (texts m sl)) -> dget k m <> None).
  { intros k I. apply in_map_iff in I. destruct I as ([[k1 s1] v1] & <- & I). destruct (put_plain_at _ _ PPm N' _ _ _ I) as (s' & D & _). cbn. congruence. }
  split; [|split].
  - intros k tm x I. destruct (S1 _ _ _ I) as (s & R & I'). cbn in R. destruct (from_msg tm) as [c|]; [|discriminate]. injection R as <-.
    assert (IT : In (k, SPlain c, read_text r known fuel m (SPlain c) x) (texts m sl)) by exact (in_map _ _ _ I').
    destruct (put_plain_at _ _ PPm N' _ _ _ IT) as (s' & D & P). destruct (put_refs_at _ _ _ PRf N' M _ _ _ IT) as (s2 & D2 & P2). rewrite D in P2. injection P2 as <-.
    destruct (put_value_ok _ _ _ P) as (c' & -> & _). exists c, c'. split; [reflexivity|]. split; [exact P|]. split; [exact D|exact (G1 _ _ D2)].
  - intros k K y dyn sta static x I s. destruct (S1 _ _ _ I) as (s' & R & I'). cbn in R. destruct (_ || _ || _); [discriminate|]. injection R as <-. fold s in I'.
    assert (IT : In (k, s, read_text r known fuel m s x) (texts m sl)) by exact (in_map _ _ _ I').
    destruct (put_refs_at _ _ _ PRf N' M _ _ _ IT) as (s2 & D2 & (s1 & P1 & P2)). exists s1, s2. split; [exact P1|]. split; [exact P2|exact (G1 _ _ D2)].
  - intros k s D. destruct (G2 _ _ D) as [G|[_ G]]; [left|right; exact G]. rewrite <- KT, <- GK, <- dget_keys. congruence.
Qed.
End Read.

(** ** A node in use *)

Lemma py_eq_type : forall a s v, py_eq (VType a s) v = true -> v = VType a s.
Proof.
  intros a s v H. destruct v; try discriminate. cbn [py_eq] in H. apply andb_true_iff in H. destruct H as [H1 H2]. apply String.eqb_eq in H2. subst.
  destruct a, k; try discriminate; reflexivity.
Qed.
Lemma field_kept : forall known ct ct' v x t, c_ty ct' = c_ty ct -> c_val ct = Some v -> c_val ct' = Some x -> kept_value (c_ty ct) x v ->
  value_field known ct = Ok t -> value_field known ct' = Ok t.
Proof.
  intros known ct ct' v x t T V X K H. unfold value_field in *. rewrite T, X. rewrite V in H. destruct K as [->|[D E]]; [exact H|].
  destruct (c_ty ct) as [| | | | | | | |bs| | |rk d]; try discriminate.
  - destruct bs as [|b bs]; [discriminate|]. injection D as <-. exact (iotype_default known b v t E H).
  - cbn in D. destruct rk; injection D as <-; apply py_eq_type in E; subst; exact H.
Qed.
Lemma from_msg_made : forall tm c, from_msg tm = Some c -> wf_container c /\ (c_static c = true -> fresh c (c_ty c)) /\ c_upd c = false.
Proof.
  intros tm c H. unfold from_msg in H. destruct (read_type _ _ _ _ _) as [t|]; [|discriminate]. destruct (construct_flags _ _ _ _ _ _ H) as (T & _ & _ & W). split; [exact W|]. split.
  - intros S. rewrite T. refine (construct_fresh _ _ _ _ _ H _). unfold construct in H.
    repeat match type of H with (if ?b then _ else _) = _ => destruct b; [discriminate|] end. destruct (_ && _); injection H as <-; exact S.
  - unfold construct in H. repeat match type of H with (if ?b then _ else _) = _ => destruct b; [discriminate|] end. destruct (_ && _); injection H as <-; reflexivity.
Qed.
Lemma put_plain_value : forall c v c', put_value (SPlain c) v = Ok (SPlain c') -> c' = c \/ exists x, c' = fst (set_value c x).
Proof.
  intros c v c' H. unfold put_value in H. destruct (c_static c); [|left; congruence]. destruct v as [| |x]; try discriminate; [left; congruence|]. right. exists x. destruct (set_value c x) as [c1 [o|e|]]; cbn [fst]; congruence.
Qed.
Lemma put_ref_value : forall K y dyn sta static c v K' y' dyn' sta' static' c', put_value (SRef K y dyn sta static (Some c)) v = Ok (SRef K' y' dyn' sta' static' (Some c')) ->
  c' = c \/ exists x, c' = fst (set_value c x).
Proof.
  intros K y dyn sta static c v K' y' dyn' sta' static' c' H. unfold put_value in H. destruct static; [|left; congruence]. destruct v as [| |x]; try discriminate; [left; congruence|]. right. exists x.
  destruct (set_value c x) as [c1 [o|e|]]; cbn [fst]; congruence.
Qed.
Lemma set_same_flags : forall c v, c_ty (fst (set_value c v)) = c_ty c /\ c_dyn (fst (set_value c v)) = c_dyn c /\ c_sta (fst (set_value c v)) = c_sta c /\ c_static (fst (set_value c v)) = c_static c.
Proof. intros c v. split; [exact (cops_keep_ty [CSet v] c)|]. exact (cops_keep_flags [CSet v] c). Qed.
Lemma wf_same : forall c c', c_ty c' = c_ty c -> c_dyn c' = c_dyn c -> c_sta c' = c_sta c -> c_static c' = c_static c -> wf_container c -> wf_container c'.
Proof. intros c c' A B C D. unfold wf_container. rewrite A, B, C, D. auto. Qed.

Section Use.
Variable r : ros.
Variable known : string -> bool.
Variable fuel : nat.
Variables ins outs : smap.
Hypothesis class : is_class ins.

Definition inv (i : smap) : Prop :=
  map fst i = map fst ins /\
  (forall k c, dget k i = Some (SPlain c) -> wf_container c /\ (c_static c = true -> sound_value c)) /\
  (forall k K y dyn sta static c, dget k i = Some (SRef K y dyn sta static (Some c)) ->
     c_dyn c = dyn /\ c_sta c = sta /\ c_static c = static /\ (static = true -> sound_value c) /\
     exists t, sel known i y t /\ c_ty c = ref_type K sta t).

Lemma new_inv : forall l i o, NoDup (map fst l) -> node_from_msg r known fuel ins outs l = Ok (i, o) -> inv i.
Proof.
  intros l i o N H. destruct (from_msg_at r known fuel ins outs l i o N H) as (m & lt & PR & NM & Men & NT & A & B & C).
  pose proof (node_types known _ _ _ _ _ PR NM) as (_ & _ & NTs & _).
  split; [exact NT|]. split.
  - intros k c D. destruct (C k _ D) as [I|(d & Dd & M)].
    + apply in_map_iff in I. destruct I as ([k1 [t1 x1]] & E1 & I). cbn in E1. subst k1. destruct t1 as [tm|K y dyn sta static].
      * destruct (A _ _ _ I) as (c0 & c' & F & P & _ & D'). rewrite D in D'. injection D' as <-. destruct (from_msg_made _ _ F) as (W & Fr & _).
        destruct (put_plain_value _ _ _ P) as [->|[x ->]]; [split; [exact W|intros S; exact (fresh_sound _ _ (Fr S))]|].
        destruct (set_same_flags c0 x) as (F1 & F2 & F3 & F4). split; [exact (wf_same _ _ F1 F2 F3 F4 W)|]. rewrite F4. intros S. apply set_sound. exact (fresh_sound _ _ (Fr S)).
      * destruct (B _ _ _ _ _ _ _ I) as (s1 & s2 & P1 & P2 & D'). exfalso. rewrite D in D'. injection D' as <-.
        destruct P1 as [P1|[_ ->]].
        -- apply set_type_map_ok in P1. destruct P1 as (c1 & -> & _). destruct (put_value_ok _ _ _ P2) as (c' & Q & _). discriminate.
        -- pose proof (put_value_ok _ _ _ P2) as Q. cbn in Q. discriminate.
    + destruct d as [c1|K y dyn sta static i0]; [|destruct M as (t & c2 & _ & M); discriminate]. injection M as <-.
      destruct class as (_ & Cl). destruct (Cl k c (dget_In _ _ _ _ Dd)) as (t & dyn & sta & static & init & E). destruct (construct_flags _ _ _ _ _ _ E) as (T & _ & _ & W).
      split; [exact W|]. intros S v V. rewrite T. split; [exact (construct_shape _ _ _ _ _ _ _ E V)|].
      assert (static = true) as ->.
      { unfold construct in E. repeat match type of E with (if ?b then _ else _) = _ => destruct b; [discriminate|] end.
        destruct init as [x|].
        - destruct (set_value _ x) as [c1 [o1|e|]] eqn:SV; try discriminate.
          destruct (set_keeps _ _ _ _ SV) as (_ & K & _). cbn in K. destruct (_ && _); injection E as <-; cbn in S; congruence.
        - destruct (_ && _); injection E as <-; exact S. }
      exact (construct_good _ _ _ _ _ E v V).
  - intros k K y dyn sta static c D.
    assert (L : exists t, sel known i y t /\ c_ty c = ref_type K sta t /\ c_static c = static).
    { destruct (NTs _ _ D) as (d & _ & Q). destruct d as [c1|K1 y1 d1 d2 d3 d4]; [destruct Q as (c' & Q & _); discriminate|].
      destruct Q as (dyn' & sta' & static' & inner & Q & Q1 & _). injection Q as <- <- <- <- <- <-. exact (Q1 c eq_refl). }
    destruct L as (t & L1 & L2 & L3).
    assert (G : c_dyn c = dyn /\ c_sta c = sta /\ sound_value c).
    { destruct (C k _ D) as [I|(d & Dd & M)].
      - apply in_map_iff in I. destruct I as ([k1 [t1 x1]] & E1 & I). cbn in E1. subst k1. destruct t1 as [tm|K1 y1 dyn1 sta1 static1].
        + destruct (A _ _ _ I) as (c0 & c' & F & P & _ & D'). congruence.
        + destruct (B _ _ _ _ _ _ _ I) as (s1 & s2 & P1 & P2 & D'). rewrite D in D'. injection D' as <-. destruct P1 as [P1|[_ ->]].
          * cbn [set_type_map] in P1. destruct (dget y1 m) as [[ct|]|]; try discriminate. destruct (is_type_container (c_ty ct)); [|discriminate].
            destruct (value_field known ct) as [t1|e|]; try discriminate. destruct (ref_inner K1 dyn1 sta1 static1 t1) as [c1|] eqn:RR; [|discriminate]. injection P1 as <-.
            destruct (put_value_ok _ _ _ P2) as (c' & Q & _). injection Q as -> -> -> -> -> ->.
            destruct (ref_fresh _ _ _ _ _ _ RR) as (F & F1 & F2 & F3). destruct (put_ref_value _ _ _ _ _ _ _ _ _ _ _ _ _ P2) as [->|[x ->]].
            -- split; [exact F1|]. split; [exact F2|exact (fresh_sound _ _ F)].
            -- destruct (set_same_flags c1 x) as (G1 & G2 & G3 & G4). split; [congruence|]. split; [congruence|]. apply set_sound. exact (fresh_sound _ _ F).
          * pose proof (put_value_ok _ _ _ P2) as Q. cbn in Q. discriminate.
      - destruct d as [c1|K1 y1 dyn1 sta1 static1 i0]; [discriminate|]. destruct M as (t1 & c2 & RR & M). injection M as -> -> -> -> -> ->.
        destruct (ref_fresh _ _ _ _ _ _ RR) as (F & F1 & F2 & F3). split; [exact F1|]. split; [exact F2|exact (fresh_sound _ _ F)]. }
    destruct G as (G1 & G2 & G3). split; [exact G1|]. split; [exact G2|]. split; [exact L3|]. split; [auto|]. eauto.
Qed.

Lemma op_inv : forall i k s c ops, inv i -> dget k i = Some s -> holds s c -> (c_static c = true -> existsb sets ops = false) -> inv (dset k (put s (cops_run ops c)) i).
Proof.
  intros i k s c ops (I1 & I2 & I3) D Hs Hn. destruct (cops_keep_flags ops c) as (F1 & F2 & F3). pose proof (cops_keep_ty ops c) as F0.
  assert (Sv : c_static c = true -> sound_value c -> sound_value (cops_run ops c)).
  { intros S Hc v V. rewrite (cops_noset ops c S (Hn S)) in V. rewrite F0. exact (Hc v V). }
  assert (SL : forall y t, sel known i y t -> sel known (dset k (put s (cops_run ops c)) i) y t).
  { intros y t (ct & Dt & Tt & Vt). destruct (String.eqb_spec y k) as [->|Ne].
    - rewrite D in Dt. injection Dt as ->. destruct Hs as [E|(? & ? & ? & ? & ? & E)]; [injection E as ->|discriminate].
      exists (cops_run ops c). rewrite dget_dset_eq. split; [reflexivity|]. rewrite F0. split; [exact Tt|]. unfold value_field in *. rewrite F0.
      rewrite (cops_noset ops c); [exact Vt| |]; [|apply Hn]; destruct (I2 _ _ D) as ((_ & W1 & _ & W2) & _);
        (destruct (c_static c) eqn:S; [reflexivity|]; specialize (W1 (W2 eq_refl)); congruence).
    - exists ct. rewrite dget_dset_ne by exact Ne. auto. }
  split; [|split].
  - rewrite <- I1. assert (K : dget k i <> None) by congruence. clear -K. induction i as [|[a b] q IH]; cbn in *; [congruence|]. destruct (String.eqb_spec k a) as [->|]; cbn; [reflexivity|f_equal; auto].
  - intros k' c' D'. destruct (String.eqb_spec k' k) as [->|Ne]; [|rewrite dget_dset_ne in D' by exact Ne; exact (I2 _ _ D')].
    rewrite dget_dset_eq in D'. injection D' as D'. destruct s as [c0|]; [|discriminate]. cbn in D'. injection D' as <-.
    destruct Hs as [E|(? & ? & ? & ? & ? & E)]; [injection E as ->|discriminate]. destruct (I2 _ _ D) as (W & S). split; [exact (wf_same _ _ F0 F1 F2 F3 W)|].
    rewrite F3. auto.
  - intros k' K y dyn sta static c' D'. destruct (String.eqb_spec k' k) as [->|Ne].
    + rewrite dget_dset_eq in D'. injection D' as D'. destruct s as [|K0 y0 dyn0 sta0 static0 i0]; [discriminate|]. cbn in D'. injection D' as -> -> -> -> -> <-.
      destruct Hs as [E|(? & ? & ? & ? & ? & E)]; [discriminate|injection E as -> -> -> -> -> ->]. destruct (I3 _ _ _ _ _ _ _ D) as (A1 & A2 & A3 & A4 & t & A5 & A6).
      rewrite F0, F1, F2, F3. repeat (split; [assumption|]). split; [intros S; apply Sv; [congruence|auto]|]. eauto.
    + rewrite dget_dset_ne in D' by exact Ne. destruct (I3 _ _ _ _ _ _ _ D') as (A1 & A2 & A3 & A4 & t & A5 & A6). repeat (split; [assumption|]). eauto.
Qed.
Lemma use_inv : forall i, in_use r known fuel ins outs i -> inv i.
Proof. intros i U. induction U as [l i o N H|i k s c ops U IH D Hs Hn]; [exact (new_inv _ _ _ N H)|exact (op_inv _ _ _ _ _ IH D Hs Hn)]. Qed.
End Use.

(** ** set_options *)

Lemma distinct_app : forall A (l m : list A), NoDup l -> NoDup m -> (forall x, In x l -> ~ In x m) -> NoDup (l ++ m).
Proof.
  induction l as [|a l IH]; cbn; intros m Nl Nm D; [exact Nm|]. inversion Nl as [|? ? N1 N2]; subst. constructor.
  - intros I. apply in_app_or in I. destruct I as [I|I]; [exact (N1 I)|exact (D a (or_introl eq_refl) I)].
  - apply IH; auto.
Qed.
Lemma py_dict_distinct : forall A (l : list (string * A)), NoDup (map fst (py_dict l)).
Proof.
  intros A l. unfold py_dict. assert (G : forall (l d : list (string * A)), NoDup (map fst d) -> NoDup (map fst (fold_left (fun d kv => dset (fst kv) (snd kv) d) l d))).
  { clear l. induction l as [|[k v] l IH]; intros d N; [exact N|]. cbn [fold_left fst snd]. apply IH. clear IH l.
    induction d as [|[k1 v1] d IHd]; cbn; [repeat constructor; intros []|]. inversion N as [|? ? N1 N2]; subst. destruct (String.eqb_spec k k1) as [->|Ne]; cbn; [constructor; auto|].
    constructor; [|exact (IHd N2)]. intros I. clear -I N1 Ne. induction d as [|[a b] d IH]; cbn in *; [destruct I as [I|[]]; congruence|].
    destruct (String.eqb k a); cbn in I; tauto. }
  apply G. constructor.
Qed.
Lemma py_dict_in : forall A (l : list (string * A)) k, dget k (py_dict l) <> None -> In k (map fst l).
Proof.
  intros A l k. unfold py_dict. assert (G : forall (l d : list (string * A)), dget k (fold_left (fun d kv => dset (fst kv) (snd kv) d) l d) <> None -> dget k d <> None \/ In k (map fst l)).
  { clear l. induction l as [|[k1 v] l IH]; intros d H; [left; exact H|]. cbn [fold_left fst snd] in H. destruct (IH _ H) as [H1|H1]; [|right; right; exact H1].
    destruct (String.eqb_spec k k1) as [->|Ne]; [right; left; reflexivity|]. rewrite dget_dset_ne in H1 by exact Ne. left; exact H1. }
  intros H. destruct (G l [] H) as [H1|H1]; [cbn in H1; congruence|exact H1].
Qed.

Section Change.
Variable r : ros.
Variable obj : string -> nat -> Prop.
Variable round : spec_float -> spec_float.
Hypothesis classes : sound_classes r obj round.
Hypothesis numbers : sound_numbers r.
Variable known : string -> bool.
Variable fuel : nat.
Variables ins outs : smap.
Hypothesis class : is_class ins.

Lemma old_in : forall given i old, old_inputs r fuel given i = Ok old -> NoDup (map fst i) ->
  NoDup (map fst old) /\ (forall k, In k (map fst old) -> dget k given = None /\ In k (map fst i)) /\
  (forall k s, dget k i = Some s -> dget k given = None -> exists x, write_text r fuel s = Ok x /\ In (k, (write_slot s, x)) old).
Proof.
  intros given. induction i as [|[k0 s0] i IH]; intros old H N; cbn [old_inputs] in H.
  - injection H as <-. split; [constructor|]. split; [intros ? []|discriminate].
  - cbn in N. inversion N as [|? ? N1 N2]; subst. destruct (dget k0 given) as [g|] eqn:G.
    + destruct (IH old H N2) as (A & B & C). split; [exact A|]. split.
      * intros k I. destruct (B k I) as [B1 B2]. split; [exact B1|right; exact B2].
      * intros k s D Dg. cbn in D. destruct (String.eqb_spec k k0) as [->|Ne]; [congruence|]. exact (C k s D Dg).
    + destruct (write_text r fuel s0) as [x|e|] eqn:W; try discriminate. unfold res_map in H. destruct (old_inputs r fuel given i) as [q|e|]; try discriminate. injection H as <-.
      destruct (IH q eq_refl N2) as (A & B & C). split; [cbn; constructor; [|exact A]; intros I; apply N1; exact (proj2 (B _ I))|]. split.
      * intros k [<-|I]; [split; [exact G|left; reflexivity]|]. destruct (B k I) as [B1 B2]. split; [exact B1|right; exact B2].
      * intros k s D Dg. cbn in D. destruct (String.eqb_spec k k0) as [->|Ne]; [injection D as <-; exists x; split; [exact W|left; reflexivity]|].
        destruct (C k s D Dg) as (y & Wy & I). exists y. split; [exact Wy|right; exact I].
Qed.

Variables (req : list io_msg) (i i' o' : smap).
Hypothesis use : in_use r known fuel ins outs i.
Hypothesis done : with_options r known fuel ins outs req i = Ok (i', o').

Lemma options_msg : exists l, NoDup (map fst l) /\ node_from_msg r known fuel ins outs l = Ok (i', o') /\
  (forall k x, dget k (py_dict req) = Some x -> In (k, x) l) /\
  (forall k s, dget k i = Some s -> ~ In k (map fst req) -> exists x, write_text r fuel s = Ok x /\ In (k, (write_slot s, x)) l).
Proof.
  destruct (use_inv r known fuel ins outs class i use) as (I1 & _). assert (Ni : NoDup (map fst i)) by (rewrite I1; exact (proj1 class)).
  pose proof done as H. unfold with_options in H. destruct (old_inputs r fuel (py_dict req) i) as [old|e|] eqn:O; try discriminate.
  destruct (old_in _ _ _ O Ni) as (A & B & C). exists (py_dict req ++ old). split; [|split; [exact H|split]].
  - rewrite map_app. apply distinct_app; [apply py_dict_distinct|exact A|]. intros k J1 J2. destruct (B k J2) as [B1 _]. apply dget_keys in J1. congruence.
  - intros k x D. apply in_or_app. left. exact (dget_In _ _ _ _ D).
  - intros k s D Nk. destruct (C k s D) as (x & W & J); [|exists x; split; [exact W|apply in_or_app; right; exact J]].
    destruct (dget k (py_dict req)) eqn:E; [|reflexivity]. exfalso. apply Nk, (py_dict_in _ req). congruence.
Qed.

Lemma plain_kept : forall m c v x tm, tm = serialize_type c ->
  wf_container c -> complete c -> c_static c = true -> sound_value c -> c_val c = Some v -> storable r obj (c_ty c) v -> serialize_value r fuel c = Ok x ->
  forall c0 c', from_msg tm = Some c0 -> put_value (SPlain c0) (read_text r known fuel m (SPlain c0) x) = Ok (SPlain c') ->
  c_ty c' = c_ty c /\ c_static c' = true /\ exists y, c_val c' = Some y /\ kept_value (c_ty c) y v.
Proof.
  intros m c v x tm -> W (Sh & El) S Sd V St Sv c0 c' F P.
  destruct (read_construct c W Sh El) as (c1 & F1 & Cn & T & D & Sa & Ss). rewrite F in F1. injection F1 as <-.
  pose proof (construct_fresh _ _ _ _ _ Cn S) as Fr. unfold serialize_value in Sv. rewrite V in Sv. destruct (Sd v V) as (Hs & G).
  destruct (ser r fuel (c_ty c) (ModelFields.PVal v)) as [j|e|] eqn:Sj; try discriminate. injection Sv as <-.
  cbn [read_text] in P. unfold decode in P. rewrite T, (back r obj round classes numbers fuel _ v j Hs St Sj) in P.
  destruct (set_fresh _ _ _ Fr G) as (c2 & y & rs & SV & Nr & T2 & D2 & Sa2 & S2 & V2 & K).
  unfold put_value in P. rewrite Ss, S in P. rewrite SV in P. destruct rs as [o1|e|]; [| |congruence]; injection P as <-; (split; [exact T2|]; split; [congruence|]; exists y; auto).
Qed.

(** An input that the request does not mention. *)
Theorem kept_plain : forall k c v, dget k i = Some (SPlain c) -> ~ In k (map fst req) -> c_static c = true -> complete c ->
  c_val c = Some v -> storable r obj (c_ty c) v ->
  exists c' y, dget k i' = Some (SPlain c') /\ c_ty c' = c_ty c /\ c_static c' = true /\ c_val c' = Some y /\ SpecFields.equal_to y v.
Proof.
  intros k c v D Nk S Cm V St. destruct options_msg as (l & N & H & _ & B). destruct (B _ _ D Nk) as (x & Wx & I).
  destruct (from_msg_at r known fuel ins outs l i' o' N H) as (m & lt & _ & _ & _ & _ & A & _). cbn [write_slot] in I.
  destruct (A _ _ _ I) as (c0 & c' & F & P & _ & D'). destruct (use_inv r known fuel ins outs class i use) as (_ & I2 & _). destruct (I2 _ _ D) as (W & Sd).
  destruct (plain_kept [] c v x _ eq_refl W Cm S (Sd S) V St Wx c0 c' F P) as (T & S' & y & V' & K).
  exists c', y. repeat (split; [assumption|]). exact (kept_equal _ _ _ K).
Qed.
Theorem kept_ref : forall k K y dyn sta c v ct vt, dget k i = Some (SRef K y dyn sta true (Some c)) -> ~ In k (map fst req) -> ~ In y (map fst req) ->
  dget y i = Some (SPlain ct) -> complete ct -> c_val ct = Some vt -> storable r obj (c_ty ct) vt ->
  c_val c = Some v -> storable r obj (c_ty c) v ->
  exists c' x, dget k i' = Some (SRef K y dyn sta true (Some c')) /\ c_ty c' = c_ty c /\ c_static c' = true /\ c_val c' = Some x /\ SpecFields.equal_to x v.
Proof.
  intros k K y dyn sta c v ct vt D Nk Ny Dy Cm Vt Stt V St. destruct options_msg as (l & N & H & _ & B).
  destruct (from_msg_at r known fuel ins outs l i' o' N H) as (m & lt & _ & _ & _ & _ & A & A2 & _).
  destruct (use_inv r known fuel ins outs class i use) as (_ & I2 & I3). destruct (I2 _ _ Dy) as (W & Sd).
  destruct (I3 _ _ _ _ _ _ _ D) as (F1 & F2 & F3 & Sdc & t & (ct' & Dt & Tt & Vf) & Tc). rewrite Dy in Dt. injection Dt as <-.
  assert (S : c_static ct = true). { destruct W as (_ & W1 & _ & W2). destruct (c_static ct); [reflexivity|]. specialize (W1 (W2 eq_refl)). congruence. }
  destruct (B _ _ Dy Ny) as (xt & Wxt & It). cbn [write_slot write_text] in It, Wxt. destruct (A _ _ _ It) as (c0 & ct2 & F & P & Dm & Dy').
  destruct (plain_kept [] ct vt xt _ eq_refl W Cm S (Sd S) Vt Stt Wxt c0 ct2 F P) as (T' & S' & xv & V' & Kv).
  pose proof (field_kept known ct ct2 vt xv t T' Vt V' Kv Vf) as Vf'.
  destruct (B _ _ D Nk) as (x & Wx & I). cbn [write_slot write_text] in I, Wx. destruct (A2 _ _ _ _ _ _ _ I) as (s1 & s2 & P1 & P2 & D').
  assert (E : set_type_map known m (SRef K y dyn sta true None) = match ref_inner K dyn sta true t with Some c1 => Ok (SRef K y dyn sta true (Some c1)) | None => Raise end).
  { cbn [set_type_map]. rewrite Dm, T', Tt, Vf'. reflexivity. }
  destruct (ref_inner K dyn sta true t) as [c1|] eqn:RR; [|destruct P1 as [P1|[[e P1] _]]; congruence].
  destruct P1 as [P1|[[e P1] _]]; [|congruence]. rewrite E in P1. injection P1 as <-.
  destruct (ref_fresh _ _ _ _ _ _ RR) as (Fr & G1 & G2 & G3). destruct (Sdc eq_refl v V) as (Hs & G).
  unfold serialize_value in Wx. rewrite V in Wx. destruct (ser r fuel (c_ty c) (ModelFields.PVal v)) as [j|e|] eqn:Sj; try discriminate. injection Wx as <-.
  cbn [read_text] in P2. rewrite E in P2. unfold decode in P2. destruct Fr as (Ft & Fu & Fv).
  rewrite Ft, <- Tc, (back r obj round classes numbers fuel _ v j Hs St Sj) in P2. rewrite <- Tc in *.
  destruct (set_fresh c1 (c_ty c) v (conj Ft (conj Fu Fv)) G) as (c2 & w & rs & SV & Nr & T2 & D2 & Sa2 & S2 & V2 & K2).
  unfold put_value in P2. rewrite SV in P2. exists c2, w. destruct rs as [o1|e|]; [| |congruence]; injection P2 as <-;
    (split; [exact D'|]; split; [exact T2|]; split; [congruence|]; split; [exact V2|exact (kept_equal _ _ _ K2)]).
Qed.

(** An input that the request mentions, with a value that its type accepts. *)
Theorem given_taken : forall k it j s u v, dget k (py_dict req) = Some (it, Some j) -> dget k i' = Some s -> slot_type s = Some u ->
  (forall c, holds s c -> c_static c = true) ->
  check u v = Ok v -> storable r obj u v -> ser r fuel u (ModelFields.PVal v) = Ok j ->
  exists c x, holds s c /\ c_ty c = u /\ c_val c = Some x /\ SpecFields.equal_to x v.
Proof.
  intros k it j s u v D Ds Ts Sts Hc St Sj. destruct options_msg as (l & N & H & B & _). specialize (B _ _ D).
  destruct (from_msg_at r known fuel ins outs l i' o' N H) as (m & lt & _ & _ & _ & _ & A & A2 & _).
  assert (Hs : shape u v) by (apply admits_shape; eapply check_admits; eauto).
  destruct it as [tm|K y dyn sta static].
  - destruct (A _ _ _ B) as (c0 & c' & F & P & _ & D'). rewrite Ds in D'. injection D' as ->. cbn in Ts. injection Ts as Ts. specialize (Sts c' (or_introl eq_refl)).
    destruct (put_value_ok _ _ _ P) as (c1 & Q & T1 & S1). injection Q as <-. destruct (from_msg_made _ _ F) as (_ & Fr & _).
    rewrite S1 in Sts. specialize (Fr Sts). assert (Tu : c_ty c0 = u) by congruence. rewrite Tu in Fr. destruct (set_fresh c0 u v Fr (or_introl Hc)) as (c2 & w & rs & SV & Nr & T2 & D2 & Sa2 & S2 & V2 & K2).
    cbn [read_text] in P. unfold decode in P. rewrite Tu, (back r obj round classes numbers fuel _ v j Hs St Sj) in P. unfold put_value in P. rewrite Sts, SV in P.
    exists c', w. split; [left; reflexivity|]. split; [congruence|]. destruct rs as [o1|e|]; [| |congruence]; injection P as <-; (split; [exact V2|exact (kept_equal _ _ _ K2)]).
  - destruct (A2 _ _ _ _ _ _ _ B) as (s1 & s2 & P1 & P2 & D'). rewrite Ds in D'. injection D' as <-. destruct P1 as [P1|[_ ->]].
    + pose proof P1 as E. cbn [set_type_map] in P1. destruct (dget y m) as [[ct|]|]; try discriminate. destruct (is_type_container (c_ty ct)); [|discriminate].
      destruct (value_field known ct) as [t1|e|]; try discriminate. destruct (ref_inner K dyn sta static t1) as [c1|] eqn:RR; [|discriminate]. injection P1 as <-.
      destruct (put_value_ok _ _ _ P2) as (c' & -> & T1 & S1). cbn in Ts. injection Ts as Ts. destruct (ref_fresh _ _ _ _ _ _ RR) as (Fr & G1 & G2 & G3).
      specialize (Sts c' ltac:(right; repeat eexists)). assert (static = true) as -> by congruence.
      destruct Fr as (Ft & Fu & Fv). assert (Tu : c_ty c1 = u) by congruence. rewrite <- Ft, Tu in Fv.
      destruct (set_fresh c1 u v (conj Tu (conj Fu Fv)) (or_introl Hc)) as (c2 & w & rs & SV & Nr & T2 & D2 & Sa2 & S2 & V2 & K2).
      cbn [read_text] in P2. rewrite E in P2. unfold decode in P2. rewrite Tu, (back r obj round classes numbers fuel _ v j Hs St Sj) in P2. unfold put_value in P2. rewrite SV in P2.
      exists c', w. split; [right; repeat eexists|]. split; [congruence|]. destruct rs as [o1|e|]; [| |congruence]; injection P2 as <-; (split; [exact V2|exact (kept_equal _ _ _ K2)]).
    + pose proof (put_value_ok _ _ _ P2) as Q. cbn in Q. subst s. discriminate.
Qed.
End Change.

(** A dictionary that cannot be written stops every change. *)
Theorem stuck : forall r obj known fuel ins outs req i k s c elt so ml st d res, is_class ins -> in_use r known fuel ins outs i ->
  dget k i = Some s -> holds s c -> ~ In k (map fst req) ->
  c_ty c = TDict elt so ml st -> ~ text_type elt -> c_val c = Some (VDict d) -> shape (c_ty c) (VDict d) -> storable r obj (c_ty c) (VDict d) -> d <> [] ->
  with_options r known fuel ins outs req i <> Ok res.
Proof.
  intros r obj known fuel ins outs req i k s c elt so ml st d [i' o'] Cl U D Hs Nk T Nt V Sh St Ne H.
  destruct (options_msg r known fuel ins outs Cl req i i' o' U H) as (l & _ & _ & _ & B). destruct (B _ _ D Nk) as (x & W & _).
  assert (W' : serialize_value r fuel c = Ok x) by (destruct Hs as [->|(? & ? & ? & ? & ? & ->)]; exact W).
  unfold serialize_value in W'. rewrite V, T in W'. rewrite T in Sh, St. destruct (ser r fuel (TDict elt so ml st) (ModelFields.PVal (VDict d))) as [j|e|] eqn:E; try discriminate.
  exact (dict_raises r obj fuel elt so ml st d j Nt Sh St Ne E).
Qed.
Lemma checked_shape : forall t v, check t v = Ok v -> shape t v.
Proof. intros t v H. apply admits_shape. eapply check_admits; eauto. Qed.
