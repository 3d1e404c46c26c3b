(** Proofs for C93 and C94. *)
From Coq Require Import String ZArith Bool SpecFloat Arith Lia List.
From Verif Require Import Base ModelData ModelEdit ModelUtility ModelTree ModelLeaf ModelDataLeaf SpecData SpecLeaf SpecDataLeaf.
From Verif Require Import ProofsData ProofsLeaf ProofsDataLeaf ProofsDataRefs ProofsDataClass ProofsDataMore.
From Verif Require Import ModelParam SpecParam.
Import ListNotations.
Local Open Scope string_scope.
Local Open Scope list_scope.

Lemma tick_kept : forall X n name (f : leafcode X) (w w' : world X) x' k v s c r, executes n w = true ->
  f OTick (w_st w n) (w_ins w n) (w_ext w) = (x', [(k, v)], Ok s) ->
  dget k (w_outs w n) = Some c -> (forall v', check (c_ty c) v <> Ok v') ->
  call OTick (the_leaf f n name) w = (w', r) -> refuses n k w w' r.
Proof.
  intros X n name f w w' x' k v s c r EX F D CK C. destruct (check (c_ty c) v) as [v'|e|] eqn:K; [destruct (CK v'); auto| |].
  - destruct (tick_refused n f name w x' k v s c e EX F D K w' r C) as (A & B & O).
    split; [left; auto|]. exists c, (reset_updated c). auto.
  - rewrite (tick_eq n f name w EX) in C. unfold leaf_act in C. cbn -[state_in map_io out_set] in C. rewrite F in C.
    assert (DM : dget k (map_io reset_updated (w_outs w n)) = Some (reset_updated c)) by (rewrite dget_map_io, D; auto).
    cbn -[state_in map_io] in C. unfold out_set in C. cbn -[state_in map_io] in C. rewrite upd_same, DM in C.
    assert (SV : set_value (reset_updated c) v = (reset_updated c, Raise)) by (unfold set_value; cbn; rewrite K; auto).
    rewrite SV in C. cbn -[state_in map_io] in C. injection C as <- <-. split; [right; auto|].
    exists c, (reset_updated c). cbn. rewrite !upd_same. rewrite dget_dset_eq. auto.
Qed.

(** What a type input with a restricted list of types can name. *)
Lemma built_type : forall X known ins outs (f : leafcode X) n name w k r dyn sta static i c0 l0 c,
  NoDup (map fst ins) -> NoDup (map fst outs) -> (forall k c, dget k outs = Some (SPlain c) -> c_upd c = false) ->
  built known ins outs f n name w ->
  dget k outs = Some (SRef RefItem r dyn sta static i) -> dget r ins = Some (SPlain c0) -> c_ty c0 = TGeneric l0 ->
  dget k (w_outs w n) = Some c ->
  exists l v, incl l l0 /\ describes l v /\ names known v (c_ty c).
Proof.
  intros X known ins outs f n name w k r dyn sta static i0 c0 l0 cw NI NO FO (msg & si & so & i & o & PM & NM & CI & CO & FI & LI) DK DR E0 DW.
  destruct (node_types known _ _ _ _ _ PM NM) as (K1 & K2 & A & B).
  destruct (containers_get _ _ CI) as (K3 & C1 & C2). destruct (containers_get _ _ CO) as (K4 & C3 & C4).
  assert (DO : NoDup (map fst o)) by (rewrite K4, K2; auto).
  assert (IV : inv n i o w).
  { refine (life_inv n i o f name FI _ _ w LI); [|rewrite K3, K1; auto].
    intros k' c J. apply (In_dget _ _ _ _ DO) in J. destruct (C3 _ _ J) as (s & D & E). destruct (B _ _ D) as (d & D0 & R).
    destruct d as [c1|]; [destruct R as (c' & -> & _ & S1 & U)|destruct R as (c' & -> & U & t & _ & _ & S1)].
    - subst c'. split; [auto|]. rewrite U. eauto.
    - injection E as <-. auto. }
  destruct IV as [_ FB].
  assert (NN : dget k so <> None) by (apply (proj2 (dget_keys _ so k)); rewrite K2; apply (proj1 (dget_keys _ outs k)); rewrite DK; discriminate).
  destruct (dget k so) as [s|] eqn:DS; [|congruence]. destruct (B _ _ DS) as (d' & D' & R). rewrite DK in D'. injection D' as <-.
  destruct R as (c' & -> & _ & t & S1 & Q & _). cbn in Q.
  destruct (C4 _ _ DS) as (c & DC & E). injection E as <-.
  destruct (proj1 (all2_dget _ _ _ k (fun a b (R : okout a b) => proj1 R) FB) _ DC) as (c1 & D1 & (_ & E1 & _)).
  cbn in E1. rewrite DW in D1. injection D1 as <-. rewrite E1, Q.
  destruct S1 as (ct & DT & TC & V). destruct (A _ _ DT) as (d2 & D2 & R2). rewrite DR in D2. injection D2 as <-.
  destruct R2 as (c2 & [= <-] & R2).
  assert (G : exists l, c_ty ct = TGeneric l /\ incl l l0).
  { destruct R2 as [->|R2]; [exists l0; split; [auto|apply incl_refl]|]. rewrite E0 in R2.
    destruct (c_ty ct); try discriminate TC; try discriminate R2. exists valid. split; [auto|]. intros x J. cbn [ty_compat] in R2.
    rewrite forallb_forall in R2. specialize (R2 x J). apply existsb_exists in R2. destruct R2 as (y & Y & EQ).
    destruct x, y; try discriminate EQ; exact Y. }
  destruct G as (l & GT & GI). destruct (C2 _ _ DT) as (c3 & D3 & E3). cbn in E3. subst c3.
  destruct (value_field_selects known ct t TC V) as [(c4 & v & [= <-] & V4 & NM4) _]. rewrite GT in NM4.
  exists l, v. split; [exact GI|]. split; [|exact NM4].
  destruct (FI _ _ _ D3 V4) as [AD _]. rewrite GT in AD. exact AD.
Qed.

(** Without str, dict and object, no type takes a text. *)
Lemma no_text : forall known l v, describes l v -> ~ In BStr l -> ~ In BDict l -> ~ In BObject l ->
  forall t, iotype_of known v = Ok t -> forall u, textual u -> ~ admits t u.
Proof.
  intros known l v D N1 N2 N3. induction D as [d b i IN DI (j & DJ & PJ) SK REC IH]. intros t H u TX.
  rewrite iotype_step in H. rewrite DI in H.
  assert (HI : forall b', has_id b' i = has_id b' j).
  { intros b'. assert (Z : exists z, j = VInt z) by (destruct b; cbn in DJ; injection DJ as <-; eauto). destruct Z as [z ->]. apply has_id_as. exact PJ. }
  unfold step_io in H. rewrite !HI in H.
  destruct b; try (exfalso; auto; fail); cbn in DJ; injection DJ as <-; cbn -[iotype_of admits dget] in H.
  - injection H as <-. intros (b & E). subst. inversion TX.
  - destruct (dget "min_value" d) as [[]|]; try discriminate. destruct (dget "max_value" d) as [[]|]; try discriminate.
    destruct (Z.leb _ _); [|discriminate]. injection H as <-. intros (z' & IZ & _). inversion TX; subst; inversion IZ.
  - destruct (dget "min_value" d) as [[]|]; try discriminate. destruct (dget "max_value" d) as [[]|]; try discriminate.
    destruct (SFltb _ _); [discriminate|]. injection H as <-. intros (z' & IZ & _). inversion TX; subst; inversion IZ as [|? ? ? IZ0]; subst; inversion IZ0.
  - destruct (dget "max_length" d) as [[]|]; try discriminate. injection H as <-. intros (s & -> & _). inversion TX.
  - destruct (dget ELEMENT_KEY d) as [x|] eqn:DE; [|discriminate].
    destruct (iotype_of known x) as [e|e|] eqn:IX; [|discriminate|destruct (dget "max_length" d) as [[]|]; discriminate].
    destruct (dget "max_length" d) as [[]|]; try discriminate. destruct (dget "strict_length" d) as [[]|]; try discriminate.
    injection H as <-. intros (l0 & -> & _ & AL). inversion TX as [|l1 y Y TY]; subst.
    exact (IH x eq_refl e IX y TY (AL y Y)).
Qed.

Section Param.
Variables (known : string -> bool) (n : nid) (name : string).
Theorem param_ticks : forall (w w' : world params) r, ticks known param_ins param_outs param_leaf n name w w' r ->
  exists s, value_at (w_ins w n) "param_name" (VStr s) /\
    match dget s (w_ext w) with
    | None => r = Ok FAILED /\ nothing_written n w w'
    | Some None => exists v, value_at (w_ins w n) "default_value" v /\ r = Ok SUCCEEDED /\ written n "param" v w w'
    | Some (Some v) => exists c, dget "param" (w_outs w n) = Some c /\
        (admits (c_ty c) v -> r = Ok SUCCEEDED /\ written n "param" v w w') /\
        (~ admits (c_ty c) v -> refuses n "param" w w' r)
    end.
Proof.
  intros w w' r H. start H.
  destruct (in_str _ _ n w T F EX "param_name" _ eq_refl (ex_intro _ None eq_refl)) as (s & A1 & V1 & _).
  destruct (in_item _ _ n w T F EX "default_value" _ _ _ _ _ eq_refl) as (t2 & v2 & A2 & V2 & T2 & S2 & _).
  destruct (out_ref _ _ n w T F "param" _ _ _ _ _ _ eq_refl) as (c & t & D & T3 & E & [BP _]). cbn in E.
  rewrite (T_fun _ _ n w T F _ _ _ T2 T3) in S2.
  assert (G : param_tick (w_ext w) (w_ins w n) = match dget s (w_ext w) with
    | None => ([], Ok FAILED) | Some None => put_out "param" v2 | Some (Some v) => put_out "param" v end).
  { unfold param_tick. rewrite V1. cbn [get]. destruct (dget s (w_ext w)) as [[v|]|]; auto. rewrite V2. reflexivity. }
  exists s. split; [auto|]. destruct (dget s (w_ext w)) as [[v|]|] eqn:P.
  - exists c. split; [auto|]. split.
    + intros AD. refine (ran_one param_tick n name i o w w' r "param" v c IV ND R C G D _ AD). rewrite E. auto.
    + intros NA. refine (tick_kept _ n name param_leaf w w' (w_ext w) "param" v SUCCEEDED c r EX _ D _ C).
      * cbn. rewrite G. reflexivity.
      * intros v' CK. apply NA. exact (proj1 (check_admits _ _ _ CK)).
  - exists v2. split; [auto|]. refine (ran_one param_tick n name i o w w' r "param" v2 c IV ND R C G D _ _); rewrite E; auto.
  - destruct (tick_ok n i o param_leaf name ND w (w_ext w) [] FAILED IV R) with (w' := w') (r := r) as (ER & _ & _ & W); auto.
    + cbn. rewrite G. reflexivity.
    + cbn; auto.
    + constructor.
    + intros k v [].
    + split; [auto|]. intros k c' DK. apply W; [exact DK|intros []].
Qed.
Theorem param_text : forall (w w' : world params) r s v, ticks known param_ins param_outs param_leaf n name w w' r ->
  value_at (w_ins w n) "param_name" (VStr s) -> dget s (w_ext w) = Some (Some v) -> textual v -> refuses n "param" w w' r.
Proof.
  intros w w' r s v H V P TX. destruct (param_ticks w w' r H) as (s' & V' & M).
  assert (K := value_at_fun _ _ _ _ V V'). injection K as <-. rewrite P in M. destruct M as (c & D & _ & M). apply M.
  destruct H as (B & _ & _).
  destruct (built_type _ known param_ins param_outs param_leaf n name w "param" "param_type" _ _ _ _ _ param_types c
    ltac:(nodup) ltac:(nodup) ltac:(fresh_outs) B eq_refl eq_refl eq_refl D) as (l & d & I & DS & NM).
  refine (no_text known l d DS _ _ _ (c_ty c) (names_iotype _ _ _ NM) v TX); intros J; apply I in J; cbn in J; intuition discriminate.
Qed.
Theorem time_ticks : forall (w w' : world nat) r, ticks known [] time_outs time_leaf n name w w' r ->
  r = Ok SUCCEEDED /\ written n "current_time" (VMsg "builtin_interfaces/msg/Time" (w_ext w)) w w'.
Proof.
  intros w w' r H. start H. destruct (out_plain _ _ n w T F "current_time" _ eq_refl) as (c & D & E). cbn in E.
  refine (ran_one time_tick n name i o w w' r "current_time" _ c IV ND R C eq_refl D _ _); rewrite E; [exact I|]. cbn. eauto.
Qed.
End Param.

Lemma enum_none : forall known base cs, cs <> [] -> enum_config known base cs = None.
Proof. intros known base [|[f v] cs] N; [congruence|]. reflexivity. Qed.
Lemma enum_empty : forall known base, exists cfg, enum_config known base [] = Some cfg /\ f_outs cfg = f_outs base.
Proof.
  intros known base. unfold enum_config, ModelFields.build. cbn. unfold extend. cbn [f_max f_ins f_outs].
  assert (M : opt_nat_eqb (f_max base) (f_max base) = true) by (destruct (f_max base); [apply Nat.eqb_refl|reflexivity]).
  rewrite M. cbn. eexists. split; [reflexivity|]. reflexivity.
Qed.
