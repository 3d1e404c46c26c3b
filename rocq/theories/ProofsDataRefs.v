(** Proofs about reference types: the types of a node created from a message. *)
From Coq Require Import String Ascii ZArith Bool SpecFloat Arith Lia List.
From Verif Require Import Base ModelData ModelUtility ModelTree ModelLeaf ModelDataLeaf SpecData SpecLeaf SpecDataLeaf.
From Verif Require Import ProofsData ProofsLeaf ProofsDataLeaf.
Import ListNotations.
Local Open Scope string_scope.
Local Open Scope list_scope.

Lemma dget_keys : forall A (l : list (string * A)) k, dget k l <> None <-> In k (map fst l).
Proof.
  intros A l k. induction l as [|[k1 x] l IH]; cbn; [intuition|]. destruct (String.eqb_spec k k1) as [->|N]; [split; [auto|discriminate]|].
  rewrite IH. intuition congruence.
Qed.

Section Refs.
Variable known : string -> bool.

Definition elem (d : list (string * value)) : res ctype :=
  (fix element (l : list (string * value)) : res ctype :=
     match l with
     | [] => Err EData
     | (k, x) :: r => if String.eqb ELEMENT_KEY k then iotype_of known x else element r
     end) d.
Lemma elem_dget : forall d, elem d = match dget ELEMENT_KEY d with Some x => iotype_of known x | None => Err EData end.
Proof. induction d as [|[k x] d IH]; cbn [elem dget]; auto. destruct (String.eqb ELEMENT_KEY k); auto. Qed.

(** One step of iotype_of. *)
Definition step_io (rec : value -> res ctype) (d : list (string * value)) (i : value) : res ctype :=
  if has_id BObject i then
    match dget MESSAGE_KEY d with
    | None => Err EData
    | Some (VStr s) => if known s then Ok (TRosMsg s 0) else Raise
    | Some _ => Raise
    end
  else if has_id BBool i then Ok TBool
  else if has_id BInt i then
    match dget "min_value" d, dget "max_value" d with
    | Some (VInt a), Some (VInt b) => if Z.leb a b then Ok (TInt a b) else Raise
    | _, _ => Raise
    end
  else if has_id BFloat i then
    match dget "min_value" d, dget "max_value" d with
    | Some (VFloat a), Some (VFloat b) => if SFltb b a then Raise else Ok (TFloat a b)
    | _, _ => Raise
    end
  else if has_id BStr i then
    match dget "max_length" d with Some (VInt n) => Ok (TStr n None) | _ => Raise end
  else if has_id BBytes i then
    match dget "max_length" d with Some (VInt n) => Ok (TBytes n None) | _ => Raise end
  else if has_id BList i || has_id BDict i then
    match (match dget ELEMENT_KEY d with Some x => rec x | None => Err EData end), dget "max_length" d, dget "strict_length" d with
    | Ok e, Some (VInt n), Some (VBool s) => Ok (if has_id BList i then TList e true n s else TDict e true n s)
    | Err x, _, _ => Err x
    | _, _, _ => Raise
    end
  else Err EData.
Lemma iotype_step : forall d, iotype_of known (VDict d) =
  match dget IDENTIFIER_KEY d with None => Err EData | Some i => step_io (iotype_of known) d i end.
Proof.
  intros d. unfold step_io. rewrite <- elem_dget. reflexivity.
Qed.

Lemma has_id_num : forall b i, has_id b i = true -> exists z, dget IDENTIFIER_KEY (generic_map b) = Some (VInt z) /\ py_eq (VInt z) i = true.
Proof. intros b i H. unfold has_id in H. destruct b; cbn in *; eauto. Qed.
Lemma py_eq_num : forall a b i, py_eq (VInt a) i = true -> py_eq (VInt b) i = Z.eqb b a.
Proof.
  intros a b i H. destruct i; cbn in H |- *; try discriminate.
  - apply Z.eqb_eq in H. subst. destruct b0; reflexivity.
  - apply Z.eqb_eq in H. subst. reflexivity.
  - destruct (Z.eqb_spec b a) as [->|N]; [exact H|]. destruct (Z_eq_float b f) eqn:E; auto.
    destruct N. eapply Z_eq_float_inj; eauto.
Qed.
Lemma has_id_as : forall b a i, py_eq (VInt a) i = true -> has_id b i = has_id b (VInt a).
Proof. intros b a i H. unfold has_id. destruct b; cbn [generic_map dget]; rewrite String.eqb_refl; rewrite (py_eq_num _ _ _ H); reflexivity. Qed.

(** A type named by a dictionary has no options and is no type container. *)
Definition tame (t : ctype) : Prop := bytes_plain t /\ is_type_container t = false.

Ltac pick NE b H := let HB := fresh "HB" in let z := fresh "z" in let DZ := fresh "DZ" in
  destruct (has_id b _) eqn:HB; [destruct (NE b HB) as (z & DZ & NZ); cbn in DZ; injection DZ as <-|].
Lemma iotype_names : forall v t, iotype_of known v = Ok t -> names known v t /\ tame t.
Proof.
  intros v. pattern v. apply value_ind'; clear v.
  - intros l _ t H. discriminate.
  - intros d HF t H. rewrite iotype_step in H. destruct (dget IDENTIFIER_KEY d) as [i|] eqn:Ei; [|discriminate].
    assert (REC : forall x e, dget ELEMENT_KEY d = Some x -> iotype_of known x = Ok e -> names known x e /\ tame e).
    { intros x e D. apply dget_In in D. rewrite Forall_forall in HF. exact (HF _ D e). }
    clear HF. unfold step_io in H.
    assert (NE : forall b, has_id b i = true -> exists z, dget IDENTIFIER_KEY (generic_map b) = Some (VInt z) /\
      (forall t0, names known (VDict (dset IDENTIFIER_KEY (VInt z) d)) t0 -> names known (VDict d) t0)).
    { intros b Hb. destruct (has_id_num _ _ Hb) as (z & D & P). exists z. split; [auto|]. intros t0 N0. eapply names_eq; eauto. }
    assert (DE : forall (x : value), dget "type_identifier" (dset IDENTIFIER_KEY x d) = Some x) by (intros; apply dget_dset_eq).
    assert (DN : forall (x : value) k, k <> IDENTIFIER_KEY -> dget k (dset IDENTIFIER_KEY x d) = dget k d) by (intros; apply dget_dset_ne; auto).
    pick NE BObject H.
    { destruct (dget MESSAGE_KEY d) as [[]|] eqn:D; try discriminate. destruct (known s) eqn:K; [|discriminate]. injection H as <-.
      split; [|split; cbn; auto]. apply NZ. eapply names_msg; eauto. rewrite DN by discriminate. exact D. }
    pick NE BBool H.
    { injection H as <-. split; [|split; cbn; auto]. apply NZ. apply names_bool; auto. }
    pick NE BInt H.
    { destruct (dget "min_value" d) as [[]|] eqn:D1; try discriminate. destruct (dget "max_value" d) as [[]|] eqn:D2; try discriminate.
      destruct (Z.leb z z0) eqn:L; [|discriminate]. injection H as <-. split; [|split; cbn; auto]. apply NZ.
      apply names_int; auto; [rewrite DN by discriminate; auto|rewrite DN by discriminate; auto|apply Z.leb_le; auto]. }
    pick NE BFloat H.
    { destruct (dget "min_value" d) as [[]|] eqn:D1; try discriminate. destruct (dget "max_value" d) as [[]|] eqn:D2; try discriminate.
      destruct (SFltb f0 f) eqn:L; [discriminate|]. injection H as <-. split; [|split; cbn; auto]. apply NZ.
      apply names_float; auto; rewrite DN by discriminate; auto. }
    pick NE BStr H.
    { destruct (dget "max_length" d) as [[]|] eqn:D1; try discriminate. injection H as <-. split; [|split; cbn; auto]. apply NZ.
      apply names_str; auto; rewrite DN by discriminate; auto. }
    pick NE BBytes H.
    { destruct (dget "max_length" d) as [[]|] eqn:D1; try discriminate. injection H as <-. split; [|split; cbn; auto]. apply NZ.
      apply names_bytes; auto; rewrite DN by discriminate; auto. }
    destruct (has_id BList i || has_id BDict i) eqn:LD; [|discriminate].
    destruct (dget ELEMENT_KEY d) as [x|] eqn:D0; [|discriminate].
    destruct (iotype_of known x) as [e|e|] eqn:IX; [|discriminate|destruct (dget "max_length" d) as [[]|]; discriminate].
    destruct (dget "max_length" d) as [[]|] eqn:D1; try discriminate. destruct (dget "strict_length" d) as [[]|] eqn:D2; try discriminate.
    destruct (REC _ _ eq_refl IX) as [N0 [T0 _]]. injection H as <-.
    pick NE BList H.
    { split; [|split; cbn; auto]. apply NZ.
      eapply names_list; eauto; rewrite DN by discriminate; eauto. }
    cbn [orb] in LD. destruct (NE BDict LD) as (z0 & DZ & NZ). cbn in DZ. injection DZ as <-.
    split; [|split; cbn; auto]. apply NZ. eapply names_dict; eauto; rewrite DN by discriminate; eauto.
  - intros v NL ND t H. destruct v; try discriminate. destruct (ND d eq_refl).
Qed.

Lemma names_iotype : forall v t, names known v t -> iotype_of known v = Ok t.
Proof.
  intros v t H. induction H as [d D|d a b D A B L|d a b D A B L|d n D A|d n D A|d e n s x D A B C N IH|d e n s x D A B C N IH|d s D A K|d i z t D P N IH];
    rewrite iotype_step; change IDENTIFIER_KEY with "type_identifier"; rewrite D; unfold step_io.
  1-8: cbn [has_id generic_map dget]; repeat (rewrite String.eqb_refl); cbn [py_eq].
  - reflexivity.
  - cbn. rewrite A, B. apply Z.leb_le in L. rewrite L. reflexivity.
  - cbn. rewrite A, B, L. reflexivity.
  - cbn. rewrite A. reflexivity.
  - cbn. rewrite A. reflexivity.
  - cbn. change (dget ELEMENT_KEY d) with (dget "element_type" d). rewrite C, IH, A, B. reflexivity.
  - cbn. change (dget ELEMENT_KEY d) with (dget "element_type" d). rewrite C, IH, A, B. reflexivity.
  - cbn. change (dget MESSAGE_KEY d) with (dget "ros_msg_type" d). rewrite A, K. reflexivity.
  - rewrite iotype_step in IH. change IDENTIFIER_KEY with "type_identifier" in IH. rewrite dget_dset_eq in IH.
    unfold step_io in IH. rewrite !dget_dset_ne in IH by discriminate. rewrite !(has_id_as _ _ _ P). exact IH.
Qed.

(** ** Resolution *)
(** The type that the input [r] names. *)
Definition sel (i : smap) (r : string) (t : ctype) : Prop :=
  exists ct, dget r i = Some (SPlain ct) /\ is_type_container (c_ty ct) = true /\ value_field known ct = Ok t.

(** The slot [s] is a reference that has been resolved against [m]. *)
Definition resolved (m : smap) (K : refkind) (r : string) (sta static : bool) (c : container) : Prop :=
  exists ct t, dget r m = Some (SPlain ct) /\ is_type_container (c_ty ct) = true /\ value_field known ct = Ok t /\
    c_ty c = ref_type K sta t /\ c_static c = static.

Lemma ref_inner_ok : forall K dyn sta static t c, ref_inner K dyn sta static t = Some c ->
  c_ty c = ref_type K sta t /\ c_static c = static /\ c_upd c = false.
Proof.
  intros K dyn sta static t c H. unfold ref_inner in H. destruct (construct (ref_type K sta t) true true None None) as [d|] eqn:E; [|discriminate].
  injection H as <-. cbn. destruct (construct_flags _ _ _ _ _ _ E) as [-> _]. split; [auto|split; [auto|]].
  unfold construct in E. repeat match type of E with (if ?b then _ else _) = _ => destruct b; [discriminate|] end.
  destruct (_ && _); injection E as <-; reflexivity.
Qed.
Lemma set_type_map_ok : forall m s s', set_type_map known m s = Ok s' ->
  match s with
  | SPlain _ => s' = s
  | SRef K r dyn sta static _ => exists c, s' = SRef K r dyn sta static (Some c) /\ resolved m K r sta static c /\ c_upd c = false
  end.
Proof.
  intros m [c|K r dyn sta static inner] s' H; cbn in H; [congruence|].
  destruct (dget r m) as [[ct|]|] eqn:D; try discriminate. destruct (is_type_container (c_ty ct)) eqn:T; [|discriminate].
  destruct (value_field known ct) as [t|e|] eqn:V; try discriminate. destruct (ref_inner K dyn sta static t) as [i|] eqn:R; [|discriminate].
  injection H as <-. exists i. destruct (ref_inner_ok _ _ _ _ _ _ R) as (A & B & C). split; [auto|]. split; [|auto]. exists ct, t. auto 6.
Qed.
Lemma set_type_map_err : forall m K r dyn sta static i e, set_type_map known m (SRef K r dyn sta static i) = Err e -> forall t, ~ sel m r t.
Proof.
  intros m K r dyn sta static i e H t (ct & D & T & V). cbn in H. rewrite D, T, V in H. destruct (ref_inner _ _ _ _ _); discriminate.
Qed.
Lemma resolve_ok : forall m skip l l', resolve known m skip l = Ok l' -> map fst l' = map fst l /\
  (forall k s', dget k l' = Some s' -> exists s, dget k l = Some s /\ (if skip k then s' = s else set_type_map known m s = Ok s')) /\
  (forall k s, dget k l = Some s -> exists s', dget k l' = Some s').
Proof.
  intros m skip l. induction l as [|[k s] l IH]; intros l' H; cbn [resolve] in H.
  - injection H as <-. split; [auto|]. split; cbn; intros; discriminate.
  - destruct (if skip k then Ok s else set_type_map known m s) as [s1|e|] eqn:E; try discriminate.
    destruct (resolve known m skip l) as [l1|e|] eqn:R; try discriminate. injection H as <-.
    destruct (IH _ eq_refl) as (A & B & C). split; [cbn; congruence|]. split; intros k0 s0 D; cbn in D |- *;
      destruct (String.eqb_spec k0 k) as [->|N]; eauto.
    injection D as <-. exists s. split; [auto|]. destruct (skip k); congruence.
Qed.
Lemma replace_ok : forall given ins ins2, NoDup (map fst given) -> replace_inputs given ins = Ok ins2 -> map fst ins2 = map fst ins /\
  (forall k s, dget k given = Some s -> dget k ins2 = Some s /\ exists t, dget k ins = Some t /\ slot_compat t s = true) /\
  (forall k, dget k given = None -> dget k ins2 = dget k ins).
Proof.
  induction given as [|[k s] given IH]; intros ins ins2 N H; cbn [replace_inputs] in H.
  - injection H as <-. split; [auto|]. split; cbn; intros; [discriminate|auto].
  - cbn in N. inversion N as [|? ? N1 N2]; subst. destruct (dget k ins) as [t|] eqn:D; [|discriminate].
    destruct (slot_compat t s) eqn:SC; [|discriminate]. destruct (IH _ _ N2 H) as (A & B & C).
    assert (KD : map fst (dset k s ins) = map fst ins).
    { clear - D. induction ins as [|[k1 s1] ins IH]; cbn in *; [discriminate|]. destruct (String.eqb_spec k k1) as [->|]; cbn; [auto|]. rewrite IH; auto. }
    assert (NG : dget k given = None).
    { destruct (dget k given) eqn:G; auto. apply dget_In in G. apply (in_map fst) in G. destruct (N1 G). }
    split; [congruence|]. split.
    + intros k0 s0 D0. cbn in D0. destruct (String.eqb_spec k0 k) as [->|NE].
      * injection D0 as <-. split; [|eauto]. rewrite (C _ NG). apply dget_dset_eq.
      * destruct (B _ _ D0) as (X & u & Y & Z). split; [auto|]. rewrite dget_dset_ne in Y by auto. eauto.
    + intros k0 D0. cbn in D0. destruct (String.eqb_spec k0 k) as [Q|NE]; [discriminate|].
      rewrite (C _ D0). apply dget_dset_ne; auto.
Qed.

(** ** The inputs in a message *)
Definition decl (l : list (string * slot * text)) : smap := map fst l.
Lemma put_value_ok : forall s v s', put_value s v = Ok s' ->
  match s with
  | SPlain c => exists c', s' = SPlain c' /\ c_ty c' = c_ty c /\ c_static c' = c_static c
  | SRef K r dyn sta static None => s' = s
  | SRef K r dyn sta static (Some c) => exists c', s' = SRef K r dyn sta static (Some c') /\ c_ty c' = c_ty c /\ c_static c' = c_static c
  end.
Proof.
  intros s v s' H.
  assert (P : forall c (mk : container -> slot), s = mk c -> match v with
    | TNoJson => Raise
    | TRefused => Ok s
    | TValue x => match set_value c x with (_, Raise) => Raise | (c', _) => Ok (mk c') end
    end = Ok s' -> exists c', s' = mk c' /\ c_ty c' = c_ty c /\ c_static c' = c_static c).
  { intros c mk E Q. destruct v as [| |x]; try discriminate; [injection Q as <-; eauto|].
    destruct (set_value c x) as [c1 r1] eqn:SV. destruct (set_keeps _ _ _ _ SV) as (A & B & _).
    destruct r1; try discriminate; injection Q as <-; eauto. }
  destruct s as [c|K r dyn sta static [c|]]; cbn in H.
  - destruct (c_static c) eqn:E; [|injection H as <-; eauto]. rewrite <- E. exact (P c SPlain eq_refl H).
  - destruct static; [|injection H as <-; eauto].
    exact (P c (fun c' => SRef K r dyn sta true (Some c')) eq_refl H).
  - destruct static; [destruct v|]; congruence.
Qed.
Lemma put_plain_ok : forall l m, put_plain l = Ok m -> map fst m = map fst (decl l) /\
  forall k s', dget k m = Some s' -> exists s, dget k (decl l) = Some s /\
    match s with
    | SPlain c => exists c', s' = SPlain c' /\ c_ty c' = c_ty c
    | SRef _ _ _ _ _ _ => s' = s
    end.
Proof.
  induction l as [|[[k s] v] l IH]; intros m H; cbn [put_plain] in H.
  - injection H as <-. split; [auto|]. cbn. discriminate.
  - destruct (match s with SPlain _ => put_value s v | _ => Ok s end) as [s1|e|] eqn:E; destruct (put_plain l) as [m1|e1|]; try discriminate.
    injection H as <-. destruct (IH _ eq_refl) as (A & B). split; [cbn; rewrite A; reflexivity|]. intros k0 s0 D. cbn in D |- *.
    destruct (String.eqb_spec k0 k) as [->|N]; [|auto]. injection D as <-. exists s. split; [auto|].
    destruct s as [c|]; [|congruence]. destruct (put_value_ok _ _ _ E) as (c' & -> & T & _). eauto.
Qed.
Lemma put_refs_ok : forall m l given, (forall k, dget k (decl l) <> None -> dget k m <> None) -> put_refs known m l = Ok given ->
  map fst given = map fst (decl l) /\
  forall k s', dget k given = Some s' -> exists s, dget k (decl l) = Some s /\
    match s with
    | SPlain c => dget k m = Some s'
    | SRef K r dyn sta static i0 => exists inner, s' = SRef K r dyn sta static inner /\
        ((inner = None /\ (forall t, ~ sel m r t)) \/ (exists i, i0 = Some i) \/ exists c, inner = Some c /\ resolved m K r sta static c)
    end.
Proof.
  intros m. induction l as [|[[k s] v] l IH]; intros given M H; cbn [put_refs] in H.
  - injection H as <-. split; [auto|]. cbn. discriminate.
  - assert (M' : forall k0, dget k0 (decl l) <> None -> dget k0 m <> None).
    { intros k0 D. apply M. cbn. destruct (String.eqb k0 k); [discriminate|auto]. }
    assert (NM : dget k m <> None) by (apply M; cbn; rewrite String.eqb_refl; discriminate).
    assert (X : exists s1 g1, given = (k, s1) :: g1 /\ put_refs known m l = Ok g1 /\ match s with
      | SPlain c => dget k m = Some s1
      | SRef K r dyn sta static i0 => exists inner, s1 = SRef K r dyn sta static inner /\
        ((inner = None /\ (forall t, ~ sel m r t)) \/ (exists i, i0 = Some i) \/ exists c, inner = Some c /\ resolved m K r sta static c)
      end).
    { destruct s as [c|K r dyn sta static i0].
      - destruct (dget k m) as [s1|] eqn:D; [|congruence]. unfold res_map in H.
        destruct (put_refs known m l) as [g1|e|]; try discriminate. injection H as <-. eauto.
      - destruct (match set_type_map known m (SRef K r dyn sta static i0) with Ok s' => Ok s' | Err _ => Ok (SRef K r dyn sta static i0) | Raise => Raise end)
          as [s1|e|] eqn:E; try discriminate.
        destruct (put_value s1 v) as [s2|e|] eqn:PV; try discriminate. unfold res_map in H.
        destruct (put_refs known m l) as [g1|e|]; try discriminate. injection H as <-. exists s2, g1. split; [auto|]. split; [auto|].
        destruct (set_type_map known m (SRef K r dyn sta static i0)) as [s3|e|] eqn:ST; try discriminate; injection E as <-.
        + apply set_type_map_ok in ST. destruct ST as (c & -> & R & _). apply put_value_ok in PV. destruct PV as (c' & -> & T & S).
          exists (Some c'). split; [auto|]. right. right. exists c'. split; [auto|]. destruct R as (ct & t & R1 & R2 & R3 & R4 & R5).
          exists ct, t. rewrite T, S. auto 6.
        + apply put_value_ok in PV. destruct i0 as [i|].
          * destruct PV as (c' & -> & _). exists (Some c'). split; [auto|]. right. left. eauto.
          * subst s2. exists None. split; [auto|]. left. split; [auto|]. exact (set_type_map_err _ _ _ _ _ _ _ _ ST). }
    destruct X as (s1 & g1 & -> & G & P). destruct (IH _ M' G) as (A & B). split; [cbn; rewrite A; reflexivity|].
    intros k0 s0 D. cbn in D |- *. destruct (String.eqb_spec k0 k) as [->|N]; [|auto]. injection D as <-. eauto.
Qed.
(** The inputs that a message gives. *)
Lemma given_ok : forall l given, proper l -> inputs_of_msg known l = Ok given -> map fst given = map fst (decl l) /\ NoDup (map fst given) /\
  forall k s', dget k given = Some s' -> exists s, dget k (decl l) = Some s /\
    match s with
    | SPlain c => exists c', s' = SPlain c' /\ c_ty c' = c_ty c
    | SRef K r dyn sta static _ => exists inner, s' = SRef K r dyn sta static inner /\
        ((inner = None /\ forall t, ~ sel given r t) \/ exists c, inner = Some c /\ resolved given K r sta static c)
    end.
Proof.
  intros l given [ND PR] H. unfold inputs_of_msg in H. destruct (put_plain l) as [m|e|] eqn:PP; try discriminate.
  destruct (put_plain_ok _ _ PP) as (A & B).
  assert (M : forall k, dget k (decl l) <> None -> dget k m <> None) by (intros k; rewrite !dget_keys, A; auto).
  destruct (put_refs_ok _ _ _ M H) as (C & D).
  assert (KD : map fst (decl l) = map (fun x => fst (fst x)) l) by (unfold decl; rewrite map_map; auto).
  split; [auto|]. split; [rewrite C, KD; auto|]. intros k s' G. destruct (D _ _ G) as (s & DD & R). exists s. split; [auto|].
  destruct s as [c|K r dyn sta static i0].
  - destruct (B _ _ R) as (s0 & D0 & R0). rewrite DD in D0. injection D0 as <-. exact R0.
  - destruct R as (inner & -> & R). exists inner. split; [auto|].
    assert (I0 : i0 = None).
    { apply dget_In in DD. unfold decl in DD. apply in_map_iff in DD. destruct DD as ([[k1 s1] v1] & E & J). cbn in E.
      injection E as -> ->. exact (PR _ _ _ J). }
    subst i0. destruct R as [[-> X]|[[i X]|(c & -> & ct & t & R1 & R2)]]; [left|discriminate|right].
    + split; [auto|]. intros t (ct & D1 & T). apply (X t). exists ct. split; [|exact T].
      destruct (D _ _ D1) as (s1 & D2 & R3). destruct s1 as [c1|]; [exact R3|]. destruct R3 as (z & [=] & _).
    + exists c. split; [auto|]. exists ct, t. split; [|exact R2].
      destruct (B _ _ R1) as (s0 & D0 & R0). destruct s0 as [c0|]; [|discriminate].
      assert (NG : dget r given <> None) by (rewrite dget_keys, C, <- dget_keys, D0; discriminate).
      destruct (dget r given) as [sg|] eqn:EG; [|congruence]. destruct (D _ _ EG) as (s1 & D1 & R3). rewrite D0 in D1. injection D1 as <-. congruence.
Qed.

(** ** The types of a node *)
Lemma resolved_sel : forall m i K r sta static c, resolved m K r sta static c ->
  (forall ct, dget r m = Some (SPlain ct) -> dget r i = Some (SPlain ct)) ->
  exists t, sel i r t /\ c_ty c = ref_type K sta t /\ c_static c = static.
Proof. intros m i K r sta static c (ct & t & A & B & C & D & E) H. exists t. split; [exists ct; auto|auto]. Qed.

Lemma slot_compat_kind : forall s s', slot_compat s s' = true ->
  match s with
  | SPlain c => exists c', s' = SPlain c' /\ ty_compat (c_ty c) (c_ty c') = true
  | SRef K r _ _ _ _ => exists dyn sta static i, s' = SRef K r dyn sta static i
  end.
Proof.
  intros [c|K r dyn sta static i] [c'|K' r' dyn' sta' static' i'] H; cbn in H; try discriminate.
  - unfold is_compatible in H. apply andb_true_iff in H. destruct H as [_ H]. eauto.
  - apply andb_true_iff in H. destruct H as [H E]. apply String.eqb_eq in E. subst r'.
    destruct K, K'; cbn in H; try discriminate; eauto 6.
Qed.

Lemma node_types : forall ins outs msg i o, proper msg -> node_of_msg known ins outs msg = Ok (i, o) ->
  map fst i = map fst ins /\ map fst o = map fst outs /\
  (forall k s, dget k i = Some s -> exists d, dget k ins = Some d /\
     match d with
     | SPlain c => exists c', s = SPlain c' /\ (c' = c \/ ty_compat (c_ty c) (c_ty c') = true)
     | SRef K r _ _ _ _ => exists dyn sta static inner, s = SRef K r dyn sta static inner /\
         (forall c, inner = Some c -> exists t, sel i r t /\ c_ty c = ref_type K sta t /\ c_static c = static) /\
         ((mentions msg k -> mentions msg r) -> forall t, sel i r t -> inner <> None)
     end) /\
  (forall k s, dget k o = Some s -> exists d, dget k outs = Some d /\
     match d with
     | SPlain c => exists c', s = SPlain c' /\ c_ty c' = c_ty c /\ c_static c' = false /\ c_upd c' = c_upd c
     | SRef K r _ _ _ _ => exists c, s = SRef K r true false false (Some c) /\ c_upd c = false /\
         exists t, sel i r t /\ c_ty c = ref_type K false t /\ c_static c = false
     end).
Proof.
  intros ins outs msg i o PM H. unfold node_of_msg in H. destruct (inputs_of_msg known msg) as [given|e|] eqn:G; try discriminate.
  destruct (given_ok _ _ PM G) as (GK & GN & GO). unfold node_new in H.
  destruct (node_config known ins outs) as [[ins1 outs1]|e|] eqn:NC; try discriminate.
  destruct (replace_inputs given ins1) as [ins2|e|] eqn:RI; try discriminate.
  destruct (resolve known ins2 (is_given given) ins2) as [i'|e|] eqn:R1; try discriminate;
    destruct (resolve known ins2 (fun _ => false) outs1) as [o'|e'|] eqn:R2; try discriminate.
  injection H as -> ->.
  unfold node_config in NC. destruct (existsb _ outs); [discriminate|].
  destruct (resolve known ins (fun _ => false) ins) as [x1|e|] eqn:R3; try discriminate;
    destruct (resolve known ins (fun _ => false) (out_slots outs)) as [x2|e'|] eqn:R4; try discriminate.
  injection NC as -> ->.
  destruct (resolve_ok _ _ _ _ R1) as (A1 & B1 & C1). destruct (resolve_ok _ _ _ _ R2) as (A2 & B2 & C2).
  destruct (resolve_ok _ _ _ _ R3) as (A3 & B3 & C3). destruct (resolve_ok _ _ _ _ R4) as (A4 & B4 & C4).
  destruct (replace_ok _ _ _ GN RI) as (AR & BR & CR).
  assert (KO : map fst (out_slots outs) = map fst outs) by (unfold out_slots; rewrite map_map; auto).
  assert (PL : forall r ct, dget r ins2 = Some (SPlain ct) -> dget r i = Some (SPlain ct)).
  { intros r ct D. destruct (C1 _ _ D) as (s' & D'). rewrite D'. destruct (B1 _ _ D') as (s0 & D0 & E). rewrite D in D0.
    injection D0 as <-. destruct (is_given given r); [congruence|]. cbn in E. congruence. }
  assert (GP : forall r ct, dget r given = Some (SPlain ct) -> dget r i = Some (SPlain ct)).
  { intros r ct D. apply PL. exact (proj1 (BR _ _ D)). }
  split; [congruence|]. split; [congruence|]. split.
  - intros k s D. destruct (B1 _ _ D) as (s2 & D2 & E). unfold is_given in E.
    destruct (dget k given) as [sg|] eqn:EG.
    + destruct (BR _ _ EG) as (X & s1 & D1 & SC). rewrite D2 in X. injection X as <-. subst s.
      destruct (B3 _ _ D1) as (d & D0 & T). exists d. split; [auto|]. apply set_type_map_ok in T.
      destruct (GO _ _ EG) as (sm & _ & GS). apply slot_compat_kind in SC. destruct d as [c|K r dyn sta static i0].
      * subst s1. destruct SC as (c' & -> & Y). exists c'. auto.
      * destruct T as (c & -> & _). destruct SC as (dyn' & sta' & static' & i' & ->). exists dyn', sta', static', i'. split; [auto|].
        destruct sm as [c0|K0 r0 dyn0 sta0 static0 i0']; [destruct GS as (z & [=] & _)|].
        destruct GS as (inner & [= <- <- <- <- <- <-] & GS). split.
        { intros c' ->. destruct GS as [[[=] _]|(c2 & [= <-] & R)]. eapply resolved_sel; eauto. }
        intros MM t (ct & Q1 & Q2) ->. destruct GS as [[_ NS]|(c2 & [=] & _)].
        assert (MG : forall x, mentions msg x <-> dget x given <> None).
        { intros x. rewrite dget_keys, GK. unfold mentions, decl. rewrite map_map. tauto. }
        assert (NR : dget r given <> None) by (apply MG, MM, MG; congruence).
        destruct (dget r given) as [sr|] eqn:ER; [|congruence]. destruct (BR _ _ ER) as (Z1 & _). destruct (B1 _ _ Q1) as (sq & Z2 & Z3).
        rewrite Z1 in Z2. injection Z2 as <-. unfold is_given in Z3. rewrite ER in Z3. subst sr. exact (NS t (ex_intro _ ct (conj ER Q2))).
    + rewrite (CR _ EG) in D2. destruct (B3 _ _ D2) as (d & D0 & T). exists d. split; [auto|]. apply set_type_map_ok in T. apply set_type_map_ok in E.
      destruct d as [c|K r dyn sta static i0].
      * subst s2. subst s. eauto.
      * destruct T as (c & -> & _). destruct E as (c' & -> & R & _). exists dyn, sta, static, (Some c'). split; [auto|].
        split; [|discriminate]. intros c2 [= <-]. eapply resolved_sel; eauto.
  - intros k s D. destruct (B2 _ _ D) as (s2 & D2 & E). destruct (B4 _ _ D2) as (s4 & D4 & T).
    assert (DO : exists d, dget k outs = Some d /\ s4 = force_dynamic d).
    { clear -D4. unfold out_slots in D4. induction outs as [|[k1 d1] l IH]; cbn in *; [discriminate|]. destruct (String.eqb k k1); [|auto].
      injection D4 as <-. eauto. }
    destruct DO as (d & D0 & ->). exists d. split; [auto|]. apply set_type_map_ok in T. apply set_type_map_ok in E.
    destruct d as [c|K r dyn sta static i0]; cbn in T.
    + subst s2. subst s. eexists. split; [reflexivity|]. cbn. auto.
    + destruct T as (c & -> & _). destruct E as (c' & -> & R & U). exists c'. split; [auto|]. split; [auto|]. eapply resolved_sel; eauto.
Qed.

Lemma containers_get : forall l m, containers l = Some m -> map fst m = map fst l /\
  (forall k c, dget k m = Some c -> exists s, dget k l = Some s /\ match s with SPlain c' => c' = c | SRef _ _ _ _ _ i => i = Some c end) /\
  (forall k s, dget k l = Some s -> exists c, dget k m = Some c /\ match s with SPlain c' => c' = c | SRef _ _ _ _ _ i => i = Some c end).
Proof.
  induction l as [|[k s] l IH]; intros m H; cbn in H.
  - injection H as <-. split; [auto|]. cbn. split; discriminate.
  - destruct (match s with SPlain c => Some c | SRef _ _ _ _ _ i => i end) as [c|] eqn:E; [|discriminate].
    destruct (containers l) as [m1|]; [|discriminate]. injection H as <-. destruct (IH _ eq_refl) as (A & B & C).
    split; [cbn; congruence|]. split; intros k0 x D; cbn in D |- *; (destruct (String.eqb_spec k0 k) as [->|N]; [|auto]); injection D as <-.
    + exists s. split; [auto|]. destruct s; congruence.
    + exists c. split; [auto|]. destruct s; congruence.
Qed.
End Refs.
