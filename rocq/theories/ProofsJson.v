(** Proofs about how values are written and read. *)
From Coq Require Import String Ascii ZArith Bool Arith Lia List.
From Coq.Floats Require Import SpecFloat.
From Verif Require Import Base ModelData ModelJson SpecData SpecJson ProofsData ProofsSubtreeOut.
From Verif Require ModelFields SpecFields ProofsFields.
Import ListNotations.
Local Open Scope string_scope.

Lemma value_ind' (P : value -> Prop) :
  (forall b, P (VBool b)) -> (forall z, P (VInt z)) -> (forall f, P (VFloat f)) -> (forall s, P (VStr s)) ->
  (forall s, P (VBytes s)) -> (forall l, Forall P l -> P (VList l)) -> (forall d, Forall (fun kv => P (snd kv)) d -> P (VDict d)) ->
  (forall t p, P (VMsg t p)) -> (forall k n, P (VType k n)) -> forall v, P v.
Proof.
  intros Hb Hi Hf Hs Hy Hl Hd Hm Ht. fix F 1.
  intros [b|z|f|s|s|l|d|t p|k n]; [apply Hb|apply Hi|apply Hf|apply Hs|apply Hy| | |apply Hm|apply Ht].
  - apply Hl. induction l as [|x q IH]; constructor; [apply F|exact IH].
  - apply Hd. induction d as [|[k v] q IH]; constructor; [apply F|exact IH].
Qed.

(** ** Plain values *)

Lemma parsed_raw : forall v, plain_json v -> parsed (raw v) = v.
Proof.
  induction v as [b|z|f|s|s|l IH|d IH|t p|k n] using value_ind'; intros H; try reflexivity; try (inversion H; fail); cbn [raw parsed]; f_equal;
    rewrite map_map.
  - inversion H as [| | | |? Hl|]; subst. rewrite <- (map_id l) at 2. apply map_ext_in. intros x Hx.
    rewrite Forall_forall in IH. apply IH; auto.
  - inversion H as [| | | | |? Hd]; subst. rewrite <- (map_id d) at 2. apply map_ext_in. intros [k x] Hx. cbn [fst snd].
    rewrite Forall_forall in IH. f_equal. apply (IH (k, x)); eauto.
Qed.

(** ** Bytes *)

Lemma digit_hex : forall n, n < 16 -> digit_value (hex_digit n) = Some n.
Proof. intros n H. do 16 (destruct n as [|n]; [reflexivity|]). lia. Qed.
Lemma fromhex_hex : forall s, fromhex (hex s) = Some s.
Proof.
  induction s as [|c s IH]; [reflexivity|]. cbn [hex fromhex]. pose proof (nat_ascii_bounded c) as B.
  rewrite !digit_hex, IH; [|apply Nat.mod_upper_bound; discriminate|apply Nat.div_lt_upper_bound; [discriminate|exact B]].
  rewrite (Nat.mul_comm (nat_of_ascii c / 16)), <- (Nat.div_mod (nat_of_ascii c) 16) by discriminate. rewrite ascii_nat_embedding. reflexivity.
Qed.

(** ** Loops *)

Section Loop.
  Context {A B : Type}.
  Variable f : A -> res B.
  Fixpoint map_res (l : list A) : res (list B) :=
    match l with
    | [] => Ok []
    | x :: q => match f x with
                | Ok y => match map_res q with Ok ys => Ok (y :: ys) | Err e => Err e | Raise => Raise end
                | Err e => Err e
                | Raise => Raise
                end
    end.
End Loop.
Definition on_snd {A B : Type} (f : A -> res B) (kv : string * A) : res (string * B) :=
  match f (snd kv) with Ok y => Ok (fst kv, y) | Err e => Err e | Raise => Raise end.
Lemma map_res_back : forall A B (f : A -> res B) (g : B -> res A) l l', map_res f l = Ok l' ->
  (forall x y, In x l -> f x = Ok y -> g y = Ok x) -> map_res g l' = Ok l.
Proof.
  induction l as [|x q IH]; intros l' H K; cbn [map_res] in H; [injection H as <-; reflexivity|].
  destruct (f x) as [y|e|] eqn:E; try discriminate. destruct (map_res f q) as [ys|e|] eqn:E'; try discriminate. injection H as <-.
  cbn [map_res]. rewrite (K x y (or_introl eq_refl) E), (IH ys eq_refl (fun a b I => K a b (or_intror I))). reflexivity.
Qed.
Lemma map_res_ok : forall A B (f : A -> res B) l, (forall x, In x l -> exists y, f x = Ok y) -> exists l', map_res f l = Ok l'.
Proof.
  induction l as [|x q IH]; intros H; [exists []; reflexivity|]. destruct (H x (or_introl eq_refl)) as [y E].
  destruct (IH (fun a I => H a (or_intror I))) as [ys E']. exists (y :: ys). cbn [map_res]. rewrite E, E'. reflexivity.
Qed.
Lemma on_snd_back : forall A B (f : A -> res B) (g : B -> res A) p p', on_snd f p = Ok p' ->
  (forall y, f (snd p) = Ok y -> g y = Ok (snd p)) -> on_snd g p' = Ok p.
Proof.
  intros A B f g [k x] p' H K. unfold on_snd in *. cbn [fst snd] in *. destruct (f x) as [y|e|]; try discriminate. injection H as <-.
  cbn [fst snd]. rewrite (K y eq_refl). reflexivity.
Qed.

Section Ros.
  Variable r : ros.

  (** ** Type descriptions *)

  Definition gen_entry (k : string) (x : value) : res json :=
    if String.eqb k "min_value" || String.eqb k "max_value" then Ok (JStr (r_str r x))
    else if String.eqb k ELEMENT_KEY then gen_ser r x else Ok (raw x).
  Fixpoint gen_entries (l : list (string * value)) : res (list (string * json)) :=
    match l with
    | [] => Ok []
    | (k, x) :: t => match gen_entry k x with
                     | Ok j => match gen_entries t with Ok js => Ok ((k, j) :: js) | Err e => Err e | Raise => Raise end
                     | Err e => Err e
                     | Raise => Raise
                     end
    end.
  Lemma gen_ser_eq : forall d, gen_ser r (VDict d) = match gen_entries d with Ok js => Ok (JDict js) | Err e => Err e | Raise => Raise end.
  Proof.
    intros d. cbn [gen_ser]. match goal with |- match ?x with _ => _ end = _ => replace x with (gen_entries d); [reflexivity|] end.
    induction d as [|[k x] q IH]; [reflexivity|]. cbn [gen_entries]. unfold gen_entry at 1. rewrite IH. reflexivity.
  Qed.
  Definition degen_entry (idj : json) (k : string) (x : json) : res value :=
    match converter r idj with
    | Some conv =>
        if String.eqb k "min_value" || String.eqb k "max_value"
        then match conv (parsed x) with Some v => Ok v | None => Raise end
        else Ok (parsed x)
    | None => if String.eqb k ELEMENT_KEY then gen_deser r x else Ok (parsed x)
    end.
  Fixpoint degen_entries (idj : json) (l : list (string * json)) : res (list (string * value)) :=
    match l with
    | [] => Ok []
    | (k, x) :: t => match degen_entry idj k x with
                     | Ok v => match degen_entries idj t with Ok vs => Ok ((k, v) :: vs) | Err e => Err e | Raise => Raise end
                     | Err e => Err e
                     | Raise => Raise
                     end
    end.
  Lemma gen_deser_eq : forall d, gen_deser r (JDict d) =
    match dget IDENTIFIER_KEY d with
    | None => Raise
    | Some idj => match degen_entries idj d with Ok vs => Ok (VDict vs) | Err e => Err e | Raise => Raise end
    end.
  Proof.
    intros d. cbn [gen_deser]. destruct (dget IDENTIFIER_KEY d) as [idj|]; [|reflexivity].
    match goal with |- match ?x with _ => _ end = _ => replace x with (degen_entries idj d); [reflexivity|] end.
    clear. induction d as [|[k x] q IH]; [reflexivity|]. cbn [degen_entries]. unfold degen_entry at 1. rewrite IH. reflexivity.
  Qed.

  Lemma bound_or : forall k, (is_bound k /\ String.eqb k "min_value" || String.eqb k "max_value" = true) \/
    (~ is_bound k /\ String.eqb k "min_value" || String.eqb k "max_value" = false).
  Proof.
    intros k. unfold is_bound. destruct (String.eqb_spec k "min_value") as [->|]; [left; split; [auto|reflexivity]|].
    destruct (String.eqb_spec k "max_value") as [->|]; [left; split; [auto|reflexivity]|]. right. split; [tauto|reflexivity].
  Qed.

  Lemma gen_entries_id : forall d js i, gen_entries d = Ok js -> dget IDENTIFIER_KEY d = Some (VInt i) -> dget IDENTIFIER_KEY js = Some (JInt i).
  Proof.
    induction d as [|[k x] q IH]; intros js i H E; [discriminate|]. cbn [gen_entries] in H.
    destruct (gen_entry k x) as [j|e|] eqn:G; try discriminate. destruct (gen_entries q) as [js'|e|]; try discriminate. injection H as <-.
    cbn [dget] in *. destruct (String.eqb_spec IDENTIFIER_KEY k) as [<-|]; [|apply IH; auto].
    injection E as ->. unfold gen_entry in G. cbn in G. congruence.
  Qed.
  Lemma gen_entries_some : forall d js, gen_entries d = Ok js -> forall k x, In (k, x) d -> exists j, gen_entry k x = Ok j.
  Proof.
    induction d as [|[k' x'] q IH]; intros js H k x I; [contradiction|]. cbn [gen_entries] in H.
    destruct (gen_entry k' x') as [j|e|] eqn:G; try discriminate. destruct (gen_entries q) as [js'|e|]; try discriminate.
    destruct I as [[= <- <-]|I]; eauto.
  Qed.

  Lemma gen_round : sound_numbers r -> forall v j, described v -> gen_ser r v = Ok j -> gen_deser r j = Ok v.
  Proof.
    intros [Ni Nf]. induction v as [b|z|f|s|s|l IH|d IH|t p|k n] using value_ind'; intros j D E; try (inversion D; fail).
    inversion D as [d' i Hi Hb He Hp]; subst d'. rewrite gen_ser_eq in E.
    destruct (gen_entries d) as [js|e|] eqn:G; try discriminate. injection E as <-. rewrite gen_deser_eq, (gen_entries_id d js i G Hi).
    assert (C : (i = ID_INT /\ converter r (JInt i) = Some (r_int r)) \/ (i = ID_FLOAT /\ converter r (JInt i) = Some (r_float r)) \/
                (i <> ID_INT /\ i <> ID_FLOAT /\ converter r (JInt i) = None)).
    { unfold converter. cbn [parsed py_eq]. destruct (Z.eqb_spec i ID_INT); [auto|]. destruct (Z.eqb_spec i ID_FLOAT); auto. }
    assert (K : forall k x j, In (k, x) d -> gen_entry k x = Ok j -> degen_entry (JInt i) k j = Ok x).
    { intros k x j I Ej. unfold gen_entry in Ej. unfold degen_entry. destruct (bound_or k) as [[B Bk]|[B Bk]]; rewrite Bk in *.
      - injection Ej as <-. cbn [parsed]. destruct (Hb k x I B) as [(-> & z & ->)|(-> & f & ->)].
        + destruct C as [[_ ->]|[[X _]|[X _]]]; [|discriminate X|congruence]. rewrite Ni. reflexivity.
        + destruct C as [[X _]|[[_ ->]|[_ [X _]]]]; [discriminate X| |congruence]. rewrite Nf. reflexivity.
      - destruct (String.eqb_spec k ELEMENT_KEY) as [->|Ne].
        + destruct (He x I) as (N1 & N2 & Dx). destruct C as [[X _]|[[X _]|[_ [_ ->]]]]; try congruence.
          rewrite Forall_forall in IH. apply (IH _ I); auto.
        + injection Ej as <-. rewrite (parsed_raw x (Hp k x I B Ne)). destruct (converter r (JInt i)); reflexivity. }
    assert (R : degen_entries (JInt i) js = Ok d); [|rewrite R; reflexivity].
    clear - G K. revert js G. induction d as [|[k x] q IH]; intros js G; cbn [gen_entries] in G; [injection G as <-; reflexivity|].
    destruct (gen_entry k x) as [j|e|] eqn:Ge; try discriminate. destruct (gen_entries q) as [js'|e|] eqn:Gq; try discriminate. injection G as <-.
    cbn [degen_entries]. rewrite (K k x j (or_introl eq_refl) Ge), (IH (fun k x j I => K k x j (or_intror I)) js' eq_refl). reflexivity.
  Qed.

  (** ** The functions, without their inner loops *)

  Lemma ser_list : forall fuel e so ml st l, ser r fuel (TList e so ml st) (ModelFields.PVal (VList l)) =
    match map_res (fun x => ser r fuel e (ModelFields.PVal x)) l with Ok js => Ok (JList js) | Err x => Err x | Raise => Raise end.
  Proof. intros [|fuel] e so ml st l; reflexivity. Qed.
  Lemma ser_dict : forall fuel e so ml st d, ser r fuel (TDict e so ml st) (ModelFields.PVal (VDict d)) =
    match map_res (on_snd (fun x => ser r fuel e (ModelFields.PVal x))) d with
    | Ok [] => Ok (JDict [])
    | Ok ((k, j) :: js) => if is_text j then Ok (JDict ((k, j) :: js)) else Raise
    | Err x => Err x
    | Raise => Raise
    end.
  Proof.
    intros fuel e so ml st d.
    transitivity (match (fix go (l : list (string * value)) : res (list (string * json)) :=
                 match l with
                 | [] => Ok []
                 | (k, x) :: q => match ser r fuel e (ModelFields.PVal x) with
                             | Ok j => match go q with Ok js => Ok ((k, j) :: js) | Err e => Err e | Raise => Raise end
                             | Err e => Err e
                             | Raise => Raise
                             end
                 end) d with Ok js => match js with [] => Ok (JDict js) | (_, j) :: _ => if is_text j then Ok (JDict js) else Raise end
                        | Err x => Err x | Raise => Raise end); [destruct fuel; reflexivity|].
    match goal with |- match ?a with _ => _ end = match ?b with _ => _ end => assert (E : a = b) end.
    { induction d as [|[k x] q IH]; [reflexivity|]. rewrite IH. cbn [map_res]. change (on_snd (fun x => ser r fuel e (ModelFields.PVal x)) (k, x)) with (match ser r fuel e (ModelFields.PVal x) with Ok y => Ok (k, y) | Err e => Err e | Raise => Raise end). destruct (ser r fuel e (ModelFields.PVal x)); reflexivity. }
    rewrite E. destruct (map_res _ d) as [[|[k j] js]| |]; reflexivity.
  Qed.
  Lemma deser_list : forall fuel e so ml st l, deser r fuel (TList e so ml st) (JList l) =
    match map_res (deser r fuel e) l with Ok js => Ok (VList js) | Err x => Err x | Raise => Raise end.
  Proof. intros [|fuel] e so ml st l; reflexivity. Qed.
  Lemma deser_dict : forall fuel e so ml st d, deser r fuel (TDict e so ml st) (JDict d) =
    match map_res (on_snd (deser r fuel e)) d with Ok js => Ok (VDict js) | Err x => Err x | Raise => Raise end.
  Proof.
    intros fuel e so ml st d.
    transitivity (match (fix go (l : list (string * json)) : res (list (string * value)) :=
                 match l with
                 | [] => Ok []
                 | (k, x) :: q => match deser r fuel e x with
                             | Ok j => match go q with Ok js => Ok ((k, j) :: js) | Err e => Err e | Raise => Raise end
                             | Err e => Err e
                             | Raise => Raise
                             end
                 end) d with Ok js => Ok (VDict js) | Err x => Err x | Raise => Raise end); [destruct fuel; reflexivity|].
    match goal with |- match ?a with _ => _ end = match ?b with _ => _ end => assert (E : a = b) end.
    { induction d as [|[k x] q IH]; [reflexivity|]. rewrite IH. cbn [map_res]. change (on_snd (deser r fuel e) (k, x)) with (match deser r fuel e x with Ok y => Ok (k, y) | Err e => Err e | Raise => Raise end). destruct (deser r fuel e x); reflexivity. }
    rewrite E. reflexivity.
  Qed.

  (** What a value of a type looks like. *)
  Definition scalar (v : value) : Prop := match v with VBool _ | VInt _ | VFloat _ | VStr _ => True | _ => False end.
  Definition number (v : value) : Prop := match v with VBool _ | VInt _ | VFloat _ => True | _ => False end.
  Fixpoint shape (t : ctype) (v : value) {struct t} : Prop :=
    match t with
    | TBytes _ _ => exists s, v = VBytes s
    | TList e _ _ _ => exists l, v = VList l /\ forall x, In x l -> shape e x
    | TDict e _ _ _ => exists d, v = VDict d /\ forall k x, In (k, x) d -> shape e x
    | TGeneric _ => True
    | TRosMsg m _ => exists n, v = VMsg m n
    | TRosType _ _ => exists k s, v = VType k s
    | TStr _ _ | TPath _ _ | TRosName _ _ => exists s, v = VStr s
    | TBool => exists b, v = VBool b
    | TInt _ _ | TFloat _ _ => number v
    end.
  Lemma scalar_plain : forall v, scalar v -> plain_json v.
  Proof. intros [] H; try destruct H; constructor. Qed.
  Lemma admits_shape : forall t v, admits t v -> shape t v.
  Proof.
    induction t as [|mn mx|mn mx|ml va|ml va|ml va|e IH so ml st|e IH so ml st|l|k i|m i|k i]; intros v A; cbn [admits satisfies shape] in *.
    - exact A.
    - destruct A as (z & Hz & _). inversion Hz; exact I.
    - destruct A as (f & Hf & _). inversion Hf as [|? ? ? Hz]; [exact I|inversion Hz; exact I].
    - destruct A as (s & -> & _). eauto.
    - destruct A as (s & -> & _). eauto.
    - destruct A as (s & -> & _). eauto.
    - destruct A as (l & -> & _ & A). eauto.
    - destruct A as (l & -> & _ & A). eauto.
    - exact I.
    - exact A.
    - destruct A as (n & ->). eauto.
    - destruct A as (s & ->). eauto.
  Qed.

  (** ** Messages *)

  Section Fields.
    Variable k : nat.
    Variable at_ : ModelFields.attrs.
    Fixpoint ser_fields (l : list (string * ctype)) : res (list (string * json)) :=
      match l with
      | [] => Ok []
      | (f, ft) :: q =>
          match dget f at_ with
          | Some a => match ser r k ft a with
                      | Ok j => match ser_fields q with Ok js => Ok ((f, j) :: js) | Err e => Err e | Raise => Raise end
                      | Err e => Err e
                      | Raise => Raise
                      end
          | None => Raise
          end
      end.
    Variable mt : ModelFields.msgtype.
    Variable fs : list (string * ctype).
    Fixpoint deser_fields (l : list (string * json)) (a : ModelFields.attrs) : res ModelFields.attrs :=
      match l with
      | [] => Ok a
      | (f, x) :: q =>
          match dget f fs with
          | Some ft =>
              match deser r k ft x with
              | Ok v => match ModelFields.mt_set mt f v with
                        | Some o => deser_fields q (dset f o a)
                        | None => Raise
                        end
              | Err e => Err e
              | Raise => Raise
              end
          | None => Err EData
          end
      end.
  End Fields.
  Lemma ser_msg : forall k m i c n, ser r (S k) (TRosMsg m i) (ModelFields.PVal (VMsg c n)) =
    match r_class r m with
    | None => Raise
    | Some mt => match element_fields r (ModelFields.mt_fields mt) with
                 | Ok fs => match ser_fields k (r_attrs r c n) fs with Ok js => Ok (JDict js) | Err e => Err e | Raise => Raise end
                 | Err _ => Ok (JDict [])
                 | Raise => Raise
                 end
    end.
  Proof. reflexivity. Qed.
  Lemma deser_msg : forall k m i d, deser r (S k) (TRosMsg m i) (JDict d) =
    match r_class r m with
    | None => Raise
    | Some mt => match element_fields r (ModelFields.mt_fields mt) with
                 | Ok fs => match deser_fields k mt fs d (ModelFields.mt_new mt) with Ok a => Ok (VMsg m (r_object r m a)) | Err e => Err e | Raise => Raise end
                 | Err e => Err e
                 | Raise => Raise
                 end
    end.
  Proof. reflexivity. Qed.

  Lemma element_ok : forall fs, (forall f t, In (f, t) fs -> SpecFields.no_string_name t /\ exists ct, SpecFields.holds (r_get_message r) t ct) ->
    exists cs, element_fields r (map (fun f => (fst f, SpecFields.text (snd f))) fs) = Ok cs /\
      Forall2 (fun a b => fst a = fst b /\ SpecFields.holds (r_get_message r) (snd a) (snd b)) fs cs.
  Proof.
    induction fs as [|[f t] q IH]; intros H; [exists []; split; [reflexivity|constructor]|].
    destruct (H f t (or_introl eq_refl)) as [N [ct Ct]]. destruct (IH (fun a b I => H a b (or_intror I))) as (cs & E & F).
    destruct (ProofsFields.io_type (r_get_message r) t ct N Ct) as (c & Ec & Et & _).
    exists ((f, c_ty c) :: cs). cbn [map element_fields fst snd]. rewrite Ec, E. split; [reflexivity|]. constructor; [|exact F]. cbn [fst snd]. rewrite Et. auto.
  Qed.

  (** What is in a field has the shape of the field's type. *)
  Lemma takes1_shape : forall t ct v, SpecFields.holds1 (r_get_message r) t ct -> SpecFields.takes1 (r_get_message r) t v -> shape ct v.
  Proof.
    intros t ct v H K. destruct H; inversion K; subst; cbn [shape number]; eauto.
    match goal with H1 : ?a = Some _, H2 : ?a = Some _ |- _ => rewrite H1 in H2; injection H2 as -> end. eauto.
  Qed.
  Variable obj : string -> nat -> Prop.
  Variable round : spec_float -> spec_float.
  Lemma takes1_storable : forall t ct v, SpecFields.holds1 (r_get_message r) t ct -> SpecFields.takes1 (r_get_message r) t v ->
    (forall c n, v = VMsg c n -> obj c n) -> storable r obj ct v.
  Proof. intros t ct v H K O. destruct H; cbn [storable]; auto. Qed.
  Lemma takes_value : forall t ct v o, SpecFields.holds (r_get_message r) t ct -> SpecFields.takes (r_get_message r) round t v o ->
    objects_in obj v -> (o = ModelFields.PVal v /\ shape ct v /\ storable r obj ct v) \/
    (exists e so ml st l, ct = TList e so ml st /\ (o = ModelFields.PArray l \/ o = ModelFields.PNumpy l)).
  Proof.
    intros t ct v o H K [O1 O2]. destruct K as [f v K|e b l K L N|e b l K L N|e n l K L N|e n l K L N]; inversion H as [? ? H1|? ? ? H1|? ? ? H1]; subst;
      try (inversion K; fail); try (inversion H1; fail).
    - left. split; [reflexivity|]. split; [eapply takes1_shape; eauto|eapply takes1_storable; eauto].
    - left. split; [reflexivity|]. split; [cbn; eexists; split; [reflexivity|intros x I; eapply takes1_shape; eauto]|].
      cbn [storable]. intros l' [= <-] x I. eapply takes1_storable; eauto. intros c0 n0 ->. eauto.
    - right. do 5 eexists. split; [reflexivity|auto].
    - left. split; [reflexivity|]. split; [cbn; eexists; split; [reflexivity|intros x I; eapply takes1_shape; eauto]|].
      cbn [storable]. intros l' [= <-] x I. eapply takes1_storable; eauto. intros c0 n0 ->. eauto.
    - right. do 5 eexists. split; [reflexivity|auto].
  Qed.
  Lemma ser_array : forall fuel e so ml st o l, o = ModelFields.PArray l \/ o = ModelFields.PNumpy l -> ser r fuel (TList e so ml st) o = Raise.
  Proof. intros [|fuel] e so ml st o l [->| ->]; reflexivity. Qed.

  Lemma dget_in : forall A (l : list (string * A)) f x, NoDup (map fst l) -> In (f, x) l -> dget f l = Some x.
  Proof.
    induction l as [|[k x] q IH]; intros f y N I; [contradiction|]. inversion N as [|? ? Nk Nq]; subst. cbn [dget].
    destruct I as [[= -> ->]|I]; [rewrite String.eqb_refl; reflexivity|].
    destruct (String.eqb_spec f k) as [->|]; [|auto]. exfalso. apply Nk. apply (in_map fst) in I. exact I.
  Qed.
  Lemma dset_keys : forall A f (x : A) a, In f (map fst a) -> map fst (dset f x a) = map fst a.
  Proof.
    induction a as [|[k y] q IH]; intros I; [contradiction|]. cbn [dset]. destruct (String.eqb_spec f k) as [->|N]; [reflexivity|].
    cbn [map fst] in *. f_equal. apply IH. destruct I; [congruence|assumption].
  Qed.
  Lemma dget_same : forall A (a b : list (string * A)), map fst a = map fst b -> NoDup (map fst a) ->
    (forall f, In f (map fst a) -> dget f a = dget f b) -> a = b.
  Proof.
    induction a as [|[k x] q IH]; intros [|[k' x'] q'] E N H; try discriminate; [reflexivity|]. cbn [map fst] in *. injection E as <- E.
    inversion N as [|? ? Nk Nq]; subst. pose proof (H k (or_introl eq_refl)) as H0. cbn [dget] in H0. rewrite String.eqb_refl in H0. injection H0 as <-.
    f_equal. apply IH; auto. intros f I. specialize (H f (or_intror I)). cbn [dget] in H. destruct (String.eqb_spec f k) as [e|]; [rewrite e in I; contradiction|exact H].
  Qed.
  Lemma dget_dset_at : forall A f g (x : A) a, dget g (dset f x a) = if String.eqb g f then Some x else dget g a.
  Proof.
    induction a as [|[k y] q IH]; cbn [dset dget]; [reflexivity|]. destruct (String.eqb_spec f k) as [->|N]; cbn [dget].
    - destruct (String.eqb_spec g k); reflexivity.
    - rewrite IH. destruct (String.eqb_spec g k) as [->|]; [|reflexivity]. destruct (String.eqb_spec k f); [congruence|reflexivity].
  Qed.

  Hypothesis classes : sound_classes r obj round.
  Hypothesis numbers : sound_numbers r.

  (** All fields: reading sets each to what it was. *)
  Lemma fields_back : forall k, (forall t v j, shape t v -> storable r obj t v -> ser r k t (ModelFields.PVal v) = Ok j -> deser r k t j = Ok v) ->
    forall at_ mt fs all, (forall f t, In (f, t) fs -> exists v o, dget f at_ = Some o /\ SpecFields.takes (r_get_message r) round t v o /\ objects_in obj v) ->
    (forall f t v o, In (f, t) fs -> SpecFields.takes (r_get_message r) round t v o -> ModelFields.mt_set mt f v = Some o) ->
    forall cs, Forall2 (fun a b => fst a = fst b /\ SpecFields.holds (r_get_message r) (snd a) (snd b)) fs cs ->
    (forall f t, In (f, t) cs -> dget f all = Some t) ->
    forall js a, ser_fields k at_ cs = Ok js ->
    exists a', deser_fields k mt all js a = Ok a' /\
      (incl (map fst fs) (map fst a) -> map fst a' = map fst a) /\
      (NoDup (map fst fs) -> forall f, dget f a' = if in_dec string_dec f (map fst fs) then dget f at_ else dget f a).
  Proof.
    intros k IHk at_ mt. induction fs as [|[f t] q IH]; intros all At Ms cs F All js a E; inversion F as [|? [f' ct] ? cs' [Ef Hh] F']; subst.
    - cbn in E. injection E as <-. exists a. cbn. auto.
    - cbn [fst snd] in *. subst f'. cbn [ser_fields] in E. destruct (At f t (or_introl eq_refl)) as (v & o & Ea & Ht & Ho). rewrite Ea in E.
      destruct (ser r k ct o) as [j|e|] eqn:Es; try discriminate. destruct (ser_fields k at_ cs') as [js'|e|] eqn:Eq; try discriminate. injection E as <-.
      destruct (takes_value t ct v o Hh Ht Ho) as [(-> & Sh & St)|(e & so & ml & st & l & -> & A)]; [|rewrite (ser_array k e so ml st o l A) in Es; discriminate].
      destruct (IH all (fun a b I => At a b (or_intror I)) (fun a b c d I => Ms a b c d (or_intror I)) cs' F' (fun a b I => All a b (or_intror I)) js'
                   (dset f (ModelFields.PVal v) a) Eq) as (a' & Da & Ka & Va).
      exists a'. cbn [deser_fields]. rewrite (All f ct (or_introl eq_refl)), (IHk ct v j Sh St Es), (Ms f t v _ (or_introl eq_refl) Ht).
      split; [exact Da|]. split.
      + intros I. rewrite Ka; [apply dset_keys, I; left; reflexivity|].
        rewrite dset_keys by (apply I; left; reflexivity). intros x Ix. apply I. right. exact Ix.
      + intros N g. inversion N as [|? ? Nf Nq]; subst. rewrite (Va Nq g), dget_dset_at. cbn [map fst].
        destruct (in_dec string_dec g (map fst q)) as [I|I]; destruct (in_dec string_dec g (f :: map fst q)) as [J|J].
        * reflexivity.
        * exfalso. apply J. right. exact I.
        * destruct J as [<-|J]; [rewrite String.eqb_refl; auto|contradiction].
        * destruct (String.eqb_spec g f) as [->|]; [exfalso; apply J; left; reflexivity|reflexivity].
  Qed.

  Lemma level : forall fuel,
    (forall m i v j, shape (TRosMsg m i) v -> storable r obj (TRosMsg m i) v -> ser r fuel (TRosMsg m i) (ModelFields.PVal v) = Ok j ->
       deser r fuel (TRosMsg m i) j = Ok v) ->
    forall t v j, shape t v -> storable r obj t v -> ser r fuel t (ModelFields.PVal v) = Ok j -> deser r fuel t j = Ok v.
  Proof.
    intros fuel M.
    assert (P : forall v j, scalar v -> Ok (raw v) = Ok j -> Ok (parsed j) = Ok v).
    { intros v j H [= <-]. rewrite parsed_raw; [reflexivity|apply scalar_plain, H]. }
    induction t as [|mn mx|mn mx|ml va|ml va|ml va|e IH so ml st|e IH so ml st|l|rk i|m i|rk i]; intros v j Sh St E.
    - destruct Sh as [b ->]. destruct fuel; exact (P (VBool b) j I E).
    - assert (Q : scalar v) by (destruct v; auto). destruct fuel; exact (P v j Q E).
    - assert (Q : scalar v) by (destruct v; auto). destruct fuel; exact (P v j Q E).
    - destruct Sh as [b ->]. destruct fuel; exact (P (VStr b) j I E).
    - destruct Sh as [b ->]. destruct fuel; exact (P (VStr b) j I E).
    - destruct Sh as [s ->]. assert (H : j = JStr (hex s)) by (destruct fuel; cbn in E; congruence). subst j.
      transitivity (match fromhex (hex s) with Some b => Ok (VBytes b) | None => Err EData end); [destruct fuel; reflexivity|].
      rewrite fromhex_hex. reflexivity.
    - cbn [shape storable] in *. destruct Sh as (l & -> & Sh). rewrite ser_list in E.
      destruct (map_res (fun x => ser r fuel e (ModelFields.PVal x)) l) as [js|x|] eqn:Em; try discriminate. injection E as <-.
      rewrite deser_list, (map_res_back _ _ _ (deser r fuel e) _ _ Em); [reflexivity|]. intros x y I Ey. apply IH; eauto.
    - cbn [shape storable] in *. destruct Sh as (l & -> & Sh). rewrite ser_dict in E.
      destruct (map_res (on_snd (fun x => ser r fuel e (ModelFields.PVal x))) l) as [js|x|] eqn:Em; try discriminate.
      assert (j = JDict js) as -> by (destruct js as [|[k0 j0] js]; [congruence|]; destruct (is_text j0); congruence).
      rewrite deser_dict, (map_res_back _ _ _ (on_snd (deser r fuel e)) _ _ Em); [reflexivity|]. intros [kx x] y I Ey.
      eapply on_snd_back; [exact Ey|]. cbn [snd]. intros z Ez. apply IH; eauto.
    - cbn [storable] in St. assert (E' : gen_ser r v = Ok j) by (destruct fuel; exact E).
      pose proof (gen_round numbers v j St E') as R. destruct fuel; exact R.
    - destruct Sh as [b ->]. destruct fuel; exact (P (VStr b) j I E).
    - apply (M m i v j); auto.
    - cbn [shape storable] in *. destruct Sh as (k & s & ->). specialize (St k s eq_refl).
      assert (j = JStr (r_name r k s)) as -> by (destruct fuel; cbn in E; congruence). destruct fuel; exact St.
  Qed.

  Theorem back : forall fuel t v j, shape t v -> storable r obj t v -> ser r fuel t (ModelFields.PVal v) = Ok j -> deser r fuel t j = Ok v.
  Proof.
    induction fuel as [|k IHk]; apply level; intros m i v j Sh St E.
    - cbn [shape] in Sh. destruct Sh as [n ->]. discriminate E.
    - cbn [shape storable] in *. destruct Sh as [n ->]. specialize (St m n eq_refl). rewrite ser_msg in E.
      destruct (r_class r m) as [mt|] eqn:Cm; [|discriminate]. destruct (classes m mt Cm) as (fs & (Cf & Cn & Cp & Ck & Cs) & Rd & Ob).
      destruct (Ob n St) as (On & Oo & Ov).
      destruct (element_ok fs) as (cs & Ee & Fa). { intros f t I. split; [exact (Rd f t I)|exact (proj2 (Cp f t I))]. }
      rewrite Cf, Ee in E. destruct (ser_fields k (r_attrs r m n) cs) as [js|e|] eqn:Ej; try discriminate. injection E as <-.
      assert (Nc : map fst cs = map fst fs). { clear - Fa. induction Fa as [|x y a b [H _] _ IH]; cbn [map]; congruence. }
      rewrite deser_msg, Cm, Cf, Ee.
      destruct (fields_back k IHk (r_attrs r m n) mt fs cs Ov (fun f t v o I => proj2 (Cs f t v o I)) cs Fa) with (js := js) (a := ModelFields.mt_new mt)
        as (a' & Da & Ka & Va); [intros f t I; apply dget_in; [rewrite Nc; exact Cn|exact I]|exact Ej|].
      rewrite Da. replace a' with (r_attrs r m n); [rewrite Oo; reflexivity|].
      assert (Ka' : map fst a' = map fst fs). { rewrite <- Ck. apply Ka. rewrite Ck. apply incl_refl. }
      apply dget_same; [congruence|rewrite On; exact Cn|]. intros f I. rewrite (Va Cn f). rewrite On in I.
      destruct (in_dec string_dec f (map fst fs)); [reflexivity|contradiction].
  Qed.
End Ros.

(** ** Containers *)

Lemma default_shape : forall t v, class_default t = Some v -> shape t v.
Proof.
  intros [|mn mx|mn mx|ml va|ml va|ml va|e so ml st|e so ml st|[|b l]|k i|m i|k i] v H; try discriminate; cbn [class_default] in H;
    try (destruct k); injection H as <-; cbn; eauto.
  - eexists. split; [reflexivity|]. intros x [].
  - eexists. split; [reflexivity|]. intros k x [].
Qed.
Lemma adjust_shape : forall t o v, (forall x, o = Some x -> shape t x) -> adjust_default t o = Some v -> shape t v.
Proof.
  intros t o v H E. destruct t; cbn [adjust_default] in E; try (apply H; exact E).
  - destruct (Z.ltb mx 0); [injection E as <-; exact I|]. destruct (Z.ltb 0 mn); [injection E as <-; exact I|]. apply H, E.
  - destruct (SFltb mx (S754_zero false)); [injection E as <-; exact I|]. destruct (SFltb (S754_zero false) mn); [injection E as <-; exact I|]. apply H, E.
Qed.
Lemma set_shape : forall c x v, (forall y, c_val c = Some y -> shape (c_ty c) y) -> c_val (fst (set_value c x)) = Some v -> shape (c_ty c) v.
Proof.
  intros c x v H E. destruct (set_value_cases c x) as [[e X]|[X|[[v' [_ [_ [_ X]]]]|[v' [Hc [_ X]]]]]]; rewrite X in E; cbn [fst c_val] in E; auto.
  destruct (changed (c_val c) v'); [injection E as <-; apply admits_shape; eapply check_admits; eauto|auto].
Qed.
Lemma construct_shape : forall t dyn sta st x c v, construct t dyn sta st x = Some c -> c_val c = Some v -> shape t v.
Proof.
  intros t dyn sta st x c v H E. unfold construct in H. destruct (negb (params_ok t)); [discriminate|]. destruct (is_type_container t && dyn); [discriminate|].
  destruct (negb dyn && negb sta); [discriminate|]. destruct (_ && negb sta); [discriminate|]. destruct (negb _ && negb dyn); [discriminate|].
  set (s := match st with None => sta | Some b => b end) in *. set (c0 := mkC t dyn sta s (class_default t) false) in *.
  assert (K : forall c1, (forall y, c_val c1 = Some y -> shape t y) -> (if s && negb (c_upd c1) then mkC t dyn sta s (adjust_default t (c_val c1)) (c_upd c1) else c1) = c -> shape t v).
  { intros c1 H1 Ec. destruct (s && negb (c_upd c1)); rewrite <- Ec in E; [cbn [c_val] in E; eapply adjust_shape; eauto|auto]. }
  destruct x as [x|].
  - pose proof (set_shape c0 x) as S0. destruct (set_value c0 x) as [c1 [u|e|]]; try discriminate. injection H as H. apply (K c1); [|exact H].
    intros y Hy. apply (S0 y); [exact (default_shape t)|exact Hy].
  - injection H as H. apply (K c0); [exact (default_shape t)|exact H].
Qed.
Lemma ops_shape : forall ops c v, (forall y, c_val c = Some y -> shape (c_ty c) y) -> c_val (cops_run ops c) = Some v -> shape (c_ty c) v.
Proof.
  intros ops c v H E. destruct (cops_admit ops c) as [X|[X|(x & X & A)]]; rewrite X in E; [discriminate|auto|].
  injection E as <-. apply admits_shape, A.
Qed.

(** What a static container holds: the default, or a value that it accepts. *)
Definition good (t : ctype) (v : value) : Prop := check t v = Ok v \/ adjust_default t (class_default t) = Some v.
Lemma construct_good : forall t dyn sta x c, construct t dyn sta (Some true) x = Some c -> forall v, c_val c = Some v -> good t v.
Proof.
  intros t dyn sta x c H v E. unfold construct in H. destruct (negb (params_ok t)); [discriminate|]. destruct (is_type_container t && dyn); [discriminate|].
  destruct (negb dyn && negb sta); [discriminate|]. destruct (_ && negb sta); [discriminate|]. destruct (negb _ && negb dyn); [discriminate|].
  set (c0 := mkC t dyn sta true (class_default t) false) in *. destruct x as [x|].
  - destruct (set_value_cases c0 x) as [[e X]|[X|[[v' [_ [X0 _]]]|[v' [Hc [_ X]]]]]];
      [rewrite X in H; discriminate|rewrite X in H; discriminate|discriminate X0|].
    rewrite X in H. cbn [c_upd c_val c_ty c0 c_dyn c_sta c_static] in H, Hc, X. destruct (changed (class_default t) v').
    + injection H as H. rewrite <- H in E. cbn in E. left. injection E as <-. eapply check_again; eauto.
    + injection H as H. rewrite <- H in E. cbn in E. right. exact E.
  - injection H as H. rewrite <- H in E. cbn in E. right. exact E.
Qed.
Lemma ops_good : forall t ops c, c_ty c = t -> (forall v, c_val c = Some v -> good t v) -> forall v, c_val (cops_run ops c) = Some v -> good t v.
Proof.
  intros t. unfold cops_run. induction ops as [|o q IH]; intros c T H v E; cbn [fold_left] in E; [auto|].
  apply (IH (cop_run c o)); [rewrite (cops_keep_ty [o] c : c_ty (cop_run c o) = c_ty c); exact T| |exact E].
  clear v E. intros v E. destruct o; cbn [cop_run] in E; auto.
  - destruct (set_value_cases c v0) as [[e X]|[X|[[v' [_ [_ [_ X]]]]|[v' [Hc [_ X]]]]]]; rewrite X in E; cbn [fst c_val] in E; auto.
    destruct (changed (c_val c) v'); [|auto]. injection E as <-. left. rewrite T in Hc. eapply check_again; eauto.
  - cbn in E. destruct (c_static c); [auto|discriminate].
Qed.
Lemma match_no_raise : forall d valid i, dget IDENTIFIER_KEY d = Some i ->
  (forall x, dget ELEMENT_KEY d = Some x -> match_generic x valid <> Raise) -> match_generic (VDict d) valid <> Raise.
Proof.
  intros d valid i Hi He. cbn [match_generic]. rewrite Hi. destruct (find _ valid) as [o|]; [|discriminate].
  destruct (keys_eq (generic_map o) d); [|discriminate].
  change (elt_go valid d <> Raise). rewrite elt_go_dget. destruct (dget ELEMENT_KEY d) as [x|]; [auto|discriminate].
Qed.
Lemma default_form : forall t v, adjust_default t (class_default t) = Some v -> check t v <> Raise /\ forall w, check t v = Ok w -> w = v.
Proof.
  intros t v E. split.
  - destruct t as [|mn mx|mn mx|ml va|ml va|ml va|e so ml st|e so ml st|[|b l]|k i|m i|k i]; cbn [adjust_default class_default] in E; try discriminate.
    + injection E as <-. discriminate.
    + assert (exists z, v = VInt z) as [z ->] by (destruct (Z.ltb mx 0); [|destruct (Z.ltb 0 mn)]; injection E as <-; eauto). cbn [check].
      destruct (Z.ltb z mn); [discriminate|]. destruct (Z.ltb mx z); discriminate.
    + assert (exists z, v = VFloat z) as [z ->] by (destruct (SFltb mx (S754_zero false)); [|destruct (SFltb (S754_zero false) mn)]; injection E as <-; eauto). cbn [check].
      destruct (SFltb z mn); [discriminate|]. destruct (SFltb mx z); discriminate.
    + injection E as <-. cbn [check]. destruct (str_check ml va ""); discriminate.
    + injection E as <-. cbn. discriminate.
    + injection E as <-. cbn [check]. destruct (Z.leb _ ml); [destruct va|]; discriminate.
    + injection E as <-. cbn. destruct (len_check 0 ml st); discriminate.
    + injection E as <-. cbn. destruct (len_check 0 ml st); discriminate.
    + injection E as <-. cbn [check].
      assert (N : match_generic (VDict (generic_map b)) (b :: l) <> Raise).
      { destruct b; (eapply match_no_raise; [reflexivity|]; intros x Hx; try discriminate Hx);
          (injection Hx as <-; eapply match_no_raise; [reflexivity|]; intros y Hy; discriminate Hy). }
      destruct (dget IDENTIFIER_KEY (generic_map b)); [|discriminate].
      destruct (match_generic (VDict (generic_map b)) (b :: l)); [discriminate|discriminate|congruence].
    + injection E as <-. discriminate.
    + injection E as <-. cbn. rewrite String.eqb_refl. discriminate.
    + destruct k; injection E as <-; discriminate.
  - intros w H. assert (G : w = v \/ exists a b, t = TFloat a b).
    { destruct t; cbn [check] in H; eauto; left; repeat match type of H with context [match ?x with _ => _ end] => destruct x end; congruence. }
    destruct G as [->|(mn & mx & ->)]; [reflexivity|]. cbn [adjust_default class_default] in E.
    assert (exists z, v = VFloat z) as [z ->] by (destruct (SFltb mx (S754_zero false)); [|destruct (SFltb (S754_zero false) mn)]; injection E as <-; eauto).
    cbn [check] in H. destruct (SFltb z mn); [discriminate|]. destruct (SFltb mx z); [discriminate|]. congruence.
Qed.

Lemma read_construct : forall c, wf_container c -> shallow (c_ty c) (c_dyn c) ->
  (element_static (c_ty c) = None \/ element_static (c_ty c) = Some (c_sta c)) ->
  exists c', from_msg (serialize_type c) = Some c' /\ construct (c_ty c) (c_dyn c) (c_sta c) (Some (c_static c)) None = Some c' /\
    c_ty c' = c_ty c /\ c_dyn c' = c_dyn c /\ c_sta c' = c_sta c /\ c_static c' = c_static c.
Proof.
  intros c W S0 El. destruct (round_trip c W S0 El) as (c' & E & T & D & S1 & S2). exists c'. split; [exact E|]. split; [|auto].
  unfold from_msg in E. destruct (read_type _ _ _ _ _) as [t|]; [|discriminate]. pose proof (construct_flags _ _ _ _ _ _ E) as F.
  destruct (ser_flags (c_ty c) (c_dyn c) (c_sta c) (c_static c)) as [F1 [F2 F3]]. unfold serialize_type in E. rewrite F1, F2, F3 in E.
  replace (c_ty c) with t; [exact E|]. destruct F as [F _]. congruence.
Qed.
Lemma cops_keep_flags : forall ops c, c_dyn (cops_run ops c) = c_dyn c /\ c_sta (cops_run ops c) = c_sta c /\ c_static (cops_run ops c) = c_static c.
Proof.
  unfold cops_run. induction ops as [|o q IH]; intros c; cbn [fold_left]; [auto|].
  assert (K : c_dyn (cop_run c o) = c_dyn c /\ c_sta (cop_run c o) = c_sta c /\ c_static (cop_run c o) = c_static c).
  { destruct o; cbn [cop_run]; auto. destruct (set_value_cases c v) as [[e X]|[X|[[v' [_ [_ [_ X]]]]|[v' [Hc [_ X]]]]]]; rewrite X; auto. }
  destruct (IH (cop_run c o)) as (A & B & C). destruct K as (D & E & F). rewrite A, B, C. auto.
Qed.
Lemma construct_static : forall t dyn sta x c, construct t dyn sta (Some true) x = Some c -> c_static c = true.
Proof.
  intros t dyn sta x c H. unfold construct in H. destruct (negb (params_ok t)); [discriminate|]. destruct (is_type_container t && dyn); [discriminate|].
  destruct (negb dyn && negb sta); [discriminate|]. destruct (_ && negb sta); [discriminate|]. destruct (negb _ && negb dyn); [discriminate|].
  set (c0 := mkC t dyn sta true (class_default t) false) in *. destruct x as [x|]; [|injection H as <-; reflexivity].
  destruct (set_value_cases c0 x) as [[e X]|[X|[[v' [_ [X0 _]]]|[v' [Hc [_ X]]]]]];
      [rewrite X in H; discriminate|rewrite X in H; discriminate|discriminate X0|].
  rewrite X in H. cbn [c_upd c_val c_ty c0 c_dyn c_sta c_static] in H. destruct (changed (class_default t) v'); injection H as <-; reflexivity.
Qed.
Lemma default_of : forall t dyn sta c, construct t dyn sta (Some true) None = Some c -> c_val c = adjust_default t (class_default t) /\ c_upd c = false.
Proof.
  intros t dyn sta c H. unfold construct in H. destruct (negb (params_ok t)); [discriminate|]. destruct (is_type_container t && dyn); [discriminate|].
  destruct (negb dyn && negb sta); [discriminate|]. destruct (_ && negb sta); [discriminate|]. destruct (negb _ && negb dyn); [discriminate|].
  injection H as <-. split; reflexivity.
Qed.

Section Saved.
  Variable r : ros.
  Variable obj : string -> nat -> Prop.
  Variable round : spec_float -> spec_float.
  Hypothesis classes : sound_classes r obj round.
  Hypothesis numbers : sound_numbers r.

  Theorem value_back : forall fuel t v w j, check t v = Ok w -> storable r obj t w -> ser r fuel t (ModelFields.PVal w) = Ok j -> deser r fuel t j = Ok w.
  Proof. intros fuel t v w j H St E. apply (back r obj round classes numbers); auto. apply admits_shape. eapply check_admits; eauto. Qed.

  Theorem saved : forall fuel t dyn sta init c1 ops v m, construct t dyn sta (Some true) init = Some c1 ->
    shallow t dyn -> (element_static t = None \/ element_static t = Some sta) ->
    let c := cops_run ops c1 in c_val c = Some v -> storable r obj t v ->
    write_input r fuel c = Ok m ->
    exists c' x, read_input r fuel m = Ok c' /\ c_ty c' = t /\ c_static c' = true /\ c_val c' = Some x /\ SpecFields.equal_to x v.
  Proof.
    intros fuel t dyn sta init c1 ops v m C Sh El c V St W.
    destruct (construct_flags _ _ _ _ _ _ C) as (T1 & D1 & S1 & Wf). destruct Wf as (P & Q1 & Q2 & Q3).
    assert (T : c_ty c = t) by (unfold c; rewrite cops_keep_ty; exact T1).
    assert (Fl : c_dyn c = dyn /\ c_sta c = sta /\ c_static c = true).
    { destruct (cops_keep_flags ops c1) as (K1 & K2 & K3). unfold c. rewrite K1, K2, K3. split; [exact D1|]. split; [exact S1|].
      exact (construct_static _ _ _ _ _ C). }
    destruct Fl as (D & Sa & Stc).
    assert (Wc : wf_container c).
    { split; [rewrite T; congruence|]. rewrite T, D, Sa. rewrite T1, D1, S1 in *. split; [exact Q1|]. rewrite Stc. split; [|discriminate].
      intros _. apply Q2. exact (construct_static _ _ _ _ _ C). }
    unfold write_input in W. rewrite Stc in W. destruct (serialize_value r fuel c) as [text|e|] eqn:Sv; try discriminate. injection W as <-.
    unfold serialize_value in Sv. rewrite V, T in Sv. destruct (ser r fuel t (ModelFields.PVal v)) as [j|e|] eqn:Sj; try discriminate. injection Sv as <-.
    destruct (read_construct c Wc) as (c' & Fm & Cn & T' & D' & Sa' & St'); [rewrite T, D; exact Sh|rewrite T, Sa; exact El|].
    rewrite T, D, Sa, Stc in *. destruct (default_of _ _ _ _ Cn) as [Dv Du].
    assert (Hs : shape t v).
    { rewrite <- T1. apply (ops_shape ops c1 v); [|exact V]. intros y Hy. rewrite T1. exact (construct_shape _ _ _ _ _ _ _ C Hy). }
    assert (G : good t v) by (eapply (ops_good t ops c1); [exact T1|exact (construct_good _ _ _ _ _ C)|exact V]).
    unfold read_input. cbn [fst snd]. rewrite Fm, St'. unfold deserialize_value. rewrite T', (back r obj round classes numbers fuel t v j Hs St Sj).
    assert (Acc : check t v = Ok v -> exists c2 x, (exists o, set_value c' v = (c2, Ok o)) /\ c_ty c2 = t /\ c_static c2 = true /\ c_val c2 = Some x /\ SpecFields.equal_to x v).
    { intros Hc. destruct (set_value_cases c' v) as [[e X]|[X|[[v' [_ [X0 _]]]|[v' [Hc' [_ X]]]]]].
      - exfalso. unfold set_value, base_set in X. rewrite T', Hc, Du, andb_false_r in X. destruct t; discriminate.
      - exfalso. unfold set_value, base_set in X. rewrite T', Hc, Du, andb_false_r in X. destruct t; discriminate.
      - rewrite Du, andb_false_r in X0. discriminate.
      - rewrite T', Hc in Hc'. injection Hc' as <-. rewrite X. unfold changed. destruct (c_val c') as [d|] eqn:Ed; [destruct (py_eq d v) eqn:Pe; cbn [negb]|].
        + eexists. exists d. split; [eexists; reflexivity|]. cbn [c_ty c_static c_val]. split; [exact T'|]. split; [exact St'|]. split; [reflexivity|right; exact Pe].
        + eexists. exists v. split; [eexists; reflexivity|]. cbn [c_ty c_static c_val]. split; [exact T'|]. split; [exact St'|]. split; [reflexivity|left; reflexivity].
        + eexists. exists v. split; [eexists; reflexivity|]. cbn [c_ty c_static c_val]. split; [exact T'|]. split; [exact St'|]. split; [reflexivity|left; reflexivity]. }
    destruct G as [Hc|Hd].
    - destruct (Acc Hc) as (c2 & x & [o X] & H). rewrite X. exists c2, x. auto.
    - destruct (default_form t v Hd) as [Nr Eq]. destruct (check t v) as [w|e|] eqn:Hc; [|clear Acc|congruence].
      + rewrite (Eq w eq_refl) in Acc. destruct (Acc eq_refl) as (c2 & x & [o X] & H). rewrite X. exists c2, x. auto.
      + assert (X : set_value c' v = (c', Err e)) by (unfold set_value; rewrite T', Hc; reflexivity). rewrite X. exists c', v.
        split; [reflexivity|]. split; [exact T'|]. split; [exact St'|]. split; [congruence|left; reflexivity].
  Qed.

  (** ** What is written, and what is not *)

  Lemma gen_total : forall v, described v -> exists d, gen_ser r v = Ok (JDict d).
  Proof.
    induction v as [b|z|f|s|s|l IH|d IH|t p|k n] using value_ind'; intros D; try (inversion D; fail).
    inversion D as [d' i Hi Hb He Hp]; subst d'. rewrite gen_ser_eq.
    assert (exists js, gen_entries r d = Ok js) as [js ->]; [|eauto].
    clear Hi Hb Hp D. induction d as [|[k x] q IHd]; [exists []; reflexivity|]. inversion IH as [|? ? IHx IHq]; subst. cbn [snd] in IHx.
    destruct (IHd IHq (fun y I => He y (or_intror I))) as [js Ej]. cbn [gen_entries]. rewrite Ej.
    assert (exists j, gen_entry r k x = Ok j) as [j ->]; [|eauto]. unfold gen_entry.
    destruct (String.eqb k "min_value" || String.eqb k "max_value"); [eauto|]. destruct (String.eqb_spec k ELEMENT_KEY) as [->|]; [|eauto].
    destruct (He x (or_introl eq_refl)) as (_ & _ & Dx). destruct (IHx Dx) as [d0 E0]. eauto.
  Qed.

  Lemma ser_kind : forall fuel t v j, shape t v -> storable r obj t v -> ser r fuel t (ModelFields.PVal v) = Ok j -> (text_type t <-> is_text j = true).
  Proof.
    intros fuel t v j Sh St E.
    destruct t as [|mn mx|mn mx|ml va|ml va|ml va|e so ml st|e so ml st|l|k i|m i|k i]; cbn [shape storable text_type] in *.
    - destruct Sh as [b ->]. assert (j = JBool b) as -> by (destruct fuel; cbn in E; congruence). cbn. split; [tauto|discriminate].
    - assert (j = raw v) as -> by (destruct fuel; cbn in E; congruence). destruct v; try destruct Sh; cbn; (split; [tauto|discriminate]).
    - assert (j = raw v) as -> by (destruct fuel; cbn in E; congruence). destruct v; try destruct Sh; cbn; (split; [tauto|discriminate]).
    - destruct Sh as [b ->]. assert (j = JStr b) as -> by (destruct fuel; cbn in E; congruence). cbn. tauto.
    - destruct Sh as [b ->]. assert (j = JStr b) as -> by (destruct fuel; cbn in E; congruence). cbn. tauto.
    - destruct Sh as [b ->]. assert (j = JStr (hex b)) as -> by (destruct fuel; cbn in E; congruence). cbn. tauto.
    - destruct Sh as (l & -> & Sh). rewrite ser_list in E. destruct (map_res _ l); try discriminate. injection E as <-. cbn. split; [tauto|discriminate].
    - destruct Sh as (l & -> & Sh). rewrite ser_dict in E. destruct (map_res _ l) as [[|[k0 j0] js]|x|]; try discriminate; [injection E as <-|destruct (is_text j0); [injection E as <-|discriminate]]; cbn; (split; [tauto|discriminate]).
    - assert (E' : gen_ser r v = Ok j) by (destruct fuel; exact E). destruct (gen_total v St) as [d E0]. rewrite E0 in E'. injection E' as <-. cbn. split; [tauto|discriminate].
    - destruct Sh as [b ->]. assert (j = JStr b) as -> by (destruct fuel; cbn in E; congruence). cbn. tauto.
    - destruct Sh as [n ->]. destruct fuel as [|fuel]; [discriminate|]. rewrite ser_msg in E. destruct (r_class r m) as [mt|]; [|discriminate].
      destruct (element_fields r _) as [fs|e|]; try discriminate; [destruct (ser_fields r _ _ fs); try discriminate|]; injection E as <-; cbn; (split; [tauto|discriminate]).
    - destruct Sh as (k0 & s & ->). assert (j = JStr (r_name r k0 s)) as -> by (destruct fuel; cbn in E; congruence). cbn. tauto.
  Qed.

  Lemma total : forall fuel t v, printable t -> shape t v -> storable r obj t v -> exists j, ser r fuel t (ModelFields.PVal v) = Ok j.
  Proof.
    intros fuel. induction t as [|mn mx|mn mx|ml va|ml va|ml va|e IH so ml st|e IH so ml st|l|k i|m i|k i]; intros v Pr Sh St; cbn [shape storable printable] in *.
    - destruct fuel; cbn; eauto.
    - destruct fuel; cbn; eauto.
    - destruct fuel; cbn; eauto.
    - destruct fuel; cbn; eauto.
    - destruct fuel; cbn; eauto.
    - destruct Sh as [s ->]. destruct fuel; cbn; eauto.
    - destruct Sh as (l & -> & Sh). rewrite ser_list. destruct (map_res_ok _ _ (fun x => ser r fuel e (ModelFields.PVal x)) l) as [js ->]; eauto.
    - destruct Sh as (l & -> & Sh). destruct Pr as [Tx Pr]. rewrite ser_dict.
      assert (K : forall k x, In (k, x) l -> exists j, ser r fuel e (ModelFields.PVal x) = Ok j /\ is_text j = true).
      { intros k x I. destruct (IH x Pr (Sh k x I) (St l eq_refl k x I)) as [j E]. exists j. split; [exact E|].
        apply (ser_kind fuel e x j (Sh k x I) (St l eq_refl k x I) E), Tx. }
      destruct (map_res_ok _ _ (on_snd (fun x => ser r fuel e (ModelFields.PVal x))) l) as [js Ej].
      { intros [k x] I. destruct (K k x I) as (j & E & _). unfold on_snd. cbn [fst snd]. rewrite E. eauto. }
      rewrite Ej. destruct js as [|[k0 j0] js]; [eauto|]. destruct l as [|[k x] l]; [discriminate|]. cbn [map_res] in Ej.
      destruct (K k x (or_introl eq_refl)) as (j & E & B). unfold on_snd at 1 in Ej. cbn [fst snd] in Ej. rewrite E in Ej.
      destruct (map_res _ l); try discriminate. injection Ej as <- <- _. rewrite B. eauto.
    - destruct (gen_total v St) as [d E]. exists (JDict d). destruct fuel; exact E.
    - destruct fuel; cbn; eauto.
    - contradiction.
    - destruct Sh as (k0 & s & ->). destruct fuel; cbn; eauto.
  Qed.

  Lemma dict_raises : forall fuel e so ml st d v, ~ text_type e -> shape (TDict e so ml st) (VDict d) -> storable r obj (TDict e so ml st) (VDict d) -> d <> [] ->
    ser r fuel (TDict e so ml st) (ModelFields.PVal (VDict d)) <> Ok v.
  Proof.
    intros fuel e so ml st d v Nt Sh St Ne E. cbn [shape storable] in *. destruct Sh as (l & [= <-] & Sh). rewrite ser_dict in E.
    destruct d as [|[k x] d]; [congruence|]. cbn [map_res] in E. unfold on_snd at 1 in E. cbn [fst snd] in E.
    destruct (ser r fuel e (ModelFields.PVal x)) as [j|y|] eqn:Ex; try discriminate. destruct (map_res _ d); try discriminate.
    destruct (is_text j) eqn:B; [|discriminate]. apply Nt. eapply (ser_kind fuel e x j); eauto.
    - eapply Sh. left. reflexivity.
    - eapply St; [reflexivity|]. left. reflexivity.
  Qed.

  Lemma ser_fields_some : forall k at_ cs js, ser_fields r k at_ cs = Ok js -> forall f ct, In (f, ct) cs ->
    exists a j, dget f at_ = Some a /\ ser r k ct a = Ok j.
  Proof.
    intros k at_. induction cs as [|[g u] q IH]; intros js E f ct I; [contradiction|]. cbn [ser_fields] in E.
    destruct (dget g at_) as [a|] eqn:Dg; [|discriminate]. destruct (ser r k u a) as [j|y|] eqn:Es; try discriminate.
    destruct (ser_fields r k at_ q) as [js'|y|]; try discriminate. destruct I as [[= -> ->]|I]; eauto.
  Qed.
  Lemma array_raises : forall fuel m mt fs i n j, r_class r m = Some mt -> SpecFields.class_of (r_get_message r) round mt fs -> SpecFields.readable fs ->
    (exists f e, SpecFields.is_number e /\ ((exists b, In (f, SpecFields.FSeq e b) fs) \/ exists k, In (f, SpecFields.FArr e k) fs)) -> obj m n ->
    ser r fuel (TRosMsg m i) (ModelFields.PVal (VMsg m n)) <> Ok j.
  Proof.
    intros fuel m mt fs i n j Cm (Cf & Cn & Cp & Ck & Cs) Rd (f & e & Nu & Hin) Ob E. destruct fuel as [|k]; [discriminate|]. rewrite ser_msg, Cm in E.
    destruct (element_ok r fs) as (cs & Ee & Fa). { intros g t I. split; [exact (Rd g t I)|exact (proj2 (Cp g t I))]. }
    rewrite Cf, Ee in E. destruct (classes m mt Cm) as (fs2 & C2 & _ & O2). destruct (O2 n Ob) as (_ & _ & Ov).
    assert (X : exists t, In (f, t) fs /\ (forall v o, SpecFields.takes (r_get_message r) round t v o -> exists l, o = ModelFields.PArray l \/ o = ModelFields.PNumpy l) /\
      forall ct, SpecFields.holds (r_get_message r) t ct -> exists e so ml st, ct = TList e so ml st).
    { destruct Hin as [[b I]|[b I]]; eexists; (split; [exact I|]); split.
      - intros v o H. inversion H as [? ? H1| | | |]; subst; [inversion H1|contradiction|eauto].
      - intros ct H. inversion H as [? ? H1|? ? ? H1|]; subst; [inversion H1|eauto].
      - intros v o H. inversion H as [? ? H1| | | |]; subst; [inversion H1|contradiction|eauto].
      - intros ct H. inversion H as [? ? H1| |? ? ? H1]; subst; [inversion H1|eauto]. }
    destruct X as (t & I & At & Ht). destruct C2 as (Cf2 & _ & _ & _ & Cs2).
    assert (I2 : exists t2, In (f, t2) fs2).
    { assert (J : In f (map fst (ModelFields.mt_fields mt))). { rewrite Cf, map_map. apply (in_map fst) in I. exact I. }
      rewrite Cf2, map_map in J. apply in_map_iff in J. destruct J as ([g t2] & <- & J). eauto. }
    destruct I2 as [t2 I2]. destruct (Ov f t2 I2) as (v & o & Dg & Tk & _).
    apply (Cs2 f t2 v o I2) in Tk. apply (Cs f t v o I) in Tk. destruct (At v o Tk) as [l Ho].
    assert (C : exists ct, In (f, ct) cs /\ SpecFields.holds (r_get_message r) t ct).
    { clear - Fa I. induction Fa as [|[g u] [g' ct] a b [H1 H2] _ IH]; [contradiction|]. cbn [fst snd] in *. subst g'.
      destruct I as [[= -> ->]|I]; [exists ct; split; [left; reflexivity|exact H2]|]. destruct (IH I) as (ct' & J & K). exists ct'. split; [right; exact J|exact K]. }
    destruct C as (ct & Ic & Hc). destruct (Ht ct Hc) as (e' & so & ml & st & ->).
    destruct (ser_fields r k (r_attrs r m n) cs) as [js|y|] eqn:Ej; try discriminate.
    destruct (ser_fields_some k (r_attrs r m n) cs js Ej f _ Ic) as (a & j' & Da & Sa). rewrite Dg in Da. injection Da as <-.
    rewrite (ser_array r k e' so ml st o l Ho) in Sa. discriminate.
  Qed.
End Saved.
