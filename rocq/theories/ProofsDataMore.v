(** Proofs about the data leaves, continued: paths, random numbers, arithmetic. *)
From Coq Require Import String Ascii ZArith Bool SpecFloat Arith Lia List.
From Verif Require Import Base ModelData ModelUtility ModelTree ModelLeaf ModelDataLeaf SpecData SpecLeaf SpecDataLeaf.
From Verif Require Import ProofsData ProofsLeaf ProofsDataLeaf ProofsDataRefs ProofsDataClass.
Import ListNotations.
Local Open Scope string_scope.
Local Open Scope list_scope.

(** ** Paths *)
Lemma span_split : forall p l a b, span p l = (a, b) -> l = a ++ b /\ (forall x, In x a -> p x = false) /\
  match b with [] => True | c :: _ => p c = true end.
Proof.
  intros p l. induction l as [|c l IH]; intros a b H; cbn in H; [injection H as <- <-; cbn; split; [auto|split; [intros x []|auto]]|].
  destruct (p c) eqn:E; [injection H as <- <-; split; [auto|split; [intros x []|auto]]|].
  destruct (span p l) as [a1 b1]. injection H as <- <-. destruct (IH _ _ eq_refl) as (A & B & C). split; [cbn; congruence|].
  split; [|auto]. intros x [<-|J]; auto.
Qed.
Lemma span_app : forall p a b, (forall x, In x a -> p x = false) -> span p (a ++ b) = (a ++ fst (span p b), snd (span p b)).
Proof.
  intros p a b. induction a as [|c a IH]; intros H; cbn; [destruct (span p b); auto|].
  rewrite (H c (or_introl eq_refl)), IH by (intros; apply H; right; auto). reflexivity.
Qed.
Lemma dot_ne : forall c, is_dot c = false <-> c <> "."%char.
Proof. intros c. unfold is_dot. destruct (Ascii.eqb_spec c "."); split; congruence. Qed.
Lemma slash_ne : forall c, is_slash c = false <-> c <> "/"%char.
Proof. intros c. unfold is_slash. destruct (Ascii.eqb_spec c "/"); split; congruence. Qed.
Lemma splitext_ok : forall s, split_path s (fst (splitext s)) (snd (splitext s)).
Proof.
  intros s. unfold splitext, split_path. set (p := list_ascii_of_string s).
  destruct (span (fun c => is_dot c || is_slash c) (rev p)) as [ext rest] eqn:SP. destruct (span_split _ _ _ _ SP) as (A & B & C).
  assert (NOT : forall (Q : forall f' e', ~ has_extension p f' e'),
    has_extension p p [] \/ s = s /\ "" = ""%string /\ forall f' e', ~ has_extension p f' e') by (intros Q; right; auto).
  assert (UNI : forall f' e', has_extension p f' e' -> exists stem, rest = "."%char :: stem /\ existsb (fun c => negb (is_dot c)) (fst (span is_slash stem)) = true).
  { intros f' e' (a & c & b & r & -> & -> & P & N1 & N2 & N3 & N4 & N5).
    assert (E : rev p = rev r ++ "."%char :: (rev b ++ c :: rev a)).
    { rewrite P, rev_app_distr. cbn. rewrite rev_app_distr. cbn. rewrite <- !app_assoc. reflexivity. }
    rewrite E, span_app in SP.
    2: { intros x J. apply in_rev in J. apply orb_false_iff. rewrite dot_ne, slash_ne. split; intros ->; auto. }
    cbn in SP. injection SP as <- <-. exists (rev b ++ c :: rev a). split; [auto|].
    rewrite span_app by (intros x J; apply in_rev in J; apply slash_ne; intros ->; auto). cbn [span fst].
    apply slash_ne in N2. rewrite N2. destruct (span is_slash (rev a)) as [u v]. cbn. rewrite existsb_app. cbn.
    apply dot_ne in N1. rewrite N1. cbn. rewrite orb_true_r. reflexivity. }
  destruct rest as [|c stem].
  - apply NOT. intros f' e' Q. destruct (UNI _ _ Q) as (st & [=] & _).
  - destruct (is_dot c && existsb (fun c0 => negb (is_dot c0)) (fst (span is_slash stem))) eqn:E.
    + left. cbn [fst snd]. rewrite !list_ascii_of_string_of_list_ascii. apply andb_true_iff in E. destruct E as [E1 E2].
      apply existsb_exists in E2. destruct E2 as (x & J & X). apply negb_true_iff in X.
      destruct (span is_slash stem) as [u v] eqn:SQ. destruct (span_split _ _ _ _ SQ) as (A' & B' & _). cbn in J.
      apply in_split in J. destruct J as (b1 & b2 & U). subst u.
      assert (CD : c = "."%char) by (unfold is_dot in E1; apply Ascii.eqb_eq in E1; auto). subst c.
      exists (rev v ++ rev b2), x, (rev b1), (rev ext).
      assert (F : rev stem = (rev v ++ rev b2) ++ x :: rev b1).
      { rewrite A'. rewrite !rev_app_distr. cbn. rewrite <- !app_assoc. reflexivity. }
      split; [exact F|]. split; [rewrite rev_app_distr; reflexivity|]. split.
      { rewrite <- (rev_involutive p), A. rewrite !rev_app_distr. cbn. rewrite <- !app_assoc. reflexivity. }
      split; [apply dot_ne; auto|]. split; [apply slash_ne, B'; apply in_app_iff; right; left; auto|].
      split; [|split].
      * intros K. apply in_rev in K. assert (Z : is_slash "/" = false) by (apply B'; apply in_app_iff; auto). discriminate Z.
      * intros K. apply in_rev in K. specialize (B _ K). discriminate B.
      * intros K. apply in_rev in K. specialize (B _ K). discriminate B.
    + apply NOT. intros f' e' Q. destruct (UNI _ _ Q) as (st & Z & Z2). injection Z as -> ->. rewrite Z2 in E. discriminate E.
Qed.
Lemma list_len : forall s, length (list_ascii_of_string s) = String.length s.
Proof. induction s as [|c s IH]; cbn; auto. Qed.
Lemma split_len : forall s f e, split_path s f e -> (zlen f <= zlen s)%Z /\ (zlen e <= zlen s)%Z.
Proof.
  intros s f e [(a & c & b & r & _ & _ & P & _)|(-> & -> & _)].
  - apply (f_equal (@length _)) in P. rewrite app_length, !list_len in P. unfold zlen. lia.
  - unfold zlen. cbn. lia.
Qed.
Theorem ext_ticks : forall X known n name (w w' : world X) r,
  ticks known ext_ins ext_outs (tick_only (fun _ => ext_tick)) n name w w' r ->
  exists p f e, value_at (w_ins w n) "path" (VStr p) /\ split_path p f e /\ r = Ok SUCCEEDED /\
    written n "filename" (VStr f) w w' /\ written n "extension" (VStr e) w w'.
Proof.
  intros X known n name w w' r H. start H.
  destruct (in_str _ _ n w T F EX "path" _ eq_refl (ex_intro _ None eq_refl)) as (p & A2 & V2 & L).
  destruct (out_plain _ _ n w T F "filename" _ eq_refl) as (c & D & E).
  destruct (out_plain _ _ n w T F "extension" _ eq_refl) as (c' & D' & E').
  pose proof (splitext_ok p) as SP. destruct (split_len _ _ _ SP) as [L1 L2].
  exists p, (fst (splitext p)), (snd (splitext p)). split; [auto|]. split; [auto|].
  destruct (ran (fun _ => ext_tick) n name _ _ w w' r [("filename", VStr (fst (splitext p))); ("extension", VStr (snd (splitext p)))] SUCCEEDED IV ND R C) as [G W].
  - unfold ext_tick. rewrite V2. reflexivity.
  - cbn. auto.
  - nodup.
  - intros k v [[= <- <-]|[[= <- <-]|[]]].
    + exists c. split; [auto|]. rewrite E. split; [exact I|]. apply str_admits. exact (Z.le_trans _ _ _ L1 L).
    + exists c'. split; [auto|]. rewrite E'. split; [exact I|]. apply str_admits. exact (Z.le_trans _ _ _ L2 L).
  - split; [auto|]. split; apply W; cbn; auto.
Qed.

(** ** Random numbers *)
Theorem random_ticks : forall known n name (w w' : world (Z -> Z -> Z)) r,
  (forall a b, (a < b)%Z -> (a <= w_ext w a b < b)%Z) ->
  ticks known random_ins random_outs (tick_only random_tick) n name w w' r ->
  exists av bv a b, value_at (w_ins w n) "min" av /\ is_int av a /\ value_at (w_ins w n) "max" bv /\ is_int bv b /\
    ((a < b)%Z -> exists z, (a <= z <= b)%Z /\ r = Ok SUCCEEDED /\ written n "random_number" (VInt z) w w') /\
    ((b <= a)%Z -> r = Err EConfig /\ w_st w' n = BROKEN).
Proof.
  intros known n name w w' r RND H. start H.
  destruct (in_int _ _ n w T F EX "min" _ _ _ eq_refl eq_refl) as (av & a & A1 & V1 & I1 & R1).
  destruct (in_int _ _ n w T F EX "max" _ _ _ eq_refl eq_refl) as (bv & b & A2 & V2 & I2 & R2).
  destruct (out_plain _ _ n w T F "random_number" _ eq_refl) as (c & D & E).
  exists av, bv, a, b. split; [auto|]. split; [auto|]. split; [auto|]. split; [auto|]. split.
  - intros L. exists (w_ext w a (b + 1)%Z). assert (RN : (a <= w_ext w a (b + 1) < b + 1)%Z) by (apply RND; lia).
    split; [lia|]. eapply (ran_one random_tick); eauto.
    + unfold random_tick. rewrite V1, V2. cbn [get]. apply Z.leb_gt in L. rewrite L. reflexivity.
    + rewrite E. exact I.
    + rewrite E. cbn. eexists. split; [constructor|]. destruct R1 as [R1 _], R2 as [_ R2], RN as [N1 N2]. split.
      * exact (Z.le_trans _ _ _ R1 N1).
      * refine (Z.le_trans _ _ _ _ R2). apply Z.lt_succ_r. exact N2.
  - intros L. apply (tick_bad n (tick_only random_tick) name w (w_ext w) (Err EConfig) EX) with (w' := w') (r := r); auto; [|discriminate].
    cbn. unfold random_tick. rewrite V1, V2. cbn [get]. apply Z.leb_le in L. rewrite L. reflexivity.
Qed.

(** ** Arithmetic *)
Ltac each H := repeat (destruct H as [<-|H]; [|]); try contradiction.
Lemma int_result_op : forall lib s a b z, int_result s a b z -> exists o, dget s binops = Some o /\ int_op lib o a b = Some (VInt z).
Proof.
  intros lib s a b z H. inversion H as [? ? ? I|? ? ? I|? ? ? I|? ? ? q m I E M|? ? ? q m I E M|? ? ? I P|? ? ? I P|? ? ? q m I P E M|? ? ? ? I B|? ? ? ? I B|? ? ? ? I B]; subst.
  - exists OpAdd. split; [each I; reflexivity|reflexivity].
  - exists OpSub. split; [each I; reflexivity|reflexivity].
  - exists OpMul. split; [each I; reflexivity|reflexivity].
  - exists OpFloorDiv. split; [each I; reflexivity|]. cbn. destruct (Z.eqb_spec b 0) as [->|N]; [exfalso; lia|].
    rewrite <- (Z.div_unique _ _ _ _ M eq_refl). reflexivity.
  - exists OpMod. split; [each I; reflexivity|]. cbn. destruct (Z.eqb_spec b 0) as [->|N]; [exfalso; lia|].
    rewrite <- (Z.mod_unique _ _ _ _ M eq_refl). reflexivity.
  - exists OpPow. split; [each I; reflexivity|]. cbn. apply Z.ltb_ge in P. rewrite P. reflexivity.
  - exists OpLshift. split; [each I; reflexivity|]. cbn. rewrite (Z.shiftl_mul_pow2 a b P). apply Z.ltb_ge in P. rewrite P. reflexivity.
  - exists OpRshift. split; [each I; reflexivity|]. cbn. rewrite (Z.shiftr_div_pow2 _ b P). apply Z.ltb_ge in P. rewrite P.
    rewrite <- (Z.div_unique _ _ _ _ (or_introl M) eq_refl). reflexivity.
  - exists OpAnd. split; [each I; reflexivity|]. cbn. f_equal. f_equal. apply Z.bits_inj. intros i. rewrite Z.land_spec. auto.
  - exists OpOr. split; [each I; reflexivity|]. cbn. f_equal. f_equal. apply Z.bits_inj. intros i. rewrite Z.lor_spec. auto.
  - exists OpXor. split; [each I; reflexivity|]. cbn. f_equal. f_equal. apply Z.bits_inj. intros i. rewrite Z.lxor_spec. auto.
Qed.
Lemma undefined_op : forall lib s a b, undefined s b -> exists o, dget s binops = Some o /\ int_op lib o a b = None.
Proof.
  intros lib s a b [[I ->]|[I L]]; [|apply Z.ltb_lt in L]; repeat (destruct I as [<-|I]; [eexists; split; [reflexivity|cbn; rewrite ?L; reflexivity]|]); contradiction.
Qed.
Lemma division_op : forall lib s a b, real_result s b -> exists o, dget s binops = Some o /\
  (int_op lib o a b = None \/ exists f, int_op lib o a b = Some (VFloat f)).
Proof.
  intros lib s a b [I|[I L]].
  - exists OpDiv. split; [repeat (destruct I as [<-|I]; [reflexivity|]); contradiction|]. cbn.
    destruct (Z.eqb b 0); [auto|]. destruct (ml_quot lib a b); cbn; eauto.
  - exists OpPow. split; [repeat (destruct I as [<-|I]; [reflexivity|]); contradiction|]. cbn. apply Z.ltb_lt in L. rewrite L.
    destruct (Z.eqb a 0); [auto|]. destruct (ml_zpow lib a b); cbn; eauto.
Qed.

Lemma stored_int : forall t z, stored t (VInt z) -> exists lo hi, t = TInt lo hi.
Proof.
  intros t z [A B]. destruct t; cbn in A; try (destruct A as (? & A & _); discriminate); try (destruct A as (? & A); discriminate); eauto.
  - destruct (B _ _ eq_refl) as (f & [=]).
  - inversion A.
Qed.
Lemma value_at_io : forall m k v, value_at m k v -> io_value m k = Ok v.
Proof. intros m k v (c & D & V). unfold io_value. rewrite D, V. auto. Qed.
Lemma value_at_fun : forall m k v u, value_at m k v -> value_at m k u -> v = u.
Proof. intros m k v u A B. apply value_at_io in A, B. congruence. Qed.
Lemma check_int : forall lo hi z, ~ (lo <= z <= hi)%Z -> check (TInt lo hi) (VInt z) = Err EData.
Proof.
  intros lo hi z H. cbn [check]. destruct (Z.ltb_spec z lo); [auto|]. destruct (Z.ltb_spec hi z); [auto|]. destruct H. lia.
Qed.

Section Maths.
Context {X : Type}.
Variables (lib : mathlib) (known : string -> bool) (n : nid) (name : string).
Notation leaf g := (tick_only (fun _ : X => g)).

(** A class whose result is written to the output "result", of the same type as an input. *)
Lemma store_int : forall g i o (w w' : world X) r v z c lo hi, inv n i o w -> NoDup (map fst o) -> ready n w ->
  call OTick (the_leaf (leaf g) n name) w = (w', r) -> g (w_ins w n) = put_out "result" v -> is_int v z ->
  dget "result" (w_outs w n) = Some c -> c_ty c = TInt lo hi -> stores_result n v z w w' r.
Proof.
  intros g i o w w' r v z c lo hi IV ND R C G IZ D E. exists c, lo, hi. split; [auto|]. split; [auto|]. split.
  - intros L. eapply (ran_one (fun _ => g)); eauto; rewrite E; [exact I|]. exists z. auto.
  - intros L. refine (tick_refused n (leaf g) name w (w_ext w) "result" v SUCCEEDED c EData (proj1 R) _ D _ w' r C).
    + cbn. rewrite G. reflexivity.
    + rewrite E. inversion IZ; subst; [apply check_int; auto|..]; cbn [check Z_of_bool].
      * destruct (Z.ltb_spec 1 lo); [auto|]. destruct (Z.ltb_spec hi 1); [auto|]. destruct L. lia.
      * destruct (Z.ltb_spec 0 lo); [auto|]. destruct (Z.ltb_spec hi 0); [auto|]. destruct L. lia.
Qed.

Notation operation := (leaf (operation_tick lib)).
Lemma operation_facts : forall (w w' : world X) r s x y, ticks known operation_ins operation_outs operation n name w w' r ->
  value_at (w_ins w n) "operator" (VStr s) -> value_at (w_ins w n) "a" x -> value_at (w_ins w n) "b" y ->
  exists i o t c, inv n i o w /\ NoDup (map fst o) /\ ready n w /\ call OTick (the_leaf operation n name) w = (w', r) /\
    dget "result" (w_outs w n) = Some c /\ c_ty c = t /\ stored t x /\ stored t y /\ bytes_plain t /\
    operation_tick lib (w_ins w n) = match dget s binops with
      | None => ([], Raise)
      | Some p => match bin_value lib p x y with Some v => put_out "result" v | None => ([], Raise) end
      end.
Proof.
  intros w w' r s x y H O A B. start H.
  destruct (in_item _ _ n w T F EX "a" _ _ _ _ _ eq_refl) as (t1 & v1 & A1 & V1 & T1 & S1).
  destruct (in_item _ _ n w T F EX "b" _ _ _ _ _ eq_refl) as (t2 & v2 & A2 & V2 & T2 & S2).
  destruct (out_ref _ _ n w T F "result" _ _ _ _ _ _ eq_refl) as (c & t & D & T3 & E & [BP _]).
  rewrite (T_fun _ _ n w T F _ _ _ T1 T3) in S1. rewrite (T_fun _ _ n w T F _ _ _ T2 T3) in S2.
  rewrite (value_at_fun _ _ _ _ A1 A) in *. rewrite (value_at_fun _ _ _ _ A2 B) in *. cbn in E.
  exists i, o, t, c. split; [auto|]. split; [auto|]. split; [auto|]. split; [auto|]. split; [auto|]. split; [auto|]. split; [auto|]. split; [auto|]. split; [auto|].
  unfold operation_tick, io_value_as. rewrite (value_at_io _ _ _ O), V1, V2. reflexivity.
Qed.
Theorem operation_int : forall (w w' : world X) r s x y z, ticks known operation_ins operation_outs operation n name w w' r ->
  value_at (w_ins w n) "operator" (VStr s) -> value_at (w_ins w n) "a" (VInt x) -> value_at (w_ins w n) "b" (VInt y) ->
  int_result s x y z -> stores_result n (VInt z) z w w' r.
Proof.
  intros w w' r s x y z H O A B IR. destruct (operation_facts _ _ _ _ _ _ H O A B) as (i & o & t & c & IV & ND & R & C & D & E & S1 & _ & _ & G).
  destruct (int_result_op lib _ _ _ _ IR) as (p & P1 & P2). rewrite P1 in G. cbn [bin_value as_int] in G. rewrite P2 in G.
  destruct (stored_int _ _ S1) as (lo & hi & ->). eapply store_int; eauto. constructor.
Qed.
Theorem operation_undefined : forall (w w' : world X) r s x y, ticks known operation_ins operation_outs operation n name w w' r ->
  value_at (w_ins w n) "operator" (VStr s) -> value_at (w_ins w n) "a" (VInt x) -> value_at (w_ins w n) "b" (VInt y) ->
  undefined s y -> r = Raise /\ w_st w' n = w_st w n.
Proof.
  intros w w' r s x y H O A B IR. destruct (operation_facts _ _ _ _ _ _ H O A B) as (i & o & t & c & IV & ND & R & C & D & E & S1 & _ & _ & G).
  destruct (undefined_op lib _ x _ IR) as (p & P1 & P2). rewrite P1 in G. cbn [bin_value as_int] in G. rewrite P2 in G.
  apply (tick_bad n operation name w (w_ext w) Raise (proj1 R)) with (w' := w') (r := r); auto; [cbn; rewrite G; auto|discriminate].
Qed.
Theorem operation_division : forall (w w' : world X) r s x y st, ticks known operation_ins operation_outs operation n name w w' r ->
  value_at (w_ins w n) "operator" (VStr s) -> value_at (w_ins w n) "a" (VInt x) -> value_at (w_ins w n) "b" (VInt y) ->
  real_result s y -> r <> Ok st.
Proof.
  intros w w' r s x y st H O A B IR. destruct (operation_facts _ _ _ _ _ _ H O A B) as (i & o & t & c & IV & ND & R & C & D & E & S1 & _ & _ & G).
  destruct (stored_int _ _ S1) as (lo & hi & ->).
  destruct (division_op lib _ x y IR) as (p & P1 & [P2|(f & P2)]); rewrite P1 in G; cbn [bin_value as_int] in G; rewrite P2 in G.
  - destruct (tick_bad n operation name w (w_ext w) Raise (proj1 R)) with (w' := w') (r := r) as [-> _]; auto; [cbn; rewrite G; auto|discriminate|discriminate].
  - destruct (tick_refused n operation name w (w_ext w) "result" (VFloat f) SUCCEEDED c EData (proj1 R)) with (w' := w') (r := r) as [(e & ->) _]; auto;
      [cbn; rewrite G; reflexivity|rewrite E; reflexivity|discriminate].
Qed.
(** Bools: the logical operations give bools, all others are refused. *)
Theorem operation_bool : forall (w w' : world X) r s x y, ticks known operation_ins operation_outs operation n name w w' r ->
  value_at (w_ins w n) "operator" (VStr s) -> value_at (w_ins w n) "a" (VBool x) -> value_at (w_ins w n) "b" (VBool y) ->
  (forall c, dget "result" (w_outs w n) = Some c -> c_ty c = TBool) ->
  (In s ["and"; "&"] -> r = Ok SUCCEEDED /\ written n "result" (VBool (x && y)) w w') /\
  (In s ["or"; "|"] -> r = Ok SUCCEEDED /\ written n "result" (VBool (x || y)) w w') /\
  (In s ["xor"; "^"] -> r = Ok SUCCEEDED /\ written n "result" (VBool (xorb x y)) w w') /\
  (~ In s ["and"; "&"; "or"; "|"; "xor"; "^"] -> forall st, r <> Ok st).
Proof.
  intros w w' r s x y H O A B TY. destruct (operation_facts _ _ _ _ _ _ H O A B) as (i & o & t & c & IV & ND & R & C & D & E & S1 & S2 & BP & G).
  rewrite (TY _ D) in E. subst t.
  assert (ONE : forall b, operation_tick lib (w_ins w n) = put_out "result" (VBool b) -> r = Ok SUCCEEDED /\ written n "result" (VBool b) w w').
  { intros b Q. eapply (ran_one (fun _ => operation_tick lib)); eauto; rewrite (TY _ D); [exact I|]. exists b. auto. }
  split; [intros I; apply ONE; rewrite G; repeat (destruct I as [<-|I]; [reflexivity|]); contradiction|].
  split; [intros I; apply ONE; rewrite G; repeat (destruct I as [<-|I]; [reflexivity|]); contradiction|].
  split; [intros I; apply ONE; rewrite G; repeat (destruct I as [<-|I]; [reflexivity|]); contradiction|].
  intros NI st.
  assert (G2 : operation_tick lib (w_ins w n) = ([], Raise) \/ exists v e, operation_tick lib (w_ins w n) = put_out "result" v /\ check TBool v = Err e).
  { rewrite G. destruct (dget s binops) as [p|] eqn:DP; [|auto].
    assert (NP : p <> OpAnd /\ p <> OpOr /\ p <> OpXor).
    { apply dget_In in DP. cbn in DP. repeat (destruct DP as [DP|DP]; [injection DP as <- <-; (split; [|split]); intros Q; try discriminate Q; apply NI; cbn; auto 8|]). contradiction. }
    assert (NB : forall u, int_op lib p (Z_of_bool x) (Z_of_bool y) = Some u -> exists e, check TBool u = Err e).
    { intros u. destruct p; cbn; repeat match goal with |- context [if ?b then _ else _] => destruct b end;
        try discriminate; try (intros [= <-]; eexists; reflexivity);
        match goal with |- context [option_map VFloat ?q] => destruct q end; cbn; try discriminate; intros [= <-]; eexists; reflexivity. }
    destruct NP as (N1 & N2 & N3).
    assert (BV : bin_value lib p (VBool x) (VBool y) = int_op lib p (Z_of_bool x) (Z_of_bool y)) by (destruct p; try reflexivity; congruence).
    rewrite BV. destruct (int_op lib p (Z_of_bool x) (Z_of_bool y)) as [u|]; [|auto]. right. destruct (NB u eq_refl) as (e & CE). eauto. }
  destruct G2 as [G2|(v & e & G2 & CE)].
  - destruct (tick_bad n operation name w (w_ext w) Raise (proj1 R)) with (w' := w') (r := r) as [-> _]; auto; [cbn; rewrite G2; auto|discriminate|discriminate].
  - destruct (tick_refused n operation name w (w_ext w) "result" v SUCCEEDED c e (proj1 R)) with (w' := w') (r := r) as [(e' & ->) _]; auto;
      [cbn; rewrite G2; reflexivity|rewrite (TY _ D); auto|discriminate].
Qed.
(** Floats. *)
Lemma store_float : forall g i o (w w' : world X) r v f c lo hi, inv n i o w -> NoDup (map fst o) -> ready n w ->
  call OTick (the_leaf (leaf g) n name) w = (w', r) -> g (w_ins w n) = put_out "result" v -> is_float v f ->
  dget "result" (w_outs w n) = Some c -> c_ty c = TFloat lo hi -> stores_float n v f w w' r.
Proof.
  intros g i o w w' r v f c lo hi IV ND R C G IF D E. exists c, lo, hi. split; [auto|]. split; [auto|]. split.
  - intros L1 L2. eapply (ran_one (fun _ => g)); eauto; rewrite E; [exact I|]. exists f. auto.
  - intros L. refine (tick_refused n (leaf g) name w (w_ext w) "result" v SUCCEEDED c EData (proj1 R) _ D _ w' r C).
    + cbn. rewrite G. reflexivity.
    + rewrite E. assert (LL : (if SFltb f lo then @Err value EData else if SFltb hi f then Err EData else Ok (VFloat f)) = Err EData).
      { destruct L as [->|L]; [auto|]. rewrite L. destruct (SFltb f lo); auto. }
      inversion IF as [f0|v0 z f0 IZ PZ]; subst; cbn [check]; [exact LL|].
      inversion IZ; subst; [rewrite PZ; exact LL|..]; unfold py_float in PZ; cbn [Z_of_bool];
        match type of PZ with match ?q with _ => _ end = _ => assert (Q : q = f) by (destruct q; try discriminate; congruence) end; rewrite Q; exact LL.
Qed.
Lemma stored_float : forall t x, stored t (VFloat x) -> exists lo hi, t = TFloat lo hi.
Proof.
  intros t x [S1 _]. destruct t; cbn in S1; try (destruct S1 as (? & S1 & _); discriminate); try (destruct S1 as (? & S1); discriminate); eauto.
  - destruct S1 as (? & S1 & _). inversion S1.
  - inversion S1.
Qed.
Lemma float_result_op : forall s x y z, float_result lib s x y z -> exists o, dget s binops = Some o /\ float_op lib o x y = Some (VFloat z).
Proof.
  intros s x y z H. inversion H as [? ? ? J|? ? ? J|? ? ? J|? ? ? J NZ|? ? ? ? J E|? ? ? ? J E|? ? ? ? J E]; subst.
  - exists OpAdd. split; [each J; reflexivity|reflexivity].
  - exists OpSub. split; [each J; reflexivity|reflexivity].
  - exists OpMul. split; [each J; reflexivity|reflexivity].
  - exists OpDiv. split; [unfold is_division in J; each J; reflexivity|]. cbn [float_op].
    assert (IZ : is_zero y = false) by (destruct y as [b| | |]; auto; destruct (NZ b eq_refl)). rewrite IZ. reflexivity.
  - exists OpFloorDiv. split; [each J; reflexivity|]. cbn [float_op]. rewrite E. reflexivity.
  - exists OpMod. split; [each J; reflexivity|]. cbn [float_op]. rewrite E. reflexivity.
  - exists OpPow. split; [each J; reflexivity|]. cbn [float_op]. rewrite E. reflexivity.
Qed.
Theorem operation_float : forall (w w' : world X) r s x y z, ticks known operation_ins operation_outs operation n name w w' r ->
  value_at (w_ins w n) "operator" (VStr s) -> value_at (w_ins w n) "a" (VFloat x) -> value_at (w_ins w n) "b" (VFloat y) ->
  float_result lib s x y z -> stores_float n (VFloat z) z w w' r.
Proof.
  intros w w' r s x y z H O A B IR. destruct (operation_facts _ _ _ _ _ _ H O A B) as (i & o & t & c & IV & ND & R & C & D & E & S1 & S2 & BP & G).
  destruct (stored_float _ _ S1) as (lo & hi & ->). destruct (float_result_op _ _ _ _ IR) as (p & P1 & P2). rewrite P1 in G. cbn [bin_value] in G. rewrite P2 in G.
  eapply store_float; eauto. constructor.
Qed.
Lemma float_op_result : forall s x y o v, dget s binops = Some o -> float_op lib o x y = Some v -> exists z, v = VFloat z /\ float_result lib s x y z.
Proof.
  intros s x y o v D F. apply dget_In in D. cbn in D.
  repeat (destruct D as [D|D]; [injection D as <- <-; cbn [float_op] in F;
    try discriminate F; try (injection F as <-; eexists; split; [reflexivity|]; constructor; cbn; auto; fail);
    try (destruct (ml_float lib _ x y) as [z|] eqn:ML; [|discriminate F]; injection F as <-; exists z; split; [reflexivity|];
         (apply fr_floordiv + apply fr_mod + apply fr_pow); cbn; auto; fail);
    try (destruct (is_zero y) eqn:IZ; [discriminate F|]; injection F as <-; eexists; split; [reflexivity|]; apply fr_div; [cbn; auto|intros b ->; discriminate IZ])|]).
  contradiction.
Qed.
Theorem operation_float_undefined : forall (w w' : world X) r s x y, ticks known operation_ins operation_outs operation n name w w' r ->
  value_at (w_ins w n) "operator" (VStr s) -> value_at (w_ins w n) "a" (VFloat x) -> value_at (w_ins w n) "b" (VFloat y) ->
  (forall z, ~ float_result lib s x y z) -> r = Raise /\ w_st w' n = w_st w n.
Proof.
  intros w w' r s x y H O A B IR. destruct (operation_facts _ _ _ _ _ _ H O A B) as (i & o & t & c & IV & ND & R & C & D & E & S1 & _ & _ & G).
  assert (G2 : operation_tick lib (w_ins w n) = ([], Raise)).
  { rewrite G. destruct (dget s binops) as [p|] eqn:DP; [|auto]. cbn [bin_value]. destruct (float_op lib p x y) as [v|] eqn:FO; [|auto].
    destruct (float_op_result _ _ _ _ _ DP FO) as (z & -> & F). destruct (IR z F). }
  apply (tick_bad n operation name w (w_ext w) Raise (proj1 R)) with (w' := w') (r := r); auto; [cbn; rewrite G2; auto|discriminate].
Qed.
End Maths.
