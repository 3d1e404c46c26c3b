(** Proofs about the classes of nodes. *)
From Coq Require Import String Ascii Bool Arith Lia List.
From Verif Require Import Base ModelData ModelEdit ModelRegistry SpecRegistry ProofsEditLast.
Import ListNotations.
Local Open Scope list_scope.

(** ** Dictionaries *)
Lemma dget_in {A} k (v : A) l : dget k l = Some v -> In (k, v) l.
Proof.
  induction l as [| [k' v'] l IH]; cbn [dget]; [discriminate |]. destruct (String.eqb_spec k k') as [-> | N].
  - intros E. injection E as ->. now left.
  - intros E. right. auto.
Qed.
Lemma dget_none {A} k (l : list (string * A)) : dget k l = None -> ~ In k (map fst l).
Proof.
  induction l as [| [k' v'] l IH]; cbn [dget map fst]; [auto |]. destruct (String.eqb_spec k k') as [-> | N]; [discriminate |].
  intros E [I | I]; [congruence | now apply IH].
Qed.
Lemma in_dget {A} k (v : A) l : NoDup (map fst l) -> In (k, v) l -> dget k l = Some v.
Proof.
  induction l as [| [k' v'] l IH]; cbn [dget map fst]; intros N I; [destruct I |]. apply NoDup_cons_iff in N as [N0 N].
  destruct I as [E | I].
  - injection E as -> ->. now rewrite String.eqb_refl.
  - destruct (String.eqb_spec k k') as [-> | D]; [| auto]. destruct N0. apply in_map_iff. exists (k', v). auto.
Qed.
Lemma dset_new {A} k (v : A) l : dget k l = None -> dset k v l = l ++ [(k, v)].
Proof.
  induction l as [| [k' v'] l IH]; cbn [dget dset]; [reflexivity |]. destruct (String.eqb_spec k k') as [-> | N]; [discriminate |].
  intros E. cbn [app]. now rewrite IH.
Qed.
Lemma dset_old {A} k (v w : A) l : dget k l = Some w -> exists l1 l2, l = l1 ++ (k, w) :: l2 /\ dset k v l = l1 ++ (k, v) :: l2.
Proof.
  induction l as [| [k' v'] l IH]; cbn [dget dset]; [discriminate |]. destruct (String.eqb_spec k k') as [-> | N].
  - intros E. injection E as ->. exists [], l. auto.
  - intros E. destruct (IH E) as (l1 & l2 & -> & ->). exists ((k', v') :: l1), l2. auto.
Qed.
Lemma nget_in {A} k (v : A) l : nget k l = Some v -> In (k, v) l.
Proof.
  induction l as [| [k' v'] l IH]; cbn [nget]; [discriminate |]. destruct (Nat.eqb_spec k k') as [-> | N].
  - intros E. injection E as ->. now left.
  - intros E. right. auto.
Qed.
Lemma in_nget {A} k (v : A) l : NoDup (map fst l) -> In (k, v) l -> nget k l = Some v.
Proof.
  induction l as [| [k' v'] l IH]; cbn [nget map fst]; intros N I; [destruct I |]. apply NoDup_cons_iff in N as [N0 N].
  destruct I as [E | I].
  - injection E as -> ->. now rewrite Nat.eqb_refl.
  - destruct (Nat.eqb_spec k k') as [-> | D]; [| auto]. destruct N0. apply in_map_iff. exists (k', v). auto.
Qed.
Lemma nget_none {A} k (l : list (nat * A)) : nget k l = None -> forall v, ~ In (k, v) l.
Proof.
  induction l as [| [k' v'] l IH]; cbn [nget]; [auto |]. destruct (Nat.eqb_spec k k') as [-> | N]; [discriminate |].
  intros E v [I | I]; [congruence | now apply (IH E v)].
Qed.

Lemma NoDup_snoc {A} (x : A) l : ~ In x l -> NoDup l -> NoDup (l ++ [x]).
Proof.
  intros N D. induction D as [| y l Y D IH]; cbn [app]; [constructor; [auto | constructor] |].
  constructor.
  - intros I. apply in_app_or in I as [I | [I | []]]; [now apply Y | subst y; apply N; now left].
  - apply IH. intros I. apply N. now right.
Qed.

Lemma NoDup_app_remove_r {A} (a b : list A) : NoDup (a ++ b) -> NoDup a.
Proof.
  induction a as [| x a IH]; cbn [app]; intros N; [constructor |]. apply NoDup_cons_iff in N as [N0 N]. constructor; [| auto].
  intros I. apply N0. apply in_or_app. now left.
Qed.

(** ** The invariant *)
Record good (g : reg) : Prop :=
  { go_mods : NoDup (map fst (g_classes g));
    go_names : forall m l, In (m, l) (g_classes g) -> NoDup (map fst l);
    go_attr : NoDup (map fst (g_attr g));
    go_next : forall k x, In (k, x) (g_attr g) -> k < g_next g;
    go_has : forall m l c k, In (m, l) (g_classes g) -> In (c, k) l -> exists x, In (k, x) (g_attr g);
    go_proper : forall k x, In (k, x) (g_attr g) -> proper_config x }.

Lemma good_start : good no_classes.
Proof. constructor; cbn; try (intros; contradiction); constructor. Qed.

Lemma known_fun g m c x y : good g -> known g m c x -> known g m c y -> x = y.
Proof.
  intros G (l & k & A & B & C) (l' & k' & A' & B' & C').
  apply in_dget in A; [| apply G]. apply in_dget in A' as E; [| apply G]. rewrite A in E. injection E as <-.
  apply in_dget in B; [| now apply (go_names g G m)]. apply in_dget in B'; [| now apply (go_names g G m)]. rewrite B in B'. injection B' as <-.
  apply in_nget in C; [| apply G]. apply in_nget in C'; [| apply G]. congruence.
Qed.

Lemma lookup_known g m c k : good g -> (lookup g m c = Some k -> exists x, known g m c x /\ In (k, x) (g_attr g)).
Proof.
  intros G. unfold lookup. destruct (dget m (g_classes g)) as [l |] eqn:E; [| discriminate]. intros D.
  apply dget_in in E, D. destruct (go_has g G m l c k E D) as [x X]. exists x. split; [| exact X]. exists l, k. auto.
Qed.
Lemma known_lookup g m c x : good g -> known g m c x -> exists k, lookup g m c = Some k /\ In (k, x) (g_attr g).
Proof.
  intros G (l & k & A & B & C). exists k. split; [| exact C]. unfold lookup.
  apply in_dget in A as A'; [| apply G]. rewrite A'. apply in_dget; [| exact B]. now apply (go_names g G m).
Qed.
Lemma lookup_unknown g m c : good g -> lookup g m c = None <-> unknown g m c.
Proof.
  intros G. split.
  - intros E x K. apply known_lookup in K as (k & E' & _); [| exact G]. congruence.
  - intros U. destruct (lookup g m c) as [k |] eqn:E; [| reflexivity]. apply lookup_known in E as (x & K & _); [| exact G]. now destruct (U x).
Qed.

(** ** Interfaces *)
Lemma has_key_iff k l : has_key k l = true <-> In k (map fst l).
Proof.
  unfold has_key. destruct (dget k l) as [c |] eqn:E.
  - split; [intros _ | reflexivity]. apply dget_in in E. apply in_map_iff. exists (k, c). auto.
  - apply dget_none in E. split; [discriminate | intros I; contradiction].
Qed.
Lemma extend_io_ok a b : NoDup (map fst a) ->
  (snd (extend_io a b) = [] <-> NoDup (map fst (a ++ b))) /\ (snd (extend_io a b) = [] -> fst (extend_io a b) = a ++ b).
Proof.
  revert a. induction b as [| [k c] b IH]; intros a N; cbn [extend_io].
  - rewrite app_nil_r. cbn [fst snd]. split; [tauto | reflexivity].
  - destruct (has_key k a) eqn:H.
    + destruct (extend_io a b) as [s' d]. cbn [fst snd]. split; [| discriminate]. split; [discriminate |].
      intros N'. exfalso. apply has_key_iff in H. rewrite map_app in N'. cbn [map fst] in N'. apply NoDup_remove_2 in N'.
      apply N'. apply in_or_app. now left.
    + assert (H' : dget k a = None) by (unfold has_key in H; destruct (dget k a); [discriminate H | reflexivity]).
      rewrite (dset_new _ _ _ H').
      assert (N' : NoDup (map fst (a ++ [(k, c)]))).
      { rewrite map_app. cbn [map fst]. apply NoDup_snoc; [now apply dget_none | exact N]. }
      destruct (IH _ N') as [A B]. rewrite <- app_assoc in A, B. cbn [app] in A, B. auto.
Qed.

Lemma opt_nat_eqb_iff a b : opt_nat_eqb a b = true <-> a = b.
Proof.
  destruct a as [a |], b as [b |]; cbn [opt_nat_eqb]; try (split; [discriminate | congruence]).
  - rewrite Nat.eqb_eq. split; congruence.
  - tauto.
Qed.

Lemma extend_ok a b : proper_config a ->
  (is_ok (snd (extend a b)) = true <->
   f_max a = f_max b /\ NoDup (map fst (f_ins a ++ f_ins b)) /\ NoDup (map fst (f_outs a ++ f_outs b))) /\
  (is_ok (snd (extend a b)) = true -> fst (extend a b) = mkCfg (f_ins a ++ f_ins b) (f_outs a ++ f_outs b) (f_max a)).
Proof.
  intros [Ni No]. unfold extend. destruct (opt_nat_eqb (f_max a) (f_max b)) eqn:M; cbn [negb].
  2: { split; [| discriminate]. split; [discriminate |]. intros [E _]. apply opt_nat_eqb_iff in E. congruence. }
  apply opt_nat_eqb_iff in M.
  destruct (extend_io_ok (f_ins a) (f_ins b) Ni) as [A1 A2]. destruct (extend_io_ok (f_outs a) (f_outs b) No) as [B1 B2].
  destruct (extend_io (f_ins a) (f_ins b)) as [i di]. destruct (extend_io (f_outs a) (f_outs b)) as [o do]. cbn [fst snd] in *.
  destruct di as [| z di].
  - destruct do as [| z do]; cbn [is_ok].
    + split; [| intros _; now rewrite A2, B2]. split; [intros _; tauto | reflexivity].
    + split; [| discriminate]. split; [discriminate |]. intros (_ & _ & H). apply B1 in H. discriminate H.
  - destruct do; cbn [is_ok]; (split; [| discriminate]; split; [discriminate |]; intros (_ & H & _); apply A1 in H; discriminate H).
Qed.

Lemma find_config_none attr b : find_config attr b = None <-> forall c, In c b -> forall x, ~ In (c, x) attr.
Proof.
  induction b as [| c b IH]; cbn [find_config].
  - split; [intros _ c [] | reflexivity].
  - destruct (nget c attr) as [x |] eqn:E.
    + split; [discriminate |]. intros H. apply nget_in in E. destruct (H c (or_introl eq_refl) x E).
    + rewrite IH. split.
      * intros H c' [<- | I]; [now apply nget_none | now apply H].
      * intros H c' I. apply H. now right.
Qed.
Lemma find_config_some attr b1 c b2 x : NoDup (map fst attr) ->
  (forall c', In c' b1 -> forall y, ~ In (c', y) attr) -> In (c, x) attr -> find_config attr (b1 ++ c :: b2) = Some x.
Proof.
  intros N. induction b1 as [| c1 b1 IH]; intros H I; cbn [app find_config].
  - now rewrite (in_nget _ _ _ N I).
  - destruct (nget c1 attr) as [y |] eqn:E.
    + apply nget_in in E. destruct (H c1 (or_introl eq_refl) y E).
    + apply IH; [| exact I]. intros c' I'. apply H. now right.
Qed.

Lemma inherits_proper g bs l : good g -> inherits g bs l -> Forall proper_config l.
Proof. intros G H. induction H; auto. constructor; [eapply go_proper; eassumption | assumption]. Qed.

Lemma merge_ok g : good g -> forall bs l own, inherits g bs l -> proper_config own ->
  (snd (merge (g_attr g) own bs) = true <-> exists x, together (own :: l) x) /\
  (snd (merge (g_attr g) own bs) = true -> together (own :: l) (fst (merge (g_attr g) own bs))).
Proof.
  intros G bs l own H. revert own. induction H as [| b bs l N H IH | b1 c b2 bs x l N I H IH]; intros own P; cbn [merge].
  - cbn [fst snd]. assert (T : together [own] own).
    { unfold together. cbn [flat_map]. rewrite !app_nil_r. destruct P. auto 6. }
    split; [split; [intros _; exists own; exact T | reflexivity] | auto].
  - apply find_config_none in N. rewrite N. now apply IH.
  - rewrite (find_config_some _ _ _ _ _ (go_attr g G) N I).
    destruct (extend_ok own x P) as [A B]. destruct (extend own x) as [own' r]. cbn [fst snd] in A, B.
    destruct r as [u | e |]; cbn [is_ok] in A, B.
    + destruct A as [A _]. specialize (A eq_refl) as (Am & Ai & Ao). specialize (B eq_refl). subst own'.
      assert (P' : proper_config (mkCfg (f_ins own ++ f_ins x) (f_outs own ++ f_outs x) (f_max own))) by (split; assumption).
      destruct (IH _ P') as [C D].
      assert (Q : forall y, together (mkCfg (f_ins own ++ f_ins x) (f_outs own ++ f_outs x) (f_max own) :: l) y <-> together (own :: x :: l) y).
      { intros y. unfold together. cbn [flat_map f_ins f_outs]. rewrite <- !app_assoc. split; intros (E1 & E2 & E3 & E4 & F).
        - inversion F as [| ? ? F1 F2]. subst. cbn [f_max] in F1. repeat split; auto. constructor; [exact F1 |]. constructor; [congruence | exact F2].
        - inversion F as [| ? ? F1 F2]. subst. inversion F2. subst. repeat split; auto. }
      split.
      * rewrite C. split; intros [y Y]; exists y; now apply Q.
      * intros E. apply Q. now apply D.
    + cbn [fst snd]. split; [| discriminate]. split; [discriminate |]. intros [y (E1 & E2 & E3 & E4 & F)]. apply A.
      inversion F as [| ? ? F1 F2]. inversion F2 as [| ? ? F3 _]. subst. split; [congruence |].
      cbn [flat_map] in E1, E2. rewrite app_assoc in E1, E2. rewrite E1 in E3. rewrite E2 in E4. rewrite map_app in E3, E4.
      split; eapply NoDup_app_remove_r; eassumption.
    + cbn [fst snd]. split; [| discriminate]. split; [discriminate |]. intros [y (E1 & E2 & E3 & E4 & F)]. apply A.
      inversion F as [| ? ? F1 F2]. inversion F2 as [| ? ? F3 _]. subst. split; [congruence |].
      cbn [flat_map] in E1, E2. rewrite app_assoc in E1, E2. rewrite E1 in E3. rewrite E2 in E4. rewrite map_app in E3, E4.
      split; eapply NoDup_app_remove_r; eassumption.
Qed.
Lemma together_fun l x y own : together (own :: l) x -> together (own :: l) y -> x = y.
Proof.
  intros (A & B & _ & _ & C) (A' & B' & _ & _ & C'). inversion C. inversion C'. subst. destruct x, y. cbn in *. congruence.
Qed.
Lemma inherits_all g bs : exists l, inherits g bs l.
Proof.
  induction bs as [| b bs [l IH]]; [exists []; constructor |].
  assert (H : (forall c, In c b -> forall x, ~ In (c, x) (g_attr g)) \/
    exists b1 c b2 x, b = b1 ++ c :: b2 /\ (forall c', In c' b1 -> forall y, ~ In (c', y) (g_attr g)) /\ In (c, x) (g_attr g)).
  { clear. induction b as [| c b IH]; [left; intros c [] |]. destruct (nget c (g_attr g)) as [x |] eqn:E.
    - right. exists [], c, b, x. split; [reflexivity |]. split; [intros c' [] | now apply nget_in].
    - destruct IH as [H | (b1 & c1 & b2 & x & -> & H & I)].
      + left. intros c' [<- | I]; [now apply nget_none | now apply H].
      + right. exists (c :: b1), c1, b2, x. split; [reflexivity |]. split; [| exact I].
        intros c' [<- | I']; [now apply nget_none | now apply H]. }
  destruct H as [H | (b1 & c & b2 & x & -> & H & I)]; [exists l; now constructor | exists (x :: l); now constructor].
Qed.

(** ** define *)
Lemma define_spec g d l : good g -> proper_config (k_config d) -> inherits g (k_bases d) l ->
  good (define g d) /\
  (forall m c y, known (define g d) m c y <-> known g m c y \/
     m = k_module d /\ c = k_name d /\ unknown g m c /\ k_abstract d = false /\ together (k_config d :: l) y).
Proof.
  intros G P I. destruct (merge_ok g G _ _ _ I P) as [M1 M2]. unfold define.
  destruct (merge (g_attr g) (k_config d) (k_bases d)) as [cfg ok] eqn:E. cbn [fst snd] in M1, M2.
  destruct ok; cbn [negb].
  2: { split.
       - destruct G. constructor; cbn; auto. intros k x H. specialize (go_next0 k x H). lia.
       - intros m c y. split; [auto |]. intros [K | (_ & _ & _ & _ & T)]; [exact K |]. exfalso.
         assert (false = true) by (apply M1; now exists y). discriminate. }
  specialize (M2 eq_refl). clear M1.
  assert (Pc : proper_config cfg) by (destruct M2 as (_ & _ & A & B & _); split; assumption).
  assert (Fresh : ~ In (g_next g) (map fst (g_attr g))).
  { intros H. apply in_map_iff in H as [[k x] [E' H]]. apply (go_next g G) in H. cbn [fst] in E'. lia. }
  assert (Attr : NoDup (map fst (g_attr g ++ [(g_next g, cfg)]))) by (rewrite map_app; cbn [map fst]; apply NoDup_snoc; [exact Fresh | apply G]).
  assert (Next : forall k x, In (k, x) (g_attr g ++ [(g_next g, cfg)]) -> k < S (g_next g)).
  { intros k x H. apply in_app_or in H as [H | [H | []]]; [apply (go_next g G) in H; lia | injection H as <- _; lia]. }
  assert (Prop_ : forall k x, In (k, x) (g_attr g ++ [(g_next g, cfg)]) -> proper_config x).
  { intros k x H. apply in_app_or in H as [H | [H | []]]; [now apply (go_proper g G) in H | injection H as _ <-; exact Pc]. }
  assert (Old : forall m l0 c k x, In (m, l0) (g_classes g) -> In (c, k) l0 -> In (k, x) (g_attr g ++ [(g_next g, cfg)]) -> In (k, x) (g_attr g)).
  { intros m l0 c k x Hm Hc H. apply in_app_or in H as [H | [H | []]]; [exact H |]. injection H as <- <-.
    destruct (go_has g G _ _ _ _ Hm Hc) as [x X]. apply (go_next g G) in X. lia. }
  destruct (k_abstract d) eqn:Ab.
  { split.
    - constructor; cbn [g_classes g_attr g_next]; auto; try apply G. intros m l0 c k Hm Hc. destruct (go_has g G _ _ _ _ Hm Hc) as [x X].
      exists x. apply in_or_app. now left.
    - intros m c y. split; [| intros [(l0 & k & A & B & C) | (_ & _ & _ & F & _)]; [| discriminate F]].
      + intros (l0 & k & A & B & C). left. exists l0, k. repeat split; auto. exact (Old _ _ _ _ _ A B C).
      + exists l0, k. repeat split; auto. cbn. apply in_or_app. now left. }
  destruct (dget (k_module d) (g_classes g)) as [l0 |] eqn:Dm.
  - destruct (dget (k_name d) l0) as [k0 |] eqn:Dn.
    + split.
      * constructor; cbn [g_classes g_attr g_next]; auto; try apply G. intros m l1 c k Hm Hc. destruct (go_has g G _ _ _ _ Hm Hc) as [x X].
        exists x. apply in_or_app. now left.
      * intros m c y. split; [| intros [(l1 & k & A & B & C) | (-> & -> & U & _)]].
        -- intros (l1 & k & A & B & C). left. exists l1, k. repeat split; auto. exact (Old _ _ _ _ _ A B C).
        -- exists l1, k. repeat split; auto. cbn. apply in_or_app. now left.
        -- exfalso. apply dget_in in Dm, Dn. destruct (go_has g G _ _ _ _ Dm Dn) as [x X]. apply (U x). exists l0, k0. auto.
    + rewrite (dset_new _ _ _ Dn). pose proof (dset_old _ (l0 ++ [(k_name d, g_next g)]) _ _ Dm) as (c1 & c2 & Ec & Es). rewrite Es.
      assert (In0 : In (k_module d, l0) (g_classes g)) by now apply dget_in.
      assert (Keys : map fst (c1 ++ (k_module d, l0 ++ [(k_name d, g_next g)]) :: c2) = map fst (g_classes g)).
      { rewrite Ec, !map_app. reflexivity. }
      assert (Split : forall m l1, In (m, l1) (c1 ++ (k_module d, l0 ++ [(k_name d, g_next g)]) :: c2) ->
        m <> k_module d /\ In (m, l1) (g_classes g) \/ m = k_module d /\ l1 = l0 ++ [(k_name d, g_next g)]).
      { intros m l1 H. destruct (String.string_dec m (k_module d)) as [-> | N].
        - right. split; [reflexivity |]. apply in_dget in H; [| rewrite Keys; apply G].
          assert (H' : In (k_module d, l0 ++ [(k_name d, g_next g)]) (c1 ++ (k_module d, l0 ++ [(k_name d, g_next g)]) :: c2)) by (apply in_or_app; right; now left).
          apply in_dget in H'; [| rewrite Keys; apply G]. congruence.
        - left. split; [exact N |]. rewrite Ec. apply in_app_or in H as [H | [H | H]]; apply in_or_app; [now left | congruence | right; now right]. }
      assert (Keep : forall m l1, In (m, l1) (g_classes g) -> m <> k_module d -> In (m, l1) (c1 ++ (k_module d, l0 ++ [(k_name d, g_next g)]) :: c2)).
      { intros m l1 H N. rewrite Ec in H. apply in_app_or in H as [H | [H | H]]; apply in_or_app; [now left | congruence | right; now right]. }
      assert (Uniq : forall l1, In (k_module d, l1) (g_classes g) -> l1 = l0).
      { intros l1 H. apply in_dget in H; [| apply G]. congruence. }
      split.
      * constructor; cbn [g_classes g_attr g_next]; auto.
        -- rewrite Keys. apply G.
        -- intros m l1 H. destruct (Split _ _ H) as [[_ H'] | [-> ->]]; [now apply (go_names g G m) |].
           rewrite map_app. cbn [map fst]. apply NoDup_snoc; [now apply dget_none | now apply (go_names g G (k_module d))].
        -- intros m l1 c k H Hc. destruct (Split _ _ H) as [[_ H'] | [-> ->]].
           ++ destruct (go_has g G _ _ _ _ H' Hc) as [x X]. exists x. apply in_or_app. now left.
           ++ apply in_app_or in Hc as [Hc | [Hc | []]].
              ** destruct (go_has g G _ _ _ _ In0 Hc) as [x X]. exists x. apply in_or_app. now left.
              ** injection Hc as _ <-. exists cfg. apply in_or_app. right. now left.
      * intros m c y. split; [| intros [(l1 & k & A & B & C) | (-> & -> & U & _ & T)]].
        -- intros (l1 & k & A & B & C). cbn [g_classes g_attr] in A, C. destruct (Split _ _ A) as [[_ A'] | [-> ->]].
           ++ left. exists l1, k. repeat split; auto. exact (Old _ _ _ _ _ A' B C).
           ++ apply in_app_or in B as [B | [B | []]].
              ** left. exists l0, k. repeat split; auto. exact (Old _ _ _ _ _ In0 B C).
              ** injection B as <- <-. right.
                 assert (Y : cfg = y).
                 { assert (X : In (g_next g, cfg) (g_attr g ++ [(g_next g, cfg)])) by (apply in_or_app; right; now left).
                   apply in_nget in X; [| exact Attr]. apply in_nget in C; [| exact Attr]. congruence. }
                 rewrite <- Y. split; [reflexivity |]. split; [reflexivity |]. split; [| split; [reflexivity | exact M2]].
                 intros z (l1 & k & A1 & B1 & _). apply Uniq in A1. subst l1. apply dget_none in Dn. apply Dn.
                 apply in_map_iff. exists (k_name d, k). auto.
        -- destruct (String.string_dec m (k_module d)) as [-> | N].
           ++ apply Uniq in A. subst l1. exists (l0 ++ [(k_name d, g_next g)]), k. cbn [g_classes g_attr]. repeat split.
              ** apply in_or_app. right. now left.
              ** apply in_or_app. now left.
              ** apply in_or_app. now left.
           ++ exists l1, k. cbn [g_classes g_attr]. repeat split; auto. apply in_or_app. now left.
        -- exists (l0 ++ [(k_name d, g_next g)]), (g_next g). cbn [g_classes g_attr]. repeat split.
           ++ apply in_or_app. right. now left.
           ++ apply in_or_app. right. now left.
           ++ apply in_or_app. right. left. f_equal. exact (together_fun _ _ _ _ M2 T).
  - rewrite (dset_new _ _ _ Dm). pose proof (dget_none _ _ Dm) as Nm. split.
    + constructor; cbn [g_classes g_attr g_next]; auto.
      * rewrite map_app. cbn [map fst]. apply NoDup_snoc; [exact Nm | apply G].
      * intros m l1 H. apply in_app_or in H as [H | [H | []]]; [now apply (go_names g G m) |]. injection H as _ <-. cbn. constructor; [auto | constructor].
      * intros m l1 c k H Hc. apply in_app_or in H as [H | [H | []]].
        -- destruct (go_has g G _ _ _ _ H Hc) as [x X]. exists x. apply in_or_app. now left.
        -- injection H as _ <-. destruct Hc as [Hc | []]. injection Hc as _ <-. exists cfg. apply in_or_app. right. now left.
    + intros m c y. split; [| intros [(l1 & k & A & B & C) | (-> & -> & U & _ & T)]].
      * intros (l1 & k & A & B & C). cbn [g_classes g_attr] in A, C. apply in_app_or in A as [A | [A | []]].
        -- left. exists l1, k. repeat split; auto. exact (Old _ _ _ _ _ A B C).
        -- injection A as <- <-. destruct B as [B | []]. injection B as <- <-. right.
           assert (Y : cfg = y).
           { assert (X : In (g_next g, cfg) (g_attr g ++ [(g_next g, cfg)])) by (apply in_or_app; right; now left).
             apply in_nget in X; [| exact Attr]. apply in_nget in C; [| exact Attr]. congruence. }
           rewrite <- Y. split; [reflexivity |]. split; [reflexivity |]. split; [| split; [reflexivity | exact M2]].
           intros z (l1 & k & A1 & _). apply Nm. apply in_map_iff. exists (k_module d, l1). auto.
      * exists l1, k. cbn [g_classes g_attr]. repeat split; auto; apply in_or_app; now left.
      * exists [(k_name d, g_next g)], (g_next g). cbn [g_classes g_attr]. repeat split.
        -- apply in_or_app. right. now left.
        -- now left.
        -- apply in_or_app. right. left. f_equal. exact (together_fun _ _ _ _ M2 T).
Qed.

(** ** Histories *)
Definition grows (g g' : reg) : Prop := good g' /\ forall m c x, known g m c x -> known g' m c x.
Lemma grows_refl g : good g -> grows g g.
Proof. intros G. split; auto. Qed.
Lemma grows_trans a b c : grows a b -> grows b c -> grows a c.
Proof. intros [_ A] [G B]. split; auto. Qed.

Lemma defines_grow ds : forall g, good g -> Forall (fun d => proper_config (k_config d)) ds -> grows g (fold_left define ds g).
Proof.
  induction ds as [| d ds IH]; intros g G F; [now apply grows_refl |]. inversion F as [| ? ? P F']. subst. cbn [fold_left].
  destruct (inherits_all g (k_bases d)) as [l I]. destruct (define_spec g d l G P I) as [G' K].
  apply grows_trans with (define g d); [| now apply IH]. split; [exact G' |]. intros m c x H. apply K. now left.
Qed.
Lemma load_grows m i g : good g -> proper_import i -> grows g (fst (load_node_module m i g)).
Proof.
  intros G P. unfold load_node_module. destruct (String.eqb m ""); [now apply grows_refl |]. destruct (relative m); [now apply grows_refl |].
  pose proof (defines_grow (fst i) g G P) as H. destruct (snd i); exact H.
Qed.
Lemma find_grows m c i g : good g -> proper_import i -> grows g (fst (find_class m c i g)).
Proof.
  intros G P. unfold find_class. destruct (lookup g m c); [now apply grows_refl |]. pose proof (load_grows m i g G P) as H.
  destruct (load_node_module m i g) as [g' r]. cbn [fst] in H. destruct r; try exact H; destruct (lookup g' m c); exact H.
Qed.
Lemma load_all_grows l : forall g, good g -> Forall (fun mi => proper_import (snd mi)) l -> grows g (fst (load_all l g)).
Proof.
  induction l as [| [m i] l IH]; intros g G F; [now apply grows_refl |]. inversion F as [| ? ? P F']. subst. cbn [load_all snd] in *.
  destruct (String.eqb m ""); [now apply IH |]. pose proof (load_grows m i g G P) as H.
  destruct (load_node_module m i g) as [g' r]. cbn [fst] in H. destruct r as [[] | |]; try exact H.
  apply grows_trans with g'; [exact H |]. apply IH; [apply H | exact F'].
Qed.
Lemma list_state l g : fst (get_available_nodes l g) = fst (load_all l g).
Proof. unfold get_available_nodes. destruct (load_all l g) as [g' [[] | |]]; reflexivity. Qed.
Lemma step_grows g o : good g -> proper_op o -> grows g (gstep g o).
Proof.
  intros G P. destruct o as [m i | m c i | l]; cbn [gstep proper_op] in *.
  - now apply load_grows.
  - now apply find_grows.
  - rewrite list_state. now apply load_all_grows.
Qed.
Lemma process_good g : process g -> good g.
Proof.
  intros (h & -> & F). unfold grun. assert (H : forall g, good g -> good (fold_left gstep h g)).
  { clear - F. induction F as [| o h P F IH]; intros g G; [exact G |]. cbn [fold_left]. apply IH. now apply step_grows. }
  apply H. apply good_start.
Qed.

(** ** Listing *)
Definition all_listed (g : reg) : list listed := flat_map (fun ml => flat_map (entry (g_attr g) (fst ml)) (snd ml)) (g_classes g).
Lemma listed_known g e : good g -> In e (all_listed g) <-> known g (l_module e) (l_class e) (mkCfg (l_ins e) (l_outs e) (l_max e)).
Proof.
  intros G. unfold all_listed. rewrite in_flat_map. split.
  - intros [[m l] [Hm H]]. cbn [fst snd] in H. apply in_flat_map in H as [[c k] [Hc H]]. unfold entry in H. cbn [fst snd] in H.
    destruct (nget k (g_attr g)) as [x |] eqn:E; [| destruct H]. destruct H as [<- | []]. cbn.
    exists l, k. repeat split; auto. apply nget_in in E. now destruct x.
  - intros (l & k & A & B & C). exists (l_module e, l). split; [exact A |]. cbn [fst snd]. apply in_flat_map.
    exists (l_class e, k). split; [exact B |]. unfold entry. cbn [fst snd]. rewrite (in_nget _ _ _ (go_attr g G) C). left. now destruct e.
Qed.
Lemma listed_once g : good g -> NoDup (map (fun e => (l_module e, l_class e)) (all_listed g)).
Proof.
  intros G. unfold all_listed. pose proof (go_mods g G) as N. pose proof (go_names g G) as N'.
  induction (g_classes g) as [| [m l] cl IH]; cbn [flat_map map]; [constructor |]. cbn [map fst] in N. apply NoDup_cons_iff in N as [N0 N].
  rewrite map_app. cbn [fst snd].
  assert (H1 : NoDup (map (fun e => (l_module e, l_class e)) (flat_map (entry (g_attr g) m) l)) /\
    forall e, In e (flat_map (entry (g_attr g) m) l) -> l_module e = m /\ In (l_class e) (map fst l)).
  { assert (Nl : NoDup (map fst l)) by (apply (N' m); now left). clear - Nl. induction l as [| [c k] l IH]; cbn [flat_map map].
    - split; [constructor | intros e []].
    - cbn [map fst] in Nl. apply NoDup_cons_iff in Nl as [N0 Nl]. destruct (IH Nl) as [A B]. unfold entry at 1 3. cbn [fst snd].
      destruct (nget k (g_attr g)) as [x |]; cbn [app map].
      + split.
        * constructor; [| exact A]. intros I. apply in_map_iff in I as [e [E I]]. cbn in E. injection E as _ E. apply B in I as [_ I]. rewrite E in I. contradiction.
        * intros e [<- | I]; cbn; [auto |]. destruct (B e I). split; [assumption | now right].
      + split; [exact A |]. intros e I. destruct (B e I). split; [assumption | now right]. }
  destruct H1 as [A B].
  assert (C : NoDup (map (fun e => (l_module e, l_class e)) (flat_map (fun ml => flat_map (entry (g_attr g) (fst ml)) (snd ml)) cl))).
  { apply IH; [exact N |]. intros m' l' I. apply (N' m'). now right. }
  assert (D : forall e, In e (flat_map (fun ml => flat_map (entry (g_attr g) (fst ml)) (snd ml)) cl) -> In (l_module e) (map fst cl)).
  { intros e I. apply in_flat_map in I as [[m' l'] [Hm I]]. cbn [fst snd] in I. apply in_flat_map in I as [[c k] [_ I]]. unfold entry in I.
    destruct (nget _ _); [| destruct I]. destruct I as [<- | []]. cbn. apply in_map_iff. exists (m', l'). auto. }
  clear IH. revert A B. generalize (flat_map (entry (g_attr g) m) l). intros L A B. induction L as [| e L IHL]; cbn [map app]; [exact C |].
  cbn [map] in A. apply NoDup_cons_iff in A as [A0 A]. constructor.
  - intros I. apply in_app_or in I as [I | I]; [contradiction |]. apply in_map_iff in I as [e' [E I]]. injection E as E _.
    destruct (B e (or_introl eq_refl)) as [Em _]. apply D in I. rewrite E, Em in I. contradiction.
  - apply IHL; [exact A |]. intros e' I. apply B. now right.
Qed.

Lemma relative_iff m : relative m = true <-> exists s, m = String "."%char s.
Proof.
  destruct m as [| c m]; cbn [relative].
  - split; [discriminate | intros [s E]; discriminate E].
  - destruct (Ascii.eqb_spec c "."%char) as [-> | N]; split; try discriminate; try (intros _; now exists m); auto.
    intros [s E]. injection E as E _. contradiction.
Qed.
Lemma load_result m i g : match snd (load_node_module m i g) with
  | Raise => raising m i | Ok false => failing m i | Ok true => m <> ""%string /\ ~ raising m i /\ ~ failing m i | Err _ => False end.
Proof.
  unfold load_node_module, raising, failing. destruct (String.eqb_spec m "") as [-> | N]; [cbn; auto |].
  destruct (relative m) eqn:R; [cbn; left; now apply relative_iff |].
  assert (R' : ~ exists s, m = String "."%char s) by (rewrite <- relative_iff, R; discriminate).
  destruct (snd i); cbn [snd]; auto.
  - split; [exact N |]. split; [intros [H | [_ H]]; [auto | discriminate H] | intros [H | [_ H]]; [auto | discriminate H]].
  - right. split; [| reflexivity]. intros s E. apply R'. now exists s.
Qed.
