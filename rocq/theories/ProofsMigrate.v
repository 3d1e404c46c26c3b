(** Proofs about the migration script (C99). *)
From Coq Require Import String Ascii Bool Arith NArith Lia List.
From Verif Require Import Base ModelFiles ModelMsg ModelMigrate SpecFiles SpecMigrate ProofsFiles.
Import ListNotations.
Local Open Scope string_scope.

Lemma dget_same : forall A k (v : A) d, dget k (dset k v d) = Some v.
Proof.
  induction d as [|[a b] d IH]; cbn; [now rewrite String.eqb_refl|].
  destruct (String.eqb_spec k a) as [-> | N]; cbn; [now rewrite String.eqb_refl|].
  destruct (String.eqb_spec k a); [contradiction | exact IH].
Qed.
Lemma dget_other : forall A k j (v : A) d, j <> k -> dget j (dset k v d) = dget j d.
Proof.
  induction d as [|[a b] d IH]; intros N; cbn; [now destruct (String.eqb_spec j k)|].
  destruct (String.eqb_spec k a) as [-> | M]; cbn; [now destruct (String.eqb_spec j a)|].
  destruct (String.eqb_spec j a); [reflexivity | now apply IH].
Qed.
Lemma dset_names : forall A k (v : A) d, dget k d <> None -> map fst (dset k v d) = map fst d.
Proof.
  induction d as [|[a b] d IH]; cbn; [congruence|].
  destruct (String.eqb_spec k a) as [-> | M]; intros N; cbn; [reflexivity | now rewrite IH].
Qed.

Lemma put_same : forall f p e, put f p e p = Some e.
Proof. intros. unfold put. now rewrite String.eqb_refl. Qed.
Lemma put_other : forall f p e q, q <> p -> put f p e q = f q.
Proof. intros f p e q N. unfold put. now destruct (String.eqb_spec q p). Qed.

Lemma old_spec : forall v, version_ltb v (1, 0, 0) = true <-> exists b c, v = (0, b, c).
Proof.
  intros [[a b] c]. cbn. split.
  - destruct a as [|a]; [now exists b, c|]. destruct a; cbn; [|discriminate].
    destruct b; cbn; discriminate.
  - intros (x & y & E). now injection E as -> _ _.
Qed.

(** Names. *)
Lemma append_inj : forall a b c, a ++ b = a ++ c -> b = c.
Proof. induction a as [|x a IH]; cbn; intros b c H; [exact H | apply IH; now injection H]. Qed.
Lemma len_app : forall a b, String.length (a ++ b) = String.length a + String.length b.
Proof. induction a as [|x a IH]; cbn; intros; [reflexivity | now rewrite IH]. Qed.
Lemma append_inj_r : forall b a c, a ++ b = c ++ b -> a = c.
Proof.
  intros b a. induction a as [|x a IH]; intros [|y c] H; cbn in H.
  - reflexivity.
  - apply (f_equal String.length) in H. cbn in H. rewrite len_app in H. lia.
  - apply (f_equal String.length) in H. cbn in H. rewrite len_app in H. lia.
  - injection H as -> H. f_equal. now apply IH.
Qed.
Lemma digit_ne : forall n, str_of n <> "".
Proof. intros n. destruct (str_of_decimal n) as (_ & _ & N & _). exact N. Qed.
Lemma new_name_inj : forall name ext i j, new_name name ext i = new_name name ext j -> i = j.
Proof.
  intros name ext i j H. destruct i as [|i], j as [|j]; [reflexivity | | |]; unfold new_name in H.
  - exfalso. apply append_inj in H. apply (f_equal String.length) in H. rewrite !len_app in H. cbn [String.length] in H. lia.
  - exfalso. apply append_inj in H. apply (f_equal String.length) in H. rewrite !len_app in H. cbn [String.length] in H. lia.
  - apply append_inj, append_inj, append_inj_r, str_of_inj in H. lia.
Qed.
Lemma new_name_candidate : forall p name ext k, splitext p = (name, ext) -> candidate p k (new_name name ext k).
Proof.
  intros p name ext k E. exists name, ext. split; [exact E|]. destruct k as [|k]; [now left|].
  right. split; [lia|]. exists (str_of (N.of_nat (S k))). split; [apply str_of_decimal | reflexivity].
Qed.
Lemma candidate_new_name : forall p name ext k q, splitext p = (name, ext) -> candidate p k q -> q = new_name name ext k.
Proof.
  intros p name ext k q E (n & e & E' & H). rewrite E in E'. injection E' as <- <-. destruct H as [[-> ->] | (L & s & D & ->)]; [reflexivity|].
  destruct k as [|k]; [lia|]. cbn. now rewrite (decimal_str _ _ D).
Qed.

Lemma find_some : forall fuel f name ext k q, find_name fuel f name ext k = Some q ->
  f q = None /\ exists j, k <= j /\ q = new_name name ext j /\ forall i, k <= i < j -> f (new_name name ext i) <> None.
Proof.
  induction fuel as [|fuel IH]; intros f name ext k q H; [discriminate|]. cbn in H. unfold exists_ in H.
  destruct (f (new_name name ext k)) as [e|] eqn:F.
  - destruct (IH _ _ _ _ _ H) as (N & j & L & -> & A). split; [exact N|]. exists j. split; [lia|]. split; [reflexivity|].
    intros i I. destruct (Nat.eq_dec i k) as [-> | D]; [congruence | apply A; lia].
  - injection H as <-. split; [exact F|]. exists k. split; [lia|]. split; [reflexivity|]. intros i I. lia.
Qed.

(** The names that exist are at most as many as the files. *)
Lemma find_total : forall fuel f name ext k l, (forall j, k <= j -> f (new_name name ext j) <> None -> In (new_name name ext j) l) ->
  List.length l < fuel -> find_name fuel f name ext k <> None.
Proof.
  induction fuel as [|fuel IH]; intros f name ext k l A L; [lia|]. cbn. unfold exists_.
  destruct (f (new_name name ext k)) as [e|] eqn:F; [|discriminate].
  assert (I : In (new_name name ext k) l) by (apply A; [lia | congruence]).
  apply (IH f name ext (S k) (List.remove string_dec (new_name name ext k) l)).
  - intros j J N. apply in_in_remove; [|apply A; [lia | exact N]]. intros E. apply new_name_inj in E. lia.
  - pose proof (remove_length_lt string_dec l _ I). lia.
Qed.

Lemma written_app : forall a b f, written (a ++ b) f = written b (written a f).
Proof. intros. unfold written. apply fold_left_app. Qed.
Lemma written_other : forall s f q, ~ In q (map fst s) -> written s f q = f q.
Proof.
  induction s as [|[p t] s IH]; intros f q N; [reflexivity|]. cbn. cbn in N. unfold written in IH. rewrite IH by tauto.
  apply put_other. intros ->. tauto.
Qed.
Lemma written_at : forall s f q t, NoDup (map fst s) -> In (q, t) s -> written s f q = Some (File t).
Proof.
  induction s as [|[p x] s IH]; intros f q t ND I; [destruct I|]. cbn in ND. apply NoDup_cons_iff in ND. destruct ND as [N ND].
  cbn. destruct I as [E | I].
  - injection E as -> ->. change (written s (put f q (File t)) q = Some (File t)). rewrite written_other by exact N. apply put_same.
  - exact (IH _ q t ND I).
Qed.

Lemma crash_keeps : forall f s f', crash f s f' -> forall p, ~ In p (map fst s) -> f' p = f p.
Proof.
  intros f s f' C p N. destruct C as [done rest -> | done q t rest part more -> _].
  - apply written_other. rewrite map_app in N. intros I. apply N, in_or_app. now left.
  - rewrite map_app in N. cbn in N. rewrite put_other.
    + apply written_other. intros I. apply N, in_or_app. now left.
    + intros ->. apply N, in_or_app. right. now left.
Qed.

Section Script.
Variable parse : string -> option yaml.
Variable dump : ydict -> string.
Variable read_version : string -> option version.
Variable installed : string.
Variable opens : files -> string -> bool.
Notation script := (script parse dump read_version installed opens).
Notation migrate_dict := (migrate_dict read_version installed).
Notation too_old := (too_old read_version).
Notation up_to_date := (up_to_date installed).
Notation became := (became parse dump read_version installed).

Lemma migrate_ok : forall d d', migrate_dict d = Ok d' -> ~ too_old d /\ up_to_date d d'.
Proof.
  intros d d' H. unfold ModelMigrate.migrate_dict, migrate in H.
  destruct (dget "version" d) as [[s | k]|] eqn:V; [| discriminate | cbn in H; discriminate].
  destruct (read_version s) as [v|] eqn:R; [|discriminate]. destruct (version_ltb v (1, 0, 0)) eqn:L; [discriminate|].
  injection H as <-. split.
  - intros [O | (s' & b & c & O & O')]; [congruence|]. rewrite V in O. injection O as <-. rewrite R in O'. injection O' as ->.
    cbn in L. discriminate.
  - split; [apply dset_names; congruence|]. split; [apply dget_same|]. intros k N. now apply dget_other.
Qed.
Lemma migrate_err : forall d e, migrate_dict d = Err e -> too_old d.
Proof.
  intros d e H. unfold ModelMigrate.migrate_dict, migrate in H.
  destruct (dget "version" d) as [[s | k]|] eqn:V; [| discriminate | now left].
  destruct (read_version s) as [v|] eqn:R; [|discriminate]. destruct (version_ltb v (1, 0, 0)) eqn:L; [|discriminate].
  right. apply old_spec in L. destruct L as (b & c & ->). now exists s, b, c.
Qed.
Lemma migrate_again : forall d d' a b c, migrate_dict d = Ok d' -> read_version installed = Some (S a, b, c) -> migrate_dict d' = Ok d'.
Proof.
  intros d d' a b c H R. destruct (migrate_ok _ _ H) as (_ & _ & V & _).
  unfold ModelMigrate.migrate_dict. rewrite V, R. unfold migrate. replace (version_ltb (S a, b, c) (1, 0, 0)) with false.
  2:{ symmetry. destruct (version_ltb (S a, b, c) (1, 0, 0)) eqn:L; [|reflexivity]. apply old_spec in L. destruct L as (x & y & L). discriminate. }
  f_equal. clear R H. induction d' as [|[k v] d' IH]; [discriminate|]. cbn [dget] in V. cbn [dset].
  destruct (String.eqb "version" k) eqn:E; [apply String.eqb_eq in E; subst k; now injection V as -> | now rewrite IH].
Qed.

(** Without "--inplace" only new files are written, each once. *)
Lemma script_fresh : forall fuel l f s ok, script fuel false l f = Some (s, ok) ->
  NoDup (map fst s) /\ forall q, In q (map fst s) -> f q = None.
Proof.
  induction l as [|p l IH]; intros f s ok H; [injection H as <- <-; split; [constructor | intros q []]|].
  cbn in H. destruct (splitext p) as [name ext] eqn:P. destruct (find_name fuel f name ext 0) as [q|] eqn:F; [|discriminate].
  destruct (f p) as [[t|]|] eqn:Fp; try (injection H as <- <-; split; [constructor | intros x []]).
  destruct (parse t) as [[d|]|]; try (injection H as <- <-; split; [constructor | intros x []]).
  destruct (migrate_dict d) as [d' | e |].
  - destruct (opens f q); [|injection H as <- <-; split; [constructor | intros x []]].
    destruct (script fuel false l (put f q (File (dump d')))) as [[s' ok']|] eqn:S'; [|discriminate]. injection H as <- <-.
    destruct (IH _ _ _ S') as [ND Fr]. destruct (find_some _ _ _ _ _ _ F) as [Fq _]. cbn. split.
    + constructor; [|exact ND]. intros I. specialize (Fr q I). rewrite put_same in Fr. discriminate.
    + intros x [<- | I]; [exact Fq|]. specialize (Fr x I). unfold put in Fr. now destruct (String.eqb x q).
  - exact (IH _ _ _ H).
  - injection H as <- <-. split; [constructor | intros x []].
Qed.

Lemma became_mono : forall f f1 f' p o, (forall x e, f x = Some e -> f1 x = Some e) -> became f1 f' p o -> became f f' p o.
Proof.
  intros f f1 f' p o M (d & H & B). exists d. split; [exact H|]. destruct o as [q|]; [|exact B].
  destruct B as (O & N & B). split; [exact O|]. split; [|exact B].
  destruct (f q) as [e|] eqn:F; [|reflexivity]. apply M in F. congruence.
Qed.

Lemma script_result : forall fuel l f s, script fuel false l f = Some (s, true) ->
  exists os, Forall2 (became f (written s f)) l os /\ chosen os = map fst s.
Proof.
  induction l as [|p l IH]; intros f s H; [injection H as <-; exists []; split; [constructor | reflexivity]|].
  pose proof (script_fresh _ _ _ _ _ H) as [ND Fr]. cbn in H. destruct (splitext p) as [name ext] eqn:P.
  destruct (find_name fuel f name ext 0) as [q|] eqn:F; [|discriminate].
  destruct (f p) as [[t|]|] eqn:Fp; try discriminate.
  destruct (parse t) as [[d|]|] eqn:T; try discriminate.
  destruct (migrate_dict d) as [d' | e |] eqn:M; [| |discriminate].
  - destruct (opens f q); [|discriminate].
    destruct (script fuel false l (put f q (File (dump d')))) as [[s' ok']|] eqn:S'; [|discriminate]. injection H as <- ->.
    destruct (IH _ _ S') as (os & A & C). destruct (find_some _ _ _ _ _ _ F) as (Fq & k & _ & -> & B).
    assert (Keep : forall x e, f x = Some e -> written s' (put f (new_name name ext k) (File (dump d'))) x = Some e).
    { intros x e X. rewrite written_other.
      - rewrite put_other; [exact X | congruence].
      - intros I. specialize (Fr x (or_intror I)). congruence. }
    exists (Some (new_name name ext k) :: os). split; [constructor|].
    + exists d. split; [exists t; split; [now apply Keep | exact T]|]. destruct (migrate_ok _ _ M) as [O U].
      split; [exact O|]. split; [exact Fq|]. split.
      * exists d'. split; [exact U|]. change (written s' (put f (new_name name ext k) (File (dump d'))) (new_name name ext k) = Some (File (dump d'))).
        cbn in ND. apply NoDup_cons_iff in ND. rewrite written_other by tauto. apply put_same.
      * exists k. split; [now apply new_name_candidate|]. intros i x I X. apply (candidate_new_name _ _ _ _ _ P) in X. subst x.
        specialize (B i (conj (Nat.le_0_l i) I)). destruct (f (new_name name ext i)) as [e|] eqn:E; [|congruence].
        change (written s' (put f (new_name name ext k) (File (dump d'))) (new_name name ext i) <> None). rewrite (Keep _ _ E). discriminate.
    + clear - A Fq. change (written ((new_name name ext k, dump d') :: s') f) with (written s' (put f (new_name name ext k) (File (dump d')))).
      induction A as [|a b l os X A IHA]; constructor; [|exact IHA]. revert X. apply became_mono. intros x e X.
      rewrite put_other; [exact X | congruence].
    + cbn. f_equal. exact C.
  - destruct (IH _ _ H) as (os & A & C). exists (None :: os). split; [constructor; [|exact A] | exact C].
    exists d. split; [|exact (migrate_err _ _ M)]. exists t. split; [|exact T]. rewrite written_other; [exact Fp|].
    intros I. specialize (Fr p I). congruence.
Qed.

Lemma script_returns : forall fuel inplace l f names, only_files f names -> List.length names + List.length l < fuel ->
  script fuel inplace l f <> None.
Proof.
  induction l as [|p l IH]; intros f names O L; [discriminate|]. cbn in L. cbn.
  assert (T : new_file fuel inplace p f <> None).
  { unfold new_file. destruct inplace; [discriminate|]. destruct (splitext p) as [name ext]. apply (find_total _ _ _ _ _ names); [|lia].
    intros j _. apply O. }
  destruct (new_file fuel inplace p f) as [q|]; [|contradiction].
  destruct (f p) as [[t|]|]; try discriminate. destruct (parse t) as [[d|]|]; try discriminate.
  destruct (migrate_dict d) as [d' | e |]; [| apply (IH _ names); [exact O | lia] | discriminate].
  destruct (opens f q); [|discriminate].
  assert (N : script fuel inplace l (put f q (File (dump d'))) <> None).
  { apply (IH _ (q :: names)); [|cbn; lia]. intros x X. unfold put in X. destruct (String.eqb_spec x q) as [E | _]; [left; now symmetry|].
    right. now apply O. }
  destruct (script fuel inplace l (put f q (File (dump d')))) as [[s ok]|]; [discriminate | contradiction].
Qed.

Lemma script_unreadable : forall fuel inplace p l f r, unreadable parse read_version f p ->
  script fuel inplace (p :: l) f = Some r -> r = ([], false).
Proof.
  intros fuel inplace p l f r U H. cbn in H. destruct (new_file fuel inplace p f) as [q|]; [|discriminate].
  destruct (f p) as [[t|]|] eqn:F; try now injection H as <-.
  destruct (parse t) as [[d|]|] eqn:T; try now injection H as <-.
  destruct U as [U | (d2 & (t2 & F2 & T2) & v & V & B)]; [exfalso; apply (U d); now exists t|].
  rewrite F in F2. injection F2 as <-. rewrite T in T2. injection T2 as <-.
  unfold ModelMigrate.migrate_dict in H. rewrite V in H. destruct v as [s | k]; [rewrite (B s eq_refl) in H|]; now injection H as <-.
Qed.

(** In place. *)
Lemma script_inplace : forall fuel l f s, NoDup l -> script fuel true l f = Some (s, true) ->
  (forall q, ~ In q l -> written s f q = f q) /\
  forall p, In p l -> exists d, holds parse f p d /\
    (too_old d /\ written s f p = f p \/
     ~ too_old d /\ exists d', up_to_date d d' /\ written s f p = Some (File (dump d'))).
Proof.
  induction l as [|p l IH]; intros f s ND H; [injection H as <-; split; [reflexivity | intros p []]|].
  apply NoDup_cons_iff in ND. destruct ND as [N ND]. cbn in H.
  destruct (f p) as [[t|]|] eqn:Fp; try discriminate. destruct (parse t) as [[d|]|] eqn:T; try discriminate.
  destruct (migrate_dict d) as [d' | e |] eqn:M; [| |discriminate].
  - destruct (opens f p); [|discriminate].
    destruct (script fuel true l (put f p (File (dump d')))) as [[s' ok']|] eqn:S'; [|discriminate]. injection H as <- ->.
    destruct (IH _ _ ND S') as [A B]. change (written ((p, dump d') :: s') f) with (written s' (put f p (File (dump d')))). split.
    + intros q I. cbn in I. rewrite A by tauto. apply put_other. intros ->. tauto.
    + intros x [<- | I].
      * exists d. split; [now exists t|]. right. destruct (migrate_ok _ _ M) as [O U]. split; [exact O|]. exists d'. split; [exact U|].
        rewrite A by exact N. apply put_same.
      * assert (X : put f p (File (dump d')) x = f x) by (apply put_other; intros ->; contradiction).
        destruct (B x I) as (dx & (tx & Fx & Tx) & C). exists dx. rewrite X in Fx. split; [now exists tx|].
        destruct C as [[O C] | C]; [left; split; [exact O | now rewrite C] | now right].
  - destruct (IH _ _ ND H) as [A B]. split.
    + intros q I. apply A. intros J. apply I. now right.
    + intros x [<- | I]; [|exact (B x I)]. exists d. split; [now exists t|]. left. split; [exact (migrate_err _ _ M) | now apply A].
Qed.

Lemma inplace_names : forall fuel l f s ok, script fuel true l f = Some (s, ok) ->
  (forall q, In q (map fst s) -> In q l) /\ (NoDup l -> NoDup (map fst s)).
Proof.
  induction l as [|p l IH]; intros f s ok H; [injection H as <- <-; split; [intros q [] | constructor]|]. cbn in H.
  assert (Z : Some ([], false) = Some (s, ok) -> (forall q, In q (map fst s) -> In q (p :: l)) /\ (NoDup (p :: l) -> NoDup (map fst s)))
    by (intros X; injection X as <- <-; split; [intros q [] | constructor]).
  destruct (f p) as [[t|]|]; try exact (Z H). destruct (parse t) as [[d|]|]; try exact (Z H).
  destruct (migrate_dict d) as [d' | e |]; [| | exact (Z H)].
  - destruct (opens f p); [|exact (Z H)].
    destruct (script fuel true l (put f p (File (dump d')))) as [[s' ok']|] eqn:S'; [|discriminate]. injection H as <- <-.
    destruct (IH _ _ _ S') as [A B]. split.
    + intros q [<- | I]; [now left | right; now apply A].
    + intros ND. apply NoDup_cons_iff in ND. destruct ND as [N ND]. cbn. constructor; [|now apply B]. intros I. apply N. now apply A.
  - destruct (IH _ _ _ H) as [A B]. split; [intros q I; right; now apply A|]. intros ND. apply NoDup_cons_iff in ND. now apply B.
Qed.

Lemma script_again : forall a b c, read_version installed = Some (S a, b, c) ->
  (forall g q, opens g q = true) ->
  forall fuel l f s g, NoDup l ->
  (forall p d d', In p l -> holds parse f p d -> up_to_date d d' -> parse (dump d') = Some (YDict d')) ->
  script fuel true l f = Some (s, true) -> (forall p, In p l -> g p = written s f p) ->
  script fuel true l g = Some (s, true).
Proof.
  intros a b c R Op fuel. induction l as [|p l IH]; intros f s g ND Y H G; [exact H|].
  pose proof (inplace_names _ _ _ _ _ H) as [_ NS]. apply NS in ND as NS'. apply NoDup_cons_iff in ND. destruct ND as [N ND].
  pose proof (G p (or_introl eq_refl)) as Gp. cbn in H. cbn.
  destruct (f p) as [[t|]|] eqn:Fp; try discriminate. destruct (parse t) as [[d|]|] eqn:T; try discriminate.
  destruct (migrate_dict d) as [d' | e |] eqn:M; [| |discriminate].
  - rewrite Op in H. destruct (script fuel true l (put f p (File (dump d')))) as [[s' ok']|] eqn:S'; [|discriminate]. injection H as <- ->.
    change (written ((p, dump d') :: s') f) with (written s' (put f p (File (dump d')))) in *.
    assert (Np : ~ In p (map fst s')) by (cbn in NS'; now apply NoDup_cons_iff in NS').
    rewrite written_other, put_same in Gp by exact Np. assert (Yp : parse (dump d') = Some (YDict d')) by
      (apply (Y p d d' (or_introl eq_refl)); [now exists t | now apply migrate_ok]).
    rewrite Gp, Yp, (migrate_again _ _ _ _ _ M R), Op.
    rewrite (IH (put f p (File (dump d'))) s' (put g p (File (dump d'))) ND); [reflexivity | | exact S' |].
    { intros x dx dx' I (tx & Fx & Tx). apply (Y x dx dx' (or_intror I)). rewrite put_other in Fx by (intros ->; contradiction). now exists tx. } intros x I. rewrite put_other by (intros ->; contradiction).
    apply G. now right.
  - rewrite written_other in Gp.
    + rewrite Gp, Fp, T, M. apply (IH f s g ND); [|exact H|].
      * intros x dx dx' I. apply (Y x dx dx' (or_intror I)).
      * intros x I. apply G. now right.
    + intros I. apply N. now apply (inplace_names _ _ _ _ _ H).
Qed.

Lemma readable_kept : forall f q e p, readable parse read_version f p -> p <> q -> readable parse read_version (put f q e) p.
Proof.
  intros f q e p (d & (t & T & P) & V) N. exists d. split; [|exact V]. exists t. split; [|exact P]. now rewrite put_other.
Qed.
Lemma script_completes : (forall f q, opens f q = true) -> forall fuel inplace l f s ok,
  (inplace = true -> NoDup l) -> (forall p, In p l -> readable parse read_version f p) ->
  script fuel inplace l f = Some (s, ok) -> ok = true.
Proof.
  intros Op fuel inplace. induction l as [|p l IH]; intros f s ok ND R H; [now injection H|]. cbn in H.
  assert (ND' : inplace = true -> NoDup l) by (intro E; specialize (ND E); now inversion ND).
  destruct (new_file fuel inplace p f) as [q|] eqn:Q; [|discriminate].
  destruct (R p (or_introl eq_refl)) as (d & (t & T & P) & V). rewrite T, P in H.
  assert (M : migrate_dict d <> Raise).
  { unfold ModelMigrate.migrate_dict. destruct V as [V | (x & v & V & W)]; rewrite V; [|rewrite W]; unfold migrate;
      destruct (version_ltb _ _); discriminate. }
  destruct (migrate_dict d) as [d' | e |]; [| |contradiction].
  - rewrite Op in H. destruct (script fuel inplace l (put f q (File (dump d')))) as [[s' ok']|] eqn:E; [|discriminate].
    assert (Ok' : ok' = true).
    { apply (IH (put f q (File (dump d'))) s' ok'); [exact ND' | | exact E]. intros x I. apply readable_kept; [now apply R; right|].
      intros ->. unfold new_file in Q. destruct inplace.
      - injection Q as ->. specialize (ND eq_refl). inversion ND. contradiction.
      - destruct (splitext p) as [name ext]. apply find_some in Q. destruct Q as [Q _].
        destruct (R q (or_intror I)) as (d0 & (t0 & T0 & _) & _). congruence. }
    now injection H as _ <-.
  - apply (IH f s ok ND'); [intros x I; apply R; now right | exact H].
Qed.
End Script.

Lemma written_twice : forall s f q, NoDup (map fst s) -> written s (written s f) q = written s f q.
Proof.
  intros s f q ND. destruct (in_dec string_dec q (map fst s)) as [I | N]; [|now apply written_other].
  apply in_map_iff in I. destruct I as ([p t] & <- & I). cbn. now rewrite !(written_at s _ p t ND I).
Qed.

Lemma no_inplace : forall argv, ~ In INPLACE argv -> remove_first INPLACE argv = None.
Proof.
  induction argv as [|a l IH]; intros N; [reflexivity|]. cbn [remove_first]. destruct (String.eqb_spec INPLACE a) as [<- | _]; [exfalso; apply N; now left|].
  rewrite IH; [reflexivity | intros I; apply N; now right].
Qed.
