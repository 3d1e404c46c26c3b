(** Proofs about saving trees and listing folders. *)
From Coq Require Import String Ascii Bool Arith NArith Lia List.
From Verif Require Import Base ModelFiles SpecFiles ProofsFiles.
Import ListNotations.
Local Open Scope string_scope.

(** ** Paths *)

Lemma part_has : forall c, part c <-> ~ has slash c.
Proof.
  intros c. split.
  - intros P H. assert (K : exists a b, c = a ++ "/" ++ b).
    { clear P. induction c as [|x c IH]; cbn in H; [destruct H|]. destruct H as [->|H].
      - exists "", c. reflexivity.
      - destruct (IH H) as (a & b & ->). exists (String x a), b. reflexivity. }
    destruct K as (a & b & E). exact (P a b E).
  - intros N a b ->. apply N. apply has_app. right. left. reflexivity.
Qed.
Lemma split_part : forall c, part c -> split_slash c = [c].
Proof.
  intros c P. apply part_has in P. induction c as [|x c IH]; [reflexivity|]. cbn in *.
  destruct (Ascii.eqb_spec x slash); [tauto|]. rewrite IH by tauto. reflexivity.
Qed.
Lemma split_app : forall a b, split_slash (a ++ "/" ++ b) = (split_slash a ++ split_slash b)%list.
Proof.
  induction a as [|x a IH]; intros b; [reflexivity|]. cbn [append split_slash]. cbn [append] in IH. rewrite IH.
  destruct (Ascii.eqb x slash); [reflexivity|]. destruct (split_slash a) eqn:E; [|reflexivity].
  exfalso. destruct a as [|y a]; cbn in E; [discriminate|]. destruct (Ascii.eqb y slash); [discriminate|].
  destruct (split_slash a); discriminate.
Qed.
Lemma concat_cons : forall a b l, String.concat "/" (a :: b :: l) = a ++ "/" ++ String.concat "/" (b :: l).
Proof. reflexivity. Qed.
Lemma split_concat : forall l, l <> [] -> Forall part l -> split_slash (String.concat "/" l) = l.
Proof.
  induction l as [|a l IH]; intros N F; [congruence|]. inversion F as [|? ? A F']; subst.
  destruct l as [|b l]; [apply split_part; exact A|]. rewrite concat_cons, split_app, IH by (auto; discriminate).
  rewrite split_part by exact A. reflexivity.
Qed.
Lemma concat_app : forall l m, l <> [] -> m <> [] ->
  String.concat "/" (l ++ m) = String.concat "/" l ++ "/" ++ String.concat "/" m.
Proof.
  induction l as [|a l IH]; intros m N M; [congruence|]. destruct l as [|b l].
  - destruct m; [congruence|]. reflexivity.
  - change ((a :: b :: l) ++ m)%list with (a :: b :: (l ++ m))%list. rewrite !concat_cons.
    change (b :: l ++ m)%list with ((b :: l) ++ m)%list. rewrite IH by (auto; discriminate). rewrite !app_assoc_s. reflexivity.
Qed.

Definition keeps (c : string) : bool := negb (String.eqb c "" || String.eqb c ".").
Lemma norm_down : forall l done, Forall (fun c => c <> "..") l -> norm done l = (rev done ++ filter keeps l)%list.
Proof.
  induction l as [|c l IH]; intros done F; cbn; [now rewrite app_nil_r|]. inversion F as [|? ? C F']; subst.
  unfold keeps at 1. destruct (String.eqb c "" || String.eqb c "."); cbn; [auto|].
  destruct (String.eqb_spec c ".."); [congruence|]. rewrite IH by exact F'. cbn. rewrite <- app_assoc. reflexivity.
Qed.
Lemma keeps_real : forall l, Forall real_part l -> filter keeps l = l.
Proof.
  induction l as [|c l IH]; intros F; [reflexivity|]. inversion F as [|? ? (A & B & C & D) F']; subst. cbn.
  unfold keeps at 1. destruct (String.eqb_spec c ""); [congruence|]. destruct (String.eqb_spec c "."); [congruence|]. cbn.
  now rewrite IH.
Qed.
Lemma real_kept : forall l, Forall (fun c => part c /\ c <> "..") l -> Forall real_part (filter keeps l).
Proof.
  induction l as [|c l IH]; intros F; [constructor|]. inversion F as [|? ? (A & B) F']; subst. cbn.
  destruct (keeps c) eqn:K; [|auto]. constructor; [|auto]. unfold keeps in K. apply negb_true_iff, orb_false_iff in K.
  destruct K as [K1 K2]. apply String.eqb_neq in K1, K2. repeat split; auto.
Qed.
Lemma parts_real : forall l, Forall real_part l -> Forall part l.
Proof. intros l F. eapply Forall_impl; [|exact F]. intros c C. apply C. Qed.

Lemma rfind_none : forall c, part c -> rfind slash c = None.
Proof.
  intros c P. apply part_has in P. induction c as [|x c IH]; [reflexivity|]. cbn in *. rewrite IH by tauto.
  destruct (Ascii.eqb_spec x slash); [tauto|reflexivity].
Qed.
Lemma rfind_last : forall a c, part c -> rfind slash (a ++ "/" ++ c) = Some (String.length a).
Proof.
  intros a c P. rewrite (rfind_app slash a ("/" ++ c) 0); [f_equal; lia|]. cbn. rewrite rfind_none by exact P. reflexivity.
Qed.
(** A clean path ends in a real part. *)
Lemma clean_last : forall l, l <> [] -> exists a, exists c, In c l /\ "/" ++ String.concat "/" l = a ++ "/" ++ c.
Proof.
  induction l as [|x l IH]; intros N; [congruence|]. destruct l as [|y l].
  - exists "", x. split; [left; reflexivity|reflexivity].
  - destruct IH as (a & c & I & E); [discriminate|]. exists ("/" ++ x ++ a), c. split; [right; exact I|].
    rewrite concat_cons. cbn [append] in *. rewrite E. now rewrite app_assoc_s.
Qed.
Lemma all_slashes_app : forall a b, all_slashes (a ++ b) = all_slashes a && all_slashes b.
Proof. induction a; cbn; intros; [reflexivity|]. rewrite IHa. now rewrite andb_assoc. Qed.
Lemma all_slashes_part : forall c, part c -> c <> "" -> all_slashes c = false.
Proof.
  intros c P N. apply part_has in P. destruct c as [|x c]; [congruence|]. cbn in *.
  destruct (Ascii.eqb_spec x slash); [tauto|reflexivity].
Qed.
Lemma rstrip_part : forall c, part c -> rstrip c = c.
Proof.
  intros c P. apply part_has in P. induction c as [|x c IH]; [reflexivity|]. cbn in *.
  destruct (Ascii.eqb_spec x slash); [tauto|]. cbn. rewrite IH by tauto. reflexivity.
Qed.
Lemma rstrip_keep : forall a c, part c -> c <> "" -> rstrip (a ++ c) = a ++ c.
Proof.
  intros a c P N. induction a as [|x a IH]; [apply rstrip_part; exact P|]. cbn [append rstrip].
  replace (all_slashes (String x (a ++ c))) with false; [rewrite IH; reflexivity|].
  symmetry. change (String x (a ++ c)) with (String x a ++ c). rewrite all_slashes_app, (all_slashes_part c P N). apply andb_false_r.
Qed.

Lemma prefix_two : forall y z, y <> slash -> prefix "//" (String slash (String y z)) = false.
Proof.
  intros y z N. cbn [prefix]. destruct (ascii_dec "/" slash) as [_|X]; [|reflexivity].
  destruct (ascii_dec "/" y) as [Y|_]; [exfalso; apply N; symmetry; exact Y|reflexivity].
Qed.
Lemma target_down : forall cwd q, clean_dir (q_storage q) -> downward (q_filepath q) ->
  target cwd q = q_storage q \/ below (q_storage q) (target cwd q).
Proof.
  intros cwd q (cs & N & F & E) (fs & E' & G & R). unfold target.
  destruct (clean_last cs N) as (a & c & I & L). rewrite Forall_forall in F. pose proof (F c I) as (P & NE & _).
  rewrite <- Forall_forall in F.
  assert (FR : starts_with_slash (q_filepath q) = false).
  { rewrite E'. destruct fs as [|x fs]; [reflexivity|]. cbn in R. inversion G as [|? ? (X & _) _]; subst.
    destruct x as [|y x]; [congruence|]. assert (y <> slash).
    { intros ->. exact (X "" x eq_refl). }
    destruct fs; cbn; destruct (Ascii.eqb_spec y slash); congruence. }
  assert (J : path_join (q_storage q) (q_filepath q) = q_storage q ++ "/" ++ q_filepath q).
  { unfold path_join. rewrite FR, E. cbn [String.eqb append]. change (String "/" (String.concat "/" cs)) with ("/" ++ String.concat "/" cs).
    rewrite L, rfind_last by exact P. rewrite length_app_s. cbn [String.length append].
    destruct (Nat.eqb_spec (S (String.length a)) (String.length a + S (String.length c))) as [X|X]; [|reflexivity].
    destruct c; [congruence|]. cbn in X. lia. }
  rewrite J. clear J FR.
  assert (S1 : split_slash (q_storage q ++ "/" ++ q_filepath q) = ("" :: cs ++ split_slash (q_filepath q))%list).
  { rewrite split_app, E. change ("/" ++ String.concat "/" cs) with ("" ++ "/" ++ String.concat "/" cs).
    rewrite split_app, split_concat by (auto using parts_real). reflexivity. }
  assert (S2 : exists gs, split_slash (q_filepath q) = gs /\ Forall (fun c => part c /\ c <> "..") gs).
  { eexists. split; [reflexivity|]. rewrite E'. destruct fs as [|x fs].
    - cbn. constructor; [|constructor]. split; [|discriminate]. intros [|y u] v H; discriminate.
    - rewrite split_concat; [exact G|discriminate|]. eapply Forall_impl; [|exact G]. intros z Z. apply Z. }
  destruct S2 as (gs & S2 & S3). rewrite S2 in S1.
  assert (NS : norm [] ("" :: cs ++ gs) = (cs ++ filter keeps gs)%list).
  { rewrite norm_down.
    - cbn. rewrite filter_app, keeps_real by exact F. reflexivity.
    - constructor; [discriminate|]. apply Forall_app. split.
      + eapply Forall_impl; [|exact F]. intros z Z. apply Z.
      + eapply Forall_impl; [|exact S3]. intros z Z. apply Z. }
  unfold abspath. replace (starts_with_slash (q_storage q ++ "/" ++ q_filepath q)) with true by (rewrite E; reflexivity).
  rewrite S1, NS.
  replace (prefix "//" (q_storage q ++ "/" ++ q_filepath q)) with false.
  2:{ rewrite E. destruct cs as [|z cs]; [congruence|]. inversion F as [|? ? (Z1 & Z2 & _) _]; subst.
      destruct z as [|y z]; [congruence|]. assert (y <> slash) by (intros ->; exact (Z1 "" z eq_refl)).
      symmetry. destruct cs; apply prefix_two; assumption. }
  cbn [andb].
  assert (RK := real_kept gs S3). set (rs := filter keeps gs) in *. 
  destruct (clean_last (cs ++ rs)) as (a' & c' & I' & L'); [destruct cs; [congruence|discriminate]|].
  assert (RP : real_part c') by (assert (FF : Forall real_part (cs ++ rs)) by (apply Forall_app; auto); rewrite Forall_forall in FF; auto).
  replace (rstrip ("/" ++ String.concat "/" (cs ++ rs))) with ("/" ++ String.concat "/" (cs ++ rs)).
  2:{ rewrite L'. rewrite <- app_assoc_s. symmetry. apply rstrip_keep; apply RP. }
  destruct rs as [|r rs].
  - left. rewrite app_nil_r. symmetry. exact E.
  - right. exists (String.concat "/" (r :: rs)). split.
    + inversion RK as [|? ? (_ & X & _) _]; subst. destruct r; [congruence|]. destruct rs; discriminate.
    + rewrite concat_app by (auto; discriminate). rewrite E. rewrite !app_assoc_s. reflexivity.
Qed.

(** ** save_tree_to_path *)

Lemma loop_free : forall n ex name ext u, unique_loop n ex name ext = Some (Ok u) -> ex u = false.
Proof.
  induction n as [|n IH]; intros ex name ext u H; cbn in H; [discriminate|]. destruct (ex (name ++ ext)) eqn:X.
  - destruct (increment_name name); try discriminate. eapply IH; exact H.
  - injection H as <-. exact X.
Qed.
Lemma unique_free : forall n ex p u, make_filepath_unique n ex p = Some (Ok u) -> ex u = false.
Proof. intros n ex p u H. unfold make_filepath_unique in H. destruct (splitext p). eapply loop_free; exact H. Qed.

Section Save.
Variables (paths : list string) (cwd version : string) (makedirs : files -> string -> files * bool).
Hypothesis dirs : makes_directories makedirs.
Variables (write : writing) (fuel : nat) (f : files) (q : save_request).
Notation p := (target cwd q).
Notation f1 := (fst (makedirs f (dirname p))).

Definition wrote (u : string) (f' : files) (r : res save_response) : Prop :=
  exists c, f' = put f1 u (File c) /\
    (write = WAll /\ r = Ok (mkR true u) /\ File c = saved version (q_yaml q) \/
     write = WPart c /\ r = Ok (mkR false "") \/ write = WRaise c /\ r = Raise).

Lemma save_cases : forall f' r, save_tree_to_path paths cwd version makedirs write fuel f q = Some (f', r) ->
  ~ In (q_storage q) paths /\ f' = f /\ r = Ok (mkR false "") \/
  In (q_storage q) paths /\
  (f' = f1 /\ (forall u, r <> Ok (mkR true u)) \/
   f1 p = None /\ wrote p f' r \/
   (exists c, f1 p = Some (File c)) /\ q_rename q = false /\ q_overwrite q = true /\ wrote p f' r \/
   (exists c, f1 p = Some (File c)) /\ q_rename q = true /\
     exists u, make_filepath_unique fuel (exists_ f1) p = Some (Ok u) /\ f1 u = None /\ wrote u f' r).
Proof.
  intros f' r H. unfold save_tree_to_path in H. fold (target cwd q) in H.
  destruct (existsb (String.eqb (q_storage q)) paths) eqn:S; cbn [negb] in H.
  2:{ left. injection H as <- <-. split; [|split; reflexivity]. intros I.
      assert (X : existsb (String.eqb (q_storage q)) paths = true) by (apply existsb_exists; exists (q_storage q); split; [exact I|apply String.eqb_refl]).
      congruence. }
  right. split. { apply existsb_exists in S. destruct S as (x & I & X). apply String.eqb_eq in X. subst x. exact I. }
  destruct (makedirs f (dirname p)) as [g made] eqn:M. cbn [fst].
  assert (W : forall u, match write with
    | WOpenFails => Some (g, Ok (mkR false ""))
    | WPart c => Some (put g u (File c), Ok (mkR false ""))
    | WRaise c => Some (put g u (File c), Raise)
    | WAll => Some (put g u (File ("version: " ++ version ++ newline ++ q_yaml q)), Ok (mkR true u))
    end = Some (f', r) -> f' = g /\ (forall u, r <> Ok (mkR true u)) \/ wrote u f' r).
  { intros u K. unfold wrote. rewrite M. cbn [fst]. destruct write as [|c|c|]; injection K as <- <-.
    - left. split; [reflexivity|discriminate].
    - right. exists c. split; [reflexivity|]. right. left. auto.
    - right. exists c. split; [reflexivity|]. right. right. auto.
    - right. eexists. split; [reflexivity|]. left. split; [reflexivity|]. split; reflexivity. }
  destruct (negb made && negb (isdir g (dirname p))); [injection H as <- <-; left; split; [reflexivity|discriminate]|].
  unfold isdir in H. unfold isfile in H.
  destruct (g p) as [[c|]|] eqn:G.
  - destruct (q_rename q) eqn:R.
    + destruct (make_filepath_unique fuel (exists_ g) p) as [[u|e|]|] eqn:U; try discriminate H.
      * assert (X := unique_free _ _ _ _ U). unfold exists_ in X. destruct (g u) eqn:GU; [discriminate X|].
        destruct (W u H) as [K|K]; [left; exact K|right; right; right]. split; [eauto|]. split; [reflexivity|].
        exists u. auto.
      * injection H as <- <-. left. split; [reflexivity|discriminate].
      * injection H as <- <-. left. split; [reflexivity|discriminate].
    + destruct (q_overwrite q) eqn:O; cbn [negb] in H.
      * destruct (W p H) as [K|K]; [left; exact K|right; right; left]. split; [eauto|]. auto.
      * injection H as <- <-. left. split; [reflexivity|discriminate].
  - injection H as <- <-. left. split; [reflexivity|discriminate].
  - destruct (W p H) as [K|K]; [left; exact K|right; left]. auto.
Qed.

Lemma dirs_kept : only_directories f f1.
Proof. intros x. destruct (dirs f (dirname p)) as [D _]. destruct (D x) as [E|[A B]]; [left|right]; auto. Qed.
Lemma file_back : forall x c, f1 x = Some (File c) -> f x = Some (File c).
Proof. intros x c H. destruct (dirs_kept x) as [E|[A B]]; congruence. Qed.
Lemma none_back : forall x, f1 x = None -> f x = None.
Proof. intros x H. destruct (dirs_kept x) as [E|[A B]]; congruence. Qed.
Lemma put_same : forall g x e, put g x e x = Some e.
Proof. intros. unfold put. rewrite String.eqb_refl. reflexivity. Qed.
Lemma put_other : forall g x e y, y <> x -> put g x e y = g y.
Proof. intros g x e y N. unfold put. destruct (String.eqb_spec y x); [congruence|reflexivity]. Qed.

(** At most one file is written: at the requested path, or at a free one. *)
Lemma save_frame : forall f' r, save_tree_to_path paths cwd version makedirs write fuel f q = Some (f', r) ->
  only_directories f f' \/
  exists u, In (q_storage q) paths /\ (exists g, only_directories f g /\ forall x, x <> u -> f' x = g x) /\
    (f u = None \/ u = p /\ (exists c, f u = Some (File c)) /\ q_rename q = false /\ q_overwrite q = true) /\
    (u = p \/ q_rename q = true /\ (exists c, f p = Some (File c)) /\ exists n ex, make_filepath_unique n ex p = Some (Ok u)) /\
    (r = Ok (mkR true u) /\ write = WAll /\ f' u = Some (saved version (q_yaml q)) \/
     (forall v, r <> Ok (mkR true v)) /\ exists c, (write = WPart c \/ write = WRaise c) /\ f' u = Some (File c)).
Proof.
  intros f' r H.
  assert (K : forall u, wrote u f' r -> (exists g, only_directories f g /\ forall x, x <> u -> f' x = g x) /\
    (r = Ok (mkR true u) /\ write = WAll /\ f' u = Some (saved version (q_yaml q)) \/
     (forall v, r <> Ok (mkR true v)) /\ exists c, (write = WPart c \/ write = WRaise c) /\ f' u = Some (File c))).
  { intros u (c & E & W). split.
    - exists f1. split; [exact dirs_kept|]. intros x X. rewrite E. apply put_other. exact X.
    - destruct W as [(W & R & C)|[(W & R)|(W & R)]]; [left|right|right].
      + rewrite E, put_same, C. auto.
      + split; [intros v V; congruence|]. exists c. rewrite E, put_same. auto.
      + split; [intros v V; congruence|]. exists c. rewrite E, put_same. auto. }
  apply save_cases in H. destruct H as [(_ & E & _)|(I & [(E & _)|[(N & W)|[(C & R & O & W)|(C & R & u & U & N & W)]]])].
  - left. rewrite E. intros x. left. reflexivity.
  - left. rewrite E. exact dirs_kept.
  - right. exists p. destruct (K _ W) as [K1 K2]. split; [exact I|]. split; [exact K1|]. split; [left; apply none_back; exact N|].
    split; [left; reflexivity|exact K2].
  - right. exists p. destruct (K _ W) as [K1 K2]. split; [exact I|]. split; [exact K1|].
    destruct C as [c C]. apply file_back in C. split; [right; eauto 6|]. split; [left; reflexivity|exact K2].
  - right. exists u. destruct (K _ W) as [K1 K2]. split; [exact I|]. split; [exact K1|]. split; [left; apply none_back; exact N|].
    destruct C as [c C]. apply file_back in C. split; [right; split; [exact R|]; split; [eauto|]|exact K2].
    eexists _, _. exact U.
Qed.

Lemma save_written : forall f' u,
  save_tree_to_path paths cwd version makedirs write fuel f q = Some (f', Ok (mkR true u)) ->
  In (q_storage q) paths /\ f' u = Some (saved version (q_yaml q)) /\
  (forall x, x <> u -> f' x = f x \/ f x = None /\ f' x = Some Dir) /\
  (u = p /\ (f u = None \/ exists c, f u = Some (File c) /\ q_overwrite q = true /\ q_rename q = false) \/
   f u = None /\ q_rename q = true /\ exists c, f p = Some (File c)).
Proof.
  intros f' u H.
  assert (K : forall v, wrote v f' (Ok (mkR true u)) -> v = u /\ f' u = Some (saved version (q_yaml q)) /\
    (forall x, x <> u -> f' x = f x \/ f x = None /\ f' x = Some Dir)).
  { intros v (c & E & [(_ & R & C)|[(_ & R)|(_ & R)]]); try discriminate R. injection R as <-. split; [reflexivity|].
    rewrite E, put_same, C. split; [reflexivity|]. intros x X. rewrite put_other by exact X. exact (dirs_kept x). }
  apply save_cases in H. destruct H as [(_ & _ & X)|(I & [(_ & X)|[(N & W)|[(C & R & O & W)|(C & R & v & U & N & W)]]])].
  - discriminate X.
  - exfalso. exact (X u eq_refl).
  - apply K in W. destruct W as (<- & W1 & W2). split; [exact I|]. split; [exact W1|]. split; [exact W2|].
    left. split; [reflexivity|]. left. apply none_back. exact N.
  - apply K in W. destruct W as (<- & W1 & W2). split; [exact I|]. split; [exact W1|]. split; [exact W2|].
    left. split; [reflexivity|]. right. destruct C as [c C]. apply file_back in C. eauto.
  - apply K in W. destruct W as (<- & W1 & W2). split; [exact I|]. split; [exact W1|]. split; [exact W2|].
    right. split; [apply none_back; exact N|]. split; [exact R|]. destruct C as [c C]. apply file_back in C. eauto.
Qed.
(** A request that may neither overwrite nor rename. *)
Lemma save_denied : forall f' r, (exists c, f p = Some (File c)) -> q_overwrite q = false -> q_rename q = false ->
  save_tree_to_path paths cwd version makedirs write fuel f q = Some (f', r) ->
  only_directories f f' /\ forall v, r <> Ok (mkR true v).
Proof.
  intros f' r (c & C) O R H. apply save_cases in H.
  destruct H as [(_ & E & X)|(I & [(E & X)|[(N & W)|[(_ & _ & O' & _)|(_ & R' & _)]]])]; try congruence.
  - split; [|intros v; rewrite X; discriminate]. rewrite E. intros x. left. reflexivity.
  - split; [|exact X]. rewrite E. exact dirs_kept.
  - exfalso. apply none_back in N. congruence.
Qed.

Lemma save_inside : forall f' r, clean_dir (q_storage q) -> downward (q_filepath q) -> f (q_storage q) = Some Dir ->
  save_tree_to_path paths cwd version makedirs write fuel f q = Some (f', r) ->
  forall x c, f' x = Some (File c) -> f x <> Some (File c) -> below (q_storage q) x.
Proof.
  intros f' r C D S H x c F' F. apply save_frame in H. destruct H as [H|(u & _ & (g & G1 & G2) & N & U & _)].
  - exfalso. destruct (H x) as [E|[A B]]; congruence.
  - assert (x = u).
    { destruct (string_dec x u) as [E|E]; [exact E|]. exfalso. rewrite (G2 x E) in F'. destruct (G1 x) as [X|[A B]]; congruence. }
    subst x.
    assert (NS : u <> q_storage q) by (intros ->; destruct N as [N|(_ & (d & N) & _)]; congruence).
    destruct (target_down cwd q C D) as [T|T].
    + destruct U as [->|(_ & (d & P) & _)]; [congruence|rewrite T in P; congruence].
    + destruct U as [->|(_ & _ & n & ex & U)]; [exact T|]. eapply unique_below; [exact T|exact U].
Qed.
End Save.

Lemma saves : forall n paths cwd version makedirs write fuel f q,
  finite_files n (fst (makedirs f (dirname (target cwd q)))) -> S n < fuel -> (forall c, write <> WRaise c) ->
  exists f' ok u, save_tree_to_path paths cwd version makedirs write fuel f q = Some (f', Ok (mkR ok u)).
Proof.
  intros n paths cwd version makedirs write fuel f q (l & L & F) B N. unfold save_tree_to_path. fold (target cwd q).
  destruct (negb _); [eauto|]. destruct (makedirs f (dirname (target cwd q))) as [g made]. cbn in F.
  destruct (_ && _); [eauto|]. destruct (isdir g (target cwd q)); [eauto|].
  assert (W : forall u, exists f' ok v, match write with
    | WOpenFails => Some (g, Ok (mkR false ""))
    | WPart c => Some (put g u (File c), Ok (mkR false ""))
    | WRaise c => Some (put g u (File c), Raise)
    | WAll => Some (put g u (File ("version: " ++ version ++ newline ++ q_yaml q)), Ok (mkR true u))
    end = Some (f', Ok (mkR ok v))).
  { intros u. destruct write as [|c|c|]; eauto. exfalso. apply (N c). reflexivity. }
  destruct (isfile g (target cwd q)); [|apply W].
  destruct (q_rename q).
  - assert (FF : forall x, exists_ g x = true -> In x l /\ path_max x).
    { intros x X. apply F. unfold exists_ in X. destruct (g x); congruence. }
    unfold make_filepath_unique. destruct (splitext (target cwd q)) as [name ext].
    destruct (loop_any (exists_ g) l FF fuel name ext) as (u & U & _); [lia|]. rewrite U.
    destruct (isfile g u); eauto.
  - destruct (negb (q_overwrite q)); eauto.
Qed.

(** ** path_to_dict *)

Section Ind.
Variable P : ftree -> Prop.
Hypothesis file : forall n, P (FFile n).
Hypothesis closed : forall n, P (FDir n None).
Hypothesis open : forall n l, Forall P l -> P (FDir n (Some l)).
Fixpoint ftree_ind' (t : ftree) {struct t} : P t :=
  match t with
  | FFile n => file n
  | FDir n None => closed n
  | FDir n (Some l) => open n l ((fix go (l : list ftree) : Forall P l :=
      match l with [] => Forall_nil _ | a :: r => Forall_cons a (ftree_ind' a) (go r) end) l)
  end.
End Ind.

Lemma hidden_dot : forall s, hidden s = prefix "." s.
Proof. intros [|c s]; [reflexivity|]. cbn. destruct c as [[] [] [] [] [] [] [] []]; cbn; destruct s; reflexivity. Qed.
Definition shown (show : bool) (t : ftree) : bool := show || negb (prefix "." (f_name t)).
(** The listing of [t] with ids from [k + 1] on. *)
Definition listing (show : bool) (t : ftree) (parent k : nat) (i : item) (k' : nat) : Prop :=
  lists show t i /\ i_parent i = parent /\ map i_id (items i) = seq (S k) (List.length (items i)) /\
  k' = k + List.length (items i) /\
  (forall j c, In j (items i) -> In c (i_children j) -> i_parent c = i_id j).
Lemma listing_ok : forall show t parent k i k', path_to_dict (fun k => k) show t parent k = (i, k') ->
  listing show t parent k i k'.
Proof.
  intros show t. induction t as [n|n|n l IH] using ftree_ind'; intros parent k i k' H.
  - injection H as <- <-. split; [constructor|]. cbn. split; [reflexivity|]. split; [reflexivity|]. split; [lia|].
    intros j c [<-|[]] [].
  - injection H as <- <-. split; [constructor|]. cbn. split; [reflexivity|]. split; [reflexivity|]. split; [lia|].
    intros j c [<-|[]] [].
  - cbn [path_to_dict] in H.
    set (go := fix go (l : list ftree) (k0 : nat) {struct l} : list item * nat :=
           match l with
           | [] => ([], k0)
           | a :: r => if show || negb (hidden (f_name a)) then
                         let (a', k1) := path_to_dict (fun k => k) show a (S k) k0 in
                         let (r', k2) := go r k1 in (a' :: r', k2)
                       else go r k0
           end) in H.
    assert (G : forall l k0 l' k2, Forall (fun t => forall parent k i k', path_to_dict (fun k => k) show t parent k = (i, k') ->
        listing show t parent k i k') l -> go l k0 = (l', k2) ->
      Forall2 (lists show) (filter (shown show) l) l' /\
      map i_id (concat (map items l')) = seq (S k0) (List.length (concat (map items l'))) /\
      k2 = k0 + List.length (concat (map items l')) /\
      (forall c, In c l' -> i_parent c = S k) /\
      (forall j c, In j (concat (map items l')) -> In c (i_children j) -> i_parent c = i_id j)).
    { clear IH H l k'. induction l as [|a l IHl]; intros k0 l' k2 F E; cbn [go] in E.
      - injection E as <- <-. cbn. split; [constructor|]. split; [reflexivity|]. split; [lia|]. split; intros; contradiction.
      - inversion F as [|? ? A F']; subst. cbn [filter]. unfold shown at 1.
        rewrite hidden_dot in E. destruct (show || negb (prefix "." (f_name a))); [|apply IHl; assumption].
        destruct (path_to_dict (fun k => k) show a (S k) k0) as [a' k1] eqn:PA.
        destruct (go l k1) as [r' k3] eqn:GR. injection E as <- <-.
        destruct (A _ _ _ _ PA) as (A1 & A2 & A3 & A4 & A5). destruct (IHl _ _ _ F' GR) as (B1 & B2 & B3 & B4 & B5).
        cbn [map concat]. split; [constructor; assumption|]. rewrite app_length. split; [|split; [lia|split]].
        + rewrite map_app, A3, B2, A4, seq_app. cbn [Nat.add]. reflexivity.
        + intros c [<-|C]; auto.
        + intros j c J C. apply in_app_or in J. destruct J as [J|J]; [eapply A5|eapply B5]; eassumption. }
    destruct (go l (S k)) as [l' k2] eqn:GO. injection H as <- <-. destruct (G _ _ _ _ IH GO) as (B1 & B2 & B3 & B4 & B5).
    split; [constructor; exact B1|]. cbn [items i_parent map i_id List.length seq]. split; [reflexivity|].
    split; [rewrite B2; reflexivity|]. split; [lia|].
    intros j c [<-|J] C; [apply B4; exact C|eapply B5; eassumption].
Qed.
