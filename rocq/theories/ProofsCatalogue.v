(** Proofs for C105. *)
From Coq Require Import String ZArith NArith Bool Ascii Lia List.
From Verif Require Import Base ModelData ModelEdit ModelFiles ModelFields SpecFields ProofsFields ModelCatalogue SpecCatalogue.
Import ListNotations.
Local Open Scope string_scope.
Local Open Scope list_scope.

Lemma interfaces_in : forall d s, In s (interfaces d) <-> is_installed d s.
Proof.
  intros d s. unfold interfaces, is_installed. rewrite in_flat_map. split.
  - intros ((p & ms) & I & J). cbn in J. apply in_map_iff in J. destruct J as (m & <- & M). exists p, ms, m. auto.
  - intros (p & ms & m & I & M & ->). exists (p, ms). split; [exact I|]. cbn. apply in_map_iff. exists m. auto.
Qed.
Lemma interfaces_all : forall d, lists_all d (interfaces d).
Proof.
  intros d. split; [intro s; apply interfaces_in|]. unfold interfaces. induction d as [|[p ms] d IH]; [reflexivity|].
  cbn [flat_map map list_sum fst snd]. rewrite app_length, map_length, IH. reflexivity.
Qed.

Lemma interface_name : forall k p kind, named k p kind -> get_interface_name k = Some (p ++ "/" ++ kind ++ "/" ++ k_name k)%string.
Proof.
  intros k p kind (mid & file & M). unfold get_interface_name. rewrite M.
  replace (p :: mid ++ [kind; file]) with ((p :: mid ++ [kind]) ++ [file]) by (cbn; now rewrite <- app_assoc).
  rewrite rev_app_distr. cbn [rev app]. rewrite rev_app_distr. cbn. reflexivity.
Qed.

Lemma containers : forall i l, Forall (fun f => exists F t, snd f = text F /\ no_string_name F /\ holds (class_of i) F t) l ->
  exists cs, element_containers i l = Ok cs /\
    Forall2 (fun f z => fst z = fst f /\ exists F t, snd f = text F /\ holds (class_of i) F t /\
               snd z = ser_type t true true true) l (map (fun f => (fst f, serialize_type (snd f))) cs).
Proof.
  intros i l. induction l as [|[f ft] l IH]; intro H; [exists []; split; [reflexivity|constructor]|].
  inversion H as [|x0 l0 (F & t & E & N & H0) Hl]; subst. destruct (IH Hl) as (cs & C & A). cbn in E. subst ft. destruct (io_type (class_of i) F t N H0) as (c & Ec & T & D & S & St & _).
  exists ((f, c) :: cs). split; [cbn; rewrite Ec, C; reflexivity|]. cbn. constructor; [|exact A]. cbn. split; [reflexivity|].
  exists F, t. split; [reflexivity|]. split; [exact H0|]. unfold serialize_type. rewrite T, D, S, St. reflexivity.
Qed.

Lemma ros_container : forall n, exists c, construct (TRosMsg n 0) true true None None = Some c /\
  serialize_type c = ser_type (TRosMsg n 0) true true true.
Proof. intro n. eexists. split; reflexivity. Qed.

Lemma described : forall i k p kind, named k p kind -> readable_fields i k ->
  exists o, to_message_type i k = Ok o /\
    match o with Some y => k_new k = true /\ describes i k y | None => k_new k = false end.
Proof.
  intros i k p kind N R. unfold to_message_type. rewrite (interface_name k p kind N). set (nm := (p ++ "/" ++ kind ++ "/" ++ k_name k)%string).
  destruct (k_new k) eqn:W.
  - destruct (ros_container nm) as (c & C & S). rewrite C. destruct (containers i (k_fields k) R) as (cs & E & A). rewrite E.
    eexists. split; [reflexivity|]. cbn. split; [reflexivity|]. split; [|split; cbn; auto]. exists p, kind. auto.
  - exists None. auto.
Qed.

Lemma types_shown : forall i l, (forall s, In s l -> exists k p kind, dget s (i_class i) = Some k /\ named k p kind /\ readable_fields i k) ->
  exists ys, message_types i l = Ok ys /\ shown i l ys.
Proof.
  intros i. induction l as [|n l IH]; intro H; [exists []; split; [reflexivity|constructor]|].
  destruct (H n (or_introl eq_refl)) as (k & p & kind & D & N & R). destruct IH as (ys & E & S); [intros; apply H; now right|].
  destruct (described i k p kind N R) as (o & O & P). cbn. rewrite D, O, E. destruct o as [y|].
  - destruct P as [W Y]. exists (y :: ys). split; [reflexivity|]. apply Sh_one with k; auto.
  - exists ys. split; [reflexivity|]. apply Sh_skip with k; auto.
Qed.

Lemma messages : forall i g, g_message_pub g = true -> readable i ->
  exists m, gstep g (GMessages i) = (mkCat true (g_package_pub g) (Some m) (g_packages g) (g_sent g ++ [SMessages m]), true) /\
    (exists names, lists_all (i_messages i) names /\ shown i names (ms_topics m)) /\
    lists_all (i_services i) (ms_services m) /\ lists_all (i_actions i) (ms_actions m).
Proof.
  intros i g P R. destruct (types_shown i (interfaces (i_messages i))) as (ys & E & S).
  { intros s I. apply R. apply interfaces_in. exact I. }
  exists (mkMs ys (interfaces (i_services i)) (interfaces (i_actions i))). cbn. unfold publish_message_list. rewrite P, E. cbn.
  split; [reflexivity|]. split; [exists (interfaces (i_messages i)); split; [apply interfaces_all|exact S]|].
  split; apply interfaces_all.
Qed.

Lemma types_broken : forall i l n, In n l -> dget n (i_class i) = None -> forall ys, message_types i l <> Ok ys.
Proof.
  intros i. induction l as [|a l IH]; intros n I D ys; [destruct I|]. cbn. destruct I as [->|I]; [rewrite D; discriminate|].
  destruct (dget a (i_class i)) as [k|]; [|discriminate]. destruct (to_message_type i k) as [o| |]; [|discriminate|discriminate].
  destruct (message_types i l) as [r| |] eqn:E; [|discriminate|discriminate]. exfalso. exact (IH n I D r eq_refl).
Qed.
Lemma broken : forall i g n, g_message_pub g = true -> is_installed (i_messages i) n -> dget n (i_class i) = None ->
  gstep g (GMessages i) = (g, false).
Proof.
  intros i g n P I D. cbn. unfold publish_message_list. rewrite P. cbn [negb].
  destruct (message_types i (interfaces (i_messages i))) as [ys| |] eqn:E; [|reflexivity|reflexivity].
  exfalso. exact (types_broken i _ n (proj2 (interfaces_in _ _) I) D ys E).
Qed.

Lemma prefix_starts : forall p s, String.prefix p s = true <-> starts p s.
Proof.
  induction p as [|a p IH]; intro s; [split; [intros _; exists s; reflexivity|destruct s; reflexivity]|].
  destruct s as [|b s]; [split; [discriminate|intros [r H]; discriminate H]|]. cbn. destruct (ascii_dec a b) as [->|N].
  - rewrite IH. split; intros [r H]; exists r; [rewrite H; reflexivity|]. cbn in H. congruence.
  - split; [discriminate|]. intros [r H]. cbn in H. congruence.
Qed.

Lemma packages : forall l g, g_package_pub g = true ->
  exists r, gstep g (GPackages l) = (mkCat (g_message_pub g) true (g_messages g) (Some r) (g_sent g ++ [SPackages r]), true) /\
    keeps (fun p => ~ starts "/opt/ros" (snd p)) l r.
Proof.
  intros l g P. cbn [gstep]. unfold publish_packages_list. rewrite P. cbn [negb]. eexists. split; [reflexivity|].
  induction l as [|[p d] l IH]; [constructor|]. cbn [filter snd]. destruct (String.prefix "/opt/ros" d) eqn:E; cbn [negb].
  - apply K_skip; [|exact IH]. intro H. apply H. apply prefix_starts. exact E.
  - apply K_keep; [|exact IH]. intro H. apply prefix_starts in H. cbn in H. congruence.
Qed.

Lemma first_types : forall l, (forall n ts, In (n, ts) l -> ts <> []) ->
  exists c, channels l = Some c /\ Forall2 (fun x y => fst y = fst x /\ exists r, snd x = snd y :: r) l c.
Proof.
  induction l as [|[n ts] l IH]; intro H; [exists []; auto|]. destruct IH as (c & C & F); [intros m us I; apply (H m us); now right|].
  destruct ts as [|t ts]; [exfalso; exact (H n [] (or_introl eq_refl) eq_refl)|]. exists ((n, t) :: c). split; [cbn; rewrite C; reflexivity|].
  constructor; [|exact F]. cbn. split; [reflexivity|]. exists ts. reflexivity.
Qed.

(** ** The lists kept are the last ones sent *)

Definition kept (P : sent -> Prop) (o : option sent) (l : list sent) : Prop :=
  match o with Some x => last_of P l x | None => forall y, In y l -> ~ P y end.
Definition good (g : catalogue) : Prop :=
  kept is_messages (option_map SMessages (g_messages g)) (g_sent g) /\
  kept is_packages (option_map SPackages (g_packages g)) (g_sent g) /\
  (g_messages g <> None -> g_message_pub g = true) /\ (g_packages g <> None -> g_package_pub g = true).

Lemma kept_other : forall P o l x, kept P o l -> ~ P x -> kept P o (l ++ [x]).
Proof.
  intros P [y|] l x; cbn.
  - intros (Py & a & b & -> & N) X. split; [exact Py|]. exists a, (b ++ [x]). rewrite <- app_assoc. split; [reflexivity|].
    intros z I. apply in_app_iff in I. destruct I as [I|[<-|[]]]; auto.
  - intros N X z I. apply in_app_iff in I. destruct I as [I|[<-|[]]]; auto.
Qed.
Lemma kept_new : forall (P : sent -> Prop) l x, P x -> kept P (Some x) (l ++ [x]).
Proof. intros P l x X. split; [exact X|]. exists l, []. split; [reflexivity|intros y []]. Qed.

Definition republished (n k : nat) (g : catalogue) : list sent :=
  (match g_messages g with Some m => if Nat.ltb 0 n then [SMessages m] else [] | None => [] end) ++
  (match g_packages g with Some l => if Nat.ltb 0 k then [SPackages l] else [] | None => [] end).
Lemma republish_eq : forall n k g, good g -> republish_lists n k g =
  mkCat (g_message_pub g) (g_package_pub g) (g_messages g) (g_packages g) (g_sent g ++ republished n k g).
Proof.
  intros n k [mp pp ms ps l] (_ & _ & M & P). cbn in M, P. unfold republish_lists, republished. cbn [g_messages g_message_pub g_packages g_package_pub g_sent].
  assert (X : ms = None \/ mp = true) by (destruct ms; [right; apply M; discriminate|auto]).
  assert (Y : ps = None \/ pp = true) by (destruct ps; [right; apply P; discriminate|auto]). clear M P.
  destruct n, k, X as [-> | ->], Y as [-> | ->]; try (destruct ms); try (destruct ps); unfold send; cbn; rewrite ?andb_false_r, ?app_nil_r, <- ?app_assoc; reflexivity.
Qed.

Lemma good_step : forall g o, good g -> good (fst (gstep g o)).
Proof.
  intros g o G. destruct o as [i|l|n k|t s a]; cbn [gstep].
  - unfold publish_message_list. destruct (g_message_pub g) eqn:P; cbn [negb]; [|exact G].
    destruct (message_types i (interfaces (i_messages i))) as [ys| |]; [|exact G|exact G]. destruct G as (A & B & C & D).
    unfold good. cbn. split; [apply kept_new; exact I|]. split; [apply kept_other; [exact B|tauto]|]. split; auto.
  - unfold publish_packages_list. destruct (g_package_pub g) eqn:P; cbn [negb fst]; [|exact G]. destruct G as (A & B & C & D).
    unfold good. cbn. split; [apply kept_other; [exact A|tauto]|]. split; [apply kept_new; exact I|]. split; auto.
  - cbn [fst]. rewrite republish_eq by exact G. destruct G as (A & B & C & D). unfold good, republished. cbn [g_sent g_messages g_packages g_message_pub g_package_pub].
    assert (X : kept is_messages (option_map SMessages (g_messages g))
                  (g_sent g ++ match g_messages g with Some m => if Nat.ltb 0 n then [SMessages m] else [] | None => [] end) /\
                kept is_packages (option_map SPackages (g_packages g))
                  (g_sent g ++ match g_messages g with Some m => if Nat.ltb 0 n then [SMessages m] else [] | None => [] end)).
    { destruct (g_messages g) as [m|]; [destruct (Nat.ltb 0 n)|]; rewrite ?app_nil_r; try (split; assumption).
      split; [apply kept_new; exact I|apply kept_other; [exact B|tauto]]. }
    rewrite app_assoc. destruct X as [X Y]. set (l := g_sent g ++ _) in X, Y |- *.
    destruct (g_packages g) as [q|]; [destruct k; cbn [Nat.ltb Nat.leb]|]; rewrite ?app_nil_r; try (split; [exact X|]; split; [exact Y|]; split; assumption).
    split; [apply kept_other; [exact X|tauto]|]. split; [apply kept_new; exact I|]. split; assumption.
  - unfold publish_message_channels. destruct (channels t); [|exact G]. destruct (channels s); [|exact G].
    destruct (channels a); [|exact G]. destruct G as (A & B & C & D). unfold good. cbn. repeat split; try assumption; apply kept_other; cbn; tauto.
Qed.
Lemma good_run : forall h g, good g -> good (grun h g).
Proof. induction h as [|o h IH]; intros g G; [exact G|]. apply IH. apply good_step. exact G. Qed.
Lemma good_new : forall mp pp, good (new_catalogue mp pp).
Proof. intros mp pp. unfold good. cbn. repeat split; try (intros y []); congruence. Qed.

Lemma republished_again : forall h mp pp n k,
  let g := grun h (new_catalogue mp pp) in
  exists ms ps, g_sent (fst (gstep g (GRepublish n k))) = g_sent g ++ ms ++ ps /\
    again is_messages n (g_sent g) ms /\ again is_packages k (g_sent g) ps.
Proof.
  intros h mp pp n k g. assert (G : good g) by (apply good_run, good_new). cbn [gstep fst]. rewrite republish_eq by exact G.
  destruct G as (A & B & _). unfold republished. cbn [g_sent]. eexists. eexists. split; [reflexivity|]. split.
  - destruct (g_messages g) as [m|]; cbn in A; [destruct n; cbn|].
    + right. auto.
    + left. split; [lia|]. exists (SMessages m). auto.
    + right. auto.
  - destruct (g_packages g) as [q|]; cbn in B; [destruct k; cbn|].
    + right. auto.
    + left. split; [lia|]. exists (SPackages q). auto.
    + right. auto.
Qed.

(** ** Where the lists come from *)

Lemma sent_from : forall h g, (forall i, In (GMessages i) h -> readable i) -> good g ->
  forall m, In (SMessages m) (g_sent (grun h g)) ->
  In (SMessages m) (g_sent g) \/
  exists i, In (GMessages i) h /\ exists names, lists_all (i_messages i) names /\ shown i names (ms_topics m).
Proof.
  induction h as [|o h IH]; intros g R G m I; [auto|]. cbn in I.
  destruct (IH (fst (gstep g o)) (fun i J => R i (or_intror J)) (good_step g o G) m I) as [J|(i & J & K)]; [|right; exists i; cbn; auto].
  destruct o as [i|l|n k|t s a].
  - destruct (g_message_pub g) eqn:P.
    + destruct (messages i g P (R i (or_introl eq_refl))) as (m' & E & N & _). rewrite E in J. cbn in J.
      apply in_app_iff in J. destruct J as [J|[J|[]]]; [auto|]. injection J as ->. right. exists i. cbn. auto.
    + cbn in J. unfold publish_message_list in J. rewrite P in J. auto.
  - cbn in J. unfold publish_packages_list in J. destruct (g_package_pub g); cbn in J; [|auto].
    apply in_app_iff in J. destruct J as [J|[J|[]]]; [auto|discriminate J].
  - cbn [gstep fst] in J. rewrite republish_eq in J by exact G. cbn in J. apply in_app_iff in J. destruct J as [J|J]; [auto|].
    left. unfold republished in J. apply in_app_iff in J. destruct J as [J|J].
    + destruct G as (A & _). destruct (g_messages g) as [q|]; [|destruct J]. destruct (Nat.ltb 0 n); [|destruct J].
      destruct J as [J|[]]. injection J as ->. destruct A as (_ & a & b & -> & _). apply in_app_iff. right. now left.
    + destruct (g_packages g); [|destruct J]. destruct (Nat.ltb 0 k); [|destruct J]. destruct J as [J|[]]; discriminate J.
  - cbn in J. unfold publish_message_channels in J. destruct (channels t); [|auto]. destruct (channels s); [|auto]. destruct (channels a); [|auto].
    cbn in J. apply in_app_iff in J. destruct J as [J|[J|[]]]; [auto|discriminate J].
Qed.
