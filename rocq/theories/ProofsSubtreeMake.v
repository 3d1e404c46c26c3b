(** Proofs about how Subtree nodes are made (C100). *)
From Coq Require Import String Ascii ZArith Bool Arith Lia List.
From Verif Require Import Base ModelData ModelEdit ModelSubtreeNode ModelSubtreeMake SpecSubtreeNode SpecSubtreeMake
  ProofsSubtreeNode ProofsParallel ProofsEditLast ProofsSubtrees ProofsRegistry.
Import ListNotations.
Local Open Scope string_scope.
Local Open Scope list_scope.

Lemma nset_nodup : forall A n (m : A) l, NoDup (map fst l) -> NoDup (map fst (nset n m l)).
Proof.
  induction l as [|[a b] l IH]; intros N; cbn; [repeat constructor; intros []|].
  cbn in N. apply NoDup_cons_iff in N. destruct N as [N1 N2]. destruct (Nat.eqb_spec n a) as [-> | D]; cbn; constructor; auto.
  intros I. apply in_map_iff in I. destruct I as ([k v] & E & I). cbn in E. subst k. apply nset_in in I.
  destruct I as [I | I]; [injection I; congruence|]. apply N1, in_map_iff. now exists (a, v).
Qed.

Section Extra.
Variable u : uuids.
Hypothesis U : uuids_ok u.
Variable key : string.
Hypothesis K : ~ In "."%char (list_ascii_of_string key).
Variable sel : made -> option container.
Let names (nodes : list (nid * made)) : ios :=
  flat_map (fun x => match sel (snd x) with Some c => [(public_name u (fst x) key, runtime_type c)] | None => [] end) nodes.

Lemma public_inj_key : forall n m, public_name u n key = public_name u m key -> n = m.
Proof. intros n m H. pose proof (split_public u n key U K) as A. pose proof (split_public u m key U K). congruence. Qed.
Lemma names_in : forall nodes k c, In (k, c) (names nodes) <-> exists m x y, In (m, x) nodes /\ sel x = Some y /\ k = public_name u m key /\ c = runtime_type y.
Proof.
  intros nodes k c. unfold names. rewrite in_flat_map. split.
  - intros ([m x] & I & J). cbn in J. destruct (sel x) as [y|] eqn:E; [|destruct J]. destruct J as [J | []]. injection J as <- <-. now exists m, x, y.
  - intros (m & x & y & I & E & -> & ->). exists (m, x). split; [exact I|]. cbn. rewrite E. now left.
Qed.
Lemma names_nodup : forall nodes, NoDup (map fst nodes) -> NoDup (map fst (names nodes)).
Proof.
  induction nodes as [|[m x] nodes IH]; intros N; [constructor|]. cbn in N. apply NoDup_cons_iff in N. destruct N as [N1 N2].
  cbn. destruct (sel x) as [y|]; [|now apply IH]. cbn. constructor; [|now apply IH].
  intros I. apply in_map_iff in I. destruct I as ([k c] & E & I). cbn in E. subst k. apply names_in in I.
  destruct I as (m' & x' & y' & I & _ & E & _). apply public_inj_key in E. subst m'. apply N1, in_map_iff. now exists (m, x').
Qed.
End Extra.

Definition in_of (x : made) : option container := match x with MInput c => Some c | _ => None end.
Definition out_of (x : made) : option container := match x with MOutput c => Some c | _ => None end.
Lemma extra_in_names : forall u nodes, extra_inputs u nodes =
  flat_map (fun x => match in_of (snd x) with Some c => [(public_name u (fst x) "in", runtime_type c)] | None => [] end) nodes.
Proof. intros u nodes. induction nodes as [|[m x] l IH]; [reflexivity|]. cbn. unfold extra_inputs in IH. rewrite IH. now destruct x. Qed.
Lemma extra_out_names : forall u nodes, extra_outputs u nodes =
  flat_map (fun x => match out_of (snd x) with Some c => [(public_name u (fst x) "out", runtime_type c)] | None => [] end) nodes.
Proof. intros u nodes. induction nodes as [|[m x] l IH]; [reflexivity|]. cbn. unfold extra_outputs in IH. rewrite IH. now destruct x. Qed.
Lemma no_dot_in : ~ In "."%char (list_ascii_of_string "in").
Proof. cbn. intuition discriminate. Qed.
Lemma no_dot_out : ~ In "."%char (list_ascii_of_string "out").
Proof. cbn. intuition discriminate. Qed.

Lemma not_path : forall u, uuids_ok u -> forall m key, ~ In "."%char (list_ascii_of_string key) -> public_name u m key <> "subtree_path".
Proof.
  intros u U m key K E. pose proof (split_public u m key U K) as A. rewrite E in A. discriminate.
Qed.

(** What the message gives. *)
Lemma take_given_spec : forall given ins r, NoDup (map fst given) -> take_given given ins = Ok r ->
  map fst r = map fst ins /\
  forall k, match dget k given with
            | None => dget k r = dget k ins
            | Some g => dget k r = Some g /\ exists t, dget k ins = Some t /\ is_compatible t g = true
            end.
Proof.
  induction given as [|[a g] given IH]; intros ins r N H; [injection H as <-; split; [reflexivity | intros k; reflexivity]|].
  cbn in N. apply NoDup_cons_iff in N. destruct N as [N1 N2]. cbn in H.
  destruct (dget a ins) as [t|] eqn:A; [|discriminate]. destruct (is_compatible t g) eqn:C; [|discriminate].
  destruct (IH _ _ N2 H) as [E F]. split.
  - rewrite E. clear - A. induction ins as [|[k v] ins IH]; [discriminate|]. cbn in *. destruct (String.eqb_spec a k) as [-> | D]; cbn; [reflexivity|].
    now rewrite IH.
  - intros k. specialize (F k). cbn. destruct (String.eqb_spec k a) as [-> | D].
    + assert (G : dget a given = None) by (apply dget_nIn; exact N1). rewrite G in F. rewrite F, dget_dset, String.eqb_refl.
      split; [reflexivity|]. now exists t.
    + destruct (dget k given) as [g'|].
      * destruct F as [F (t' & T & C')]. split; [exact F|]. exists t'. rewrite dget_dset in T. apply String.eqb_neq in D. now rewrite D in T.
      * rewrite F, dget_dset. apply String.eqb_neq in D. now rewrite D.
Qed.
Lemma take_given_never_raises : forall given ins, take_given given ins <> Raise.
Proof.
  induction given as [|[a g] given IH]; intros ins; cbn; [discriminate|]. destruct (dget a ins); [|discriminate].
  destruct (is_compatible c g); [apply IH | discriminate].
Qed.

Lemma forced_keys : forall l : ios, map fst (map (fun kc => (fst kc, force_output (snd kc))) l) = map fst l.
Proof. intros l. rewrite map_map. reflexivity. Qed.
Lemma forced_get : forall (l : ios) k, dget k (map (fun kc => (fst kc, force_output (snd kc))) l) = option_map force_output (dget k l).
Proof. induction l as [|[a b] l IH]; intros k; cbn; [reflexivity|]. destruct (String.eqb k a); [reflexivity | apply IH]. Qed.

Lemma subtree_ios_spec : forall u pc given nodes ins outs, uuids_ok u -> NoDup (map fst nodes) ->
  NoDup (map fst given) -> ~ In "subtree_path" (map fst given) ->
  subtree_ios u pc given nodes = Ok (ins, outs) ->
  interface u given nodes ins outs /\ dget "subtree_path" ins = Some pc /\ sub_inputs_ok u ins /\ NoDup (map fst outs) /\
  known_inputs u given nodes.
Proof.
  intros u pc given nodes ins outs U N Ng Np H. unfold subtree_ios, make_config in H.
  pose proof (names_nodup u U "in" no_dot_in in_of nodes N) as Ni. pose proof (names_nodup u U "out" no_dot_out out_of nodes N) as No.
  rewrite <- extra_in_names in Ni. rewrite <- extra_out_names in No.
  rewrite (py_dict_nodup _ _ Ni), (py_dict_nodup _ _ No) in H.
  destruct (existsb _ (extra_outputs u nodes)); [discriminate|].
  set (fo := map (fun kc : string * container => (fst kc, force_output (snd kc))) (extra_outputs u nodes)) in *.
  set (x := mkCfg (extra_inputs u nodes) fo (Some 0)) in *.
  destruct (extend_ok (mkCfg [("subtree_path", pc)] [] (Some 0)) x) as [_ EX].
  { split; cbn; repeat constructor; intros []. }
  destruct (extend (mkCfg [("subtree_path", pc)] [] (Some 0)) x) as [c [t | e |]]; [| discriminate | discriminate].
  cbn [snd is_ok fst] in EX. specialize (EX eq_refl). subst c. cbn [f_ins f_outs x app] in H.
  destruct (take_given given _) as [r | e |] eqn:T; [| discriminate | discriminate]. injection H as <- <-.
  destruct (take_given_spec _ _ _ Ng T) as [Kr G].
  assert (IN : forall m y, In (m, MInput y) nodes -> dget (public_name u m "in") (("subtree_path", pc) :: extra_inputs u nodes) = Some (runtime_type y)).
  { intros m y I. cbn [dget]. destruct (String.eqb_spec (public_name u m "in") "subtree_path") as [E | _]; [destruct (not_path u U m "in" no_dot_in E)|].
    apply ProofsParallel.dget_in; [exact Ni|]. rewrite extra_in_names. apply (proj2 (names_in u "in" in_of nodes _ _)). now exists m, (MInput y), y. }
  assert (KEYS : forall k, In k (map fst r) <-> k = "subtree_path" \/ exists m c, In (m, MInput c) nodes /\ k = public_name u m "in").
  { intros k. rewrite Kr. cbn [map fst]. split.
    - intros [<- | I]; [now left | right]. apply in_map_iff in I. destruct I as ([k' c] & <- & I). rewrite extra_in_names in I.
      apply (proj1 (names_in u "in" in_of nodes _ _)) in I. destruct I as (m & z & y & I & E & Ek & _). destruct z; try discriminate. injection E as <-.
      now exists m, c0.
    - intros [-> | (m & y & I & ->)]; [now left | right]. apply in_map_iff. exists (public_name u m "in", runtime_type y). split; [reflexivity|].
      rewrite extra_in_names. apply (proj2 (names_in u "in" in_of nodes _ _)). now exists m, (MInput y), y. }
  split; [split; [exact KEYS | split; [| split]] | split; [| split; [| split]]].
  - intros m y I. specialize (G (public_name u m "in")). rewrite (IN m y I) in G.
    destruct (dget (public_name u m "in") given) as [g|].
    + destruct G as [G (t' & T' & C)]. exists g. split; [exact G|]. split; [discriminate|]. intros g' E. injection E as <-.
      injection T' as <-. now split.
    + exists (runtime_type y). split; [exact G|]. split; [reflexivity | discriminate].
  - intros k. unfold fo. rewrite forced_keys. split.
    + intros I. apply in_map_iff in I. destruct I as ([k' c] & <- & I). rewrite extra_out_names in I.
      apply (proj1 (names_in u "out" out_of nodes _ _)) in I. destruct I as (m & z & y & I & E & Ek & _). destruct z; try discriminate.
      injection E as <-. now exists m, c0.
    + intros (m & y & I & ->). apply in_map_iff. exists (public_name u m "out", runtime_type y). split; [reflexivity|].
      rewrite extra_out_names. apply (proj2 (names_in u "out" out_of nodes _ _)). now exists m, (MOutput y), y.
  - intros m y I. unfold fo. rewrite forced_get. rewrite (ProofsParallel.dget_in _ _ (public_name u m "out") (runtime_type y) No); [reflexivity|].
    rewrite extra_out_names. apply (proj2 (names_in u "out" out_of nodes _ _)). now exists m, (MOutput y), y.
  - specialize (G "subtree_path"). assert (X : dget "subtree_path" given = None) by (apply dget_nIn; exact Np). rewrite X in G.
    rewrite G. reflexivity.
  - split.
    + rewrite Kr. cbn [map fst]. constructor; [|exact Ni]. intros I. apply in_map_iff in I. destruct I as ([k c] & E & I). cbn in E. subst k.
      rewrite extra_in_names in I. apply (proj1 (names_in u "in" in_of nodes _ _)) in I. destruct I as (m & z & y & _ & _ & E & _).
      symmetry in E. exact (not_path u U m "in" no_dot_in E).
    + intros k I. apply KEYS in I. destruct I as [-> | (m & y & I & ->)]; [reflexivity|]. now rewrite split_in.
  - unfold fo. now rewrite forced_keys.
  - intros k g I. specialize (G k). rewrite (ProofsParallel.dget_in _ _ k g Ng I) in G. destruct G as [_ (t' & T' & C)].
    cbn [dget] in T'. destruct (String.eqb_spec k "subtree_path") as [-> | _].
    { exfalso. apply Np, in_map_iff. now exists ("subtree_path", g). }
    apply ProofsRegistry.dget_in in T'. rewrite extra_in_names in T'. apply (proj1 (names_in u "in" in_of nodes _ _)) in T'.
    destruct T' as (m & z & y & J & E & -> & ->). destruct z; try discriminate. injection E as <-. now exists m, c.
Qed.

Lemma subtree_ios_raise : forall u pc given nodes, subtree_ios u pc given nodes <> Raise.
Proof.
  intros u pc given nodes. unfold subtree_ios. destruct (make_config _ _ _) as [x|]; [|discriminate].
  unfold extend. destruct (opt_nat_eqb _ _); cbn [negb]; [|discriminate].
  destruct (extend_io _ (f_ins x)) as [i di]. destruct (extend_io _ (f_outs x)) as [o do]. cbn [f_ins f_outs].
  destruct di; [destruct do|]; try discriminate. pose proof (take_given_never_raises given i) as T.
  destruct (take_given given i); [discriminate | discriminate | contradiction].
Qed.

Section Load.
Variable u : uuids.
Variable file : string -> option (list (nid * desc)).
Variable finish : string -> list (nid * made) -> res unit.
Notation load := (load u file finish).

(** The node made of a description with calls nested to [depth]. *)
Definition make1 (depth : nat) (x : desc) : res made :=
  match x with
  | AnInput c => Ok (MInput c)
  | AnOutput c => Ok (MOutput c)
  | Another => Ok MOther
  | ASubtree _ None _ => Err EConfig
  | ASubtree pc (Some q) given =>
      match load depth q with
      | Ok nodes => match subtree_ios u pc given nodes with
                    | Ok (ins, outs) => Ok (MSubtree ins outs nodes)
                    | Err e => Err e
                    | Raise => Raise
                    end
      | Err e => Err e
      | Raise => Raise
      end
  end.
Lemma load_S : forall depth p, load (S depth) p =
  match file p with
  | None => Err EConfig
  | Some l => match make_nodes (make1 depth) l [] with
              | Ok nodes => match finish p nodes with Ok _ => Ok nodes | Err e => Err e | Raise => Raise end
              | Err e => Err e
              | Raise => Raise
              end
  end.
Proof. reflexivity. Qed.

Lemma make_nodes_ok : forall make l acc nodes, make_nodes make l acc = Ok nodes -> NoDup (map fst acc) ->
  NoDup (map fst nodes) /\
  (forall n x, In (n, x) l -> exists m, make x = Ok m) /\
  (forall n m, In (n, m) nodes -> In (n, m) acc \/ exists x, In (n, x) l /\ make x = Ok m).
Proof.
  induction l as [|[n x] l IH]; intros acc nodes H N; cbn in H.
  - injection H as <-. split; [exact N|]. split; [intros n x [] | intros n m I; now left].
  - destruct (make x) as [m | e |] eqn:M; [| discriminate | discriminate].
    destruct (IH _ _ H (nset_nodup _ n m acc N)) as (A & B & C). split; [exact A|]. split.
    + intros n' x' [E | I]; [injection E as <- <-; now exists m | exact (B n' x' I)].
    + intros n' m' I. destruct (C n' m' I) as [J | (x' & J & Mx)].
      * apply nset_in in J. destruct J as [J | J]; [|now left]. injection J as -> ->. right. exists x. split; [now left | exact M].
      * right. exists x'. split; [now right | exact Mx].
Qed.
Lemma make_nodes_ext : forall m1 m2 l acc nodes, (forall x r, m1 x = Ok r -> m2 x = Ok r) ->
  make_nodes m1 l acc = Ok nodes -> make_nodes m2 l acc = Ok nodes.
Proof.
  intros m1 m2. induction l as [|[n x] l IH]; intros acc nodes A H; cbn in *; [exact H|].
  destruct (m1 x) as [m | e |] eqn:M; [| discriminate | discriminate]. rewrite (A _ _ M). now apply IH.
Qed.
Lemma make_nodes_raise : forall make l acc, (forall n x, In (n, x) l -> make x <> Raise) -> make_nodes make l acc <> Raise.
Proof.
  intros make. induction l as [|[n x] l IH]; intros acc A; cbn; [discriminate|].
  pose proof (A n x (or_introl eq_refl)) as M. destruct (make x); [| discriminate | contradiction].
  apply IH. intros n' x' I. apply (A n' x'). now right.
Qed.

Lemma load_more : forall depth p nodes, load depth p = Ok nodes -> load (S depth) p = Ok nodes.
Proof.
  induction depth as [|depth IH]; intros p nodes H; [discriminate|]. rewrite load_S in *.
  destruct (file p) as [l|]; [|discriminate]. destruct (make_nodes (make1 depth) l []) as [r | e |] eqn:M; [| discriminate | discriminate].
  rewrite (make_nodes_ext (make1 depth) (make1 (S depth)) l [] r); [exact H | | exact M].
  intros x m X. unfold make1 in *. destruct x as [c | c | | pc [q|] given]; try exact X.
  destruct (load depth q) as [t | e |] eqn:L; [| discriminate | discriminate]. now rewrite (IH _ _ L).
Qed.

(** A loaded tree: what its file says, and what became of its Subtree nodes. *)
Lemma load_inv : forall depth p nodes, load depth p = Ok nodes -> exists k l, depth = S k /\ file p = Some l /\
  NoDup (map fst nodes) /\ (forall n x, In (n, x) l -> exists m, make1 k x = Ok m) /\
  (forall n m, In (n, m) nodes -> exists x, In (n, x) l /\ make1 k x = Ok m).
Proof.
  intros [|k] p nodes H; [discriminate|]. rewrite load_S in H. destruct (file p) as [l|] eqn:F; [|discriminate].
  destruct (make_nodes (make1 k) l []) as [r | e |] eqn:M; [| discriminate | discriminate].
  destruct (finish p r) as [x | e |]; try discriminate. injection H as <-.
  destruct (make_nodes_ok _ _ _ _ M (NoDup_nil _)) as (A & B & C). exists k, l. split; [reflexivity|]. split; [reflexivity|].
  split; [exact A|]. split; [exact B|]. intros n m I. destruct (C n m I) as [[] | J]. exact J.
Qed.
Lemma load_refers : forall depth p q nodes, load depth p = Ok nodes -> refers file p q -> exists k nodes', k < depth /\ load k q = Ok nodes'.
Proof.
  intros depth p q nodes H (l & n & pc & given & F & I). destruct (load_inv _ _ _ H) as (k & l' & -> & F' & _ & A & _).
  rewrite F in F'. injection F' as <-. destruct (A _ _ I) as (m & M). cbn in M.
  destruct (load k q) as [t | e |] eqn:L; [| discriminate | discriminate]. exists k, t. split; [lia | exact L].
Qed.
Lemma load_reaches : forall p q, reaches file p q -> forall depth nodes, load depth p = Ok nodes ->
  exists k nodes', k < depth /\ load k q = Ok nodes'.
Proof.
  intros p q R. induction R as [q R | q r R IH X]; intros depth nodes H; [exact (load_refers _ _ _ _ H R)|].
  destruct (IH _ _ H) as (k & t & L & T). destruct (load_refers _ _ _ _ T X) as (k' & t' & L' & T'). exists k', t'. split; [lia | exact T'].
Qed.
Lemma load_cycle : forall p, reaches file p p -> forall depth nodes, load depth p <> Ok nodes.
Proof.
  intros p R depth. induction depth as [depth IH] using lt_wf_ind. intros nodes H.
  destruct (load_reaches _ _ R _ _ H) as (k & t & L & T). exact (IH k L t T).
Qed.

(** Without cycles. *)
Lemma load_ends : forall all, (forall p, file p <> None -> In p all) -> (forall p, ~ reaches file p p) -> (forall p l, finish p l <> Raise) ->
  forall depth p stack, NoDup stack -> (forall x, In x stack -> file x <> None /\ reaches file x p) ->
  List.length all < depth + List.length stack -> load depth p <> Raise.
Proof.
  intros all Al Ac Fi. induction depth as [|depth IH]; intros p stack N S L.
  - exfalso. assert (List.length stack <= List.length all); [|lia]. apply NoDup_incl_length; [exact N|]. intros x I. apply Al. now apply S.
  - rewrite load_S. destruct (file p) as [l|] eqn:F; [|discriminate].
    assert (M : make_nodes (make1 depth) l [] <> Raise).
    { apply make_nodes_raise. intros n x I. unfold make1. destruct x as [c | c | | pc [q|] given]; try discriminate.
      assert (Rf : refers file p q) by (now exists l, n, pc, given).
      assert (Q : load depth q <> Raise).
      { apply (IH q (p :: stack)).
        - constructor; [|exact N]. intros J. exact (Ac p (proj2 (S p J))).
        - intros y [<- | J]; [split; [congruence | now apply reaches_one]|]. destruct (S y J) as [S1 S2]. split; [exact S1|].
          now apply (reaches_more _ _ p).
        - cbn. lia. }
      destruct (load depth q) as [t | e |]; [| discriminate | contradiction].
      pose proof (subtree_ios_raise u pc given t) as X. destruct (subtree_ios u pc given t) as [[i o] | e |]; [discriminate | discriminate | contradiction]. }
    destruct (make_nodes (make1 depth) l []) as [r | e |]; [| discriminate | contradiction].
    specialize (Fi p r). destruct (finish p r); [discriminate | discriminate | contradiction].
Qed.
End Load.
