(** Proofs about log messages. *)
From Coq Require Import String Ascii Bool Arith Lia List.
From Verif Require Import Base ModelLog SpecLog.
Import ListNotations.
Local Open Scope list_scope.

Lemma lrun_snoc h o : lrun (h ++ [o]) = lstep (lrun h) o.
Proof. unfold lrun. rewrite fold_left_app. reflexivity. Qed.

Lemma last_nil {A} (sets : lop -> A -> Prop) d : last_set sets d [] d.
Proof. right. split; [intros o b [] | reflexivity]. Qed.

Lemma last_skip {A} (sets : lop -> A -> Prop) d h o a :
  (forall b, ~ sets o b) -> last_set sets d (h ++ [o]) a <-> last_set sets d h a.
Proof.
  intros N. split.
  - intros [(h1 & o' & h2 & E & So & L) | [L ->]].
    + destruct h2 as [| z h2 _] using rev_ind.
      * apply app_inj_tail in E as [_ ->]. now destruct (N a).
      * change (h1 ++ o' :: h2 ++ [z]) with (h1 ++ (o' :: h2) ++ [z]) in E. rewrite app_assoc in E.
        apply app_inj_tail in E as [-> ->]. left. exists h1, o', h2. split; [reflexivity | split; [exact So |]].
        intros x b Hx. apply L. apply in_or_app. now left.
    + right. split; [| reflexivity]. intros x b Hx. apply L. apply in_or_app. now left.
  - intros [(h1 & o' & h2 & -> & So & L) | [L ->]].
    + left. exists h1, o', (h2 ++ [o]). split; [now rewrite <- app_assoc | split; [exact So |]].
      intros x b Hx. apply in_app_or in Hx as [Hx | [<- | []]]; [now apply L | apply N].
    + right. split; [| reflexivity]. intros x b Hx. apply in_app_or in Hx as [Hx | [<- | []]]; [now apply L | apply N].
Qed.

Lemma last_sets {A} (sets : lop -> A -> Prop) d h o a b :
  (forall x y, sets o x -> sets o y -> x = y) -> sets o b -> last_set sets d (h ++ [o]) a <-> a = b.
Proof.
  intros F Sb. split.
  - intros [(h1 & o' & h2 & E & So & L) | [L ->]].
    + destruct h2 as [| z h2 _] using rev_ind.
      * apply app_inj_tail in E as [_ ->]. eauto.
      * change (h1 ++ o' :: h2 ++ [z]) with (h1 ++ (o' :: h2) ++ [z]) in E. rewrite app_assoc in E.
        apply app_inj_tail in E as [-> ->]. exfalso. refine (L z b _ Sb). apply in_or_app. right. now left.
    + exfalso. refine (L o b _ Sb). apply in_or_app. right. now left.
  - intros ->. left. exists h, o, []. split; [reflexivity | split; [exact Sb |]]. intros x y [].
Qed.

Lemma emit_min s m msg nd nn k i cs w : lw_min (emit s m msg nd nn k i cs w) = lw_min w.
Proof. unfold emit, log. destruct (inactive w s), i, (lg_cb m); reflexivity. Qed.
Lemma emit_mans s m msg nd nn k i cs w : lw_mans (emit s m msg nd nn k i cs w) = lw_mans w.
Proof. unfold emit, log. destruct (inactive w s), i, (lg_cb m); reflexivity. Qed.

(** ** The level *)

Lemma level_is h l : level h l <-> l = lw_min (lrun h).
Proof.
  unfold level. induction h as [| o h IH] using rev_ind.
  - split.
    + intros [(h1 & o & h2 & E & _) | [_ ->]]; [destruct h1; discriminate | reflexivity].
    + intros ->. apply last_nil.
  - rewrite lrun_snoc. destruct o as [l' | cb | i t | i s | i s msg int cs | i s n nn msg int cs].
    1: { rewrite (last_sets _ _ _ _ l l'); [reflexivity | | reflexivity]. unfold sets_level. congruence. }
    all: rewrite last_skip by (unfold sets_level; intros b E; discriminate E); rewrite IH; cbn [lstep lw_min].
    1-3: reflexivity.
    + destruct (nth_error _ _); [rewrite emit_min |]; reflexivity.
    + destruct i as [i |]; [| reflexivity]. destruct (nth_error _ _); [| reflexivity]. cbn [node_log]. now rewrite emit_min.
Qed.

(** ** The managers *)

Lemma change_length {A} i (f : A -> A) l : length (change i f l) = length l.
Proof. revert i. induction l as [| x l IH]; intros [| i]; cbn [change length]; [reflexivity.. | now rewrite IH]. Qed.
Lemma change_same {A} i (f : A -> A) l : nth_error (change i f l) i = option_map f (nth_error l i).
Proof. revert i. induction l as [| x l IH]; intros [| i]; cbn [change nth_error option_map]; auto. Qed.
Lemma change_other {A} i j (f : A -> A) l : i <> j -> nth_error (change i f l) j = nth_error l j.
Proof.
  revert i j. induction l as [| x l IH]; intros [| i] [| j] N; cbn [change nth_error]; auto; try (now destruct N).
Qed.

Lemma managers_app h h' : managers (h ++ h') = managers h + managers h'.
Proof. induction h as [| o h IH]; [reflexivity |]. destruct o; cbn [managers app]; rewrite IH; reflexivity. Qed.

Definition mans (h : list lop) := lw_mans (lrun h).

Lemma mans_snoc h o : mans (h ++ [o]) =
  match o with
  | LNew cb => mans h ++ [mkLM cb None ""%string]
  | LTreeId i t => change i (fun m => mkLM (lg_cb m) (Some t) (lg_tree_name m)) (mans h)
  | LTreeName i s => change i (fun m => mkLM (lg_cb m) (lg_tree_id m) s) (mans h)
  | _ => mans h
  end.
Proof.
  unfold mans. rewrite lrun_snoc. destruct o as [l' | cb | i t | i s | i s msg int cs | i s n nn msg int cs]; cbn [lstep lw_mans]; try reflexivity.
  - destruct (nth_error _ _); [apply emit_mans | reflexivity].
  - destruct i as [i |]; [| reflexivity]. destruct (nth_error _ _); [| reflexivity]. apply emit_mans.
Qed.

Lemma mans_length h : length (mans h) = managers h.
Proof.
  induction h as [| o h IH] using rev_ind; [reflexivity |]. rewrite mans_snoc, managers_app.
  destruct o; cbn [managers]; rewrite ?change_length, ?app_length, IH; cbn [length]; lia.
Qed.

Lemma has_is h i cb tid tn : has_manager h i cb tid tn -> nth_error (mans h) i = Some (mkLM cb tid tn).
Proof.
  intros (h1 & h2 & -> & C & I & N). revert tid tn I N. induction h2 as [| o h2 IH] using rev_ind; intros tid tn I N.
  - rewrite mans_snoc, nth_error_app2 by (rewrite mans_length; lia).
    rewrite mans_length, C, Nat.sub_diag. cbn [nth_error].
    destruct I as [(? & ? & ? & E & _) | [_ ->]]; [destruct x; discriminate E |].
    destruct N as [(? & ? & ? & E & _) | [_ ->]]; [destruct x; discriminate E | reflexivity].
  - replace (h1 ++ LNew cb :: h2 ++ [o]) with ((h1 ++ LNew cb :: h2) ++ [o]) by (rewrite <- app_assoc; reflexivity).
    rewrite mans_snoc. pose proof (mans_length (h1 ++ LNew cb :: h2)) as Ln. rewrite managers_app in Ln. cbn [managers] in Ln.
    assert (SI : (forall b, ~ sets_id i o b) -> last_set (sets_id i) None h2 tid) by (intros H; now apply last_skip in I).
    assert (SN : (forall b, ~ sets_name i o b) -> last_set (sets_name i) ""%string h2 tn) by (intros H; now apply last_skip in N).
    destruct o as [l' | cb' | j t | j s | j s msg int cs | j s n nn msg int cs].
    1, 5, 6: apply IH; [apply SI; intros b (t' & _ & E); discriminate E | apply SN; intros b E; discriminate E].
    + rewrite nth_error_app1 by lia. apply IH; [apply SI; intros b (t' & _ & E); discriminate E | apply SN; intros b E; discriminate E].
    + destruct (Nat.eq_dec j i) as [-> | D].
      * rewrite change_same.
        apply (last_sets _ _ _ _ tid (Some t)) in I; [subst tid | | exists t; auto].
        2: { intros x y (x' & -> & E) (y' & -> & E'). congruence. }
        assert (exists o0, last_set (sets_id i) None h2 o0) as [t0 I0].
        { clear. induction h2 as [| o h IH] using rev_ind; [exists None; apply last_nil |]. destruct IH as [a IH].
          destruct o as [| | j t | | |].
          3: { destruct (Nat.eq_dec j i) as [-> | D].
               - exists (Some t). apply last_sets with (b := Some t); [| exists t; auto | reflexivity].
                 intros x y (x' & -> & E) (y' & -> & E'). congruence.
               - exists a. apply last_skip; [| exact IH]. intros b (t' & _ & E). injection E as E _. auto. }
          all: exists a; apply last_skip; [intros b (t' & _ & E); discriminate E | exact IH]. }
        rewrite (IH t0 tn I0); [reflexivity |]. apply SN. intros b E. discriminate E.
      * rewrite change_other by exact D. apply IH.
        -- apply SI. intros b (t' & _ & E). injection E as E _. auto.
        -- apply SN. intros b E. discriminate E.
    + destruct (Nat.eq_dec j i) as [-> | D].
      * rewrite change_same.
        apply (last_sets _ _ _ _ tn s) in N; [subst tn | unfold sets_name; congruence | reflexivity].
        assert (exists o0, last_set (sets_name i) ""%string h2 o0) as [t0 I0].
        { clear. induction h2 as [| o h IH] using rev_ind; [exists ""%string; apply last_nil |]. destruct IH as [a IH].
          destruct o as [| | | j t | |].
          4: { destruct (Nat.eq_dec j i) as [-> | D].
               - exists t. apply last_sets with (b := t); [unfold sets_name; congruence | reflexivity | reflexivity].
               - exists a. apply last_skip; [| exact IH]. intros b E. injection E as E _. auto. }
          all: exists a; apply last_skip; [intros b E; discriminate E | exact IH]. }
        rewrite (IH tid t0); [reflexivity | | exact I0]. apply SI. intros b (t' & _ & E). discriminate E.
      * rewrite change_other by exact D. apply IH.
        -- apply SI. intros b (t' & _ & E). discriminate E.
        -- apply SN. intros b E. injection E as E _. auto.
Qed.

(** ** What is published *)

Lemma inactive_appears h s : inactive (lrun h) s = false <-> appears h s.
Proof.
  unfold inactive. rewrite Nat.ltb_ge. split.
  - intros L. exists (lw_min (lrun h)). split; [now apply level_is | exact L].
  - intros (l & El & L). apply level_is in El. now subst l.
Qed.

Section Emitted.
Variables (h : list lop) (i : nat) (cb tid : option nat) (tn : string).
Hypothesis has : has_manager h i cb tid tn.

Definition one (s : severity) (msg : string) (nd : option nat) (nn : string) (f : frame) : list (nat * logmsg) :=
  match cb with None => [] | Some c => [(c, mkLog (number s) msg tid tn nd nn f)] end.

Lemma node_step s n nn msg int f cs :
  let h' := h ++ [LNode (Some i) s n nn msg int (f :: cs)] in
  (appears h s -> published h' = published h ++ (if int then [] else one s msg (Some n) nn f)) /\
  (~ appears h s -> published h' = published h) /\
  (appears h s -> logged h' = logged h ++ [(match tid with None => None | Some t => Some (t, tn, Some (n, nn)) end, s, msg)]) /\
  (~ appears h s -> logged h' = logged h).
Proof.
  cbv zeta. unfold published, logged. rewrite lrun_snoc. cbn [lstep]. pose proof (has_is _ _ _ _ _ has) as E. unfold mans in E.
  rewrite E. cbn [node_log]. unfold emit. rewrite <- inactive_appears.
  destruct (inactive (lrun h) s) eqn:Q; (split; [| split; [| split]]); intros A; try discriminate A; try (now destruct A); auto.
  - destruct int; [now rewrite app_nil_r |]. unfold log, one. cbn [lg_cb]. destruct cb; [reflexivity | now rewrite app_nil_r].
  - destruct int, tid; unfold log; cbn [lg_cb]; try destruct cb; reflexivity.
Qed.

Lemma manager_step s msg int f cs :
  let h' := h ++ [LManager i s msg int (f :: cs)] in
  (appears h s -> published h' = published h ++ (if int then [] else one s msg None ""%string f)) /\
  (~ appears h s -> published h' = published h) /\
  (appears h s -> logged h' = logged h ++ [(match tid with None => None | Some t => Some (t, tn, None) end, s, msg)]) /\
  (~ appears h s -> logged h' = logged h).
Proof.
  cbv zeta. unfold published, logged. rewrite lrun_snoc. cbn [lstep]. pose proof (has_is _ _ _ _ _ has) as E. unfold mans in E.
  rewrite E. unfold emit. rewrite <- inactive_appears.
  destruct (inactive (lrun h) s) eqn:Q; (split; [| split; [| split]]); intros A; try discriminate A; try (now destruct A); auto.
  - destruct int; [now rewrite app_nil_r |]. unfold log, one. cbn [lg_cb]. destruct cb; [reflexivity | now rewrite app_nil_r].
  - destruct int, tid; unfold log; cbn [lg_cb]; try destruct cb; reflexivity.
Qed.
End Emitted.

Lemma silent_step h o : silent o -> published (h ++ [o]) = published h /\ logged (h ++ [o]) = logged h.
Proof. unfold published, logged. rewrite lrun_snoc. destruct o; intros []; split; reflexivity. Qed.

Lemma level_unique h l l' : level h l -> level h l' -> l = l'.
Proof. rewrite !level_is. congruence. Qed.

(** ** Names *)

Section Names.
Variable wordc : ascii -> bool.
Variable show_id : nat -> string.
Hypothesis no_dot : wordc "."%char = false.
Hypothesis no_par : wordc "("%char = false.
Hypothesis id_inj : forall i j, show_id i = show_id j -> i = j.
Hypothesis id_dot : forall i, ~ occurs "."%char (show_id i).

Lemma split_at c a b x y : ~ occurs c a -> ~ occurs c b ->
  (a ++ String c x = b ++ String c y)%string -> a = b /\ x = y.
Proof.
  revert b. induction a as [| d a IH]; intros [| e b] Na Nb E; cbn [append] in E.
  - injection E as E. auto.
  - injection E as E _. destruct Nb. now left.
  - injection E as E _. destruct Na. now left.
  - injection E as -> E. destruct (IH b) as [-> ->]; auto; intros O; [apply Na | apply Nb]; now right.
Qed.

Lemma occurs_app c a b : occurs c (a ++ b)%string <-> occurs c a \/ occurs c b.
Proof. induction a as [| d a IH]; cbn [append occurs]; [tauto |]. rewrite IH. tauto. Qed.

Lemma clean_no c b s : wordc c = false -> c <> "_"%char -> ~ occurs c (clean wordc b s).
Proof.
  intros W U. revert b. induction s as [| d s IH]; intros b; cbn [clean occurs]; [tauto |].
  destruct (wordc d) eqn:Wd.
  - intros [-> | O]; [congruence | exact (IH _ O)].
  - destruct b; [exact (IH _) |]. intros [-> | O]; [now apply U | exact (IH _ O)].
Qed.

Lemma name_no_dot i n : ~ occurs "."%char (ros_log_name wordc show_id i n).
Proof.
  unfold ros_log_name. rewrite !occurs_app. intros [O | [O | [O | O]]].
  - revert O. apply clean_no; [exact no_dot | discriminate].
  - destruct O as [O | []]. discriminate O.
  - exact (id_dot _ O).
  - destruct O as [O | []]. discriminate O.
Qed.

Lemma app_string_inj a x y : (a ++ x = a ++ y)%string -> x = y.
Proof. induction a as [| c a IH]; cbn [append]; [auto |]. intros E. injection E as E. auto. Qed.
Lemma app_inj_end c x y : (x ++ String c "" = y ++ String c "")%string -> x = y.
Proof.
  revert y. induction x as [| d x IH]; intros [| e y] E; cbn [append] in E.
  - reflexivity.
  - injection E as _ E. destruct y; discriminate E.
  - injection E as _ E. destruct x; discriminate E.
  - injection E as -> E. f_equal. auto.
Qed.
Lemma app_assoc_s a b c : ((a ++ b) ++ c = a ++ (b ++ c))%string.
Proof. induction a as [| d a IH]; cbn [append]; [reflexivity | now rewrite IH]. Qed.

Lemma name_ids i n j m : ros_log_name wordc show_id i n = ros_log_name wordc show_id j m -> i = j.
Proof.
  unfold ros_log_name. intros E. cbn [append] in E. apply split_at in E as [_ E].
  - apply app_inj_end in E. now apply id_inj.
  - apply clean_no; [exact no_par | discriminate].
  - apply clean_no; [exact no_par | discriminate].
Qed.

Lemma dot_longer a b x : ~ occurs "."%char a -> a <> (b ++ String "." x)%string.
Proof. intros N ->. apply N. apply occurs_app. right. now left. Qed.

Lemma path_ids base p q : ros_path wordc show_id base p = ros_path wordc show_id base q -> same_ids p q.
Proof.
  assert (L : forall b x, b <> (b ++ String "." x)%string).
  { intros b x E. induction b as [| c b IH]; [discriminate E |]. cbn [append] in E. injection E as E. auto. }
  destruct p as [[[t tn] [[n nn] |]] |], q as [[[t' tn'] [[n' nn'] |]] |]; cbn [ros_path same_ids];
    change ("." ++ ?x)%string with (String "." x); intros E.
  - apply app_string_inj in E. injection E as E. cbn [append] in E.
    apply split_at in E as [E1 E2]; [| apply name_no_dot | apply name_no_dot].
    split; eapply name_ids; eassumption.
  - apply app_string_inj in E. injection E as E. symmetry in E. apply dot_longer in E; [destruct E | apply name_no_dot].
  - symmetry in E. exact (L _ _ E).
  - apply app_string_inj in E. injection E as E. apply dot_longer in E; [destruct E | apply name_no_dot].
  - apply app_string_inj in E. injection E as E. eapply name_ids; eassumption.
  - symmetry in E. exact (L _ _ E).
  - exact (L _ _ E).
  - exact (L _ _ E).
  - exact I.
Qed.
End Names.
