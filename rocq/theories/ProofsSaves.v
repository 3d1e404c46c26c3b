(** Proofs about saving trees at the same time. *)
From Coq Require Import String Ascii Bool Arith Lia List.
From Verif Require Import Base ModelFiles SpecFiles ModelSaves SpecSaves.
Import ListNotations.
Local Open Scope string_scope.

Lemma nth_set_same : forall A (l : list A) i a b, nth_error l i = Some a -> nth_error (set_nth l i b) i = Some b.
Proof. induction l as [|x l IH]; intros [|i] a b H; try discriminate; cbn in *; eauto. Qed.
Lemma nth_set_other : forall A (l : list A) i j b, i <> j -> nth_error (set_nth l i b) j = nth_error l j.
Proof. induction l as [|x l IH]; intros [|i] [|j] b H; cbn; try reflexivity; try congruence. apply IH. congruence. Qed.
Lemma put_same : forall f p e, put f p e p = Some e.
Proof. intros. unfold put. rewrite String.eqb_refl. reflexivity. Qed.
Lemma put_other : forall f p e q, q <> p -> put f p e q = f q.
Proof. intros f p e q N. unfold put. apply String.eqb_neq in N. rewrite N. reflexivity. Qed.
Lemma set_forall : forall A (P : A -> Prop) l i a, Forall P l -> P a -> Forall P (set_nth l i a).
Proof. induction l as [|x l IH]; intros [|i] a H Pa; cbn; inversion H; subst; try constructor; auto. Qed.

(** A handler that never opens [p], given that [p] is a file. *)
Inductive spares (p : string) : handler -> Prop :=
| s_answer r : spares p (Answer r)
| s_busy : spares p Busy
| s_makedirs d k : (forall b, spares p (k b)) -> spares p (MakeDirs d k)
| s_isdir d k : (forall b, (d = p -> b = false) -> spares p (k b)) -> spares p (IsDir d k)
| s_isfile d k : (forall b, (d = p -> b = true) -> spares p (k b)) -> spares p (IsFile d k)
| s_exists d k : (forall b, (d = p -> b = true) -> spares p (k b)) -> spares p (Exists d k)
| s_open d k : d <> p -> (forall b, spares p (k b)) -> spares p (Open d k)
| s_write d pos rest k : d <> p -> (forall b, spares p (k b)) -> spares p (Write d pos rest k).

Lemma finish_spares : forall p u b, spares p (finish u b).
Proof. intros p u b. constructor. Qed.
Lemma write_to_spares : forall p version q u, u <> p -> spares p (write_to version q u).
Proof.
  intros p version q u N. apply s_open; [exact N|]. intros []; [|constructor].
  apply s_write; [exact N|]. intros b. constructor.
Qed.
Lemma unique_spares : forall p version q ext fuel name, spares p (unique_then fuel version q name ext).
Proof.
  intros p version q ext fuel. induction fuel as [|n IH]; intros name; cbn [unique_then]; [constructor|].
  apply s_exists. intros b B. destruct b.
  - destruct (increment_name name); [apply IH|constructor|constructor].
  - apply s_isfile. intros b' _. destruct b'; [constructor|]. apply write_to_spares. intros E. specialize (B E). discriminate.
Qed.
Lemma save_spares : forall paths cwd version fuel q p, ~ may_overwrite cwd q p ->
  spares p (save_handler paths cwd version fuel q).
Proof.
  intros paths cwd version fuel q p N. unfold save_handler. destruct (negb _); [constructor|]. cbv zeta.
  fold (target cwd q).
  assert (K : spares p (IsDir (target cwd q) (fun isdir =>
        if isdir then Answer (Ok (mkR false (dirname (target cwd q))))
        else
          IsFile (target cwd q) (fun file =>
            if file then
              if q_rename q then let (name, ext) := splitext (target cwd q) in unique_then fuel version q name ext
              else if negb (q_overwrite q) then Answer (Ok (mkR false (target cwd q)))
              else write_to version q (target cwd q)
            else write_to version q (target cwd q))))).
  { apply s_isdir. intros b _. destruct b; [constructor|]. apply s_isfile. intros b B. destruct b.
    - destruct (q_rename q) eqn:R; [destruct (splitext (target cwd q)); apply unique_spares|].
      destruct (q_overwrite q) eqn:O; cbn; [|constructor]. apply write_to_spares. intros E. apply N. repeat split; assumption.
    - apply write_to_spares. intros E. specialize (B E). discriminate. }
  apply s_makedirs. intros []; [exact K|]. apply s_isdir. intros [] _; [exact K|constructor].
Qed.

Lemma access_spares : forall p c h f e h' f', access h f e h' f' -> spares p h -> f p = Some (File c) ->
  spares p h' /\ f' p = Some (File c) /\ e <> Some p.
Proof.
  intros p c h f e h' f' A S F. inversion A; subst; inversion S; subst.
  - split; [auto|]. split; [|discriminate]. destruct (H p) as [E|[E _]]; congruence.
  - split; [|split; [exact F|discriminate]]. apply H0. intros ->. unfold isdir. rewrite F. reflexivity.
  - split; [|split; [exact F|discriminate]]. apply H0. intros ->. unfold isfile. rewrite F. reflexivity.
  - split; [|split; [exact F|discriminate]]. apply H0. intros ->. unfold exists_. rewrite F. reflexivity.
  - split; [auto|]. rewrite put_other by congruence. split; [exact F|]. congruence.
  - split; [auto|]. split; [exact F|discriminate].
  - split; [apply s_write; auto|]. rewrite put_other by congruence. split; [exact F|discriminate].
  - split; [auto|]. split; [exact F|discriminate].
  - split; [auto|]. split; [exact F|discriminate].
Qed.

Theorem old_kept : forall paths cwd version fuel f qs es f' hs p c,
  handling paths cwd version fuel f qs es f' hs -> f p = Some (File c) ->
  (forall q, In q qs -> ~ may_overwrite cwd q p) ->
  f' p = Some (File c).
Proof.
  intros paths cwd version fuel f qs es f' hs p c R F N. unfold handling in R.
  assert (K : Forall (spares p) hs /\ f' p = Some (File c)); [|exact (proj2 K)].
  induction R as [|es f1 hs1 i h e h' f2 R IH I A].
  - split; [|exact F]. apply Forall_forall. intros h H. apply in_map_iff in H. destruct H as (q & <- & H).
    apply save_spares. auto.
  - destruct IH as [S F1].
    assert (Sh : spares p h) by (rewrite Forall_forall in S; apply S; exact (nth_error_In _ _ I)).
    destruct (access_spares p c _ _ _ _ _ A Sh F1) as (S' & F2 & _). split; [|exact F2]. apply set_forall; assumption.
Qed.

(** ** What a handler has written *)

Lemma app_nil : forall s, s ++ "" = s.
Proof. induction s as [|a s IH]; cbn; [reflexivity|rewrite IH; reflexivity]. Qed.
Lemma app_assoc_s : forall a b c, (a ++ b) ++ c = a ++ b ++ c.
Proof. induction a as [|x a IH]; intros; cbn; [reflexivity|rewrite IH; reflexivity]. Qed.
Lemma length_app : forall a b, String.length (a ++ b) = String.length a + String.length b.
Proof. induction a as [|x a IH]; intros; cbn; [reflexivity|rewrite IH; reflexivity]. Qed.
Lemma substring_all : forall s, substring 0 (String.length s) s = s.
Proof. induction s as [|a s IH]; cbn; [reflexivity|rewrite IH; reflexivity]. Qed.
Lemma substring_past : forall s n m, String.length s <= n -> substring n m s = "".
Proof.
  induction s as [|a s IH]; intros n m H; [destruct n, m; reflexivity|].
  destruct n; cbn in H; [lia|]. cbn. apply IH. lia.
Qed.
Lemma overlay_append : forall s c, overlay (String.length c) s c = c ++ s.
Proof.
  intros s c. unfold overlay. rewrite substring_all, Nat.sub_diag. cbn [zeros append].
  rewrite substring_past by lia. rewrite app_nil. reflexivity.
Qed.

(** Before [open]: what may still happen. *)
Inductive before_open (t : string) : handler -> Prop :=
| b_answer r : (forall u, r <> Ok (mkR true u)) -> before_open t (Answer r)
| b_busy : before_open t Busy
| b_makedirs d k : (forall b, before_open t (k b)) -> before_open t (MakeDirs d k)
| b_isdir d k : (forall b, before_open t (k b)) -> before_open t (IsDir d k)
| b_isfile d k : (forall b, before_open t (k b)) -> before_open t (IsFile d k)
| b_exists d k : (forall b, before_open t (k b)) -> before_open t (Exists d k)
| b_open u : before_open t (Open u (fun opened => if opened then Write u 0 t (finish u) else finish u false)).

Lemma write_to_before : forall version q u, before_open (text version q) (write_to version q u).
Proof. intros. apply b_open. Qed.
Lemma unique_before : forall version q ext fuel name, before_open (text version q) (unique_then fuel version q name ext).
Proof.
  intros version q ext fuel. induction fuel as [|n IH]; intros name; cbn [unique_then]; [constructor|].
  apply b_exists. intros []. 
  - destruct (increment_name name); [apply IH|constructor; discriminate|constructor; discriminate].
  - apply b_isfile. intros []; [constructor; intros v; discriminate|]. apply write_to_before.
Qed.
Lemma save_before : forall paths cwd version fuel q, before_open (text version q) (save_handler paths cwd version fuel q).
Proof.
  intros paths cwd version fuel q. unfold save_handler. destruct (negb _); [constructor; intros v; discriminate|]. cbv zeta.
  fold (target cwd q).
  assert (K : before_open (text version q) (IsDir (target cwd q) (fun isdir =>
        if isdir then Answer (Ok (mkR false (dirname (target cwd q))))
        else
          IsFile (target cwd q) (fun file =>
            if file then
              if q_rename q then let (name, ext) := splitext (target cwd q) in unique_then fuel version q name ext
              else if negb (q_overwrite q) then Answer (Ok (mkR false (target cwd q)))
              else write_to version q (target cwd q)
            else write_to version q (target cwd q))))).
  { apply b_isdir. intros []; [constructor; intros v; discriminate|]. apply b_isfile. intros [].
    - destruct (q_rename q); [destruct (splitext (target cwd q)); apply unique_before|].
      destruct (q_overwrite q); cbn; [apply write_to_before|constructor; intros v; discriminate].
    - apply write_to_before. }
  apply b_makedirs. intros []; [exact K|]. apply b_isdir. intros []; [exact K|constructor; intros v; discriminate].
Qed.

(** Where the [i]-th handler may be: the text of its request is [t]. *)
Inductive place (es : list (nat * option string)) (i : nat) (t : string) (f : files) : handler -> Prop :=
| p_before h : before_open t h -> place es i t f h
| p_writing u c rest : In (i, Some u) es -> (only_opened_by es i u -> f u = Some (File c)) -> c ++ rest = t ->
    place es i t f (Write u (String.length c) rest (finish u))
| p_done u : In (i, Some u) es -> (only_opened_by es i u -> f u = Some (File t)) -> place es i t f (finish u true)
| p_failed u : place es i t f (finish u false).

Lemma only_before : forall es e i u, only_opened_by (es ++ [e]) i u -> only_opened_by es i u.
Proof. intros es e i u O j H. apply O. apply in_or_app. left. exact H. Qed.

(** An access of the handler of [j] does to the files: *)
Lemma access_files : forall es j t h f e h' f', access h f e h' f' -> place es j t f h ->
  forall u c, f u = Some (File c) -> f' u = Some (File c) \/ e = Some u \/ In (j, Some u) es.
Proof.
  intros es j t h f e h' f' A P u c F.
  assert (N : forall p, u = p \/ u <> p) by (intros p; destruct (string_dec u p); auto).
  inversion A; subst; auto.
  - destruct (H u) as [E|[E _]]; [left; congruence|congruence].
  - destruct (N p) as [->|D]; [auto|]. left. rewrite put_other; assumption.
  - destruct (N p) as [->|D]; [|left; rewrite put_other; assumption]. right. right.
    inversion P; subst; [|assumption].
    match goal with B : before_open _ (Write _ _ _ _) |- _ => inversion B end.
Qed.
(** Accesses of others. *)
Lemma place_frame : forall es i j t t' h0 f e h' f' h, i <> j -> access h f e h' f' -> place es j t' f h ->
  place es i t f h0 -> place (es ++ [(j, e)]) i t f' h0.
Proof.
  intros es i j t t' h0 f e h' f' h N A Pj P.
  assert (I : forall u, In (i, Some u) es -> In (i, Some u) (es ++ [(j, e)])) by (intros u H; apply in_or_app; left; exact H).
  assert (K : forall u c, (only_opened_by es i u -> f u = Some (File c)) ->
    only_opened_by (es ++ [(j, e)]) i u -> f' u = Some (File c)).
  { intros u c F O. destruct (access_files es j t' h f e h' f' A Pj u c (F (only_before _ _ _ _ O))) as [H|[H|H]].
    - exact H.
    - subst e. exfalso. apply N. symmetry. apply O. apply in_or_app. right. left. reflexivity.
    - exfalso. apply N. symmetry. apply O. apply in_or_app. left. exact H. }
  inversion P; subst.
  - apply p_before. assumption.
  - apply p_writing; auto.
  - apply p_done; auto.
  - apply p_failed.
Qed.
(** Accesses of its own. *)
Lemma place_own : forall es i t f h e h' f', access h f e h' f' -> place es i t f h ->
  place (es ++ [(i, e)]) i t f' h'.
Proof.
  intros es i t f h e h' f' A P.
  assert (I : forall u, In (i, Some u) es -> In (i, Some u) (es ++ [(i, e)])) by (intros u H; apply in_or_app; left; exact H).
  inversion P; subst.
  - match goal with B : before_open _ _ |- _ => inversion B; subst end; inversion A; subst;
      try (apply p_before; auto; fail).
    + change 0 with (String.length ""). apply p_writing; [|intros _; apply put_same|reflexivity].
      apply in_or_app. right. left. reflexivity.
    + apply p_failed.
  - inversion A; subst.
    + rewrite <- length_app. apply p_writing; [auto| |rewrite app_assoc_s; reflexivity].
      intros O. match goal with F : f u = Some (File ?d), G : _ -> f u = Some (File c) |- _ =>
        assert (d = c) by (specialize (G (only_before _ _ _ _ O)); congruence); subst d end.
      rewrite overlay_append. apply put_same.
    + apply p_done; [auto|]. rewrite app_nil. intros O. match goal with G : only_opened_by _ _ _ -> _ |- _ => apply G end.
      exact (only_before _ _ _ _ O).
    + apply p_failed.
  - inversion A.
  - inversion A.
Qed.

Lemma nth_set : forall A (l : list A) i j a b c, nth_error l i = Some a -> nth_error (set_nth l i b) j = Some c ->
  j = i /\ c = b \/ j <> i /\ nth_error l j = Some c.
Proof.
  intros A l i j a b c H K. destruct (Nat.eq_dec j i) as [->|N].
  - left. rewrite (nth_set_same A l i a b H) in K. split; congruence.
  - right. rewrite nth_set_other in K by congruence. auto.
Qed.

Lemma runs_place : forall paths cwd version fuel f qs es f' hs, handling paths cwd version fuel f qs es f' hs ->
  forall i h, nth_error hs i = Some h -> exists q, nth_error qs i = Some q /\ place es i (text version q) f' h.
Proof.
  intros paths cwd version fuel f qs es f' hs R. unfold handling in R.
  induction R as [|es f1 hs1 i h e h' f2 R IH I A]; intros j hj J.
  - rewrite nth_error_map in J. destruct (nth_error qs j) as [q|]; [|discriminate]. injection J as <-.
    exists q. split; [reflexivity|]. apply p_before. apply save_before.
  - destruct (IH i h I) as (qi & Qi & Pi).
    destruct (nth_set _ _ _ _ _ _ _ I J) as [[-> ->]|[N J']].
    + exists qi. split; [exact Qi|]. exact (place_own _ _ _ _ _ _ _ _ A Pi).
    + destruct (IH j hj J') as (qj & Qj & Pj). exists qj. split; [exact Qj|].
      exact (place_frame es j i _ _ _ _ _ _ _ _ N A Pi Pj).
Qed.

Theorem written : forall paths cwd version fuel f qs es f' hs i u,
  handling paths cwd version fuel f qs es f' hs -> answered hs i (Ok (mkR true u)) ->
  In (i, Some u) es /\
  exists q, nth_error qs i = Some q /\ (only_opened_by es i u -> f' u = Some (saved version (q_yaml q))).
Proof.
  intros paths cwd version fuel f qs es f' hs i u R A.
  destruct (runs_place _ _ _ _ _ _ _ _ _ R i _ A) as (q & Q & P).
  inversion P; subst.
  - match goal with B : before_open _ _ |- _ => inversion B; subst end. exfalso.
    match goal with B : forall u, _ <> _ |- _ => exact (B u eq_refl) end.
  - split; [assumption|]. exists q. split; [exact Q|]. assumption.
Qed.

(** ** One request on its own *)

Lemma runs_app : forall f hs es f1 hs1 es' f2 hs2, runs f hs es f1 hs1 -> runs f1 hs1 es' f2 hs2 ->
  runs f hs (es ++ es')%list f2 hs2.
Proof.
  intros f hs es f1 hs1 es' f2 hs2 R S. induction S as [|es' g1 gs1 i h e h' g2 S IH I A].
  - rewrite app_nil_r. exact R.
  - rewrite app_assoc. eapply r_step; eassumption.
Qed.
Lemma first : forall h f e h1 f1 es h' f', access h f e h1 f1 -> runs f1 [h1] es f' [h'] ->
  runs f [h] ((0, e) :: es) f' [h'].
Proof.
  intros h f e h1 f1 es h' f' A R. change ((0, e) :: es) with (([(0, e)] ++ es)%list).
  refine (runs_app _ _ _ _ _ _ _ _ _ R).
  exact (r_step f [h] [] f [h] 0 h e h1 f1 (r_start f [h]) eq_refl A).
Qed.
Definition ends (h : handler) (f f' : files) (r : res save_response) : Prop :=
  exists es f2, runs f [h] es f2 [Answer r] /\ forall p, f2 p = f' p.
Lemma ends_first : forall h f e h1 f1 f' r, access h f e h1 f1 -> ends h1 f1 f' r -> ends h f f' r.
Proof. intros h f e h1 f1 f' r A (es & f2 & R & E). exists ((0, e) :: es), f2. split; [|exact E]. exact (first _ _ _ _ _ _ _ _ A R). Qed.
Lemma ends_answer : forall f f' r, (forall p, f p = f' p) -> ends (Answer r) f f' r.
Proof. intros f f' r E. exists [], f. split; [apply r_start|exact E]. Qed.

Lemma write_ends : forall version q p f, isdir f p = false ->
  ends (write_to version q p) f (put f p (saved version (q_yaml q))) (Ok (mkR true p)).
Proof.
  intros version q p f D. eapply ends_first; [apply a_open; exact D|]. cbn [write_to].
  eapply ends_first.
  { rewrite <- (app_nil (text version q)). apply a_write. apply put_same. }
  eapply ends_first; [apply a_close|]. apply ends_answer. intros x.
  unfold put. destruct (String.eqb x p); [|reflexivity].
  change 0 with (String.length ""). rewrite overlay_append. reflexivity.
Qed.
Lemma unique_ends : forall version q ext f f' r fuel name,
  match unique_loop fuel (exists_ f) name ext with
  | None => None
  | Some (Ok u) =>
      if isfile f u then Some (f, Ok (mkR false u)) else Some (put f u (saved version (q_yaml q)), Ok (mkR true u))
  | Some (Err e) => Some (f, Err e)
  | Some Raise => Some (f, Raise)
  end = Some (f', r) ->
  ends (unique_then fuel version q name ext) f f' r.
Proof.
  intros version q ext f f' r fuel. induction fuel as [|n IH]; intros name H; cbn [unique_loop unique_then] in *; [discriminate|].
  eapply ends_first; [apply a_exists|]. cbn beta. destruct (exists_ f (name ++ ext)) eqn:X.
  - destruct (increment_name name) as [name'|e|].
    + apply IH. exact H.
    + injection H as <- <-. apply ends_answer. reflexivity.
    + injection H as <- <-. apply ends_answer. reflexivity.
  - eapply ends_first; [apply a_isfile|]. cbn beta.
    unfold exists_ in X. destruct (f (name ++ ext)) as [x|] eqn:F; [discriminate|].
    unfold isfile in *. rewrite F in *. injection H as <- <-. apply write_ends. unfold isdir. rewrite F. reflexivity.
Qed.

Theorem alone : forall paths cwd version makedirs fuel f q f' r, makes_directories makedirs ->
  save_tree_to_path paths cwd version makedirs WAll fuel f q = Some (f', r) ->
  exists es f2, handling paths cwd version fuel f [q] es f2 [Answer r] /\ forall p, f2 p = f' p.
Proof.
  intros paths cwd version makedirs fuel f q f' r M H.
  enough (K : ends (save_handler paths cwd version fuel q) f f' r) by exact K.
  unfold save_tree_to_path in H. unfold save_handler. destruct (negb (existsb _ _)).
  { injection H as <- <-. apply ends_answer. reflexivity. }
  cbv zeta in *. fold (target cwd q) in *.
  pose proof (M f (dirname (target cwd q))) as (M1 & M2).
  destruct (makedirs f (dirname (target cwd q))) as [f1 made]. cbn [fst snd] in *.
  eapply ends_first; [exact (a_makedirs _ _ f f1 made M1 M2)|]. cbn beta.
  assert (K : (if isdir f1 (target cwd q) then Some (f1, Ok (mkR false (dirname (target cwd q))))
      else if isfile f1 (target cwd q) then
        if q_rename q then
          match make_filepath_unique fuel (exists_ f1) (target cwd q) with
          | None => None
          | Some (Ok u) => if isfile f1 u then Some (f1, Ok (mkR false u)) else Some (put f1 u (saved version (q_yaml q)), Ok (mkR true u))
          | Some (Err e) => Some (f1, Err e)
          | Some Raise => Some (f1, Raise)
          end
        else if negb (q_overwrite q) then Some (f1, Ok (mkR false (target cwd q)))
        else Some (put f1 (target cwd q) (saved version (q_yaml q)), Ok (mkR true (target cwd q)))
      else Some (put f1 (target cwd q) (saved version (q_yaml q)), Ok (mkR true (target cwd q)))) = Some (f', r) ->
    ends (IsDir (target cwd q) (fun isdir =>
        if isdir then Answer (Ok (mkR false (dirname (target cwd q))))
        else
          IsFile (target cwd q) (fun file =>
            if file then
              if q_rename q then let (name, ext) := splitext (target cwd q) in unique_then fuel version q name ext
              else if negb (q_overwrite q) then Answer (Ok (mkR false (target cwd q)))
              else write_to version q (target cwd q)
            else write_to version q (target cwd q)))) f1 f' r).
  { clear H. intros H. eapply ends_first; [apply a_isdir|]. cbn beta. destruct (isdir f1 (target cwd q)) eqn:D.
    { injection H as <- <-. apply ends_answer. reflexivity. }
    eapply ends_first; [apply a_isfile|]. cbn beta. destruct (isfile f1 (target cwd q)).
    - destruct (q_rename q).
      + unfold make_filepath_unique in H. destruct (splitext (target cwd q)) as [name ext]. apply unique_ends. exact H.
      + destruct (q_overwrite q); cbn [negb] in *; injection H as <- <-; [apply write_ends; exact D|apply ends_answer; reflexivity].
    - injection H as <- <-. apply write_ends. exact D. }
  destruct made; cbn [negb andb] in H; [apply K; exact H|].
  eapply ends_first; [apply a_isdir|]. cbn beta. destruct (isdir f1 (dirname (target cwd q))); cbn [negb] in H.
  - apply K. exact H.
  - injection H as <- <-. apply ends_answer. reflexivity.
Qed.

(** ** Running a schedule: [(i, n)] is an access of the [i]-th handler; [n]: characters written *)

Definition go1 (n : nat) (h : handler) (f : files) : option (option string * handler * files) :=
  match h with
  | Answer _ | Busy => None
  | MakeDirs d k => Some (None, k false, f)
  | IsDir p k => Some (None, k (isdir f p), f)
  | IsFile p k => Some (None, k (isfile f p), f)
  | Exists p k => Some (None, k (exists_ f p), f)
  | Open p k => if isdir f p then None else Some (Some p, k true, put f p (File ""))
  | Write p pos "" k => Some (None, k true, f)
  | Write p pos rest k =>
      match f p with
      | Some (File c) =>
          let s := substring 0 n rest in
          Some (None, Write p (pos + String.length s) (substring n (String.length rest) rest) k,
                put f p (File (overlay pos s c)))
      | _ => None
      end
  end.
Lemma substring_split : forall s n, substring 0 n s ++ substring n (String.length s) s = s.
Proof.
  induction s as [|a s IH]; intros n; [destruct n; reflexivity|]. destruct n as [|n].
  - cbn [append]. change (substring 0 (String.length (String a s)) (String a s) = String a s). apply substring_all.
  - cbn [substring append]. f_equal. transitivity (substring 0 n s ++ substring n (String.length s) s); [|apply IH].
    f_equal. cbn [String.length]. clear IH. revert s. induction n as [|n IH]; intros s.
    + change (substring 0 (S (String.length s)) s = substring 0 (String.length s) s). rewrite substring_all.
      induction s as [|b s IH]; [reflexivity|]. cbn [substring String.length]. f_equal. exact IH.
    + destruct s as [|b s]; [reflexivity|]. cbn [substring String.length].
      assert (G : forall s m m', String.length s <= m -> String.length s <= m' -> forall k, substring k m s = substring k m' s).
      { clear. induction s as [|b s IH]; intros m m' A B k; [destruct k, m, m'; reflexivity|]. cbn in A, B.
        destruct k; cbn.
        - destruct m; [lia|]. destruct m'; [lia|]. f_equal. apply IH; lia.
        - apply IH; lia. }
      apply G; lia.
Qed.
Lemma go1_access : forall n h f e h' f', go1 n h f = Some (e, h', f') -> access h f e h' f'.
Proof.
  intros n h f e h' f' H. destruct h as [r| |d k|p k|p k|p k|p k|p pos rest k]; cbn [go1] in H.
  - discriminate.
  - discriminate.
  - injection H as <- <- <-. apply a_makedirs; [auto|discriminate].
  - injection H as <- <- <-. apply a_isdir.
  - injection H as <- <- <-. apply a_isfile.
  - injection H as <- <- <-. apply a_exists.
  - destruct (isdir f p) eqn:D; [discriminate|]. injection H as <- <- <-. apply a_open. exact D.
  - destruct rest as [|a rest]; [injection H as <- <- <-; apply a_close|].
    destruct (f p) as [[c|]|] eqn:F; try discriminate. injection H as <- <- <-.
    rewrite <- (substring_split (String a rest) n) at 1. apply a_write. exact F.
Qed.
Fixpoint go (l : list (nat * nat)) (es : list (nat * option string)) (f : files) (hs : list handler)
  : option (list (nat * option string) * files * list handler) :=
  match l with
  | [] => Some (es, f, hs)
  | (i, n) :: r =>
      match nth_error hs i with
      | None => None
      | Some h => match go1 n h f with None => None | Some (e, h', f') => go r (es ++ [(i, e)])%list f' (set_nth hs i h') end
      end
  end.
Lemma go_runs : forall l f0 hs0 es f hs es' f' hs', runs f0 hs0 es f hs -> go l es f hs = Some (es', f', hs') ->
  runs f0 hs0 es' f' hs'.
Proof.
  induction l as [|[i n] l IH]; intros f0 hs0 es f hs es' f' hs' R G; cbn [go] in G; [injection G as <- <- <-; exact R|].
  destruct (nth_error hs i) as [h|] eqn:I; [|discriminate].
  destruct (go1 n h f) as [[[e h'] f1]|] eqn:E; [|discriminate].
  refine (IH _ _ _ _ _ _ _ _ _ G). exact (r_step _ _ _ _ _ _ _ _ _ _ R I (go1_access _ _ _ _ _ _ E)).
Qed.
(** The same, with what is of interest at the end. *)
Definition outcome (l : list (nat * nat)) (paths : list string) (cwd version : string) (fuel : nat) (f : files) (qs : list save_request)
  (p : string) : option (list (nat * option string) * option entry * list (option (res save_response))) :=
  match go l [] f (map (save_handler paths cwd version fuel) qs) with
  | Some (es, f', hs) => Some (es, f' p, map (fun h => match h with Answer r => Some r | _ => None end) hs)
  | None => None
  end.
Lemma outcome_runs : forall l paths cwd version fuel f qs p es e rs,
  outcome l paths cwd version fuel f qs p = Some (es, e, rs) ->
  exists f' hs, handling paths cwd version fuel f qs es f' hs /\ f' p = e /\
    forall i r, nth_error rs i = Some (Some r) -> answered hs i r.
Proof.
  intros l paths cwd version fuel f qs p es e rs H. unfold outcome in H.
  destruct (go l [] f (map (save_handler paths cwd version fuel) qs)) as [[[es' f'] hs]|] eqn:G; [|discriminate].
  injection H as <- <- <-. exists f', hs. split; [|split; [reflexivity|]].
  - exact (go_runs _ _ _ _ _ _ _ _ _ (r_start _ _) G).
  - intros i r I. unfold answered. rewrite nth_error_map in I. destruct (nth_error hs i) as [h|]; [|discriminate].
    cbn in I. destruct h; try discriminate. injection I as <-. reflexivity.
Qed.
