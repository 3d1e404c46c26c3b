(** What a single handler does under full concurrency: its accesses are a path through its
    program, whatever the other processes do (C81). *)
From Coq Require Import List Bool Arith Lia.
From Verif Require Import Base ModelExec SpecExec ProofsExec ProofsExecSeen.
Import ListNotations.

Lemma does_mine : forall p es, does p es = mine p es.
Proof. intros p es. induction es as [|[k|q a] es IH]; cbn; auto; rewrite IH; reflexivity. Qed.

Section WP.
Variables (Post : bool -> option tstate -> list action -> Prop) (Inv : label -> list action -> Prop).
Fixpoint wp (c : code) (l : list action) {struct c} : Prop :=
  match c with
  | Done b ts => Post b ts l
  | Crash => True
  | ReadState k => forall s, wp (k s) (l ++ [AGetState s])
  | WriteState s k => wp k (l ++ [ASetState s])
  | ReadThread k => forall o, wp (k o) (l ++ [AGetThread o])
  | NewThread k => wp k (l ++ [ANewThread])
  | Alive t k => forall b, wp (k b) (l ++ [AAlive t b])
  | StartT t k => wp k (l ++ [AStart t true])
  | JoinT t k => wp k (l ++ [AJoin t])
  | RosOk k => forall b, wp (k b) (l ++ [AOk b])
  | Root k => forall r, wp (k r) (l ++ [ARoot r])
  | Call o k => forall r, r <> Raise -> wp (k r) ((l ++ [ABegin o]) ++ [AEnd o r])
  | InCall o k => forall r, r <> Raise -> wp (k r) (l ++ [AEnd o r])
  | RootState k => forall s, wp (k s) (l ++ [ARootState s])
  | ReadOnce k => forall b, wp (k b) (l ++ [AGetOnce b])
  | WriteOnce b k => wp k (l ++ [ASetOnce b])
  | ReadStop k => forall b, wp (k b) (l ++ [AGetStop b])
  | WriteStop b k => wp k (l ++ [ASetStop b])
  | Init k => wp k (l ++ [AInit true])
  | Push k => forall r, r <> Raise -> wp (k r) (l ++ [APush r])
  | Unlink k => wp k (l ++ [AUnlink])
  | ClearSub k => wp k (l ++ [AClearSub])
  | Orphans k => forall b, wp (k b) (l ++ [AOrphans b])
  | Lock k => wp k (l ++ [ALock])
  | Unlock k => wp k (l ++ [AUnlock])
  | Edit k => forall b, wp (k b) ((l ++ [AEditBegin]) ++ [AEditEnd b])
  | InEdit k => forall b, wp (k b) (l ++ [AEditEnd b])
  | Goto lb => Inv lb (l ++ [AJump])
  end.
Hypothesis inv_ok : forall lb l, Inv lb l -> wp (body lb) l.
Lemma wp_step : forall c l a c', wp c l -> lstep c a c' -> wp c' (l ++ [a]).
Proof.
  intros c l a c' H S. destruct S; cbn in H |- *; auto.
  - destruct b; [exact H|exact I].
  - destruct r; [apply H; discriminate|apply H; discriminate|exact I].
  - destruct b; [exact H|exact I].
  - destruct r; [apply H; discriminate|apply H; discriminate|exact I].
Qed.
Lemma wp_path : forall c l2 c', lpath c l2 c' -> forall l, wp c l -> wp c' (l ++ l2).
Proof.
  intros c l2 c' H. induction H as [c|c a c1 l2 c2 S _ IH]; intros l X.
  - rewrite app_nil_r. exact X.
  - specialize (IH _ (wp_step _ _ _ _ X S)). rewrite <- app_assoc in IH. exact IH.
Qed.
Lemma wp_runs : forall W (P : plant W) G k y0 y1 es y, step P y0 (EArrive k) y1 -> runs G P y1 es y -> wp (first_code k) [] ->
  exists c, at_code y (length (y_procs y0)) k c /\ wp c (does (length (y_procs y0)) es).
Proof.
  intros W P G k y0 y1 es y S R H. inversion S as [y2 k2 NK|]; subst.
  destruct (runs_path P _ _ _ _ R (length (y_procs y0)) k (first_code k)) as (c & A & L).
  - unfold at_code. cbn. rewrite nth_error_app2, Nat.sub_diag by lia. reflexivity.
  - exists c. split; [exact A|]. rewrite does_mine. exact (wp_path _ _ _ L _ H).
Qed.
(** The beginning of control_execution. *)
Lemma wp_control : forall c, (forall l, Forall looks l -> Post false None l) -> (forall l, Forall looks l -> wp (dispatch c) l) ->
  wp (control c) [].
Proof.
  intros c F H.
  assert (X : forall l a, Forall looks l -> looks a -> Forall looks (l ++ [a])).
  { intros l a Y Z. apply Forall_app. auto. }
  assert (R : forall l, Forall looks l -> wp (renew c) l).
  { intros l Y. unfold renew, alive. cbn [wp]. intros [t|]; cbn [wp]; [|apply H; repeat apply X; auto; exact I].
    intros [u|]; cbn [wp]; auto. intros [|]; cbn [wp]; apply H; repeat apply X; auto; exact I. }
  unfold control, alive, join. cbn [wp]. intros [t|]; [|apply R; apply X; auto; exact I]. cbn [wp]. intros s.
  destruct (tstate_eqb s TIDLE); [|apply R; repeat apply X; auto; exact I].
  cbn [wp]. intros [u|]; cbn [wp]; auto. intros [|]; cbn [wp]; [|apply R; repeat apply X; auto; exact I].
  intros [v|]; cbn [wp]; auto. intros [v'|]; cbn [wp]; auto.
  intros [|]; cbn [wp]; [apply F|apply R]; repeat apply X; auto; exact I.
Qed.
End WP.

Lemma answered_post : forall W (P : plant W) Post (Inv : label -> list action -> Prop) G c y0 y1 es y b ts,
  (forall lb l, Inv lb l -> wp Post Inv (body lb) l) -> (forall l, Forall looks l -> Post false None l) ->
  (forall l, Forall looks l -> wp Post Inv (dispatch c) l) ->
  step P y0 (EArrive (KControl c)) y1 -> runs G P y1 es y -> answered y (length (y_procs y0)) b ts ->
  Post b ts (does (length (y_procs y0)) es).
Proof.
  intros W P Post Inv G c y0 y1 es y b ts HI HF HD S R (k & A).
  destruct (wp_runs Post Inv HI _ P _ _ _ _ _ _ S R) as (c' & A' & X).
  - apply wp_control; auto.
  - unfold at_code in *. rewrite A in A'. injection A' as E E'. subst. exact X.
Qed.

Lemma f_pre : forall good ps l0 l, follows ((none_bad, good) :: ps) l -> follows ((none_bad, good) :: ps) (l0 ++ l).
Proof. intros good ps l0 l H. induction l0 as [|a l0 IH]; cbn; auto; apply f_skip; [intros []|exact IH]. Qed.
Lemma f_more : forall ps l l', follows ps l -> follows ps (l ++ l').
Proof. intros ps l l' H. induction H; cbn; [apply f_end|apply f_stage|apply f_skip]; auto. Qed.
Lemma f_then : forall ps good qs l l', follows ps l -> follows ((none_bad, good) :: qs) l' ->
  follows (ps ++ (none_bad, good) :: qs) (l ++ l').
Proof.
  intros ps good qs l l' H X. induction H; cbn; [apply f_pre; exact X|apply f_stage|apply f_skip]; auto.
Qed.

(** Case analysis along a program. *)
Ltac wps := repeat first
  [ exact I | discriminate
  | match goal with
    | |- wp _ _ (if tstate_eqb ?s _ then _ else _) _ => is_var s; destruct s
    | |- wp _ _ (if state_in ?s _ then _ else _) _ => is_var s; destruct s
    | |- wp _ _ (if ?b || _ then _ else _) _ => is_var b; destruct b
    | |- wp _ _ (if ?b then _ else _) _ => first [is_var b; destruct b | let h := eval vm_compute in b in change b with h; cbv iota | destruct b eqn:?]
    | |- wp _ _ (match ?b with _ => _ end) _ => destruct b
    | |- wp _ _ ?c _ => first [progress cbn [wp]; intros | let h := eval hnf in c in change c with h]
    end ].
Ltac cond := cbn; solve
  [ reflexivity | intros [? ?]; discriminate | intros [[? ?]|[? ?]]; discriminate | intros []
  | left; reflexivity | right; reflexivity | eexists; reflexivity | right; eexists; reflexivity | left; left; reflexivity | left; right; eexists; reflexivity
  | eexists; split; [reflexivity|cbn; intuition discriminate] ].
Ltac fol := solve
  [ apply f_end
  | apply f_stage; [cond|fol]
  | apply f_skip; [cond|fol] ].
Ltac lst := rewrite <- ?app_assoc; cbn [app].
Ltac fols := lst; apply f_pre; fol.
Ltac unf := unfold reset_done, nothing_to_tick, many_started, once_started, once_ended, thread_stopped, waiting_empty,
  waiting_unticked, went_down, not_ticked, idle_down, waiting_down, empty_down, free; cbn [app].
Definition on_success (Q : list action -> Prop) : bool -> option tstate -> list action -> Prop := fun b _ l => b = true -> Q l.
Definition on_failure (Q : list action -> Prop) : bool -> option tstate -> list action -> Prop := fun b _ l => b = false -> Q l.
Definition no_loop : label -> list action -> Prop := fun _ _ => False.

Lemma reset_ok : forall l, wp (on_success (follows reset_done)) no_loop (dispatch RESET) l.
Proof. intros l. unfold on_success. wps; unf; fols. Qed.
Lemma many_ok : forall u l, wp (on_success (fun l => follows nothing_to_tick l \/ follows (many_started u) l)) no_loop
  (dispatch (if u then TICK_UNTIL_RESULT else TICK_PERIODICALLY)) l.
Proof. intros u l. unfold on_success. destruct u; wps; unf; first [left; fols | right; fols]. Qed.
Definition once_inv : label -> list action -> Prop := fun lb l => lb = LOnceWait /\ follows once_started l.
Definition once_post := on_success (fun l => follows nothing_to_tick l \/ follows (once_started ++ once_ended) l).
Lemma once_inv_ok : forall lb l, once_inv lb l -> wp once_post once_inv (body lb) l.
Proof.
  intros lb l (-> & H). unfold once_post, on_success, once_inv. wps; try (split; [reflexivity|]; lst; apply f_more; exact H).
  all: right; lst; apply f_then; [exact H|fol].
Qed.
Lemma once_ok : forall l, wp once_post once_inv (dispatch TICK_ONCE) l.
Proof.
  intros l. unfold once_post, on_success, once_inv. wps; unf; first [left; fols | split; [reflexivity|]; fols].
Qed.

Definition asked_stop : list stage := [(none_bad, eq (AGetState TICKING)); (reads_state, eq (ASetState STOP_REQUESTED))].
Definition stop_inv (sd : bool) : label -> list action -> Prop := fun lb l => (exists ts, lb = LStopWait sd ts) /\ follows asked_stop l.
Definition stopped_list (l : list action) : Prop :=
  follows thread_stopped l \/ follows waiting_empty l \/ follows waiting_unticked l.
Definition shut_list (l : list action) : Prop :=
  follows (thread_stopped ++ went_down) l \/ follows (waiting_empty ++ went_down) l \/
  follows (waiting_unticked ++ went_down) l \/ follows (not_ticked ++ went_down) l.
Definition ssd_list (l : list action) : Prop :=
  follows idle_down l \/ follows waiting_down l \/ follows empty_down l.
Lemma stop_inv_ok : forall sd lb l, stop_inv sd lb l ->
  wp (on_success (if sd then shut_list else stopped_list)) (stop_inv sd) (body lb) l.
Proof.
  intros sd lb l ((ts & ->) & H). unfold on_success, stop_inv. unfold body. destruct sd; unfold shut_list, stopped_list.
  all: wps; try (split; [eexists; reflexivity|]; lst; apply f_more; exact H).
  all: left; unf; lst.
  all: lazymatch goal with |- follows (?a :: ?b :: ?c :: ?r) _ => change (follows (asked_stop ++ c :: r) (l ++ _) \/ False) || change (a :: b :: c :: r) with (asked_stop ++ c :: r) end.
  all: apply f_then; [exact H|fol].
Qed.
Lemma stop_ok : forall l, wp (on_success stopped_list) (stop_inv false) (dispatch STOP) l.
Proof.
  intros l. unfold on_success, stop_inv, stopped_list, asked_stop. 
  wps; unf; first [split; [eexists; reflexivity|]; fols | left; fols | right; left; fols | right; right; fols].
Qed.
Lemma shut_ok : forall l, wp (on_success shut_list) (stop_inv true) (dispatch SHUT_DOWN) l.
Proof.
  intros l. unfold on_success, stop_inv, shut_list, asked_stop. 
  wps; unf; first [split; [eexists; reflexivity|]; fols | left; fols | right; left; fols | right; right; left; fols | right; right; right; fols].
Qed.
Lemma ssd_ok : forall l, wp (on_success ssd_list) no_loop (dispatch SETUP_AND_SHUTDOWN) l.
Proof.
  intros l. unfold on_success, ssd_list. 
  wps; unf; first [left; fols | right; left; fols | right; right; fols].
Qed.

(** Failures. *)
Lemma looks_reset : forall a, looks a -> reset_fails a.
Proof. intros a H. left. exact H. Qed.
Ltac quiet := rewrite <- ?app_assoc; cbn [app]; apply Forall_app; split; [assumption|repeat constructor].
Lemma many_fail : forall (u : bool) l, Forall looks l -> wp (on_failure (Forall looks)) no_loop
  (dispatch (if u then TICK_UNTIL_RESULT else TICK_PERIODICALLY)) l.
Proof. intros u l H. unfold on_failure. destruct u; wps; quiet. Qed.
Lemma nothing_any : forall l, Forall looks l -> wp (fun _ _ => Forall looks) no_loop (dispatch DO_NOTHING) l.
Proof. intros l H. wps; quiet. Qed.
Lemma unknown_any : forall n l, Forall looks l -> wp (fun b _ l => b = false /\ Forall looks l) no_loop (dispatch (UNKNOWN_COMMAND n)) l.
Proof. intros n l H. wps; (split; [reflexivity|quiet]). Qed.
Lemma reset_fail : forall l, Forall looks l -> wp (on_failure (Forall reset_fails)) no_loop (dispatch RESET) l.
Proof.
  intros l H. unfold on_failure. apply (Forall_impl _ looks_reset) in H.
  wps; try congruence; rewrite <- ?app_assoc; cbn [app]; apply Forall_app; split; try assumption; repeat first [apply Forall_nil | apply Forall_cons]; unfold reset_fails; cbn; eauto.
Qed.
Definition not_editable (l : list action) : Prop := ~ In (ASetState EDITABLE) l.
Lemma looks_not : forall l, Forall looks l -> not_editable l.
Proof. intros l H X. eapply Forall_forall in X; [|exact H]. exact X. Qed.
Lemma not_app : forall l r, not_editable l -> not_editable r -> not_editable (l ++ r).
Proof. intros l r H X Y. apply in_app_or in Y. destruct Y; auto. Qed.
Definition shut_inv : label -> list action -> Prop := fun lb l => (exists sd ts, lb = LStopWait sd ts) /\ not_editable l.
Lemma not_cons : forall a l, a <> ASetState EDITABLE -> not_editable l -> not_editable (a :: l).
Proof. intros a l H X [Y|Y]; auto. Qed.
Lemma not_nil : not_editable [].
Proof. intros []. Qed.
Ltac ne := rewrite <- ?app_assoc; cbn [app]; apply not_app; [assumption|repeat (apply not_cons; [discriminate|]); apply not_nil].
Lemma shut_inv_ok : forall lb l, shut_inv lb l -> wp (on_failure not_editable) shut_inv (body lb) l.
Proof.
  intros lb l ((sd & ts & ->) & H). unfold on_failure, shut_inv. unfold body. destruct sd; wps; try ne; split; eauto; ne.
Qed.
Lemma shut_fail : forall l, Forall looks l -> wp (on_failure not_editable) shut_inv (dispatch SHUT_DOWN) l.
Proof.
  intros l H. apply looks_not in H. unfold on_failure, shut_inv. wps; try ne; split; eauto; ne.
Qed.
Lemma ssd_fail : forall l, Forall looks l -> wp (on_failure not_editable) shut_inv (dispatch SETUP_AND_SHUTDOWN) l.
Proof.
  intros l H. apply looks_not in H. unfold on_failure, shut_inv. wps; try ne; split; eauto; ne.
Qed.

(** An editing service. *)
Lemma edit_ok : forall b, wp (on_success (follows edit_done)) no_loop (edit b) [].
Proof.
  intros b. unfold on_success, edit_done. destruct b; wps; try (match goal with H : ?x = true |- _ => is_var x; subst x end); lst;
    first [fol | apply f_stage; [reflexivity|]; apply f_stage; [reflexivity|]; do 3 (apply f_skip; [discriminate|]); fol].
Qed.
Lemma edit_fail : forall b, wp (on_failure (fun l => (exists s, s <> EDITABLE /\ l = [AGetState s]) \/ In (AEditEnd false) l)) no_loop (edit b) [].
Proof.
  intros b. unfold on_failure. destruct b; wps;
   first [left; eexists; split; [|reflexivity]; discriminate | right; subst; cbn; tauto].
Qed.

(** ** Put together *)
Lemma no_loop_ok : forall Post lb l, no_loop lb l -> wp Post no_loop (body lb) l.
Proof. intros Post lb l []. Qed.
Section Served.
Context {W : Type} (P : plant W).
Lemma served_post : forall Post (Inv : label -> list action -> Prop) c l b,
  (forall lb l, Inv lb l -> wp Post Inv (body lb) l) -> (forall l, Forall looks l -> Post false None l) ->
  (forall l, Forall looks l -> wp Post Inv (dispatch c) l) -> served P (KControl c) l b -> exists ts, Post b ts l.
Proof.
  intros Post Inv c l b H1 H2 H3 (y0 & y1 & es & y & ts & S & R & A & ->). exists ts.
  exact (answered_post _ _ _ _ _ _ _ _ _ _ _ _ H1 H2 H3 S R A).
Qed.
Lemma served_true : forall (Q : list action -> Prop) (Inv : label -> list action -> Prop) c l,
  (forall lb l, Inv lb l -> wp (on_success Q) Inv (body lb) l) -> (forall l, wp (on_success Q) Inv (dispatch c) l) ->
  served P (KControl c) l true -> Q l.
Proof.
  intros Q Inv c l H1 H3 H. destruct (served_post (on_success Q) Inv c l true H1) as (ts & X); [intros l' _ X; discriminate|auto|exact H|]. apply X. reflexivity.
Qed.
Lemma served_false : forall (Q : list action -> Prop) (Inv : label -> list action -> Prop) c l,
  (forall lb l, Inv lb l -> wp (on_failure Q) Inv (body lb) l) -> (forall l, Forall looks l -> Q l) ->
  (forall l, Forall looks l -> wp (on_failure Q) Inv (dispatch c) l) -> served P (KControl c) l false -> Q l.
Proof.
  intros Q Inv c l H1 H2 H3 H. destruct (served_post (on_failure Q) Inv c l false H1) as (ts & X); [intros l' Y _; auto|exact H3|exact H|]. apply X. reflexivity.
Qed.
Lemma served_edit : forall Post b r l, wp Post no_loop (edit b) [] -> served P (KEdit b) l r -> exists ts, Post r ts l.
Proof.
  intros Post b r l H (y0 & y1 & es & y & ts & S & R & (k & A) & ->). exists ts.
  destruct (wp_runs Post no_loop (no_loop_ok Post) _ P _ _ _ _ _ _ S R H) as (c & A' & X).
  unfold at_code in *. rewrite A in A'. injection A' as E E'. subst. exact X.
Qed.
Lemma reset_success : forall l, served P (KControl RESET) l true -> follows reset_done l.
Proof. intros l. apply (served_true _ no_loop); [apply no_loop_ok|apply reset_ok]. Qed.
Lemma reset_failure : forall l, served P (KControl RESET) l false -> Forall reset_fails l.
Proof.
  intros l. apply (served_false _ no_loop); [apply no_loop_ok| |apply reset_fail].
  intros l' H. exact (Forall_impl _ looks_reset H).
Qed.
Lemma many_success : forall (u : bool) l, served P (KControl (if u then TICK_UNTIL_RESULT else TICK_PERIODICALLY)) l true ->
  follows nothing_to_tick l \/ follows (many_started u) l.
Proof.
  intros u l. apply (served_true (fun l => follows nothing_to_tick l \/ follows (many_started u) l) no_loop);
    [apply no_loop_ok|apply many_ok].
Qed.
Lemma many_failure : forall (u : bool) l, served P (KControl (if u then TICK_UNTIL_RESULT else TICK_PERIODICALLY)) l false ->
  Forall looks l.
Proof. intros u l. apply (served_false _ no_loop); [apply no_loop_ok|auto|apply many_fail]. Qed.
Lemma once_success : forall l, served P (KControl TICK_ONCE) l true ->
  follows nothing_to_tick l \/ follows (once_started ++ once_ended) l.
Proof.
  intros l. apply (served_true (fun l => follows nothing_to_tick l \/ follows (once_started ++ once_ended) l) once_inv);
    [apply once_inv_ok|apply once_ok].
Qed.
Lemma stop_success : forall l, served P (KControl STOP) l true ->
  follows thread_stopped l \/ follows waiting_empty l \/ follows waiting_unticked l.
Proof. intros l. apply (served_true stopped_list (stop_inv false)); [apply stop_inv_ok|apply stop_ok]. Qed.
Lemma shut_success : forall l, served P (KControl SHUT_DOWN) l true ->
  follows (thread_stopped ++ went_down) l \/ follows (waiting_empty ++ went_down) l \/
  follows (waiting_unticked ++ went_down) l \/ follows (not_ticked ++ went_down) l.
Proof. intros l. apply (served_true shut_list (stop_inv true)); [apply stop_inv_ok|apply shut_ok]. Qed.
Lemma ssd_success : forall l, served P (KControl SETUP_AND_SHUTDOWN) l true ->
  follows idle_down l \/ follows waiting_down l \/ follows empty_down l.
Proof. intros l. apply (served_true ssd_list no_loop); [apply no_loop_ok|apply ssd_ok]. Qed.
Lemma shut_failure : forall c l, c = SHUT_DOWN \/ c = SETUP_AND_SHUTDOWN -> served P (KControl c) l false ->
  ~ In (ASetState EDITABLE) l.
Proof.
  intros c l H. apply (served_false not_editable shut_inv); [apply shut_inv_ok|apply looks_not|].
  destruct H as [-> | ->]; [apply shut_fail|apply ssd_fail].
Qed.
Lemma idle_answer : forall l b, served P (KControl DO_NOTHING) l b -> Forall looks l.
Proof.
  intros l b H. destruct (served_post (fun _ _ => Forall looks) no_loop DO_NOTHING l b) as (ts & X); auto; [apply no_loop_ok|apply nothing_any].
Qed.
Lemma unknown_answer : forall n l b, served P (KControl (UNKNOWN_COMMAND n)) l b -> b = false /\ Forall looks l.
Proof.
  intros n l b H. destruct (served_post (fun b _ l => b = false /\ Forall looks l) no_loop _ l b (no_loop_ok _) (fun l H => conj eq_refl H) (unknown_any n) H) as (ts & X).
  exact X.
Qed.
Lemma edit_success : forall b l, served P (KEdit b) l true -> follows edit_done l.
Proof. intros b l H. destruct (served_edit _ _ _ _ (edit_ok b) H) as (ts & X). apply X. reflexivity. Qed.
Lemma edit_failure : forall b l, served P (KEdit b) l false ->
  (exists s, s <> EDITABLE /\ l = [AGetState s]) \/ In (AEditEnd false) l.
Proof. intros b l H. destruct (served_edit _ _ _ _ (edit_fail b) H) as (ts & X). apply X. reflexivity. Qed.
End Served.
