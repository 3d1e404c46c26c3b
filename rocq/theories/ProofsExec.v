(** Proofs about execution control: invariants of the tick thread and a program
    logic for one handler that runs beside it. *)
From Coq Require Import List Bool Arith Lia.
From Verif Require Import Base ModelExec SpecExec.
Import ListNotations.

(** ** Updating one process *)

Lemma nth_set_same : forall {A} (l : list A) n x y, nth_error l n = Some y -> nth_error (set_nth l n x) n = Some x.
Proof. induction l; intros [|n] x y H; cbn in *; try discriminate; eauto. Qed.
Lemma nth_set_other : forall {A} (l : list A) n m x, n <> m -> nth_error (set_nth l n x) m = nth_error l m.
Proof. induction l; intros [|n] [|m] x H; cbn; try congruence; auto. Qed.
Lemma nth_set_inv : forall {A} (l : list A) n m x z, nth_error (set_nth l n x) m = Some z ->
  (m = n /\ z = x) \/ (m <> n /\ nth_error l m = Some z).
Proof.
  intros A l n m x z H. destruct (Nat.eq_dec n m) as [E|E].
  - subst. left. split; [reflexivity|]. destruct (nth_error l m) eqn:F.
    + rewrite (nth_set_same _ _ _ _ F) in H. congruence.
    + exfalso. revert m F H. induction l; intros [|m] F H; cbn in *; try discriminate; eauto.
  - right. rewrite nth_set_other in H by congruence. split; congruence.
Qed.
Lemma nth_app_one : forall {A} (l : list A) x n z, nth_error (l ++ [x]) n = Some z ->
  nth_error l n = Some z \/ (n = length l /\ z = x).
Proof.
  intros A l x n z H. destruct (Nat.lt_ge_cases n (length l)) as [L|L].
  - rewrite nth_error_app1 in H by exact L. auto.
  - rewrite nth_error_app2 in H by exact L. destruct (n - length l) as [|m] eqn:E.
    + cbn in H. right. split; [lia|congruence].
    + cbn in H. destruct m; discriminate.
Qed.
Lemma set_nth_length : forall {A} (l : list A) n x, length (set_nth l n x) = length l.
Proof. induction l; intros [|n] x; cbn; auto. Qed.

(** ** Programs of the tick thread *)

(** Only reports an error and ends. *)
Fixpoint dying (c : code) : Prop :=
  match c with
  | Done _ _ | Crash => True
  | WriteState s k => s = TERROR /\ dying k
  | _ => False
  end.
(** Will not tick and write no state but ERROR. *)
Fixpoint closed (c : code) : Prop :=
  match c with
  | Done _ _ | Crash => True
  | WriteState s k => s = TERROR /\ dying k
  | Call o k | InCall o k => o = OUntick /\ forall r, closed (k r)
  | _ => False
  end.
(** Programs of a tick thread: what follows an assignment to the state. *)
Fixpoint wf (c : code) : Prop :=
  match c with
  | Done _ _ | Crash => True
  | WriteState s k => match s with
                      | TERROR => dying k
                      | TIDLE | WAITING_FOR_TICK => closed k
                      | _ => False
                      end
  | ReadState k => forall s, wf (k s)
  | Root k => forall r, wf (k r)
  | Call _ k | InCall _ k => forall r, wf (k r)
  | RootState k => forall s, wf (k s)
  | ReadOnce k | ReadStop k | Orphans k => forall b, wf (k b)
  | WriteOnce b k => b = false /\ wf k
  | Init k => wf k
  | Push k => forall r, wf (k r)
  | Goto l => l = LLoop
  | _ => False
  end.

Lemma dying_closed : forall c, dying c -> closed c.
Proof. destruct c; cbn; tauto. Qed.
Lemma closed_wf : forall c, closed c -> wf c.
Proof. induction c; cbn; try tauto; intros [? ?]; subst; cbn; auto. Qed.
Lemma wf_main : wf (body LMain).
Proof.
  cbn. intros b. destruct b; cbn; auto. intros r. destruct r; cbn; auto. intros s.
  destruct s; cbn; auto; intros _ s'; destruct s'; cbn; auto.
Qed.
Lemma wf_loop : wf (body LLoop).
Proof.
  assert (F : wf tick_finish) by (cbn; split; [reflexivity|]; intros r; destruct r; cbn; auto).
  unfold body, tick_loop. cbn [wf]. intros s. destruct (tstate_eqb s STOP_REQUESTED); [exact F|].
  cbn [wf]. intros p. destruct p; try (cbn; exact I). cbn [wf]. intros r. destruct r as [x|e|]; try (cbn; exact I).
  cbn [wf]. intros b. destruct (b && state_in x [FAILED; SUCCEEDED]); [exact F|].
  cbn [wf]. intros b'. destruct b'; cbn; auto.
Qed.
Lemma dying_step : forall c a c', dying c -> lstep c a c' -> dying c' /\ a = ASetState TERROR.
Proof. intros c a c' D S. destruct S; cbn in D; try tauto. destruct D; subst; auto. Qed.
Lemma closed_step : forall c a c', closed c -> lstep c a c' ->
  closed c' /\ (a = ASetState TERROR /\ dying c' \/ a = ABegin OUntick \/ exists r, a = AEnd OUntick r).
Proof.
  intros c a c' D S. destruct S; cbn in D; try tauto.
  - destruct D; subst. split; [apply dying_closed; assumption|]. auto.
  - destruct D; subst. split; [cbn; auto|]. auto.
  - destruct D; subst. split; [destruct r; cbn; auto|]. eauto.
Qed.
Lemma wf_step : forall c a c', wf c -> lstep c a c' -> wf c'.
Proof.
  intros c a c' D S. destruct S; cbn in D; try tauto; auto.
  - destruct s; try tauto; auto using closed_wf, dying_closed.
  - destruct r; cbn; auto.
  - destruct b; cbn; auto.
  - destruct r; cbn; auto.
  - subst. exact wf_loop.
Qed.
(** Accesses a tick thread never makes. *)
Definition not_tick (a : action) : Prop :=
  match a with
  | AGetThread _ | ANewThread | AAlive _ _ | AStart _ _ | AJoin _ | AOk _ | ASetStop _
  | AUnlink | AClearSub | ALock | AUnlock | AEditBegin | AEditEnd _ => True
  | _ => False
  end.
Lemma wf_tick : forall c a c', wf c -> lstep c a c' -> ~ not_tick a.
Proof. intros c a c' D S. destruct S; cbn in *; tauto. Qed.
Lemma wf_write : forall c s c', wf c -> lstep c (ASetState s) c' ->
  s = TERROR /\ dying c' \/ (s = TIDLE \/ s = WAITING_FOR_TICK) /\ closed c'.
Proof. intros c s c' D S. inversion S; subst. cbn in D. destruct s; tauto. Qed.
Lemma lstep_live : forall c a c', lstep c a c' -> ended c = false.
Proof. intros c a c' S. destruct S; reflexivity. Qed.
Lemma dying_ended : forall c, ended c = true -> dying c.
Proof. destruct c; cbn; congruence || tauto. Qed.

(** ** The tick thread by itself *)

(** The history of a run as far as the proofs need it: completed calls on the root and
    started threads. *)
Inductive item : Set := ICall (p : nat) (o : op) (r : res state) | IStart (p t : nat).
Definition hist := list item.
Definition callof (p : nat) (a : action) : hist :=
  match a with AEnd o r => [ICall p o r] | AStart t true => [IStart p t] | _ => [] end.
Fixpoint items (es : list event) : hist :=
  match es with
  | [] => []
  | EAct p a :: l => callof p a ++ items l
  | EArrive _ :: l => items l
  end.

Lemma items_app : forall a b, items (a ++ b) = items a ++ items b.
Proof. induction a as [|e a]; intros b; cbn; [reflexivity|]. destruct e as [k|p x]; cbn; rewrite ?IHa, ?app_assoc; reflexivity. Qed.
Lemma items_one : forall p a, items [EAct p a] = callof p a.
Proof. intros p a. cbn. apply app_nil_r. Qed.

(** How a program sees state and flags when nobody else writes them. *)
Definition flow (a : action) (s : tstate) (o p : bool) (s' : tstate) (o' p' : bool) : Prop :=
  match a with
  | AGetState x => x = s /\ s' = s /\ o' = o /\ p' = p
  | ASetState x => s' = x /\ o' = o /\ p' = p
  | AGetOnce b => b = o /\ s' = s /\ o' = o /\ p' = p
  | ASetOnce b => s' = s /\ o' = b /\ p' = p
  | AGetStop b => b = p /\ s' = s /\ o' = o /\ p' = p
  | ASetStop b => s' = s /\ o' = o /\ p' = b
  | _ => s' = s /\ o' = o /\ p' = p
  end.

(** A thread [t] that started with state [s0] and flags [o0], [p0] and runs alone. *)
Inductive solo (t : nat) (s0 : tstate) (o0 p0 : bool) :
    hist -> code -> tstate -> bool -> bool -> Prop :=
| solo_nil : solo t s0 o0 p0 [] (body LMain) s0 o0 p0
| solo_snoc l c s o p a c' s' o' p' :
    solo t s0 o0 p0 l c s o p -> lstep c a c' -> flow a s o p s' o' p' ->
    solo t s0 o0 p0 (l ++ callof t a) c' s' o' p'.

Lemma solo_wf : forall t s0 o0 p0 l c s o p, solo t s0 o0 p0 l c s o p -> wf c.
Proof. induction 1; [exact wf_main|]. eapply wf_step; eauto. Qed.
Lemma solo_state : forall t o0 p0 l c s o p, solo t TICKING o0 p0 l c s o p -> closed c \/ s = TICKING.
Proof.
  induction 1 as [|l c s o p a c' s' o' p' H IH S F]; [auto|].
  destruct IH as [IH|IH]; [left; eapply closed_step; eauto|]. subst s.
  pose proof (solo_wf _ _ _ _ _ _ _ _ _ H) as D.
  destruct a; cbn in F; try (right; intuition congruence).
  left. destruct (wf_write _ _ _ D S) as [[_ X]|[_ X]]; auto using dying_closed.
Qed.

(** ** Invariants of the whole system *)

Section Sys.
Context {W : Type}.
Variable P : plant W.
Implicit Types (y : sys W).

Record base y : Prop := mkBase {
  b_wf : forall t c, at_code y t KTick c -> wf c;
  b_one : forall t, tick_thread_alive y t -> y_thread y = Some t;
  b_err : y_state y = TERROR -> forall t c, at_code y t KTick c -> dying c;
  b_kind : forall t, y_thread y = Some t -> exists x, nth_error (y_procs y) t = Some (KTick, x) }.

(** What a handler knows about the tick thread. *)
Definition fact := tstate -> bool -> bool -> W -> hist -> Prop.
Inductive know : Type := KTop | KFresh | KClosed | KDead (F : fact) | KRun (F : fact).

Definition ran (F : fact) (c : code) t (st : tstate) (o p : bool) (h : hist) : Prop :=
  exists s0 o0 p0 w0 h0 l,
    F s0 o0 p0 w0 h0 /\ s0 = TICKING /\ solo t s0 o0 p0 l c st o p /\
    (forall x r, ~ In (ICall t x r) h0) /\ exists m, h = h0 ++ IStart m t :: l.

Definition holds (y : sys W) (h : hist) (K : know) : Prop :=
  match K with
  | KTop => forall t c, at_code y t KTick c -> closed c \/ y_state y = TICKING \/ y_state y = STOP_REQUESTED
  | KFresh => forall t c, at_code y t KTick c -> closed c \/ y_state y = TICKING
  | KClosed => forall t c, at_code y t KTick c -> closed c
  | KDead F => (forall t c, at_code y t KTick c -> ended c = true) /\
               F (y_state y) (y_once y) (y_stop y) (y_world y) h
  | KRun F => exists t c, y_thread y = Some t /\ at_code y t KTick c /\
                ran F c t (y_state y) (y_once y) (y_stop y) h
  end.
Definition holds_cur y (cur : option (option nat)) : Prop :=
  match cur with None => True | Some o => y_thread y = o end.

Lemma closed_ended : forall c, ended c = true -> closed c.
Proof. intros c H. apply dying_closed, dying_ended, H. Qed.

Lemma run_fresh : forall y h F, base y -> holds y h (KRun F) -> holds y h KFresh.
Proof.
  intros y h F B (t & c & T & A & (s0 & o0 & p0 & w0 & h0 & l & _ & E & S & _)). subst s0.
  intros t' c' A'. destruct (ended c') eqn:L; [left; apply closed_ended, L|].
  assert (y_thread y = Some t') by (apply (b_one _ B); exists c'; auto).
  assert (t' = t) by congruence. subst t'. assert (c' = c) by (unfold at_code in *; congruence). subst c'.
  eapply solo_state; eauto.
Qed.
Definition fin (K : know) : Prop := match K with KTop => False | _ => True end.
Lemma fin_fresh : forall y h K, base y -> holds y h K -> fin K -> holds y h KFresh.
Proof.
  intros y h K B H X. destruct K; cbn in X; try tauto.
  - cbn in *. intros t c A. left. eauto.
  - destruct H as [H _]. cbn. intros t c A. left. apply closed_ended. eauto.
  - eapply run_fresh; eauto.
Qed.

(** *** Steps of the tick thread *)

Lemma tick_effect : forall y t a y', effect P t y a y' -> ~ not_tick a ->
  y_procs y' = y_procs y /\ y_thread y' = y_thread y /\
  flow a (y_state y) (y_once y) (y_stop y) (y_state y') (y_once y') (y_stop y').
Proof. intros y t a y' E N. destruct E; cbn in N; try tauto; cbn; auto 10. Qed.

Lemma tick_step : forall y t c a c' y' h K cur,
  base y -> at_code y t KTick c -> lstep c a c' -> effect P t y a y' ->
  holds y h K -> holds_cur y cur ->
  let y2 := with_proc y' t (KTick, Some c') in
  base y2 /\ holds y2 (h ++ callof t a) K /\ holds_cur y2 cur.
Proof.
  intros y t c a c' y' h K cur B A S E H HC y2.
  pose proof (b_wf _ B _ _ A) as D. pose proof (wf_tick _ _ _ D S) as N.
  destruct (tick_effect _ _ _ _ E N) as (EP & ET & EF).
  pose proof (lstep_live _ _ _ S) as L.
  assert (T : y_thread y = Some t) by (apply (b_one _ B); exists c; auto).
  assert (AT : forall q k d, at_code y2 q k d -> (q = t /\ k = KTick /\ d = c') \/ (q <> t /\ at_code y q k d)).
  { intros q k d X. unfold at_code, y2, with_proc, with_procs in X. cbn in X. rewrite EP in X.
    destruct (nth_set_inv _ _ _ _ _ X) as [[Q Z]|[Q Z]]; [left; split; [exact Q|]; split; congruence|].
    right. auto. }
  assert (A2 : at_code y2 t KTick c').
  { unfold at_code, y2, with_proc, with_procs. cbn. rewrite EP. eapply nth_set_same; eauto. }
  assert (Y2 : y_thread y2 = y_thread y /\ y_state y2 = y_state y' /\ y_once y2 = y_once y' /\
               y_stop y2 = y_stop y' /\ y_world y2 = y_world y').
  { unfold y2, with_proc, with_procs. cbn. auto. }
  destruct Y2 as (Y2t & Y2s & Y2o & Y2p & Y2w).
  assert (OTH : forall q d, q <> t -> at_code y q KTick d -> ended d = true).
  { intros q d Q X. destruct (ended d) eqn:Z; [reflexivity|]. exfalso.
    assert (y_thread y = Some q) by (apply (b_one _ B); exists d; auto). congruence. }
  assert (ST : y_state y' = y_state y \/ (a = ASetState (y_state y') /\
     (y_state y' = TERROR /\ dying c' \/ (y_state y' = TIDLE \/ y_state y' = WAITING_FOR_TICK) /\ closed c'))).
  { destruct a; cbn in EF; try (left; intuition congruence). right. destruct EF as (X & _). rewrite X.
    split; [reflexivity|]. eapply wf_write; eauto. }
  split; [|split].
  - constructor.
    + intros q d X. destruct (AT _ _ _ X) as [(Q & _ & Z)|(_ & Z)]; [subst; eapply wf_step; eauto|].
      eapply b_wf; eauto.
    + intros q (d & X & Z). rewrite Y2t. destruct (AT _ _ _ X) as [(Q & _ & _)|(Q & Z')]; [subst; exact T|].
      rewrite (OTH _ _ Q Z') in Z. discriminate.
    + intros X q d Z. rewrite Y2s in X. destruct (AT _ _ _ Z) as [(Q & _ & Z')|(Q & Z')].
      * subst d. destruct ST as [X'|(Ea & [[_ X']|[[X'|X'] _]])].
        { rewrite X' in X. eapply dying_step; [|exact S]. eapply b_err; eauto. }
        { exact X'. }
        { rewrite X' in X. discriminate. }
        { rewrite X' in X. discriminate. }
      * apply dying_ended. eauto.
    + intros q X. rewrite Y2t in X. assert (q = t) by congruence. subst q. exists (Some c'). exact A2.
  - assert (CL : closed c -> closed c') by (intros X; eapply closed_step; eauto).
    destruct K; cbn [holds] in *.
    + intros q d X. destruct (AT _ _ _ X) as [(Q & _ & Z)|(Q & Z)]; [|left; apply closed_ended; eauto].
      subst d. destruct (H _ _ A) as [X'|X']; [auto|]. rewrite Y2s.
      destruct ST as [Z|(_ & [[_ Z]|[_ Z]])]; auto using dying_closed. rewrite Z. auto.
    + intros q d X. destruct (AT _ _ _ X) as [(Q & _ & Z)|(Q & Z)]; [|left; apply closed_ended; eauto].
      subst d. destruct (H _ _ A) as [X'|X']; [auto|]. rewrite Y2s.
      destruct ST as [Z|(_ & [[_ Z]|[_ Z]])]; auto using dying_closed. rewrite Z. auto.
    + intros q d X. destruct (AT _ _ _ X) as [(Q & _ & Z)|(Q & Z)]; [|apply closed_ended; eauto].
      subst d. eauto.
    + destruct H as [H _]. rewrite (H _ _ A) in L. discriminate.
    + destruct H as (t' & d & T' & A' & (s0 & o0 & p0 & w0 & h0 & l & HF & E0 & SO & FR & m & EH)).
      assert (t' = t) by congruence. subst t'. assert (d = c) by (unfold at_code in *; congruence). subst d.
      exists t, c'. split; [congruence|]. split; [exact A2|].
      exists s0, o0, p0, w0, h0, (l ++ callof t a). repeat split; auto.
      * rewrite Y2s, Y2o, Y2p. eapply solo_snoc; eauto.
      * exists m. rewrite EH, <- app_assoc. reflexivity.
  - destruct cur; cbn in *; congruence.
Qed.

(** *** A program logic for the handler [me] *)

Section Chk.
Variable me : nat.
Variable Q : bool -> know -> bool -> option tstate -> Prop.
Variable pre : label -> bool -> know -> Prop.
Variable good : know -> Prop.

Definition see_state (s : tstate) (K : know) : know :=
  match K with
  | KTop => match s with TICKING | STOP_REQUESTED => KTop | _ => KClosed end
  | KFresh => match s with TICKING => KFresh | _ => KClosed end
  | KDead F => KDead (fun st o p w h => F st o p w h /\ st = s)
  | _ => K
  end.
Definition can_write (s : tstate) (K : know) : Prop :=
  match K with
  | KTop | KFresh => s = STOP_REQUESTED \/ s = TICKING
  | KClosed | KDead _ => True
  | KRun _ => False
  end.
Definition put_state (s : tstate) (K : know) : know :=
  match K with
  | KTop | KFresh => KTop
  | KDead F => KDead (fun st o p w h => (exists st0, F st0 o p w h) /\ st = s)
  | _ => K
  end.
Definition dead (K : know) : know :=
  match K with
  | KDead F => KDead F
  | KRun F => KDead (fun st o p w h => exists t c, ran F c t st o p h /\ ended c = true)
  | _ => KDead (fun _ _ _ _ _ => True)
  end.
Definition is_dead (K : know) : Prop := match K with KDead _ => True | _ => False end.
Definition not_run (K : know) : Prop := match K with KRun _ => False | _ => True end.
Definition see_world (R : W -> Prop) (K : know) : know :=
  match K with KDead F => KDead (fun st o p w h => F st o p w h /\ R w) | _ => K end.
Definition move_world (R : W -> W -> Prop) (l : hist) (K : know) : know :=
  match K with
  | KDead F => KDead (fun st o p w' h' => exists w h, F st o p w h /\ R w w' /\ h' = h ++ l)
  | _ => K
  end.
Definition put_once (b : bool) (K : know) : know :=
  match K with KDead F => KDead (fun st o p w h => (exists o0, F st o0 p w h) /\ o = b) | _ => K end.
Definition put_stop (b : bool) (K : know) : know :=
  match K with KDead F => KDead (fun st o p w h => (exists p0, F st o p0 w h) /\ p = b) | _ => K end.

(** [good] holds of what is known at every point, [Q] at the end. *)
Fixpoint chk (cur : option (option nat)) (rq : bool) (K : know) (c : code) {struct c} : Prop :=
  good K /\
  match c with
  | Done ok ts => fin K /\ Q rq K ok ts
  | Crash => fin K
  | ReadState k => forall s, chk cur rq (see_state s K) (k s)
  | WriteState s k => s <> TERROR /\ can_write s K /\
                      chk cur (rq || tstate_eqb s STOP_REQUESTED) (put_state s K) k
  | ReadThread k => forall o, match cur with Some o' => o = o' | None => True end ->
                    chk (Some o) rq (match o with None => dead K | Some _ => K end) (k o)
  | NewThread k => is_dead K /\ chk None rq K k
  | Alive t k => cur = Some (Some t) /\ (~ is_dead K -> chk cur rq K (k true)) /\
                 chk cur rq (dead K) (k false)
  | StartT t k => cur = Some (Some t) /\
                  match K with
                  | KDead F => exists F' : fact,
                      (forall st o p w h, F st o p w h -> F' st o p w h /\ st = TICKING) /\
                      chk cur rq (KRun F') k
                  | _ => False
                  end
  | JoinT t k => chk cur rq K k
  | RosOk k => chk cur rq K (k true)
  | Root k => forall r, chk cur rq (see_world (fun w => p_root P w = r) K) (k r)
  | Call o k | InCall o k =>
      o <> OTick /\ fin K /\ not_run K /\
      forall r, chk cur rq (move_world (fun w w' => p_op P o w w' r) [ICall me o r] K) (k r)
  | RootState k => forall s, chk cur rq (see_world (fun w => p_state P w = s) K) (k s)
  | WriteOnce b k => not_run K /\ chk cur rq (put_once b K) k
  | WriteStop b k => not_run K /\ chk cur rq (put_stop b K) k
  | Unlink k => not_run K /\ chk cur rq (move_world (p_unlink P) [] K) k
  | ClearSub k => not_run K /\ chk cur rq (move_world (p_subclear P) [] K) k
  | Lock k | Unlock k => chk cur rq K k
  | Edit k | InEdit k => (K = KClosed \/ is_dead K) /\
                         forall b, chk cur rq (move_world (fun w w' => p_edit P w w' b) [] K) (k b)
  | Goto l => pre l rq K
  | _ => False
  end.

Lemma chk_good : forall c cur rq K, chk cur rq K c -> good K.
Proof. destruct c; cbn; tauto. Qed.

Hypothesis Hpre : forall l rq K, pre l rq K -> chk None rq K (body l).

(** Which events mean that the handler asked the tick thread to stop. *)
Definition asks (rq : bool) (a : action) : bool :=
  rq || match a with ASetState s => tstate_eqb s STOP_REQUESTED | _ => false end.

(** Steps of the handler that leave processes other than itself alone. *)
Lemma handler_frame : forall y y' k c c',
  base y -> k <> KTick -> at_code y me k c -> y_procs y' = y_procs y -> y_thread y' = y_thread y ->
  (y_state y' = TERROR -> y_state y = TERROR) ->
  base (with_proc y' me (k, Some c')) /\
  (forall t d, at_code (with_proc y' me (k, Some c')) t KTick d <-> at_code y t KTick d).
Proof.
  intros y y' k c c' B NK A EP ET ES.
  assert (I : forall t d, at_code (with_proc y' me (k, Some c')) t KTick d <-> at_code y t KTick d).
  { intros t d. unfold at_code, with_proc, with_procs. cbn. rewrite EP. split; intros X.
    - destruct (nth_set_inv _ _ _ _ _ X) as [[? Z]|[? Z]]; [congruence|exact Z].
    - rewrite nth_set_other; [exact X|]. intros Z. subst t. unfold at_code in A. congruence. }
  split; [|exact I]. constructor.
  - intros t d X. apply I in X. eapply b_wf; eauto.
  - intros t (d & X & Z). cbn. rewrite ET. apply (b_one _ B). exists d. split; [apply I; exact X|exact Z].
  - cbn. intros X t d Z. apply I in Z. eapply b_err; eauto.
  - cbn. rewrite ET. intros t X. destruct (b_kind _ B _ X) as (x & Z). exists x.
    rewrite EP, nth_set_other; [exact Z|]. intros Z'. subst t. unfold at_code in A. congruence.
Qed.

Lemma holds_ext : forall y y2 h K,
  (forall t d, at_code y2 t KTick d <-> at_code y t KTick d) ->
  y_thread y2 = y_thread y -> y_state y2 = y_state y -> y_once y2 = y_once y -> y_stop y2 = y_stop y ->
  y_world y2 = y_world y -> holds y h K -> holds y2 h K.
Proof.
  intros y y2 h K I ET ES EO EP EW H. destruct K; cbn [holds] in *.
  - intros t c X. apply I in X. rewrite ES. eauto.
  - intros t c X. apply I in X. rewrite ES. eauto.
  - intros t c X. apply I in X. eauto.
  - destruct H as [H HF]. split; [intros t c X; apply I in X; eauto|]. rewrite ES, EO, EP, EW. exact HF.
  - destruct H as (t & c & T & A & R). exists t, c. rewrite ET, ES, EO, EP. repeat split; auto. apply I; exact A.
Qed.

(** Knowledge that does not depend on the world or on the history. *)
Lemma holds_world : forall y y2 h h2 K,
  (forall t d, at_code y2 t KTick d <-> at_code y t KTick d) ->
  y_state y2 = y_state y -> ~ is_dead K -> not_run K -> holds y h K -> holds y2 h2 K.
Proof.
  intros y y2 h h2 K I ES ND NR H. destruct K; cbn [holds is_dead not_run] in *; try tauto.
  - intros t c X. apply I in X. rewrite ES. eauto.
  - intros t c X. apply I in X. rewrite ES. eauto.
  - intros t c X. apply I in X. eauto.
Qed.

Lemma dead_holds : forall y h K, holds y h K ->
  (forall t c, at_code y t KTick c -> ended c = true) -> holds y h (dead K).
Proof.
  intros y h K H N. destruct K; cbn [holds dead] in *; try (split; [exact N|exact I]).
  - exact H.
  - destruct H as (t & c & T & A & R). split; [exact N|]. exists t, c. split; [exact R|]. eauto.
Qed.

(** Only started processes have called anything. *)
Definition hinv y (h : hist) : Prop := forall p o r, In (ICall p o r) h -> exists k c, at_code y p k c.

Lemma handler_step : forall y k c a c' y' h K cur rq,
  base y -> k <> KTick -> at_code y me k c -> chk cur rq K c -> holds y h K -> holds_cur y cur ->
  lstep c a c' -> effect P me y a y' -> a <> AOk false -> hinv y h ->
  let y2 := with_proc y' me (k, Some c') in
  base y2 /\ exists cur' K',
    chk cur' (asks rq a) K' c' /\ holds y2 (h ++ callof me a) K' /\ holds_cur y2 cur'.
Proof.
  intros y k c a c' y' h K cur rq B NK A CH H HC S E NOK HI y2. unfold y2; clear y2.
  assert (FR : forall z, y_procs z = y_procs y -> y_thread z = y_thread y ->
            (y_state z = TERROR -> y_state y = TERROR) ->
            base (with_proc z me (k, Some c')) /\
            (forall t d, at_code (with_proc z me (k, Some c')) t KTick d <-> at_code y t KTick d))
    by (intros; eapply handler_frame; eauto).
  assert (RQ : match a with ASetState _ => True | _ => asks rq a = rq end)
    by (destruct a; unfold asks; rewrite ?orb_false_r; auto).
  destruct S; cbn in CH; destruct CH as [GK CH]; try tauto.
  - (* ReadState *)
    rewrite RQ. inversion E; subst. cbn [callof]. rewrite app_nil_r.
    destruct (FR y' eq_refl eq_refl (fun x => x)) as [B2 I2]. split; [exact B2|].
    exists cur, (see_state (y_state y') K). split; [apply CH|]. split; [|exact HC].
    assert (H2 : holds (with_proc y' me (k, Some (k0 (y_state y')))) h K) by (eapply holds_ext; eauto).
    destruct K; cbn [see_state]; auto.
    + destruct (y_state y') eqn:Z; auto; cbn [holds] in *; intros t d X; destruct (H2 _ _ X) as [|[X'|X']]; auto; cbn in X'; congruence.
    + destruct (y_state y') eqn:Z; auto; cbn [holds] in *; intros t d X; destruct (H2 _ _ X) as [|X']; auto; cbn in X'; congruence.
    + cbn [holds] in *. destruct H2. repeat split; auto.
  - (* WriteState *)
    destruct CH as (NE & CW & CH). inversion E; subst. cbn [callof]. rewrite app_nil_r.
    assert (X : y_state (with_state y s) = TERROR -> y_state y = TERROR) by (cbn; congruence).
    destruct (FR (with_state y s) eq_refl eq_refl X) as [B2 I2]. split; [exact B2|].
    exists cur, (put_state s K). split; [exact CH|]. split; [|exact HC].
    destruct K; cbn [put_state can_write holds] in *.
    + intros t d Z. apply I2 in Z. cbn. destruct CW; auto.
    + intros t d Z. apply I2 in Z. cbn. destruct CW; auto.
    + intros t d Z. apply I2 in Z. eauto.
    + destruct H as [H HF]. split; [intros t d Z; apply I2 in Z; eauto|]. cbn. split; eauto.
    + tauto.
  - (* ReadThread *)
    rewrite RQ. inversion E; subst. cbn [callof]. rewrite app_nil_r.
    destruct (FR y' eq_refl eq_refl (fun x => x)) as [B2 I2]. split; [exact B2|].
    exists (Some (y_thread y')). eexists. split; [apply CH|]. { destruct cur; cbn in HC; auto. }
    split; [|reflexivity].
    assert (H2 : holds (with_proc y' me (k, Some (k0 (y_thread y')))) h K) by (eapply holds_ext; eauto).
    destruct (y_thread y') eqn:Z; [exact H2|]. apply dead_holds; [exact H2|].
    intros t d X. destruct (ended d) eqn:L; [reflexivity|]. exfalso.
    apply I2 in X. assert (y_thread y' = Some t) by (apply (b_one _ B); exists d; auto). congruence.
  - (* NewThread *)
    destruct CH as [ID CH]. destruct K; cbn in ID; try tauto. rewrite RQ. inversion E; subst. cbn [callof]. rewrite app_nil_r.
    destruct H as [H HF].
    assert (ML : me < length (y_procs y)) by (apply nth_error_Some; unfold at_code in A; congruence).
    set (y2 := with_proc (with_thread (with_procs y (y_procs y ++ [(KTick, None)])) (Some (length (y_procs y)))) me (k, Some k0)).
    assert (I2 : forall t d, at_code y2 t KTick d <-> at_code y t KTick d).
    { intros t d. unfold at_code, y2, with_proc, with_procs, with_thread. cbn. split; intros X.
      - destruct (nth_set_inv _ _ _ _ _ X) as [[? Z]|[? Z]]; [congruence|].
        destruct (nth_app_one _ _ _ _ Z) as [Z'|[_ Z']]; [exact Z'|congruence].
      - rewrite nth_set_other.
        + rewrite nth_error_app1; [exact X|]. apply nth_error_Some. congruence.
        + intros Z. subst t. unfold at_code in A. congruence. }
    split.
    { constructor.
      - intros t d X. apply I2 in X. eapply b_wf; eauto.
      - intros t (d & X & L). apply I2 in X. rewrite (H _ _ X) in L. discriminate.
      - cbn. intros X t d Z. apply I2 in Z. eapply b_err; eauto.
      - intros t X. cbn in X. injection X as X. subst t. exists None. cbn.
        rewrite nth_set_other by lia. rewrite nth_error_app2 by lia. rewrite Nat.sub_diag. reflexivity. }
    exists None, (KDead F). split; [exact CH|]. split; [|exact I]. split; [|exact HF].
    intros t d X. apply I2 in X. eauto.
  - (* Alive *)
    rewrite RQ. inversion E; subst. cbn [callof]. rewrite app_nil_r. destruct CH as (EC & CT & CF).
    destruct (FR y' eq_refl eq_refl (fun x => x)) as [B2 I2]. split; [exact B2|].
    assert (T : y_thread y' = Some t) by (subst cur; exact HC).
    assert (H2 : holds (with_proc y' me (k, Some (k0 (is_live y' t)))) h K) by (eapply holds_ext; eauto).
    destruct (is_live y' t) eqn:L.
    + exists cur, K. split; [|split; [exact H2|exact HC]]. apply CT. intros ID. destruct K; cbn in ID; try tauto.
      destruct H as [H _]. unfold is_live in L. destruct (b_kind _ B _ T) as (x & X). rewrite X in L.
      destruct x as [d|]; [|discriminate]. rewrite (H t d X) in L. discriminate.
    + exists cur, (dead K). split; [exact CF|]. split; [|exact HC]. apply dead_holds; [exact H2|].
      intros t' d X. apply I2 in X. destruct (ended d) eqn:LD; [reflexivity|]. exfalso.
      assert (y_thread y' = Some t') by (apply (b_one _ B); exists d; auto). assert (t' = t) by congruence. subst t'.
      unfold is_live in L. unfold at_code in X. rewrite X, LD in L. discriminate.
  - (* StartT *)
    rewrite RQ. destruct CH as (EC & CH). destruct K; try tauto. destruct CH as (F' & HFF & CH). destruct H as [H HF].
    destruct (HFF _ _ _ _ _ HF) as [HF' ES]. assert (T : y_thread y = Some t) by (subst cur; exact HC).
    inversion E; subst; cbn [callof].
    + set (y2 := with_proc (with_proc y t (KTick, Some (body LMain))) me (k, Some k0)).
      assert (NT : me <> t) by (intros X; subst t; unfold at_code in A; congruence).
      assert (AT : forall q d, at_code y2 q KTick d -> (q = t /\ d = body LMain) \/ at_code y q KTick d).
      { intros q d X. unfold at_code, y2, with_proc, with_procs in X. cbn in X.
        destruct (nth_set_inv _ _ _ _ _ X) as [[? Z]|[? Z]]; [congruence|].
        destruct (nth_set_inv _ _ _ _ _ Z) as [[? Z']|[? Z']]; [left; split; [assumption|change (d = tick_main); congruence]|right; exact Z']. }
      assert (A2 : at_code y2 t KTick (body LMain)).
      { unfold at_code, y2, with_proc, with_procs. cbn [y_procs]. rewrite nth_set_other by exact NT.
        eapply nth_set_same; eauto. }
      split.
      { constructor.
        - intros q d X. destruct (AT _ _ X) as [[_ Z]|Z]; [subst; exact wf_main|eapply b_wf; eauto].
        - intros q (d & X & L). change (y_thread y2) with (y_thread y). destruct (AT _ _ X) as [[Z _]|Z]; [congruence|].
          rewrite (H _ _ Z) in L. discriminate.
        - change (y_state y2) with (y_state y). intros X. rewrite ES in X. discriminate.
        - change (y_thread y2) with (y_thread y). intros q X. assert (q = t) by congruence. subst q. eexists. exact A2. }
      exists (Some (Some t)), (KRun F'). split; [exact CH|]. split; [|exact T].
      exists t, (body LMain). split; [exact T|]. split; [exact A2|].
      exists (y_state y), (y_once y), (y_stop y), (y_world y), h, []. repeat split; auto.
      * apply solo_nil.
      * intros x r X. destruct (HI _ _ _ X) as (k1 & c1 & Z). unfold at_code in Z. congruence.
      * exists me. reflexivity.
    + rewrite app_nil_r. destruct (FR y' eq_refl eq_refl (fun x => x)) as [B2 I2]. split; [exact B2|].
      exists (Some (Some t)), (KDead F). split; [split; [exact GK|exact I]|]. split; [|exact T]. split; [|exact HF].
      intros q d X. apply I2 in X. eauto.
  - (* JoinT *)
    rewrite RQ. inversion E; subst. cbn [callof]. rewrite app_nil_r.
    destruct (FR y' eq_refl eq_refl (fun x => x)) as [B2 I2]. split; [exact B2|].
    exists cur, K. split; [exact CH|]. split; [eapply holds_ext; eauto|exact HC].
  - (* RosOk *)
    rewrite RQ. destruct b; [|congruence]. inversion E; subst. cbn [callof]. rewrite app_nil_r.
    destruct (FR y' eq_refl eq_refl (fun x => x)) as [B2 I2]. split; [exact B2|].
    exists cur, K. split; [exact CH|]. split; [eapply holds_ext; eauto|exact HC].
  - (* Root *)
    rewrite RQ. inversion E; subst. cbn [callof]. rewrite app_nil_r.
    destruct (FR y' eq_refl eq_refl (fun x => x)) as [B2 I2]. split; [exact B2|].
    eexists cur, _. split; [apply CH|]. split; [|exact HC].
    destruct K; cbn [see_world]; try (eapply holds_ext; eauto; fail).
    destruct H as [H HF]. split; [intros t d X; apply I2 in X; eauto|]. cbn. auto.
  - (* Call *)
    rewrite RQ. inversion E; subst. cbn [callof]. rewrite app_nil_r.
    destruct (FR y' eq_refl eq_refl (fun x => x)) as [B2 I2]. split; [exact B2|].
    exists cur, K. split; [exact (conj GK CH)|]. split; [eapply holds_ext; eauto|exact HC].
  - (* InCall *)
    rewrite RQ. destruct CH as (NO & FI & NR & CH). inversion E; subst. cbn [callof].
    destruct (FR (with_world y w') eq_refl eq_refl (fun x => x)) as [B2 I2]. split; [exact B2|].
    assert (HM : holds (with_proc (with_world y w') me (k, Some (match r with Raise => Crash | _ => k0 r end)))
                   (h ++ [ICall me o r]) (move_world (fun w w' => p_op P o w w' r) [ICall me o r] K)).
    { destruct K; cbn [move_world]; try (eapply holds_world; eauto; fail).
      destruct H as [H HF]. split; [intros t d X; apply I2 in X; eauto|]. cbn. eauto 10. }
    exists cur. eexists. split; [|split; [exact HM|exact HC]].
    destruct r; [apply CH|apply CH|]. specialize (CH Raise). apply chk_good in CH. cbn. split; [exact CH|].
    destruct K; cbn in *; auto.
  - (* RootState *)
    rewrite RQ. inversion E; subst. cbn [callof]. rewrite app_nil_r.
    destruct (FR y' eq_refl eq_refl (fun x => x)) as [B2 I2]. split; [exact B2|].
    eexists cur, _. split; [apply CH|]. split; [|exact HC].
    destruct K; cbn [see_world]; try (eapply holds_ext; eauto; fail).
    destruct H as [H HF]. split; [intros t d X; apply I2 in X; eauto|]. cbn. auto.
  - (* WriteOnce *)
    rewrite RQ. destruct CH as (NR & CH). inversion E; subst. cbn [callof]. rewrite app_nil_r.
    destruct (FR (with_once y b) eq_refl eq_refl (fun x => x)) as [B2 I2]. split; [exact B2|].
    eexists cur, _. split; [exact CH|]. split; [|exact HC].
    destruct K; cbn [put_once]; try (eapply holds_world; eauto; fail).
    destruct H as [H HF]. split; [intros t d X; apply I2 in X; eauto|]. cbn. eauto.
  - (* WriteStop *)
    rewrite RQ. destruct CH as (NR & CH). inversion E; subst. cbn [callof]. rewrite app_nil_r.
    destruct (FR (with_stop y b) eq_refl eq_refl (fun x => x)) as [B2 I2]. split; [exact B2|].
    eexists cur, _. split; [exact CH|]. split; [|exact HC].
    destruct K; cbn [put_stop]; try (eapply holds_world; eauto; fail).
    destruct H as [H HF]. split; [intros t d X; apply I2 in X; eauto|]. cbn. eauto.
  - (* Unlink *)
    rewrite RQ. destruct CH as (NR & CH). inversion E; subst. cbn [callof].
    destruct (FR (with_world y w') eq_refl eq_refl (fun x => x)) as [B2 I2]. split; [exact B2|].
    eexists cur, _. split; [exact CH|]. split; [|exact HC].
    destruct K; cbn [move_world]; try (eapply holds_world; eauto; fail).
    destruct H as [H HF]. split; [intros t d X; apply I2 in X; eauto|]. cbn. eauto 10.
  - (* ClearSub *)
    rewrite RQ. destruct CH as (NR & CH). inversion E; subst. cbn [callof].
    destruct (FR (with_world y w') eq_refl eq_refl (fun x => x)) as [B2 I2]. split; [exact B2|].
    eexists cur, _. split; [exact CH|]. split; [|exact HC].
    destruct K; cbn [move_world]; try (eapply holds_world; eauto; fail).
    destruct H as [H HF]. split; [intros t d X; apply I2 in X; eauto|]. cbn. eauto 10.
  - (* Lock *)
    rewrite RQ. inversion E; subst. cbn [callof]. rewrite app_nil_r.
    destruct (FR (with_lock y (Some me)) eq_refl eq_refl (fun x => x)) as [B2 I2]. split; [exact B2|].
    exists cur, K. split; [exact CH|]. split; [eapply holds_ext; eauto|exact HC].
  - (* Unlock *)
    rewrite RQ. inversion E; subst. cbn [callof]. rewrite app_nil_r.
    destruct (FR (with_lock y None) eq_refl eq_refl (fun x => x)) as [B2 I2]. split; [exact B2|].
    exists cur, K. split; [exact CH|]. split; [eapply holds_ext; eauto|exact HC].
  - (* Edit *)
    rewrite RQ. inversion E; subst. cbn [callof]. rewrite app_nil_r.
    destruct (FR y' eq_refl eq_refl (fun x => x)) as [B2 I2]. split; [exact B2|].
    exists cur, K. split; [exact (conj GK CH)|]. split; [eapply holds_ext; eauto|exact HC].
  - (* InEdit *)
    rewrite RQ. destruct CH as (KC & CH). inversion E; subst. cbn [callof].
    destruct (FR (with_world y w') eq_refl eq_refl (fun x => x)) as [B2 I2]. split; [exact B2|].
    eexists cur, _. split; [apply CH|]. split; [|exact HC].
    destruct K; cbn [move_world is_dead] in *; destruct KC as [KC|KC]; try tauto; try discriminate.
    + eapply holds_world with (y := y); eauto; cbn; auto.
    + destruct H as [H HF]. split; [intros t d X; apply I2 in X; eauto|]. cbn. eauto 10.
  - (* Goto *)
    rewrite RQ. inversion E; subst. cbn [callof]. rewrite app_nil_r.
    destruct (FR y' eq_refl eq_refl (fun x => x)) as [B2 I2]. split; [exact B2|].
    exists None, K. split; [apply Hpre; exact CH|]. split; [eapply holds_ext; eauto|exact I].
Qed.
End Chk.
End Sys.
