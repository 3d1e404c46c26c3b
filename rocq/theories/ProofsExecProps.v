(** The properties of single commands and of histories of commands, from the program
    logic of ProofsExec.v and ProofsExecRun.v. *)
From Coq Require Import List Bool Arith Lia.
From Verif Require Import Base ModelExec SpecExec ProofsExec ProofsExecRun.
Import ListNotations.

(** ** Histories *)

Definition hcall (i : item) : list (nat * op * res state) :=
  match i with ICall p o r => [(p, o, r)] | IStart _ _ => [] end.
Definition hcalls (h : hist) : list (nat * op * res state) := flat_map hcall h.
Lemma hcalls_app : forall a b, hcalls (a ++ b) = hcalls a ++ hcalls b.
Proof. intros. unfold hcalls. apply flat_map_app. Qed.
Lemma calls_items : forall es, calls es = hcalls (items es).
Proof.
  induction es as [|e es]; [reflexivity|]. destruct e as [k|p a]; cbn [calls items]; [exact IHes|].
  rewrite hcalls_app. destruct a; cbn [callof hcalls flat_map hcall app]; try exact IHes; [destruct b; exact IHes|].
  rewrite IHes. reflexivity.
Qed.
Lemma starts_items : forall es m t, In (IStart m t) (items es) -> starts t es.
Proof.
  induction es as [|e es]; intros m t H; [destruct H|]. destruct e as [k|p a]; cbn in H.
  - destruct (IHes _ _ H) as (q & X). exists q. right. exact X.
  - apply in_app_or in H. destruct H as [H|H]; [|destruct (IHes _ _ H) as (q & X); exists q; right; exact X].
    destruct a; cbn in H; try tauto; [destruct b; cbn in H; [|tauto]|]; destruct H as [H|[]]; try discriminate.
    injection H as H1 H2. subst. exists m. left. reflexivity.
Qed.

(** ** The tick thread alone, in terms of its own program *)

(** [G] holds at every point, [I] at the loop, [D] at the end, [C] when an
    exception leaves the program. *)
Section Tchk.
Variable t : nat.
Variable I : tstate -> bool -> bool -> list (op * res state) -> Prop.
Variable G D C : tstate -> list (op * res state) -> Prop.

Fixpoint tchk (s : tstate) (o p : bool) (l : list (op * res state)) (c : code) : Prop :=
  G s l /\
  match c with
  | Done _ _ => D s l
  | Crash => C s l
  | ReadState k => tchk s o p l (k s)
  | WriteState s' k => tchk s' o p l k
  | Root k => forall r, tchk s o p l (k r)
  | Call x k | InCall x k => forall r, match r with Raise => G s (l ++ [(x, r)]) /\ C s (l ++ [(x, r)]) | _ => tchk s o p (l ++ [(x, r)]) (k r) end
  | RootState k => forall r, tchk s o p l (k r)
  | ReadOnce k => tchk s o p l (k o)
  | WriteOnce b k => tchk s b p l k
  | ReadStop k => tchk s o p l (k p)
  | Init k => C s l /\ tchk s o p l k
  | Push k => C s l /\ forall r, tchk s o p l (k r)
  | Orphans k => forall b, tchk s o p l (k b)
  | Goto LLoop => I s o p l
  | _ => False
  end.

Hypothesis Hloop : forall s o p l, I s o p l -> tchk s o p l (body LLoop).

Definition hown (h : hist) : list (op * res state) := map (fun c => (snd (fst c), snd c)) (hcalls h).

Lemma tchk_good : forall c s o p l, tchk s o p l c -> G s l.
Proof. destruct c; cbn; tauto. Qed.

Lemma solo_tchk : forall s0 o0 p0, tchk s0 o0 p0 [] (body LMain) ->
  forall l c s o p, solo t s0 o0 p0 l c s o p -> tchk s o p (hown l) c.
Proof.
  intros s0 o0 p0 H0 l c s o p S. induction S as [|l c s o p a c' s' o' p' S IH L F]; [exact H0|].
  assert (N : callof t a = [] -> hown (l ++ callof t a) = hown l) by (intros E; rewrite E, app_nil_r; reflexivity).
  assert (GL := tchk_good _ _ _ _ _ IH).
  destruct L; cbn in IH; destruct IH as [_ IH]; try tauto; cbn [flow] in F;
    try (rewrite N by reflexivity); try (destruct F as (F0 & F1 & F2 & F3); subst; auto);
    try (destruct F as (F1 & F2 & F3); subst; auto).
  - split; [exact GL|exact IH].
  - assert (E : forall x r, hown (l ++ callof t (AEnd x r)) = hown l ++ [(x, r)]).
    { intros. unfold hown. rewrite hcalls_app, map_app. reflexivity. }
    rewrite E. specialize (IH r). destruct r; auto.
  - destruct IH. destruct b; auto. cbn. auto.
  - destruct IH as [IC IH]. specialize (IH r). destruct r; auto. cbn. auto.
  - destruct l0; try tauto. apply Hloop. exact IH.
Qed.
End Tchk.

Definition oticks (l : list (op * res state)) : list (res state) :=
  map snd (filter (fun c => match fst c with OTick => true | _ => false end) l).
Lemma oticks_app : forall a b, oticks (a ++ b) = oticks a ++ oticks b.
Proof. intros. unfold oticks. rewrite filter_app, map_app. reflexivity. Qed.

Arguments oticks : simpl never.
Arguments hown : simpl never.

(** TICK_ONCE: one tick, then WAITING_FOR_TICK. *)
Definition once_end (s : tstate) (l : list (op * res state)) : Prop :=
  s = TERROR \/ s = WAITING_FOR_TICK /\ exists x, oticks l = [Ok x].
Lemma solo_once : forall t l c s o p, solo t TICKING true false l c s o p ->
  length (oticks (hown l)) <= 1 /\
  match c with Done _ _ => once_end s (hown l) | Crash => s = TICKING | _ => True end.
Proof.
  intros t l c s o p S.
  assert (H : tchk (fun s o p l => s = TICKING /\ o = true /\ p = false /\ oticks l = [])
                (fun _ l => length (oticks l) <= 1) once_end (fun s _ => s = TICKING) s o p (hown l) c).
  { assert (EE : forall l, once_end TERROR l) by (intros; left; reflexivity).
    eapply solo_tchk; [| |exact S].
    - intros s1 o1 p1 l1 (-> & -> & -> & E). 
      assert (LE : length (oticks l1) <= 1) by (rewrite E; cbn; lia).
      assert (LT : forall r, length (oticks (l1 ++ [(OTick, r)])) <= 1) by (intros; rewrite oticks_app, E; unfold oticks; cbn; lia).
      cbn. split; [exact LE|]. split; [exact LE|]. split; [reflexivity|].
      intros [u|e|]; cbn; [|auto|auto]. split; [exact LE|]. intros [x|e|]; cbn; auto. repeat split; auto.
      right. split; [reflexivity|]. exists x. rewrite oticks_app, E. reflexivity.
    - assert (L0 : length (oticks []) <= 1) by (unfold oticks; cbn; lia).
      assert (LS : forall r, length (oticks ([] ++ [(OSetup, r)])) <= 1) by (intros; unfold oticks; cbn; lia).
      cbn. split; [exact L0|]. intros [|]; cbn; [auto|].
      split; [exact L0|]. intros [| |]; cbn; auto.
      split; [exact L0|]. intros []; cbn; repeat split; auto; intros [?|?|]; cbn; repeat split; auto;
        intros []; cbn; repeat split; auto. }
  split; [exact (tchk_good _ _ _ _ _ _ _ _ _ H)|]. destruct c; auto; apply H.
Qed.

(** TICK_UNTIL_RESULT: ticks without a result, then one with a result and an untick. *)
Definition until_end (s : tstate) (l : list (op * res state)) : Prop :=
  s = TERROR \/ s = TIDLE /\ exists l0 r x, l = l0 ++ [(OTick, r); (OUntick, Ok x)] /\
    result r /\ Forall going (oticks l0).
Definition until_raise (s : tstate) (l : list (op * res state)) : Prop :=
  s = TIDLE /\ exists l0 r, l = l0 ++ [(OTick, r); (OUntick, Raise)] /\
    result r /\ Forall going (oticks l0).
Definition until_now (s : tstate) (l : list (op * res state)) : Prop :=
  exists l0 rest, oticks l = l0 ++ rest /\ Forall going l0 /\ length rest <= 1 /\
    (s = TIDLE -> exists r, rest = [r] /\ result r).
Lemma solo_until : forall t l c s o p, solo t TICKING false true l c s o p ->
  until_now s (hown l) /\
  match c with Done _ _ => until_end s (hown l) | Crash => s = TICKING \/ until_raise s (hown l) | _ => True end.
Proof.
  intros t l c s o p S.
  assert (H : tchk (fun s o p l => s = TICKING /\ o = false /\ p = true /\ Forall going (oticks l))
                until_now until_end (fun s l => s = TICKING \/ until_raise s l) s o p (hown l) c).
  { assert (EE : forall l, until_end TERROR l) by (intros; left; reflexivity).
    assert (UN : forall s l, s <> TIDLE -> Forall going (oticks l) -> until_now s l).
    { intros s1 l1 N F. exists (oticks l1), []. rewrite app_nil_r. cbn. repeat split; auto. tauto. }
    assert (U1 : forall s l1 r, (s = TIDLE -> result r) -> Forall going (oticks l1) -> until_now s (l1 ++ [(OTick, r)])).
    { intros s1 l1 r N F. exists (oticks l1), [r]. rewrite oticks_app. cbn. repeat split; eauto. }
    assert (U2 : forall s l1 r r', (s = TIDLE -> result r) -> Forall going (oticks l1) ->
               until_now s ((l1 ++ [(OTick, r)]) ++ [(OUntick, r')])).
    { intros s1 l1 r r' N F. exists (oticks l1), [r]. rewrite !oticks_app. unfold oticks at 3. cbn. rewrite app_nil_r.
      repeat split; eauto. }
    assert (NT : TICKING <> TIDLE) by discriminate. assert (NE : TERROR <> TIDLE) by discriminate.
    eapply solo_tchk; [| |exact S].
    - intros s1 o1 p1 l1 (-> & -> & -> & F).
      assert (LE := UN _ _ NT F). assert (LR := UN _ _ NE F).
      assert (LT : forall r, until_now TICKING (l1 ++ [(OTick, r)])) by (intros; apply U1; [discriminate|exact F]).
      assert (LF : forall r, until_now TERROR (l1 ++ [(OTick, r)])) by (intros; apply U1; [discriminate|exact F]).
      assert (LU : forall r r', until_now TERROR ((l1 ++ [(OTick, r)]) ++ [(OUntick, r')])) by (intros; apply U2; [discriminate|exact F]).
      cbn -[state_in]. split; [exact LE|]. split; [exact LE|]. split; [auto|].
      intros [u|e|]; [|cbn; auto|cbn; auto]. cbn -[state_in]. split; [exact LE|].
      intros [x|e|]; cbn -[state_in]; auto. split; [auto|].
      destruct (state_in x [FAILED; SUCCEEDED]) eqn:EX.
      + assert (RX : result (Ok x)) by (destruct x; cbn in EX; try discriminate; first [left; reflexivity|right; reflexivity]).
        cbn. repeat split; auto. intros [y|e|]; cbn; auto; split; auto.
        * right. split; [reflexivity|]. exists l1, (Ok x), y. rewrite <- app_assoc. auto.
        * right. split; [reflexivity|]. exists l1, (Ok x). rewrite <- app_assoc. auto.
      + cbn. repeat split; auto. rewrite oticks_app. apply Forall_app. split; [exact F|].
        constructor; [|constructor]. exists x. split; [reflexivity|]. destruct x; cbn in EX; try discriminate; split; discriminate.
    - assert (F0 : Forall going (oticks [])) by constructor.
      assert (FS : forall r, Forall going (oticks ([] ++ [(OSetup, r)]))) by (intros; constructor).
      assert (L0 := UN _ _ NT F0). assert (LS := fun r => UN _ _ NT (FS r)).
      assert (L1 := UN _ _ NE F0). assert (L2 := fun r => UN _ _ NE (FS r)).
      cbn. split; [exact L0|]. intros [|]; cbn; [auto|].
      split; [exact L0|]. intros [| |]; cbn; auto.
      split; [exact L0|]. intros []; cbn; repeat split; auto; intros [?|?|]; cbn; repeat split; auto;
        intros []; cbn; repeat split; auto. }
  split; [exact (tchk_good _ _ _ _ _ _ _ _ _ H)|]. destruct c; auto; apply H.
Qed.

(** TICK_PERIODICALLY: ticks until there is an error. *)
Lemma solo_periodically : forall t l c s o p, solo t TICKING false false l c s o p ->
  match c with Done _ _ => s = TERROR | Crash => s = TICKING | _ => True end.
Proof.
  intros t l c s o p S.
  assert (H : tchk (fun s o p l => s = TICKING /\ o = false /\ p = false)
                (fun _ _ => True) (fun s _ => s = TERROR) (fun s _ => s = TICKING) s o p (hown l) c).
  { eapply solo_tchk; [| |exact S].
    - intros s1 o1 p1 l1 (-> & -> & ->). cbn. repeat split; auto.
      intros [u|e|]; cbn; repeat split; auto. intros [x|e|]; cbn; repeat split; auto.
    - cbn. split; [exact I|]. intros [|]; cbn; [auto|].
      split; [exact I|]. intros [| |]; cbn; auto.
      split; [exact I|]. intros []; cbn; repeat split; auto; intros [?|?|]; cbn; repeat split; auto;
        intros []; cbn; repeat split; auto. }
  destruct c; auto; apply H.
Qed.

Lemma solo_own : forall t s0 o0 p0 l c s o p, solo t s0 o0 p0 l c s o p -> wf c /\ forall i, In i l -> exists x r, i = ICall t x r.
Proof.
  intros t s0 o0 p0 l c s o p S. split; [eapply solo_wf; eauto|].
  induction S as [|l c s o p a c' s' o' p' S IH L F]; [intros i []|].
  intros i H. apply in_app_or in H. destruct H as [H|H]; [auto|].
  pose proof (wf_tick _ _ _ (solo_wf _ _ _ _ _ _ _ _ _ S) L) as N.
  destruct a; cbn in H; try tauto; [destruct N; exact I|]. destruct H as [<-|[]]. eauto.
Qed.

Lemma filter_none : forall {A} (f : A -> bool) l, (forall x, In x l -> f x = false) -> filter f l = [].
Proof. induction l as [|a l IH]; intros H; [reflexivity|]. cbn. rewrite (H a) by (left; reflexivity). apply IH. intros x X. apply H. right. exact X. Qed.
Lemma filter_all : forall {A} (f : A -> bool) l, (forall x, In x l -> f x = true) -> filter f l = l.
Proof. induction l as [|a l IH]; intros H; [reflexivity|]. cbn. rewrite (H a) by (left; reflexivity). f_equal. apply IH. intros x X. apply H. right. exact X. Qed.
Lemma in_hcalls : forall p o r h, In (p, o, r) (hcalls h) -> In (ICall p o r) h.
Proof.
  intros p o r h H. unfold hcalls in H. apply in_flat_map in H. destruct H as (i & H1 & H2).
  destruct i; cbn in H2; [|tauto]. destruct H2 as [H2|[]]. injection H2 as -> -> ->. exact H1.
Qed.

Lemma ran_calls : forall es h0 m t l,
  items es = h0 ++ IStart m t :: l -> (forall x r, ~ In (ICall t x r) h0) ->
  (forall i, In i l -> exists x r, i = ICall t x r) ->
  calls_of t es = hown l /\ starts t es.
Proof.
  intros es h0 m t l E N O. split.
  - unfold calls_of. rewrite calls_items, E, hcalls_app. cbn [hcalls flat_map hcall app]. fold hcalls.
    rewrite filter_app, filter_none, filter_all; [reflexivity| |].
    + intros [[p o] r] H. apply in_hcalls in H. destruct (O _ H) as (x & r' & X). injection X as -> _ _. apply Nat.eqb_refl.
    + intros [[p o] r] H. apply in_hcalls in H. cbn. apply Nat.eqb_neq. intros ->. eapply N; eauto.
  - eapply starts_items. rewrite E. apply in_or_app. right. left. reflexivity.
Qed.
Lemma ticks_of_calls : forall t es, ticks_of t es = oticks (calls_of t es).
Proof.
  intros t es. unfold ticks_of, ticks, oticks, calls_of. induction (calls es) as [|[[p o] r] l IH]; [reflexivity|].
  cbn. destruct o; cbn; destruct (p =? t); cbn; rewrite ?IH; reflexivity.
Qed.
Lemma ticks_of_all : forall es t l, hcalls (items es) = hcalls l -> (forall i, In i l -> exists x r, i = ICall t x r) ->
  ticks es = map (fun r => (t, OTick, r)) (oticks (hown l)).
Proof.
  intros es t l E O. unfold ticks. rewrite calls_items, E. clear E. unfold oticks, hown.
  assert (X : forall c, In c (hcalls l) -> fst (fst c) = t).
  { intros [[p o] r] H. apply in_hcalls in H. destruct (O _ H) as (? & ? & Z). injection Z as -> _ _. reflexivity. }
  induction (hcalls l) as [|[[p o] r] k IH]; [reflexivity|].
  assert (p = t) by (apply (X (p, o, r)); left; reflexivity). subst p.
  cbn. rewrite IH by (intros; apply X; right; assumption). destruct o; reflexivity.
Qed.

Section Props.
Context {W : Type}.
Variable P : plant W.
Implicit Types (y : sys W) (K : @know W) (pre : label -> bool -> @know W -> Prop)
  (Q : bool -> @know W -> bool -> option tstate -> Prop) (good : @know W -> Prop).

Lemma reachable_sound : forall y, reachable P y -> sound P y.
Proof. intros y (w & es & R). eapply runs_sound; [exact R|]. apply fresh_sound. Qed.

Lemma handling_seg : forall Q pre good y0 k p es y K, reachable P y0 -> handling P y0 k p es y ->
  (forall l rq K, pre l rq K -> chk P p Q pre good None rq K (body l)) ->
  holds y0 [] K -> chk P p Q pre good None false K (first_code k) ->
  seg P p Q pre good es y (items es).
Proof.
  intros Q pre good y0 k p es y K R (C & -> & NA & y1 & S & RU) HP H CH.
  inversion S; subst.
  change (items es) with ([] ++ items es). eapply seg_runs; [exact HP| |exact RU|exact NA].
  change (with_procs y0 (y_procs y0 ++ [(k, Some (first_code k))])) with (arrival y0 k).
  apply seg_arrive with (K := K); auto; [apply sound_base with (P := P), reachable_sound, R|].
  intros ? ? ? [].
Qed.
Lemma fresh_holds : forall y0, reachable P y0 -> calm y0 -> holds y0 [] KFresh.
Proof. intros y0 R C. eapply sound_calm; [apply reachable_sound, R|exact C]. Qed.
Definition start_fact y0 : @fact W := fun st o p w h => st = y_state y0 /\ w = y_world y0 /\ h = [].
Lemma dead_start : forall y0, no_tick_thread y0 -> holds y0 [] (KDead (start_fact y0)).
Proof.
  intros y0 N. split; [|unfold start_fact; auto]. intros t c A. destruct (ended c) eqn:E; [reflexivity|].
  exfalso. apply (N t). exists c. auto.
Qed.
Lemma dead_none : forall y h F, holds y h (KDead F) -> no_tick_thread y.
Proof. intros y h F [H _] t (c & A & L). rewrite (H _ _ A) in L. discriminate. Qed.

Ltac crunch1 :=
  match goal with
  | |- _ /\ _ => split
  | |- True => exact I
  | |- anyK _ => exact I
  | |- ?a = ?a => reflexivity
  | |- _ <> _ => discriminate
  | H : False |- _ => destruct H
  | H : ~ True |- _ => exfalso; apply H; exact I
  | H : Some _ = None |- _ => discriminate H
  | H : None = Some _ |- _ => discriminate H
  | H : Some _ = Some _ |- _ => injection H as H; subst
  | |- forall x : tstate, _ => intros []
  | |- forall x : rootres, _ => intros []
  | |- forall x : option nat, _ => intros [?|]
  | |- forall x : res state, _ => intros [?|?|]
  | |- forall x : bool, _ => intros []
  | |- forall x, _ => intro
  | |- context [state_in ?s ?l] => destruct (state_in s l)
  | |- _ \/ True => right; exact I
  | |- ?a = ?a \/ _ => left; reflexivity
  end; cbn -[state_in ran].
Ltac crunch := cbn -[state_in ran]; repeat crunch1.


(** Opens what is known at a leaf. *)
Ltac opened :=
  repeat match goal with
         | H : _ /\ _ |- _ => destruct H
         | H : exists _, _ |- _ => destruct H
         end; subst.


(** *** TICK_ONCE *)

Definition onceF (N : hist -> Prop) : @fact W := fun st o p w h => st = TICKING /\ o = true /\ p = false /\ N h.
Definition oncePre N (l : label) (rq : bool) K : Prop :=
  match l, K with LOnceWait, KRun F => le (KRun F) (KRun (onceF N)) | _, _ => False end.
Definition onceQ N (rq : bool) K (ok : bool) (ts : option tstate) : Prop :=
  ok = true ->
  match K with
  | KDead F => forall st o p w h, F st o p w h ->
      (p_root P w = REmpty /\ ts = Some st /\ N h) \/
      (exists t c, ran (onceF N) c t st o p h /\ ended c = true /\ st = WAITING_FOR_TICK /\ ts = Some WAITING_FOR_TICK)
  | _ => False
  end.
Lemma onceQ_down : forall N, down (onceQ N).
Proof. intros N rq K K' ok ts L H E. specialize (H E). destruct K, K'; cbn in *; try tauto. intros. eauto. Qed.
Lemma oncePre_down : forall N, pre_down (oncePre N).
Proof. intros N l rq K K' L H. destruct l, K, K'; cbn in *; tauto || eauto. Qed.
Lemma ran_le : forall F F' c t st o p h, le (KRun F) (KRun F') -> ran F c t st o p h -> @ran W F' c t st o p h.
Proof. intros F F' c t st o p h L (s0 & o0 & p0 & w0 & h0 & l & X & Y). exists s0, o0, p0, w0, h0, l. split; [apply L; exact X|exact Y]. Qed.
Lemma once_body : forall N me l rq K, oncePre N l rq K -> chk P me (onceQ N) (oncePre N) anyK None rq K (body l).
Proof.
  intros N me l rq K H. destruct l, K; cbn in H; try tauto. crunch; intros; auto.
  all: cbn [onceQ] in *; unfold onceQ; try discriminate.
  intros _ ? ? ? ? ? X. opened. right. eauto 10 using ran_le.
Qed.

Lemma once_dispatch : forall (N : hist -> Prop) me cur K, not_run K ->
  (match K with KDead F => forall st o p w h, F st o p w h -> N h | _ => forall h, N h end) ->
  fin K -> chk P me (onceQ N) (oncePre N) anyK cur false K (dispatch TICK_ONCE).
Proof.
  intros N me cur K NR HN FK. destruct K; cbn in NR, FK; try tauto; crunch; intros; auto.
  all: try (unfold onceQ; discriminate).
  all: try (intros _ st o p w h X; cbn beta in X; left; opened; try discriminate; eauto 10; fail).
  all: exists (onceF N); split; [intros st o p w h X; unfold onceF; opened; eauto 10|].
  all: crunch; intros; auto.
Qed.
Lemma once_first : forall (N : hist -> Prop) me K, not_run K ->
  (match K with KDead F => forall st o p w h, F st o p w h -> N h | _ => forall h, N h end) ->
  fin K -> chk P me (onceQ N) (oncePre N) anyK None false K (first_code (KControl TICK_ONCE)).
Proof.
  intros N me K NR HN FK. apply control_chk; auto using onceQ_down, oncePre_down, anyK_down, once_dispatch.
  discriminate.
Qed.


(** The thread of a TICK_ONCE that has come to its end in WAITING_FOR_TICK. *)
Definition still y0 (h : hist) : Prop := no_tick_thread y0 -> h = [].
Lemma once_ran : forall y0 c t st o p es, ran (onceF (still y0)) c t st o p (items es) ->
  ended c = true -> st = WAITING_FOR_TICK ->
  exists x, starts t es /\ ticks_of t es = [Ok x] /\ (no_tick_thread y0 -> ticks es = [(t, OTick, Ok x)]).
Proof.
  intros y0 c t st o p es (s0 & o0 & p0 & w0 & h0 & l & (-> & -> & -> & HN) & _ & S & NI & m & E) EC ST. subst st.
  destruct (solo_own _ _ _ _ _ _ _ _ _ S) as [_ O]. destruct (ran_calls _ _ _ _ _ E NI O) as [C1 C2].
  rewrite ticks_of_calls, C1. destruct (solo_once _ _ _ _ _ _ S) as [_ X].
  assert (exists x, oticks (hown l) = [Ok x]) as (x & X').
  { destruct c; try discriminate. destruct X as [X|[_ X]]; [discriminate|exact X]. }
  exists x. split; [exact C2|]. split; [exact X'|]. intros N0.
  erewrite (ticks_of_all es t l); [rewrite X'; reflexivity| |exact O].
  rewrite E, hcalls_app, (HN N0). reflexivity.
Qed.

Lemma no_tick_dec : forall y, no_tick_thread y \/ ~ no_tick_thread y.
Proof.
  intros y. unfold no_tick_thread, tick_thread_alive, at_code.
  enough (H : (exists t c, nth_error (y_procs y) t = Some (KTick, Some c) /\ ended c = false) \/
              (forall t c, nth_error (y_procs y) t = Some (KTick, Some c) -> ended c = true)).
  { destruct H as [(t & c & H)|H]; [right|left].
    - intros X. apply (X t). eauto.
    - intros t (c & X & L). rewrite (H _ _ X) in L. discriminate. }
  induction (y_procs y) as [|[k x] l IH]; [right; intros [|t] c X; discriminate|].
  destruct IH as [(t & c & H)|IH]; [left; exists (Datatypes.S t), c; exact H|].
  assert (D : (k = KTick /\ exists c, x = Some c /\ ended c = false) \/ (k = KTick -> forall c, x = Some c -> ended c = true)).
  { destruct k; try (right; discriminate). destruct x as [c|]; [|right; discriminate].
    destruct (ended c) eqn:L; [right|left]; [congruence|eauto]. }
  destruct D as [(-> & c & -> & L)|D]; [left; exists 0, c; auto|].
  right. intros [|t] c X; cbn in X; [injection X as -> ->; eauto|eauto].
Qed.
Lemma start_know : forall y0, reachable P y0 -> calm y0 ->
  exists K, holds y0 [] K /\ not_run K /\ fin K /\
    (match K with KDead F => forall st o p w h, F st o p w h -> still y0 h | _ => forall h, still y0 h end).
Proof.
  intros y0 R C. destruct (no_tick_dec y0) as [N|N].
  - exists (KDead (start_fact y0)). split; [apply dead_start, N|]. cbn. repeat split; auto.
    intros st o p w h (_ & _ & E) _. exact E.
  - exists KFresh. split; [apply fresh_holds; assumption|]. cbn. repeat split; auto. intros h X. tauto.
Qed.

Theorem tick_once_ok : forall y0 p es y ts, reachable P y0 ->
  handled P y0 (KControl TICK_ONCE) p es y true ts ->
  no_tick_thread y /\ ts = Some (y_state y) /\
  ((p_root P (y_world y) = REmpty /\ (no_tick_thread y0 -> ticks es = [])) \/
   (y_state y = WAITING_FOR_TICK /\
    exists t x, starts t es /\ ticks_of t es = [Ok x] /\
      (no_tick_thread y0 -> ticks es = [(t, OTick, Ok x)]))).
Proof.
  intros y0 p es y ts R (HH & A). destruct (start_know _ R (proj1 HH)) as (K & HK & NR & FK & HN).
  pose proof (handling_seg _ _ _ _ _ _ _ _ K R HH (once_body (still y0) _) HK (once_first (still y0) p K NR HN FK)) as S.
  destruct (seg_answer _ _ _ _ _ _ _ _ _ _ S A) as (rq1 & K1 & _ & _ & Q1 & H1 & B & _).
  specialize (Q1 eq_refl). destruct K1; try tauto.
  split; [eapply dead_none; eauto|]. destruct H1 as [_ H1].
  destruct (Q1 _ _ _ _ _ H1) as [(X1 & X2 & X3)|(t & c & X1 & EC & ST & TS)].
  - split; [exact X2|]. left. split; [exact X1|]. intros N0. unfold ticks. rewrite calls_items, (X3 N0). reflexivity.
  - split; [congruence|]. right. split; [exact ST|]. exists t. eapply once_ran; eauto.
Qed.

(** *** TICK_UNTIL_RESULT and TICK_PERIODICALLY *)

Definition multF N (b : bool) : @fact W := fun st o p w h => st = TICKING /\ o = false /\ p = b /\ N h.
Definition noPre (l : label) (rq : bool) K : Prop := False.
Definition multQ N (b : bool) (rq : bool) K (ok : bool) (ts : option tstate) : Prop :=
  ok = true ->
  match K with
  | KDead F => forall st o p w h, F st o p w h -> p_root P w = REmpty /\ ts = Some st /\ N h
  | KRun F => le (KRun F) (KRun (multF N b))
  | _ => False
  end.
Lemma multQ_down : forall N b, down (multQ N b).
Proof. intros N b rq K K' ok ts L H E. specialize (H E). destruct K, K'; cbn in *; try tauto; intros; eauto. Qed.
Lemma noPre_down : pre_down noPre.
Proof. intros l rq K K' L H. exact H. Qed.
Definition multC (b : bool) : cmd := if b then TICK_UNTIL_RESULT else TICK_PERIODICALLY.
Lemma mult_dispatch : forall (N : hist -> Prop) b me cur K, not_run K ->
  (match K with KDead F => forall st o p w h, F st o p w h -> N h | _ => forall h, N h end) ->
  fin K -> chk P me (multQ N b) noPre anyK cur false K (dispatch (multC b)).
Proof.
  intros N b me cur K NR HN FK. destruct b; destruct K; cbn in NR, FK; try tauto; crunch; intros; auto.
  all: try (unfold multQ; discriminate).
  all: try (intros _ st o p w h X; cbn beta in X; opened; try discriminate; (split; [assumption|split; [reflexivity|eauto 4]])).
  all: first [exists (multF N true); split; [intros st o p w h X; unfold multF; cbn beta in X; opened; repeat split; eauto 4; fail|]
             |exists (multF N false); split; [intros st o p w h X; unfold multF; cbn beta in X; opened; repeat split; eauto 4; fail|]].
  all: crunch; intros; auto.
  all: intros _; cbn; auto.
Qed.
Lemma mult_first : forall (N : hist -> Prop) b me K, not_run K ->
  (match K with KDead F => forall st o p w h, F st o p w h -> N h | _ => forall h, N h end) ->
  fin K -> chk P me (multQ N b) noPre anyK None false K (first_code (KControl (multC b))).
Proof.
  intros N b me K NR HN FK. apply control_chk; auto using multQ_down, noPre_down, anyK_down, mult_dispatch.
  discriminate.
Qed.
Lemma mult_seg : forall b y0 p es y ts, reachable P y0 ->
  handled P y0 (KControl (multC b)) p es y true ts ->
  (p_root P (y_world y) = REmpty /\ no_tick_thread y /\ ts = Some (y_state y) /\ (no_tick_thread y0 -> ticks es = [])) \/
  base y /\ exists t c l, y_thread y = Some t /\ at_code y t KTick c /\
    solo t TICKING false b l c (y_state y) (y_once y) (y_stop y) /\
    calls_of t es = hown l /\ starts t es /\
    (no_tick_thread y0 -> ticks es = map (fun r => (t, OTick, r)) (ticks_of t es)).
Proof.
  intros b y0 p es y ts R (HH & A). destruct (start_know _ R (proj1 HH)) as (K & HK & NR & FK & HN).
  pose proof (handling_seg _ _ _ _ _ _ _ _ K R HH (fun l rq K (H : noPre l rq K) => match H with end) HK
    (mult_first (still y0) b p K NR HN FK)) as S.
  destruct (seg_answer _ _ _ _ _ _ _ _ _ _ S A) as (rq1 & K1 & _ & _ & Q1 & H1 & B & _).
  specialize (Q1 eq_refl). destruct K1; try tauto.
  - left. assert (ND := dead_none _ _ _ H1). destruct H1 as [_ H1]. destruct (Q1 _ _ _ _ _ H1) as (X1 & X2 & X3).
    repeat split; auto. intros N0. unfold ticks. rewrite calls_items, (X3 N0). reflexivity.
  - right. split; [exact B|]. destruct H1 as (t & c & T & AT & RN).
    apply (ran_le _ _ _ _ _ _ _ _ Q1) in RN.
    destruct RN as (s0 & o0 & p0 & w0 & h0 & l & (-> & -> & -> & HN') & _ & SO & NI & m & E).
    destruct (solo_own _ _ _ _ _ _ _ _ _ SO) as [_ O]. destruct (ran_calls _ _ _ _ _ E NI O) as [C1 C2].
    exists t, c, l. repeat split; auto. intros N0. rewrite ticks_of_calls, C1.
    apply ticks_of_all; [|exact O]. rewrite E, hcalls_app, (HN' N0). reflexivity.
Qed.

Lemma not_alive : forall y t c, ~ tick_thread_alive y t -> at_code y t KTick c -> ended c = true.
Proof. intros y t c N A. destruct (ended c) eqn:L; [reflexivity|]. destruct N. exists c. auto. Qed.

Theorem until_result_ok : forall y0 p es y ts, reachable P y0 ->
  handled P y0 (KControl TICK_UNTIL_RESULT) p es y true ts ->
  (p_root P (y_world y) = REmpty /\ no_tick_thread y /\ ts = Some (y_state y) /\ (no_tick_thread y0 -> ticks es = [])) \/
  exists t, starts t es /\
    (no_tick_thread y0 -> ticks es = map (fun r => (t, OTick, r)) (ticks_of t es)) /\
    (exists l0 rest, ticks_of t es = l0 ++ rest /\ Forall going l0 /\ length rest <= 1 /\
       (y_state y = TIDLE -> exists r, rest = [r] /\ result r)) /\
    (~ tick_thread_alive y t ->
       y_state y = TIDLE /\ (exists l r r', calls_of t es = l ++ [(OTick, r); (OUntick, r')] /\ result r) \/
       y_state y = TERROR \/
       at_code y t KTick Crash /\ y_state y = TICKING).
Proof.
  intros y0 p es y ts R H. destruct (mult_seg true _ _ _ _ _ R H) as [X|(B & t & c & l & T & A & S & C & ST & N0)]; [left; exact X|right].
  destruct (solo_until _ _ _ _ _ _ S) as [(l0 & rest & X1 & X2 & X3 & X4) Y].
  exists t. split; [exact ST|]. split; [exact N0|]. split; [exists l0, rest; rewrite ticks_of_calls, C; auto|].
  intros NA. pose proof (not_alive _ _ _ NA A) as EC. rewrite C. destruct c; try discriminate.
  - destruct Y as [Y|(Y & l1 & r & x & Y1 & Y2 & _)]; [auto|]. left. split; [exact Y|]. eauto.
  - destruct Y as [Y|(Y & l1 & r & Y1 & Y2 & _)]; [auto|]. left. split; [exact Y|]. eauto.
Qed.
Theorem periodically_ok : forall y0 p es y ts, reachable P y0 ->
  handled P y0 (KControl TICK_PERIODICALLY) p es y true ts ->
  (p_root P (y_world y) = REmpty /\ no_tick_thread y /\ ts = Some (y_state y) /\ (no_tick_thread y0 -> ticks es = [])) \/
  exists t, starts t es /\
    (no_tick_thread y0 -> ticks es = map (fun r => (t, OTick, r)) (ticks_of t es)) /\
    (~ tick_thread_alive y t -> y_state y = TERROR \/ at_code y t KTick Crash /\ y_state y = TICKING).
Proof.
  intros y0 p es y ts R H. destruct (mult_seg false _ _ _ _ _ R H) as [X|(B & t & c & l & T & A & S & C & ST & N0)]; [left; exact X|right].
  exists t. split; [exact ST|]. split; [exact N0|]. intros NA. pose proof (not_alive _ _ _ NA A) as EC.
  pose proof (solo_periodically _ _ _ _ _ _ S) as Y. destruct c; try discriminate; auto.
Qed.

(** *** RESET *)

Definition resetQ (rq : bool) K (ok : bool) (ts : option tstate) : Prop :=
  ok = true ->
  match K with
  | KDead F => forall st o p w h, F st o p w h -> ts = Some st /\ st = TIDLE /\ was_reset P w
  | _ => False
  end.
Lemma resetQ_down : down resetQ.
Proof. intros rq K K' ok ts L H E. specialize (H E). destruct K, K'; cbn in *; try tauto; intros; eauto. Qed.
Lemma reset_dispatch : forall me cur, chk P me resetQ noPre anyK cur false KFresh (dispatch RESET).
Proof.
  intros me cur. crunch; intros; auto.
  all: try (unfold resetQ; discriminate).
  all: intros _ st o p w h X; cbn beta in X; opened; try discriminate.
  all: split; [reflexivity|split; [reflexivity|]]; unfold was_reset; eauto 6.
Qed.
Theorem reset_ok : forall y0 p es y ts, reachable P y0 ->
  handled P y0 (KControl RESET) p es y true ts ->
  y_state y = TIDLE /\ ts = Some TIDLE /\ no_tick_thread y /\ was_reset P (y_world y).
Proof.
  intros y0 p es y ts R (HH & A).
  assert (CH : chk P p resetQ noPre anyK None false KFresh (first_code (KControl RESET))).
  { apply control_chk; auto using resetQ_down, noPre_down, anyK_down, reset_dispatch; try exact I. discriminate. }
  pose proof (handling_seg _ _ _ _ _ _ _ _ KFresh R HH (fun l rq K (H : noPre l rq K) => match H with end)
    (fresh_holds _ R (proj1 HH)) CH) as S.
  destruct (seg_answer _ _ _ _ _ _ _ _ _ _ S A) as (rq1 & K1 & _ & _ & Q1 & H1 & B & _).
  specialize (Q1 eq_refl). destruct K1; try tauto.
  assert (ND := dead_none _ _ _ H1). destruct H1 as [_ H1]. destruct (Q1 _ _ _ _ _ H1) as (X1 & X2 & X3).
  repeat split; auto. congruence.
Qed.

(** *** STOP and SHUTDOWN *)

Definition stopPre (l : label) (rq : bool) K : Prop :=
  match l with LStopWait _ _ => rq = true /\ not_run K | _ => False end.
Lemma stopPre_down : pre_down stopPre.
Proof. intros l rq K K' L H. destruct l; cbn in *; try tauto. destruct H. split; [assumption|]. eapply le_run; eauto. Qed.

Definition shutQ (dd : bool) (rq : bool) K (ok : bool) (ts : option tstate) : Prop :=
  ok = true -> rq = true \/ dd = true ->
  match K with
  | KDead F => forall st o p w h, F st o p w h -> ts = Some st /\ st = EDITABLE /\ shut_down P w
  | _ => False
  end.
Lemma shutQ_down : forall dd, down (shutQ dd).
Proof. intros dd rq K K' ok ts L H E X. specialize (H E X). destruct K, K'; cbn in *; try tauto; intros; eauto. Qed.
Ltac shut_leaf :=
  try (unfold shutQ; discriminate);
  try (intros _ [X|X]; discriminate X);
  try (intros _ _ st o p w h X; cbn beta in X; opened; try discriminate;
       (split; [reflexivity|split; [reflexivity|]]); unfold shut_down; eauto 8; fail).
Lemma shut_body : forall dd me l rq K, stopPre l rq K /\ (match l with LStopWait sd _ => sd = true | _ => True end) ->
  chk P me (shutQ dd) (fun l rq K => stopPre l rq K /\ (match l with LStopWait sd _ => sd = true | _ => True end)) anyK None rq K (body l).
Proof.
  intros dd me l rq K [H E]. destruct l; cbn in H; try tauto. destruct H as [-> NR]. subst sd. destruct K; try tauto; crunch; intros; auto.
  all: shut_leaf.
Qed.
Lemma shut_dispatch : forall (dd : bool) me cur K, fin K -> not_run K -> (if dd then is_dead K else True) ->
  chk P me (shutQ dd) (fun l rq K => stopPre l rq K /\ (match l with LStopWait sd _ => sd = true | _ => True end)) anyK cur false K (dispatch SHUT_DOWN).
Proof.
  intros dd me cur K FK NR D. destruct K; cbn in FK, NR, D; try tauto; destruct dd; try tauto; crunch; intros; auto.
  all: shut_leaf.
Qed.
Theorem shutdown_ok : forall y0 p es y ts, reachable P y0 ->
  handled P y0 (KControl SHUT_DOWN) p es y true ts ->
  no_tick_thread y0 \/ In (EAct p (ASetState STOP_REQUESTED)) es ->
  y_state y = EDITABLE /\ ts = Some EDITABLE /\ no_tick_thread y /\ shut_down P (y_world y).
Proof.
  intros y0 p es y ts R (HH & A) C.
  assert (X : exists dd K, holds y0 [] K /\ fin K /\ not_run K /\ (if dd : bool then is_dead K else True) /\ (no_tick_thread y0 -> dd = true)).
  { destruct (no_tick_dec y0) as [N|N].
    - exists true, (KDead (start_fact y0)). split; [apply dead_start; exact N|]. cbn. auto.
    - exists false, KFresh. split; [apply fresh_holds; [exact R|apply HH]|]. cbn. repeat split; tauto. }
  destruct X as (dd & K & HK & FK & NR & D & ND).
  assert (CH : chk P p (shutQ dd) (fun l rq K => stopPre l rq K /\ (match l with LStopWait sd _ => sd = true | _ => True end)) anyK None false K (first_code (KControl SHUT_DOWN))).
  { apply control_chk; auto using shutQ_down, anyK_down, shut_dispatch.
    - intros l rq K1 K2 L [H1 H2]. split; [eapply stopPre_down; eauto|exact H2].
    - discriminate. }
  pose proof (handling_seg _ _ _ _ _ _ _ _ K R HH (shut_body dd p) HK CH) as S.
  destruct (seg_answer _ _ _ _ _ _ _ _ _ _ S A) as (rq1 & K1 & _ & _ & Q1 & H1 & B & RQ).
  assert (X : rq1 = true \/ dd = true).
  { destruct C as [C|C]; [right; auto|left]. destruct rq1; [reflexivity|]. exfalso. exact (RQ eq_refl C). }
  specialize (Q1 eq_refl X). destruct K1; try tauto.
  assert (NT := dead_none _ _ _ H1). destruct H1 as [_ H1]. destruct (Q1 _ _ _ _ _ H1) as (X1 & X2 & X3).
  repeat split; auto. congruence.
Qed.

(** STOP, whatever it answers, leaves no thread that ticks. *)
Definition quiet K : Prop := match K with KClosed | KDead _ => True | _ => False end.
Lemma quiet_down : good_down quiet.
Proof. intros K K' L H. destruct K, K'; cbn in *; tauto. Qed.
Definition stopQ (rq : bool) K (ok : bool) (ts : option tstate) : Prop :=
  quiet K /\
  (ok = true -> rq = true -> match K with
     | KDead F => forall st o p w h, F st o p w h -> ts = Some st /\ st = TIDLE
     | _ => False end).
Lemma stopQ_down : down stopQ.
Proof.
  intros rq K K' ok ts L [H1 H]. split; [eapply quiet_down; eauto|]. intros E X. specialize (H E X).
  destruct K, K'; cbn in *; try tauto; intros; eauto.
Qed.
Definition stopPre2 (l : label) (rq : bool) K := stopPre l rq K /\ (match l with LStopWait sd _ => sd = false | _ => True end).
Ltac stop_leaf :=
  try (split; [split; [reflexivity|exact I]|reflexivity]; fail);
  try (split; [exact I|]; first [discriminate | intros _ _ st o p w h X; cbn beta in X; opened; try discriminate; (split; reflexivity)]; fail).
Lemma stop_body : forall me l rq K, stopPre2 l rq K -> chk P me stopQ stopPre2 anyK None rq K (body l).
Proof.
  intros me l rq K [H E]. destruct l; cbn in H; try tauto. destruct H as [-> NR]. subst sd. destruct K; cbn in NR; try tauto; crunch; intros; auto.
  all: stop_leaf.
Qed.
Lemma stop_dispatch : forall me cur, chk P me stopQ stopPre2 anyK cur false KFresh (dispatch STOP).
Proof. intros me cur. crunch; intros; auto. all: stop_leaf. Qed.
Lemma stop_seg : forall y0 p es y ok ts, reachable P y0 ->
  handled P y0 (KControl STOP) p es y ok ts -> calm y /\ base y /\ exists K, quiet K /\ holds y (items es) K /\
   (ok = true -> In (EAct p (ASetState STOP_REQUESTED)) es -> y_state y = TIDLE /\ ts = Some TIDLE /\ no_tick_thread y).
Proof.
  intros y0 p es y ok ts R (HH & A).
  assert (CH : chk P p stopQ stopPre2 anyK None false KFresh (first_code (KControl STOP))).
  { apply control_chk; auto using stopQ_down, anyK_down, stop_dispatch; try exact I.
    - intros l rq K1 K2 L [H1 H2]. split; [eapply stopPre_down; eauto|exact H2].
    - split; [exact I|discriminate]. }
  pose proof (handling_seg _ _ _ _ _ _ _ _ KFresh R HH (stop_body p) (fresh_holds _ R (proj1 HH)) CH) as S.
  split; [eapply seg_alone_calm; eauto|].
  destruct (seg_answer _ _ _ _ _ _ _ _ _ _ S A) as (rq1 & K1 & _ & _ & [Q0 Q1] & H1 & B & RQ).
  split; [exact B|]. exists K1. split; [exact Q0|]. split; [exact H1|].
  intros E X. destruct rq1; [|destruct (RQ eq_refl X)]. specialize (Q1 E eq_refl). destruct K1; try tauto.
  assert (NT := dead_none _ _ _ H1). destruct H1 as [_ H1]. destruct (Q1 _ _ _ _ _ H1). repeat split; auto. congruence.
Qed.

(** *** Histories without TICK commands *)

Definition quietPre (l : label) (rq : bool) K : Prop :=
  match l with LStopWait _ _ => quiet K | _ => False end.
Lemma quietPre_down : pre_down quietPre.
Proof. intros l rq K K' L H. destruct l; cbn in *; try tauto. eapply quiet_down; eauto. Qed.
Lemma quiet_body : forall me l rq K, quietPre l rq K -> chk P me anyQ quietPre quiet None rq K (body l).
Proof.
  intros me l rq K H. destruct l; cbn in H; try tauto; destruct K; cbn in H; try tauto; try destruct sd; crunch; try exact I.
Qed.
Definition silent (k : kind) : Prop :=
  match k with KControl (TICK_ONCE | TICK_PERIODICALLY | TICK_UNTIL_RESULT) | KTick => False | _ => True end.
Lemma quiet_first : forall me k, silent k -> chk P me anyQ quietPre quiet None false KClosed (first_code k).
Proof.
  intros me k H. destruct k as [|c|b]; [destruct H| |].
  - apply control_chk; auto using any_down, quietPre_down, quiet_down; try exact I.
    intros cur. destruct c; cbn in H; try tauto; crunch; try exact I.
  - destruct b; cbn; crunch; exact I.
Qed.
Definition stopped y : Prop :=
  (base y /\ calm y /\ holds y [] KClosed) \/ exists me es h, seg P me anyQ quietPre quiet es y h.
Lemma quiet_closed : forall y h K, quiet K -> holds y h K -> holds y h KClosed.
Proof.
  intros y h K Q H. destruct K; cbn in Q; try tauto. destruct H as [H _]. intros t c A. apply closed_ended. eauto.
Qed.
Lemma stopped_holds : forall y, stopped y -> base y /\ holds y [] KClosed.
Proof.
  intros y [(B & _ & H)|(me & es & h & (B & _ & _ & k & c & cur & rq & K & NK & A & CH & H & _))]; [auto|].
  split; [exact B|]. apply (quiet_closed y h K); [eapply chk_good; eauto|exact H].
Qed.
Lemma stopped_step : forall y e y', stopped y -> step P y e y' -> one_at_a_time y e ->
  (forall k, e = EArrive k -> silent k) -> stopped y' /\ forall p, e <> EAct p (ABegin OTick).
Proof.
  intros y e y' H S G SI. destruct e as [k|q a].
  - split; [|discriminate]. cbn in G. destruct (stopped_holds _ H) as [B F]. inversion S; subst. right.
    exists (length (y_procs y)), [], []. apply seg_arrive with (K := KClosed); auto.
    + apply quiet_first. apply SI. reflexivity.
    + intros p o r [].
  - assert (NT : forall p, EAct q a <> EAct p (ABegin OTick)).
    { intros p E. injection E as -> ->. inversion S as [|y1 q0 kq cq a0 cq' y2 Aq LS E]; subst.
      inversion LS; subst. assert (KD : kq = KTick \/ kq <> KTick) by (destruct kq; [left; reflexivity|right|right]; discriminate).
      destruct KD as [->|NK].
      - destruct (stopped_holds _ H) as [_ F]. specialize (F _ _ Aq). cbn in F. destruct F. discriminate.
      - destruct H as [(_ & C & _)|(me & es & h & (_ & AL & _ & k2 & c & cur & rq & K & NK2 & A & CH & _))].
        + specialize (C _ _ _ Aq NK). discriminate.
        + assert (p = me) by (eapply AL; eauto). subst p. assert (c = Call OTick k) by (unfold at_code in *; congruence).
          subst c. cbn in CH. tauto. }
    split; [|exact NT].
    destruct H as [(B & C & F)|(me & es & h & H)].
    + left. inversion S as [|y0 q0 kq cq a0 cq' y1 Aq LS E]; subst.
      assert (kq = KTick).
      { destruct kq; [reflexivity| |]; exfalso; pose proof (lstep_live _ _ _ LS) as L;
          rewrite (C _ _ _ Aq) in L; discriminate. }
      subst kq. destruct (tick_step P _ _ _ _ _ _ [] KClosed None B Aq LS E F I) as (B2 & F2 & _).
      split; [exact B2|]. split; [|exact F2].
      intros q' k' c' A' NK'. destruct (step_others _ _ _ _ _ _ _ _ _ _ E NK' A') as [(_ & X & _)|X]; [congruence|eauto].
    + right. exists me, (es ++ [EAct q a]), (h ++ items [EAct q a]). eapply seg_step; eauto.
      * intros. apply quiet_body. assumption.
      * discriminate.
Qed.
Lemma no_tick_app : forall a b, no_tick_command (a ++ b) -> no_tick_command a /\ no_tick_command b.
Proof. intros a b H. split; intros c X; apply (H c); unfold arrives in *; apply in_or_app; auto. Qed.
Lemma stopped_runs : forall y es y', runs one_at_a_time P y es y' -> stopped y -> no_tick_command es ->
  stopped y' /\ ~ tick_begins es.
Proof.
  intros y es y' R. induction R as [y|y es y1 e y2 R IH G S]; intros H N.
  - split; [exact H|]. intros (p & []).
  - apply no_tick_app in N. destruct N as [N1 N2]. destruct (IH H N1) as [H1 T1].
    destruct (stopped_step _ _ _ H1 S G) as [H2 T2].
    { intros k ->. destruct k as [|c|b]; [inversion S; congruence| |exact I].
      specialize (N2 c (or_introl eq_refl)). destruct c; cbn; tauto. }
    split; [exact H2|]. intros (p & X). apply in_app_or in X. destruct X as [X|[X|[]]]; [apply T1; exists p; exact X|].
    eapply T2; eauto.
Qed.
Theorem stop_quiet : forall y0 p es y ok ts es' y', reachable P y0 ->
  handled P y0 (KControl STOP) p es y ok ts ->
  runs one_at_a_time P y es' y' -> no_tick_command es' ->
  ~ tick_begins es' /\ forall q, ~ ticking y q.
Proof.
  intros y0 p es y ok ts es' y' R H RU N. destruct (stop_seg _ _ _ _ _ _ R H) as (C & B & K & QK & HK & _).
  apply (quiet_closed _ _ _ QK) in HK. split.
  - apply (stopped_runs _ _ _ RU); [|exact N]. left. auto.
  - intros q (k & f & A). assert (KD : k = KTick \/ k <> KTick) by (destruct k; [left; reflexivity|right|right]; discriminate).
    destruct KD as [->|NK]; [|specialize (C _ _ _ A NK); discriminate].
    specialize (HK _ _ A). cbn in HK. destruct HK. discriminate.
Qed.
Theorem not_ticking_quiet : forall y es' y', reachable P y -> calm y -> y_state y <> TICKING ->
  runs one_at_a_time P y es' y' -> no_tick_command es' -> ~ tick_begins es'.
Proof.
  intros y es' y' R C ST RU N. apply (stopped_runs _ _ _ RU); [|exact N]. left.
  destruct (sound_calm P _ (reachable_sound _ R) C) as [B F]. split; [exact B|]. split; [exact C|].
  intros t c A. destruct (F _ _ A) as [X|X]; [exact X|congruence].
Qed.

(** *** One thread, and no edit while it ticks *)

Theorem one_tick_thread : forall y, reachable P y ->
  (forall t1 t2, tick_thread_alive y t1 -> tick_thread_alive y t2 -> t1 = t2) /\
  (forall p, ticking y p -> tick_thread_alive y p).
Proof.
  intros y R. apply reachable_sound in R. pose proof (sound_base _ _ R) as B. split.
  - intros t1 t2 H1 H2. apply (b_one _ B) in H1. apply (b_one _ B) in H2. congruence.
  - intros p (k & f & A). assert (KD : k = KTick \/ k <> KTick) by (destruct k; [left; reflexivity|right|right]; discriminate).
    destruct KD as [->|NK]; [exists (InCall OTick f); auto|exfalso].
    destruct R as [(_ & C & _)|(me & es & h & (_ & AL & _ & k2 & c & cur & rq & K & NK2 & A2 & CH & _))].
    + specialize (C _ _ _ A NK). discriminate.
    + assert (p = me) by (eapply AL; eauto). subst p. assert (c = InCall OTick f) by (unfold at_code in *; congruence).
      subst c. cbn in CH. tauto.
Qed.
Theorem no_edit_ticking : forall y p t, reachable P y -> editing y p -> ticking y t -> False.
Proof.
  intros y p t R (k & f & A) T. destruct (proj2 (one_tick_thread _ R) _ T) as (c0 & A0 & L0).
  destruct T as (k' & f' & A'). assert (c0 = InCall OTick f') by (unfold at_code in *; congruence). subst c0.
  apply reachable_sound in R. pose proof (sound_base _ _ R) as B.
  assert (NK : k <> KTick). { intros ->. pose proof (b_wf _ B _ _ A) as X. exact X. }
  destruct R as [(_ & C & _)|(me & es & h & (_ & AL & _ & k2 & c & cur & rq & K & NK2 & A2 & CH & HK & _))].
  - specialize (C _ _ _ A NK). discriminate.
  - assert (p = me) by (eapply AL; eauto). subst p. assert (c = InEdit f) by (unfold at_code in *; congruence). subst c.
    cbn in CH. destruct CH as (_ & X & _). assert (QK : quiet K) by (destruct X as [->|X]; [exact I|destruct K; cbn in *; tauto]).
    apply (quiet_closed _ _ _ QK) in HK. specialize (HK _ _ A0). cbn in HK. destruct HK. discriminate.
Qed.
End Props.
