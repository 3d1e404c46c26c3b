(** An interpreter that plays schedules, and a concrete plant, for the examples
    and the refutations of C47-C53. *)
From Coq Require Import List Bool Arith.
From Verif Require Import Base ModelExec SpecExec.
Import ListNotations.

Section Play.
Context {W : Type}.
Variable P : plant W.
Variable f : op -> W -> option (W * res state).
Hypothesis f_op : forall o w w' r, f o w = Some (w', r) -> p_op P o w w' r.
Hypothesis f_init : forall w, p_init P w w true.
Hypothesis f_push : forall w, p_push P w w (Ok tt).
Hypothesis f_clear : forall w, p_subclear P w w.
Hypothesis f_edit : forall w, p_edit P w w true.

(** The next access of a process. *)
Definition next (y : sys W) (p : nat) (c : code) : option (action * code * sys W) :=
  match c with
  | ReadState k => Some (AGetState (y_state y), k (y_state y), y)
  | WriteState s k => Some (ASetState s, k, with_state y s)
  | ReadThread k => Some (AGetThread (y_thread y), k (y_thread y), y)
  | NewThread k => Some (ANewThread, k,
      with_thread (with_procs y (y_procs y ++ [(KTick, None)])) (Some (length (y_procs y))))
  | Alive t k => Some (AAlive t (is_live y t), k (is_live y t), y)
  | StartT t k => match nth_error (y_procs y) t with
                  | Some (KTick, None) => Some (AStart t true, k, with_proc y t (KTick, Some (body LMain)))
                  | Some (_, Some _) => Some (AStart t false, Crash, y)
                  | _ => None
                  end
  | JoinT t k => Some (AJoin t, k, y)
  | RosOk k => Some (AOk true, k true, y)
  | Root k => Some (ARoot (p_root P (y_world y)), k (p_root P (y_world y)), y)
  | Call o k => Some (ABegin o, InCall o k, y)
  | InCall o k => match f o (y_world y) with
                  | Some (w', r) => Some (AEnd o r, match r with Raise => Crash | _ => k r end, with_world y w')
                  | None => None
                  end
  | RootState k => Some (ARootState (p_state P (y_world y)), k (p_state P (y_world y)), y)
  | ReadOnce k => Some (AGetOnce (y_once y), k (y_once y), y)
  | WriteOnce b k => Some (ASetOnce b, k, with_once y b)
  | ReadStop k => Some (AGetStop (y_stop y), k (y_stop y), y)
  | WriteStop b k => Some (ASetStop b, k, with_stop y b)
  | Init k => Some (AInit true, k, with_world y (y_world y))
  | Push k => Some (APush (Ok tt), k (Ok tt), with_world y (y_world y))
  | Unlink k => None
  | ClearSub k => Some (AClearSub, k, with_world y (y_world y))
  | Orphans k => Some (AOrphans (p_orphan P (y_world y)), k (p_orphan P (y_world y)), y)
  | Lock k => match y_lock y with None => Some (ALock, k, with_lock y (Some p)) | _ => None end
  | Unlock k => Some (AUnlock, k, with_lock y None)
  | Edit k => Some (AEditBegin, InEdit k, y)
  | InEdit k => Some (AEditEnd true, k true, with_world y (y_world y))
  | Goto l => Some (AJump, body l, y)
  | Done _ _ | Crash => None
  end.
Lemma next_step : forall y p k c a c' y', nth_error (y_procs y) p = Some (k, Some c) ->
  next y p c = Some (a, c', y') -> step P y (EAct p a) (with_proc y' p (k, Some c')).
Proof.
  intros y p k c a c' y' A N. eapply st_act; [exact A| |]; destruct c; cbn -[body] in N; try discriminate;
    try (injection N as <- <- <-; constructor; cbn; auto; fail).
  - destruct (nth_error (y_procs y) t) as [[[] [?|]]|]; try discriminate; injection N as <- <- <-;
      first [apply (ls_st t _ true) | apply (ls_st t _ false)].
  - destruct (f o (y_world y)) as [[w' r]|]; [|discriminate]. injection N as <- <- <-. constructor.
  - destruct (y_lock y); [discriminate|]. injection N as <- <- <-. constructor.
  - destruct (nth_error (y_procs y) t) as [[[] [?|]]|] eqn:E; try discriminate; injection N as <- <- <-;
      first [eapply ef_st; exact E | eapply ef_sf; exact E].
  - destruct (f o (y_world y)) as [[w' r]|] eqn:E; [|discriminate]. injection N as <- <- <-. constructor. apply f_op. exact E.
  - destruct (y_lock y) eqn:E; [discriminate|]. injection N as <- <- <-. constructor. exact E.
Qed.

(** A schedule: requests arrive ([inl]) and processes make an access ([inr]); with
    [one], requests arrive only when the others are answered. *)
Definition calmb (y : sys W) : bool :=
  forallb (fun x => match x with (KTick, _) => true | (_, Some c) => ended c | _ => true end) (y_procs y).
Definition turn (one : bool) (y : sys W) (x : kind + nat) : option (event * sys W) :=
  match x with
  | inl KTick => None
  | inl k => if one && negb (calmb y) then None
             else Some (EArrive k, with_procs y (y_procs y ++ [(k, Some (first_code k))]))
  | inr p => match nth_error (y_procs y) p with
             | Some (k, Some c) => match next y p c with
                                   | Some (a, c', y') => Some (EAct p a, with_proc y' p (k, Some c'))
                                   | None => None
                                   end
             | _ => None
             end
  end.
Fixpoint play (one : bool) (y : sys W) (l : list (kind + nat)) : option (list event * sys W) :=
  match l with
  | [] => Some ([], y)
  | x :: l => match turn one y x with
              | Some (e, y1) => match play one y1 l with
                                | Some (es, y2) => Some (e :: es, y2)
                                | None => None
                                end
              | None => None
              end
  end.

Lemma calmb_calm : forall y, calmb y = true -> calm y.
Proof.
  intros y H p k c A NK. unfold calmb in H. rewrite forallb_forall in H.
  specialize (H _ (nth_error_In _ _ A)). destruct k; [congruence| |]; exact H.
Qed.
Lemma turn_step : forall one y x e y', turn one y x = Some (e, y') -> step P y e y' /\
  (one = true -> one_at_a_time y e).
Proof.
  intros one y x e y' H. destruct x as [k|p]; cbn in H.
  - assert (NK : k <> KTick) by (intros ->; discriminate).
    assert (X : (if one && negb (calmb y) then None
             else Some (EArrive k, with_procs y (y_procs y ++ [(k, Some (first_code k))]))) = Some (e, y')) by (destruct k; [discriminate|exact H|exact H]).
    destruct (one && negb (calmb y)) eqn:E; [discriminate|]. injection X as <- <-. split; [constructor; exact NK|].
    intros ->. cbn in E. apply calmb_calm. destruct (calmb y); [reflexivity|discriminate].
  - destruct (nth_error (y_procs y) p) as [[k [c|]]|] eqn:A; try discriminate.
    destruct (next y p c) as [[[a c'] y1]|] eqn:N; [|discriminate]. injection H as <- <-.
    split; [eapply next_step; eauto|]. intros _. cbn. destruct a; try exact I.
    destruct c; cbn in N; try discriminate; try (injection N as <-; congruence).
    + destruct (nth_error (y_procs y) t) as [[[] [?|]]|]; discriminate.
    + destruct (f o (y_world y)) as [[? ?]|]; discriminate.
    + destruct (y_lock y); discriminate.
Qed.
Definition guard (one : bool) : sys W -> event -> Prop := if one then one_at_a_time else anything.
Lemma runs_trans : forall (G : sys W -> event -> Prop) a es1 b es2 c,
  runs G P a es1 b -> runs G P b es2 c -> runs G P a (es1 ++ es2) c.
Proof.
  intros G a es1 b es2 c R1 R2. induction R2 as [b|b es y1 e y2 R2 IH GG S]; [rewrite app_nil_r; exact R1|].
  rewrite app_assoc. eapply runs_snoc; eauto.
Qed.
Lemma play_runs : forall one l y es y', play one y l = Some (es, y') -> runs (guard one) P y es y'.
Proof.
  intros one l. induction l as [|x l IH]; intros y es y' H; cbn in H.
  - injection H as <- <-. constructor.
  - destruct (turn one y x) as [[e y1]|] eqn:T; [|discriminate].
    destruct (play one y1 l) as [[es2 y2]|] eqn:PL; [|discriminate]. injection H as <- <-.
    destruct (turn_step _ _ _ _ _ T) as [S G]. change (e :: es2) with ([e] ++ es2).
    eapply runs_trans; [|apply IH; exact PL].
    apply (runs_snoc _ _ y [] y e y1); [constructor| |exact S]. destruct one; [apply G; reflexivity|exact I].
Qed.
(** [n] accesses of [p]. *)
Definition acc (p n : nat) : list (kind + nat) := repeat (inr p) n.

(** ** Witnesses by playing schedules *)

Definition answer_of (y : sys W) (p : nat) : option (bool * option tstate) :=
  match nth_error (y_procs y) p with Some (_, Some (Done ok ts)) => Some (ok, ts) | _ => None end.
Definition tickingb (y : sys W) (p : nat) : bool :=
  match nth_error (y_procs y) p with Some (_, Some (InCall OTick _)) => true | _ => false end.
Definition editingb (y : sys W) (p : nat) : bool :=
  match nth_error (y_procs y) p with Some (_, Some (InEdit _)) => true | _ => false end.
Definition aliveb (y : sys W) (t : nat) : bool :=
  match nth_error (y_procs y) t with Some (KTick, Some c) => negb (ended c) | _ => false end.
Definition none_alive (y : sys W) : bool :=
  forallb (fun x => match x with (KTick, Some c) => ended c | _ => true end) (y_procs y).
Definition quiet_list (es : list event) : bool :=
  forallb (fun e => match e with EArrive _ => false | _ => true end) es.
Definition arrived (y : sys W) (k : kind) : sys W :=
  with_procs y (y_procs y ++ [(k, Some (first_code k))]).

Lemma answer_answered : forall y p ok ts, answer_of y p = Some (ok, ts) -> answered y p ok ts.
Proof.
  intros y p ok ts H. unfold answer_of in H. unfold answered, at_code.
  destruct (nth_error (y_procs y) p) as [[k [[]|]]|]; try discriminate. injection H as <- <-. eauto.
Qed.
Lemma tickingb_ticking : forall y p, tickingb y p = true -> ticking y p.
Proof.
  intros y p H. unfold tickingb in H. unfold ticking, at_code.
  destruct (nth_error (y_procs y) p) as [[k [[]|]]|]; try discriminate. destruct o; try discriminate. eauto.
Qed.
Lemma editingb_editing : forall y p, editingb y p = true -> editing y p.
Proof.
  intros y p H. unfold editingb in H. unfold editing, at_code.
  destruct (nth_error (y_procs y) p) as [[k [[]|]]|]; try discriminate. eauto.
Qed.
Lemma aliveb_alive : forall y t, aliveb y t = true -> tick_thread_alive y t.
Proof.
  intros y t H. unfold aliveb in H. unfold tick_thread_alive, at_code.
  destruct (nth_error (y_procs y) t) as [[[] [c|]]|]; try discriminate. exists c. split; [reflexivity|].
  destruct (ended c); [discriminate|reflexivity].
Qed.
Lemma none_alive_none : forall y, none_alive y = true -> no_tick_thread y.
Proof.
  intros y H t (c & A & E). unfold none_alive in H. rewrite forallb_forall in H.
  specialize (H _ (nth_error_In _ _ A)). cbn in H. congruence.
Qed.
Lemma quiet_no_arrivals : forall es, quiet_list es = true -> no_arrivals es.
Proof.
  intros es H k I. unfold quiet_list in H. rewrite forallb_forall in H. specialize (H _ I). discriminate.
Qed.

Lemma gplay2 : forall one w l0 l1 (T : sys W -> list event -> sys W -> Prop),
  match play one (fresh w) l0 with
  | None => False
  | Some (_, y0) => match play one y0 l1 with None => False | Some (es, y) => T y0 es y end
  end ->
  exists es0 y0 es y, runs (guard one) P (fresh w) es0 y0 /\ runs (guard one) P y0 es y /\ T y0 es y.
Proof.
  intros one w l0 l1 T H. destruct (play one (fresh w) l0) as [[es0 y0]|] eqn:A; [|destruct H].
  destruct (play one y0 l1) as [[es y]|] eqn:B; [|destruct H].
  exists es0, y0, es, y. split; [eapply play_runs; eauto|]. split; [eapply play_runs; eauto|exact H].
Qed.
(** A command played from its arrival on. *)
Lemma gplay_handled : forall w l0 c l1 ok ts (T : sys W -> list event -> sys W -> Prop),
  match play true (fresh w) l0 with
  | None => False
  | Some (_, y0) =>
      match play true (arrived y0 (KControl c)) l1 with
      | None => False
      | Some (es, y) => calmb y0 = true /\ quiet_list es = true /\
          answer_of y (length (y_procs y0)) = Some (ok, ts) /\ T y0 es y
      end
  end ->
  exists y0 es y, reachable P y0 /\ handled P y0 (KControl c) (length (y_procs y0)) es y ok ts /\ T y0 es y.
Proof.
  intros w l0 c l1 ok ts T H. destruct (play true (fresh w) l0) as [[es0 y0]|] eqn:A; [|destruct H].
  destruct (play true (arrived y0 (KControl c)) l1) as [[es y]|] eqn:B; [|destruct H].
  destruct H as (H1 & H2 & H3 & H4). exists y0, es, y. split; [exists w, es0; exact (play_runs true _ _ _ _ A)|].
  split; [|exact H4]. split; [|apply answer_answered; exact H3].
  split; [apply calmb_calm; exact H1|]. split; [reflexivity|]. split; [apply quiet_no_arrivals; exact H2|].
  exists (arrived y0 (KControl c)). split; [constructor; discriminate|exact (play_runs true _ _ _ _ B)].
Qed.

Lemma runs_any : forall (G : sys W -> event -> Prop) y es y', runs G P y es y' -> runs anything P y es y'.
Proof. intros G y es y' R. induction R as [y|y es y1 e y2 R IH GG S]; [constructor|]. eapply runs_snoc; eauto. exact I. Qed.
End Play.

(** A tree of one root: the answers its ticks give (then RUNNING for ever), its state,
    and whether find_root finds it. *)
Record dw : Set := mkDw { d_says : list (res state); d_state : state; d_root : rootres }.
Definition dop (o : op) (w : dw) : dw * res state :=
  match o with
  | OSetup => (mkDw (d_says w) IDLE (d_root w), Ok IDLE)
  | OTick => match d_says w with
             | [] => (mkDw [] RUNNING (d_root w), Ok RUNNING)
             | Ok s :: l => (mkDw l s (d_root w), Ok s)
             | r :: l => (mkDw l BROKEN (d_root w), r)
             end
  | OUntick => (mkDw (d_says w) IDLE (d_root w), Ok IDLE)
  | OReset => (mkDw (d_says w) IDLE (d_root w), Ok IDLE)
  | OShutdown => (mkDw (d_says w) SHUTDOWN (d_root w), Ok SHUTDOWN)
  end.
Definition demo : plant dw := {|
  p_root := d_root; p_state := d_state; p_orphan := fun _ => false;
  p_op := fun o w w' r => dop o w = (w', r);
  p_init := fun w w' b => w' = w /\ b = true;
  p_push := fun w w' r => w' = w /\ r = Ok tt;
  p_unlink := fun w w' => w' = w;
  p_subclear := fun w w' => w' = w;
  p_edit := fun w w' b => w' = w /\ b = true |}.


Definition demo_op (o : op) (w : dw) : option (dw * res state) := Some (dop o w).
Lemma demo_op_ok : forall o w w' r, demo_op o w = Some (w', r) -> p_op demo o w w' r.
Proof. intros o w w' r H. injection H as H. exact H. Qed.
Definition play2 := gplay2 demo demo_op demo_op_ok (fun w => conj eq_refl eq_refl) (fun w => conj eq_refl eq_refl)
  (fun w => eq_refl) (fun w => conj eq_refl eq_refl).
Definition demo_runs := play_runs demo demo_op demo_op_ok (fun w => conj eq_refl eq_refl) (fun w => conj eq_refl eq_refl)
  (fun w => eq_refl) (fun w => conj eq_refl eq_refl).
Definition play_handled := gplay_handled demo demo_op demo_op_ok (fun w => conj eq_refl eq_refl) (fun w => conj eq_refl eq_refl)
  (fun w => eq_refl) (fun w => conj eq_refl eq_refl).

(** A root that is set up, and the answers of its ticks. *)
Definition idle_root (l : list (res state)) : dw := mkDw l IDLE ROne.

(** A request handled while others are. *)
Definition served_by (w : dw) (l0 : list (kind + nat)) (k : kind) (l1 : list (kind + nat)) : option (bool * list action) :=
  match play demo demo_op false (fresh w) l0 with
  | None => None
  | Some (_, y0) =>
      match play demo demo_op false (arrived y0 k) l1 with
      | None => None
      | Some (es, y) => match answer_of y (length (y_procs y0)) with
                        | Some (b, _) => Some (b, does (length (y_procs y0)) es)
                        | None => None
                        end
      end
  end.
Lemma play_served : forall w l0 k l1 b l, k <> KTick -> served_by w l0 k l1 = Some (b, l) -> served demo k l b.
Proof.
  intros w l0 k l1 b l NK H. unfold served_by in H.
  destruct (play demo demo_op false (fresh w) l0) as [[es0 y0]|] eqn:A; [|discriminate].
  destruct (play demo demo_op false (arrived y0 k) l1) as [[es y]|] eqn:B; [|discriminate].
  destruct (answer_of y (length (y_procs y0))) as [[b' ts]|] eqn:C; [|discriminate]. injection H as <- <-.
  exists y0, (arrived y0 k), es, y, ts. split; [constructor; exact NK|].
  split; [exact (demo_runs false _ _ _ _ B)|]. split; [apply answer_answered; exact C|reflexivity].
Qed.
