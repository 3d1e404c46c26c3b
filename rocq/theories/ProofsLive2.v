(** Proofs for C104: every request is answered. *)
From Coq Require Import List Bool Arith Lia.
From Verif Require Import Base ModelExec SpecExec SpecLive ProofsExec ProofsExecRun ProofsExecProps ProofsExecAny ProofsLive.
Import ListNotations.

(** ** How long the tick thread goes on *)

(** Nothing but assignments to the state is left. *)
Fixpoint nro (c : code) : Prop :=
  match c with Done _ _ | Crash => True | WriteState _ k => nro k | _ => False end.

Definition weight (o : op) : nat := match o with OTick => 1 | _ => 0 end.
(** The thread ends within [n] accesses and begins at most [b] ticks, provided it reads
    STOP_REQUESTED as the state ([stop]), or finds [_once] set (otherwise). *)
Fixpoint cst (stop : bool) (n b : nat) (c : code) {struct c} : Prop :=
  match c with
  | Done _ _ | Crash => True
  | Goto l => l = LLoop /\ (if stop then 6 <= n else 10 <= n /\ 1 <= b)
  | ReadState k => 1 <= n /\ if stop then cst stop (pred n) b (k STOP_REQUESTED) else forall s, cst stop (pred n) b (k s)
  | ReadOnce k => 1 <= n /\ if stop then forall x, cst stop (pred n) b (k x) else cst stop (pred n) b (k true)
  | WriteState _ k | Init k => 1 <= n /\ cst stop (pred n) b k
  | WriteOnce _ k => 1 <= n /\ cst stop (pred n) b k /\ (stop = false -> nro k)
  | ReadStop k | Orphans k => 1 <= n /\ forall x, cst stop (pred n) b (k x)
  | Root k => 1 <= n /\ forall r, cst stop (pred n) b (k r)
  | RootState k => 1 <= n /\ forall s, cst stop (pred n) b (k s)
  | Push k => 1 <= n /\ forall r, cst stop (pred n) b (k r)
  | Call o k => 2 <= n /\ weight o <= b /\ forall r, cst stop (pred (pred n)) (b - weight o) (k r)
  | InCall o k => 1 <= n /\ forall r, cst stop (pred n) b (k r)
  | _ => False
  end.

Ltac csts := repeat (cbn -[state_in];
  first [exact I | reflexivity | split | discriminate | intros [] | lia
    | match goal with |- context [state_in ?s ?l] => destruct (state_in s l) end
    | match goal with |- context [state_eqb ?s ?l] => destruct (state_eqb s l) end]).
Lemma cst_loop : forall (stop : bool) n b, (if stop then 5 <= n else 9 <= n /\ 1 <= b) -> cst stop n b (body LLoop).
Proof. intros [] n b H; cbv iota in H; csts. Qed.
Lemma cst_main : cst false 17 1 (body LMain).
Proof. csts. Qed.

Definition tick_of (a : action) : nat := match a with ABegin o => weight o | _ => 0 end.
Lemma cst_step : forall (stop : bool) n b c a c', cst stop n b c -> lstep c a c' ->
  (if stop then forall s, a = AGetState s -> s = STOP_REQUESTED else forall x, a = AGetOnce x -> x = true) ->
  1 <= n /\ tick_of a <= b /\ cst stop (pred n) (b - tick_of a) c'.
Proof.
  intros stop n b c a c' H S X. destruct S; cbn [cst tick_of] in *; rewrite ?Nat.sub_0_r; try contradiction.
  - destruct H as [L H]. repeat split; try lia. destruct stop; [rewrite (X _ eq_refl); exact H|apply H].
  - destruct H as [L H]. repeat split; auto; lia.
  - destruct H as [L H]. repeat split; auto; lia.
  - destruct H as (L & B & H). cbn [cst]. repeat split; auto; lia.
  - destruct H as [L H]. repeat split; try lia. destruct r; cbn; auto.
  - destruct H as [L H]. repeat split; auto; lia.
  - destruct H as [L H]. repeat split; try lia. destruct stop; [apply H|rewrite (X _ eq_refl); exact H].
  - destruct H as (L & H & _). repeat split; auto; lia.
  - destruct H as [L H]. repeat split; auto; lia.
  - destruct H as [L H]. repeat split; try lia. destruct b0; cbn; auto.
  - destruct H as [L H]. repeat split; try lia. destruct r; cbn; auto.
  - destruct H as [L H]. repeat split; auto; lia.
  - destruct H as [-> H]. split; [destruct stop; lia|]. split; [lia|]. apply cst_loop. destruct stop; lia.
Qed.
Lemma nro_step : forall c a c', nro c -> lstep c a c' -> nro c' /\ exists s, a = ASetState s.
Proof. intros c a c' H S. destruct S; cbn in H; try contradiction. eauto. Qed.
Lemma cst_once : forall n b c x c', cst false n b c -> lstep c (ASetOnce x) c' -> nro c'.
Proof. intros n b c x c' H S. inversion S; subst. cbn in H. tauto. Qed.

(** Every program of a tick thread ends soon when it is to stop. *)
Fixpoint tok (c : code) : Prop :=
  cst true 13 1 c /\
  match c with
  | Done _ _ | Crash => True
  | Goto l => l = LLoop
  | ReadState k => forall s, tok (k s)
  | WriteState _ k | WriteOnce _ k | Init k => tok k
  | ReadOnce k | ReadStop k | Orphans k => forall x, tok (k x)
  | Root k => forall r, tok (k r)
  | RootState k => forall s, tok (k s)
  | Push k => forall r, tok (k r)
  | Call _ k | InCall _ k => forall r, tok (k r)
  | _ => False
  end.
Lemma tok_loop : tok (body LLoop).
Proof. csts. Qed.
Lemma tok_main : tok (body LMain).
Proof. csts. Qed.
Lemma tok_cst : forall c, tok c -> cst true 13 1 c.
Proof. intros c H. destruct c; cbn [tok] in H; apply H. Qed.
Lemma cst_more : forall c n b n' b', n <= n' -> b <= b' -> cst true n b c -> cst true n' b' c.
Proof.
  induction c as [| |k IH|s k IH|k IH|k IH|t k IH|t k IH|t k IH|k IH|k IH|o k IH|o k IH|k IH|k IH|b0 k IH|k IH|b0 k IH|k IH|k IH|k IH|k IH|k IH|k IH|k IH|k IH|k IH|l];
    intros n b n' b' L B C; cbn [cst] in *; try contradiction; try exact I;
    repeat match goal with HH : _ /\ _ |- _ => destruct HH end; repeat split; try assumption; try lia; intros; try discriminate.
  all: try (eapply IH; [| |eauto]; lia).
  all: eapply IH; [| |match goal with HH : forall x, cst _ _ _ (?kk x) |- _ => apply HH end]; lia.
Qed.
Lemma tok_incall : forall o k, tok (Call o k) -> tok (InCall o k).
Proof.
  intros o k H. cbn [tok] in *. destruct H as [C H]. split; [|exact H]. cbn [cst] in *. split; [lia|]. intros r.
  destruct C as (_ & _ & C). eapply cst_more; [| |exact (C r)]; lia.
Qed.
Lemma tok_step : forall c a c', tok c -> lstep c a c' -> tok c'.
Proof.
  assert (TC : tok Crash) by (cbn; auto).
  intros c a c' H S. destruct S; try exact (tok_incall _ _ H); cbn [tok] in H; destruct H as [_ H]; try contradiction; auto.
  - destruct r; auto.
  - destruct b; auto.
  - destruct r; auto.
  - subst l. exact tok_loop.
Qed.

(** ** Where a handler is *)

(** [Free]: nothing is known; [Quiet]: no thread ticks; [Set1]: and [_once] is set;
    [Over]: it will start no thread and wait for none. *)
Inductive mode : Set := Free | Quiet | Set1 | Over.

(** Waiting for the thread; [g]: it may jump before it looks at the thread again. *)
Fixpoint over (c : code) : Prop :=
  match c with
  | Done _ _ | Crash => True
  | Goto _ | StartT _ _ => False
  | ReadThread k => forall o, over (k o)
  | ReadState k => forall s, over (k s)
  | RootState k => forall s, over (k s)
  | WriteState s k => s <> STOP_REQUESTED /\ over k
  | NewThread k | JoinT _ k | WriteOnce _ k | WriteStop _ k | Init k | Unlink k
  | ClearSub k | Lock k | Unlock k => over k
  | Alive _ k | RosOk k | ReadOnce k | ReadStop k | Orphans k | Edit k | InEdit k => forall b, over (k b)
  | Root k => forall r, over (k r)
  | Call _ k | InCall _ k => forall r, over (k r)
  | Push k => forall r, over (k r)
  end.
Fixpoint pg (g : bool) (c : code) : Prop :=
  match c with
  | Done _ _ | Crash => True
  | Goto l => g = true /\ (match l with LOnceWait | LStopWait _ _ => True | _ => False end)
  | ReadThread k => forall o, pg g (k o)
  | ReadState k => forall s, pg g (k s)
  | JoinT _ k => pg g k
  | RosOk k => forall b, pg g (k b)
  | Alive _ k => over (k false) /\ pg true (k true)
  | _ => False
  end.
Fixpoint ph (m : mode) (c : code) : Prop :=
  match c with
  | Done _ _ | Crash => True
  | Goto _ => False
  | StartT _ k => match m with Free | Quiet => ph Free k | Set1 => pg true k | Over => False end
  | ReadThread k => match m with
                    | Free => ph Quiet (k None) /\ forall t, ph Free (k (Some t))
                    | _ => forall o, ph m (k o)
                    end
  | Alive _ k => match m with
                 | Over => forall b, ph Over (k b)
                 | Set1 => False
                 | _ => ph Quiet (k false) /\ ph Free (k true)
                 end
  | WriteState s k => if tstate_eqb s STOP_REQUESTED then match m with Free | Quiet => pg true k | _ => False end else ph m k
  | WriteOnce b k => match m with
                     | Set1 => False
                     | Quiet => if b then ph Set1 k else ph Quiet k
                     | _ => ph m k
                     end
  | ReadState k => forall s, ph m (k s)
  | RootState k => forall s, ph m (k s)
  | NewThread k | JoinT _ k | WriteStop _ k | Init k | Unlink k
  | ClearSub k | Lock k | Unlock k => ph m k
  | RosOk k | ReadOnce k | ReadStop k | Orphans k | Edit k | InEdit k => forall b, ph m (k b)
  | Root k => forall r, ph m (k r)
  | Call _ k | InCall _ k => forall r, ph m (k r)
  | Push k => forall r, ph m (k r)
  end.
Lemma pg_body : forall l, (match l with LOnceWait | LStopWait _ _ => True | _ => False end) -> pg false (body l).
Proof. intros l H. destruct l; try contradiction; try destruct sd; sanes; discriminate. Qed.
Lemma ph_first : forall k, k <> KTick -> ph Free (first_code k).
Proof. intros k N. destruct k as [|c|b]; [congruence| |destruct b; sanes]. destruct c; sanes; discriminate. Qed.
Lemma pg_weak : forall c, pg false c -> pg true c.
Proof. induction c; cbn; try tauto; intros; auto. Qed.
Lemma over_step : forall c a c', over c -> lstep c a c' -> over c' /\ a <> AJump /\ (forall t b, a <> AStart t b) /\ a <> ASetState STOP_REQUESTED.
Proof.
  intros c a c' H S. destruct S; cbn in H; try contradiction; try destruct H as [HS H];
    (split; [|split; [discriminate|split; [intros ? ?; discriminate|congruence || discriminate]]]); cbn; auto.
  - destruct r; cbn; auto.
  - destruct b; cbn; auto.
  - destruct r; cbn; auto.
Qed.

(** Without a jump every program ends. *)
Definition next (c' c : code) : Prop := exists a, a <> AJump /\ lstep c a c'.
Lemma next_wf : forall c, Acc next c.
Proof.
  assert (AC : Acc next Crash) by (constructor; intros y (a & _ & S); inversion S).
  assert (AI : forall o k, (forall r, Acc next (k r)) -> Acc next (InCall o k)).
  { intros o k H. constructor. intros y (a & _ & S). inversion S; subst. destruct r; auto. }
  assert (AE : forall k, (forall r, Acc next (k r)) -> Acc next (InEdit k)).
  { intros k H. constructor. intros y (a & _ & S). inversion S; subst. auto. }
  induction c; constructor; intros y (a & N & S); inversion S; subst; auto; try congruence.
  - destruct b; auto.
  - destruct r; auto.
  - destruct b; auto.
  - destruct r; auto.
Qed.
