(** Proofs about Throttle, ThrottleSuccess and IterateList. *)
From Coq Require Import List String ZArith Bool Arith Lia.
From Coq.Floats Require Import SpecFloat.
From Verif Require Import Base ModelData ModelUtility ModelTree SpecTree SpecControl SpecTimed ProofsTree ProofsLife
  ProofsWhole ProofsControl ProofsMemory ProofsParallel ProofsDeco ProofsRun.
Import ListNotations.
Local Open Scope nat_scope.

Section Timed.
Context {E : Type}.
Notation W := (world E).
Notation callrec := (obj E * op * res state)%type.
Notation rec := (op * world E * res state * world E)%type.

(** As [does_intro], with the world the calls of a tick start from left open. *)
Lemma op_cases : forall (ev : env E) n k name cs o w w' r,
  o = OTick \/ o = OUntick \/ o = OReset -> inputs_set w n ->
  call o (make_obj ev n k name cs) w = (w', r) ->
  (dead (w_st w n) /\ w' = w /\ r = Err EGuard) \/
  (live (w_st w n) /\ exists w2 b, do_op ev o n k cs (prepare o n w) = (w2, b) /\
     (match o with OTick => end_tick n b w2 w' r | _ => end_op o n b w2 w' r end) /\
     (forall m, w_mem w' m = w_mem w2 m)).
Proof.
  intros ev n k name cs o w w' r Ho Hi H.
  destruct (dead_dec (w_st w n)) as [Hd|Hl].
  - rewrite refuse_dead in H by (left; split; auto; tauto). inversion H; subst. left. auto.
  - right. split; auto. destruct Ho as [ -> | Ho].
    + apply tick_api in H; auto. destruct H as [w2 [b [A B]]]. exists w2, b. split; auto. split; auto. apply B.
    + apply op_api in H; auto. destruct H as [w2 [b [A B]]]. exists w2, b. split; auto.
      destruct Ho; subst o; split; auto; apply B.
Qed.

(** ** C25 *)

Definition memo (a : attrs) : option (Z * res state) :=
  match a_last a with None => None | Some t => Some (t, a_lastres a) end.

Definition throttle_due (ev : env E) (m : option (Z * res state)) (f : spec_float) (w : W) : bool :=
  match m with None => true | Some (t, _) => elapsed_gt (now ev w) t f end.

Lemma throttle_op : forall (ev : env E) n name c cs o w w' r,
  Forall (blind n) (c :: cs) -> o = OTick \/ o = OUntick \/ o = OReset -> inputs_set w n ->
  call o (make_obj ev n KThrottle name (c :: cs)) w = (w', r) ->
  exists l b, does_timed ev o n w l b w' r /\
    memo (w_mem w' n) = note_completion ev (memo (w_mem w n)) ((o, w, r, w'), l) /\
    (o = OTick -> live (w_st w n) ->
     match memo (w_mem w n) with
     | None => throttle_plan c l b
     | Some (t, x) =>
         if elapsed_gt (now ev w) t (a_interval (w_mem w n)) then throttle_plan c l b else l = [] /\ b = x
     end).
Proof.
  intros ev n name c cs o w w' r Hb Ho Hi H. pose proof (Forall_inv Hb) as Hbc.
  destruct (op_cases ev n KThrottle name (c :: cs) o w w' r Ho Hi H) as [[Hd [-> ->]]|[Hl [w2 [b [Hd [He Hm]]]]]].
  - exists [], (Err EGuard). split; [destruct Ho as [ -> | [ -> | -> ]]; left; auto|].
    split; [destruct Ho as [ -> | [ -> | -> ]]; reflexivity|]. intros _ Hl. contradiction.
  - rewrite (Hm n). clear Hm. destruct Ho as [ -> | Ho].
    + cbn [do_op do_tick] in Hd. unfold throttle_tick in Hd. cbn [prepare] in Hd.
      assert (Hbeg : ev_now ev (w_ext (begin_tick n w)) = ev_now ev (w_ext w)) by reflexivity.
      rewrite Hbeg in Hd. unfold now.
      destruct (ev_now ev (w_ext w)) as [e' t] eqn:En. cbn [fst snd].
      set (w0 := set_ext (begin_tick n w) e') in *.
      assert (Hw0 : clock_read ev (begin_tick n w) = w0) by (unfold clock_read; rewrite Hbeg, ?En; reflexivity).
      assert (Hmem0 : w_mem w0 n = w_mem w n) by reflexivity. rewrite Hmem0 in Hd.
      set (due := match a_last (w_mem w n) with Some l => elapsed_gt t l (a_interval (w_mem w n)) | None => true end) in Hd.
      assert (Hx : exists l, ran_own n w0 l w2 /\
         memo (w_mem w2 n) = note_completion ev (memo (w_mem w n)) ((OTick, w, r, w'), l) /\
         if due then throttle_plan c l b else l = [] /\ b = a_lastres (w_mem w n)).
      { destruct due.
        - destruct (o_tick c w0) as [w1 x] eqn:Ec. pose proof (Hbc OTick w0) as [_ Hm1]. simpl in Hm1. rewrite Ec in Hm1. cbn [fst] in Hm1.
          assert (Hcall : call OTick c w0 = (w1, x)) by exact Ec.
          assert (Hcase : (x = Raise /\ w2 = w1 /\ b = Raise) \/ (x = Ok RUNNING /\ w2 = w1 /\ b = Ok RUNNING) \/
             (x <> Raise /\ x <> Ok RUNNING /\
              match o_reset c (mem_last (mem_lastres w1 n x) n (Some t)) with
              | (w3, Ok _) => (w3, a_lastres (w_mem w3 n)) | (w3, Err e) => (w3, Err e) | (w3, Raise) => (w3, Raise) end = (w2, b))).
          { destruct x as [[]|e|]; try (right; right; split; [discriminate|split; [discriminate|exact Hd]]).
            - right; left. inversion Hd; auto.
            - left. inversion Hd; auto. }
          destruct Hcase as [[-> [-> ->]]|[[-> [-> ->]]|[Hx1 [Hx2 Hd2]]]].
          + exists [(c, OTick, Raise)]. split; [eapply ro_call; [exact Hcall|apply ro_nil]|].
            split; [rewrite Hm1; reflexivity|constructor].
          + exists [(c, OTick, Ok RUNNING)]. split; [eapply ro_call; [exact Hcall|apply ro_nil]|].
            split; [rewrite Hm1; reflexivity|constructor].
          + set (w1' := mem_last (mem_lastres w1 n x) n (Some t)) in *.
            destruct (o_reset c w1') as [w3 y] eqn:Er. pose proof (Hbc OReset w1') as [_ Hm3]. simpl call in Hm3. rewrite Er in Hm3. cbn [fst] in Hm3.
            assert (Hlr : a_lastres (w_mem w3 n) = x /\ a_last (w_mem w3 n) = Some t).
            { rewrite Hm3. unfold w1', mem_last, mem_lastres. simpl. rewrite !upd_eq. simpl. auto. }
            destruct Hlr as [Hlr Hla].
            assert (Hw2 : w2 = w3 /\ b = match y with Ok _ => x | Err e => Err e | Raise => Raise end).
            { destruct y; inversion Hd2; subst; auto. }
            destruct Hw2 as [-> ->].
            exists [(c, OTick, x); (c, OReset, y)]. split.
            * eapply ro_call; [exact Hcall|]. unfold w1', mem_last, mem_lastres in Er.
              eapply ro_mem. eapply ro_mem. eapply ro_call; [|apply ro_nil]. exact Er.
            * split; [|apply tp_done; auto]. unfold memo. rewrite Hla, Hlr. unfold note_completion, now. rewrite En. cbn [snd].
              destruct x as [[]|e|]; try reflexivity; congruence.
        - inversion Hd; subst. exists []. split; [apply ro_nil|]. split; auto. }
      destruct Hx as [l [Hr [Hmm Hp]]]. exists l, b. split; [right; split; auto; exists w2; rewrite Hw0; auto|].
      split; auto. intros _ _. unfold memo. unfold due in Hp. destruct (a_last (w_mem w n)); auto.
    + assert (Hx : exists l, ran_own n (prepare o n w) l w2 /\ w_mem w2 n = w_mem w n).
      { assert (Hf : first_or (call o) (c :: cs) IDLE (prepare o n w) = (w2, b)) by (destruct Ho; subst o; exact Hd).
        unfold first_or in Hf. exists [(c, o, b)]. split; [eapply ro_call; [exact Hf|apply ro_nil]|].
        pose proof (Hbc o (prepare o n w)) as [_ Hm]. rewrite Hf in Hm. cbn [fst] in Hm. rewrite Hm. destruct Ho; subst o; reflexivity. }
      destruct Hx as [l [Hr Hm]]. exists l, b. rewrite Hm.
      split; [|split; [destruct Ho; subst o; reflexivity|destruct Ho; subst o; discriminate]].
      destruct Ho; subst o; right; split; auto; exists w2; auto.
Qed.

Lemma throttle_run : forall (ev : env E) n name c cs f w0 recs,
  Forall (blind n) (c :: cs) ->
  op_run (make_obj ev n KThrottle name (c :: cs)) w0 recs -> a_interval (w_mem w0 n) = f ->
  exists ls, Forall2 (did_timed ev n) recs ls /\
    forall pre w r w' post, recs = pre ++ (OTick, w, r, w') :: post -> live (w_st w n) ->
      exists lp lt lr b, ls = lp ++ lt :: lr /\ List.length lp = List.length pre /\ does_timed ev OTick n w lt b w' r /\
        match fold_left (note_completion ev) (combine pre lp) (memo (w_mem w0 n)) with
        | None => throttle_plan c lt b
        | Some (t, x) => if elapsed_gt (now ev w) t f then throttle_plan c lt b else lt = [] /\ b = x
        end.
Proof.
  intros ev n name c cs f w0 recs Hb Hrun. induction Hrun as [w0|w0 o w r w' l [Hst Hmem] Ho Hi Hc Hrun IH]; intros Hf.
  - exists []. split; [constructor|]. intros [|? ?] ? ? ? ? H; discriminate.
  - simpl in Hst, Hmem, Hi.
    destruct (throttle_op _ _ _ _ _ _ _ _ _ Hb Ho Hi Hc) as [lc [b [Hd [Hmm Hp]]]].
    assert (Hf' : a_interval (w_mem w' n) = f).
    { assert (Hno : o <> OSetup) by (destruct Ho as [ -> | [ -> | -> ]]; discriminate).
      destruct (node_options ev n KThrottle name (c :: cs) o w Hno Hb) as [_ [_ [_ [_ [_ [Hx _]]]]]].
      rewrite Hc in Hx. simpl in Hx. congruence. }
    rewrite <- Hmem in *.
    destruct (IH Hf') as [ls [H2 Hrest]].
    exists (lc :: ls). split; [constructor; auto; exists b; auto|].
    intros [|x pre'] wt rt wt' post Heq Hlive.
    + simpl in Heq. inversion Heq; subst. exists [], lc, ls, b. split; auto. split; auto. split; auto.
      simpl. apply Hp; auto.
    + simpl in Heq. inversion Heq; subst x l.
      destruct (Hrest pre' wt rt wt' post eq_refl Hlive) as [lp [lt [lr [b' [-> [Hlen [Hd' Himp]]]]]]].
      exists (lc :: lp), lt, lr, b'. split; auto. split; [simpl; congruence|]. split; auto.
      cbn [combine fold_left]. rewrite <- Hmm. exact Himp.
Qed.

Lemma throttle_setup : forall (ev : env E) n name cs w w' s d f,
  Forall (blind n) cs -> dget "tick_interval" (w_ins w n) = Some d -> c_static d = true -> c_val d = Some (VFloat f) ->
  call OSetup (make_obj ev n KThrottle name cs) w = (w', Ok s) ->
  a_last (w_mem w' n) = None /\ a_interval (w_mem w' n) = f.
Proof.
  intros ev n name cs w w' s d f Hb Hd Hs Hv H.
  destruct (ok_api ev n KThrottle name cs OSetup w w' s (or_introl eq_refl) H) as [w2 [Hdo [_ [_ [Hm _]]]]].
  rewrite Hm. clear Hm H. cbn [do_op do_setup] in Hdo.
  set (w1 := mem_lastres (mem_last (prepare OSetup n w) n None) n (Ok FAILED)) in *.
  assert (Hopt : in_value_as as_float w1 n "tick_interval" = Ok f).
  { unfold in_value_as. change (w_ins w1 n) with (w_ins (prepare OSetup n w) n).
    unfold prepare. simpl. rewrite upd_eq. rewrite dget_map_io, Hd. simpl. rewrite Hs, Hv. reflexivity. }
  rewrite Hopt in Hdo. cbn [with_in] in Hdo.
  set (w3 := mem_interval w1 n f) in *.
  assert (Hm3 : a_last (w_mem w3 n) = None /\ a_interval (w_mem w3 n) = f).
  { unfold w3, mem_interval, w1, mem_lastres, mem_last. simpl. rewrite !upd_eq. simpl. auto. }
  clearbody w3. destruct cs as [|c cs']; cbn [first_or] in Hdo; [inversion Hdo; subst; auto|].
  pose proof (Forall_inv Hb OSetup w3) as [_ Hm]. simpl in Hm. rewrite Hdo in Hm. simpl in Hm. rewrite Hm. auto.
Qed.

Lemma throttle_from_setup : forall (ev : env E) n name c cs wb w0 s recs d f,
  Forall (blind n) (c :: cs) ->
  dget "tick_interval" (w_ins wb n) = Some d -> c_static d = true -> c_val d = Some (VFloat f) ->
  call OSetup (make_obj ev n KThrottle name (c :: cs)) wb = (w0, Ok s) ->
  op_run (make_obj ev n KThrottle name (c :: cs)) w0 recs ->
  exists ls, Forall2 (did_timed ev n) recs ls /\
    forall pre w r w' post, recs = pre ++ (OTick, w, r, w') :: post -> live (w_st w n) ->
      exists lp lt lr b, ls = lp ++ lt :: lr /\ List.length lp = List.length pre /\ does_timed ev OTick n w lt b w' r /\
        match last_completion ev pre lp with
        | None => throttle_plan c lt b
        | Some (t, x) => if elapsed_gt (now ev w) t f then throttle_plan c lt b else lt = [] /\ b = x
        end.
Proof.
  intros ev n name c cs wb w0 s recs d f Hb Hd Hs Hv Hset Hrun.
  destruct (throttle_setup ev n name (c :: cs) wb w0 s d f Hb Hd Hs Hv Hset) as [Hn Hf].
  destruct (throttle_run ev n name c cs f w0 recs Hb Hrun Hf) as [ls [H1 H2]].
  exists ls. split; auto. intros pre w r w' post Hr Hl.
  destruct (H2 pre w r w' post Hr Hl) as [lp [lt [lr [b [A [B [C D]]]]]]].
  exists lp, lt, lr, b. repeat split; auto. unfold memo in D. rewrite Hn in D. exact D.
Qed.

Lemma note_none : forall (ev : env E) acc p, note_completion ev None p = None -> note_completion ev acc p = acc.
Proof.
  intros ev acc [[[[o w] r] w'] l]. unfold note_completion. destruct o; auto.
  destruct l as [|[[c o] y] l']; auto. destruct o; auto. destruct y as [[]|e|]; auto; discriminate.
Qed.

Lemma combine_app : forall A B (a a' : list A) (b b' : list B), List.length a = List.length b ->
  combine (a ++ a') (b ++ b') = combine a b ++ combine a' b'.
Proof.
  induction a as [|x a IH]; intros a' [|y b] b' H; simpl in *; try discriminate; auto. f_equal. apply IH. lia.
Qed.

(** Two executions of the child of a Throttle are separated by the interval. *)
Lemma throttle_pacing : forall (ev : env E) n name c cs wb w0 s recs d f,
  Forall (blind n) (c :: cs) ->
  dget "tick_interval" (w_ins wb n) = Some d -> c_static d = true -> c_val d = Some (VFloat f) ->
  call OSetup (make_obj ev n KThrottle name (c :: cs)) wb = (w0, Ok s) ->
  op_run (make_obj ev n KThrottle name (c :: cs)) w0 recs ->
  exists ls, Forall2 (did_timed ev n) recs ls /\
    forall pre w r w' mid v q v' post lp lx lm ly lr y,
      recs = pre ++ (OTick, w, r, w') :: mid ++ (OTick, v, q, v') :: post ->
      ls = lp ++ lx :: lm ++ ly :: lr ->
      List.length lp = List.length pre -> List.length lm = List.length mid ->
      live (w_st v n) ->
      (exists rest, lx = (c, OTick, y) :: rest) -> y <> Ok RUNNING -> y <> Raise ->
      Forall (fun p => note_completion ev None p = None) (combine mid lm) ->
      (elapsed_gt (now ev v) (now ev w) f = true -> exists x rest, ly = (c, OTick, x) :: rest) /\
      (elapsed_gt (now ev v) (now ev w) f = false -> ly = [] /\ exists b, b = y /\ does_timed ev OTick n v ly b v' q).
Proof.
  intros ev n name c cs wb w0 s recs d f Hb Hd Hs Hv Hset Hrun.
  destruct (throttle_from_setup ev n name c cs wb w0 s recs d f Hb Hd Hs Hv Hset Hrun) as [ls [H1 H2]].
  exists ls. split; auto. intros pre w r w' mid v q v' post lp lx lm ly lr y Hrecs Hls Hl1 Hl2 Hlive [rest Hlx] Hy1 Hy2 Hmid.
  destruct (H2 (pre ++ (OTick, w, r, w') :: mid) v q v' post) as [lp' [lt [lr' [b [Hls' [Hlen [Hdo Hcase]]]]]]]; auto.
  { rewrite Hrecs. rewrite <- app_assoc. reflexivity. }
  assert (Heq : lp' = lp ++ lx :: lm /\ lt = ly).
  { rewrite Hls in Hls'. replace (lp ++ lx :: lm ++ ly :: lr) with ((lp ++ lx :: lm) ++ ly :: lr) in Hls'
      by (rewrite <- app_assoc; reflexivity).
    assert (Hlen2 : List.length (lp ++ lx :: lm) = List.length lp').
    { rewrite Hlen, !app_length. simpl. lia. }
    clear -Hls' Hlen2. revert lp' Hls' Hlen2. generalize (lp ++ lx :: lm). intros a. induction a as [|z a IH]; intros [|z' b'] He Hl; simpl in *; try discriminate.
    - inversion He; auto.
    - inversion He; subst. destruct (IH b' H1 ltac:(lia)) as [-> ->]. auto. }
  destruct Heq as [-> ->].
  assert (Hlc : last_completion ev (pre ++ (OTick, w, r, w') :: mid) (lp ++ lx :: lm) = Some (now ev w, y)).
  { unfold last_completion. rewrite combine_app by congruence. rewrite fold_left_app. cbn [combine fold_left].
    set (acc := fold_left _ (combine pre lp) None). clearbody acc.
    assert (Hn : note_completion ev acc ((OTick, w, r, w'), lx) = Some (now ev w, y)).
    { rewrite Hlx. simpl. destruct y as [[]|e|]; auto; congruence. }
    rewrite Hn. clear -Hmid. generalize (combine mid lm), Hmid. intros a Ha. induction Ha as [|z a Hz Ha IH]; simpl; auto.
    rewrite note_none; auto. }
  rewrite Hlc in Hcase. destruct (elapsed_gt (now ev v) (now ev w) f).
  - split; [|discriminate]. intros _. destruct Hcase; eauto.
  - split; [discriminate|]. intros _. destruct Hcase as [-> ->]. split; auto. exists y. auto.
Qed.

(** ** C26 *)

Lemma throttle_success_always : forall (ev : env E) n name cs w w' r,
  live (w_st w n) -> inputs_set w n ->
  call OTick (make_obj ev n KThrottleSuccess name cs) w = (w', r) ->
  exists l b, does_timed ev OTick n w l b w' r /\ (b = Ok FAILED \/ b = Raise).
Proof.
  intros ev n name cs w w' r Hl Hi H. apply tick_api in H; auto. destruct H as [w2 [b [Hd He]]].
  unfold do_tick, throttle_success_tick in Hd.
  assert (Hbeg : ev_now ev (w_ext (begin_tick n w)) = ev_now ev (w_ext w)) by reflexivity.
  rewrite Hbeg in Hd. destruct (ev_now ev (w_ext w)) as [e' t] eqn:En.
  set (w0 := set_ext (begin_tick n w) e') in *.
  assert (Hw0 : clock_read ev (begin_tick n w) = w0) by (unfold clock_read; rewrite Hbeg, ?En; reflexivity).
  assert (Hx : exists l, ran_own n w0 l w2 /\ (b = Ok FAILED \/ b = Raise)).
  { destruct (match a_last (w_mem w0 n) with Some l => elapsed_gt t l (a_interval (w_mem w0 n)) | None => true end).
    - destruct cs as [|c cs']; [inversion Hd; subst; exists []; split; [apply ro_nil|auto]|].
      destruct (o_tick c w0) as [w1 x] eqn:Ec. exists [(c, OTick, x)].
      assert (Hw : w2 = w1 /\ (b = Ok FAILED \/ b = Raise)) by (destruct x; inversion Hd; subst; auto).
      destruct Hw as [-> Hb]. split; auto. eapply ro_call; [exact Ec|apply ro_nil].
    - inversion Hd; subst; exists []; split; [apply ro_nil|auto]. }
  destruct Hx as [l [Hr Hb]]. exists l, b. split; auto. right. split; auto. exists w2. rewrite Hw0. auto.
Qed.

(** ** C27 *)

(** A tick does not change outputs after the class-specific code. *)
Lemma tick_outs : forall (ev : env E) n k name cs w w' r w2 b,
  live (w_st w n) -> inputs_set w n ->
  call OTick (make_obj ev n k name cs) w = (w', r) ->
  do_tick ev n k cs (begin_tick n w) = (w2, b) -> w_outs w' = w_outs w2.
Proof.
  intros ev n k name cs w w' r w2 b Hl Hi H Hd. rewrite call_make in H.
  destruct (node_tick_cases E n (do_op ev OTick n k cs) w) as [[Hdd _]|[_ Heq]]; [contradiction|].
  rewrite Heq in H. unfold tick_live in H. rewrite (inputs_set_forallb _ _ _ Hi) in H. cbn [negb do_op] in H.
  unfold begin_tick in Hd. rewrite Hd in H. destruct b as [s|e|].
  - set (w4 := set_ins (set_st w2 n s) n (map_io reset_updated (w_ins (set_st w2 n s) n))) in *.
    assert (H4 : w_outs w4 = w_outs w2) by reflexivity.
    pose proof (push_outputs_frame E n w4) as [_ [_ [A3 _]]]. clearbody w4.
    destruct (state_in s [RUNNING; SUCCEEDED; FAILED; ASSIGNED; UNASSIGNED]).
    + destruct (push_outputs w4 n) as [w5 [u|e|]]; inversion H; subst w' r; simpl in *; congruence.
    + inversion H; subst; auto.
  - inversion H; reflexivity.
  - inversion H; reflexivity.
Qed.

Lemma priv_mem : forall n (w : W) a, private_step n w (set_mem w n a).
Proof. intros. unfold private_step. simpl. repeat split; auto. intros m Hm. apply upd_neq; auto. Qed.

Lemma priv_outs : forall n (w : W) a, private_step n w (set_outs w n a).
Proof. intros. unfold private_step. simpl. repeat split; auto. intros m Hm. apply upd_neq; auto. Qed.

Lemma succ_mod : forall k len, 0 < len ->
  S k mod len = if Nat.eqb (S (k mod len)) len then 0 else S (k mod len).
Proof.
  intros k len Hl. pose proof (Nat.div_mod k len ltac:(lia)) as Hk. pose proof (Nat.mod_upper_bound k len ltac:(lia)) as Hu.
  destruct (Nat.eqb_spec (S (k mod len)) len) as [He|He].
  - symmetry. apply (Nat.mod_unique _ _ (S (k / len))); lia.
  - symmetry. apply (Nat.mod_unique _ _ (k / len)); lia.
Qed.

Lemma dget_dset_eq : forall A k (v : A) l, dget k (dset k v l) = Some v.
Proof.
  intros A k v l. induction l as [|[k' v'] l IH]; simpl.
  - rewrite String.eqb_refl. auto.
  - destruct (String.eqb k k') eqn:Ek; simpl; [rewrite String.eqb_refl|rewrite Ek]; auto.
Qed.

(** The first half of a tick of IterateList: choose the item and put it out. *)
Lemma iterate_item : forall (ev : env E) n name cs w w' s l u p oc,
  live (w_st w n) -> inputs_set w n ->
  in_value_as as_list w n "list" = Ok l -> any_updated w n ["list"%string] = Ok u ->
  p = (if u then 0 else a_counter (w_mem w n)) -> oc = (if u then true else a_outch (w_mem w n)) ->
  l <> [] -> p < List.length l ->
  call OTick (make_obj ev n KIterateList name cs) w = (w', Ok s) ->
  exists v w1 w2 b, nth_error l p = Some v /\ private_step n (begin_tick n w) w1 /\
    (exists c, dget "list_item" (w_outs w n) = Some c /\
        snd (set_value (reset_updated c) v) = Ok tt /\
        dget "list_item" (w_outs w1 n) = Some (fst (set_value (reset_updated c) v))) /\
    a_counter (w_mem w1 n) = p /\ a_outch (w_mem w1 n) = oc /\
    w_outs w' = w_outs w2 /\ (forall m, w_mem w' m = w_mem w2 m) /\ end_tick n b w2 w' (Ok s) /\
    (let a := w_mem w1 n in
     match cs with
     | [] =>
         let w2 := mem_iter w1 n (S (a_counter a)) (a_outch a) in
         if Nat.eqb (S (a_counter a)) (List.length l)
         then (mem_iter w2 n 0 true, Ok SUCCEEDED) else (w2, Ok RUNNING)
     | c :: _ =>
         if a_outch a then (mem_iter w1 n (a_counter a) false, Ok RUNNING)
         else
           bind (o_tick c w1) (fun s w2 =>
             let a2 := w_mem w2 n in
             if state_eqb s SUCCEEDED then
               let w3 := mem_iter w2 n (S (a_counter a2)) true in
               if Nat.eqb (S (a_counter a2)) (List.length l)
               then (mem_iter w3 n 0 true, Ok SUCCEEDED)
               else (w3, Ok RUNNING)
             else if state_eqb s FAILED then (w2, Ok FAILED)
             else (w2, Ok RUNNING))
     end) = (w2, b).
Proof.
  intros ev n name cs w w' s l u p oc Hl Hi Hin Hup Hp Hoc Hne Hlt H.
  assert (H' := H). apply tick_api in H; auto. destruct H as [w2 [b [Hd He]]].
  pose proof (tick_outs _ _ _ _ _ _ _ _ _ _ Hl Hi H' Hd) as Houts.
  unfold do_tick, iterate_tick in Hd.
  change (any_updated (begin_tick n w) n ["list"%string]) with (any_updated w n ["list"%string]) in Hd. rewrite Hup in Hd.
  set (w0 := if u then mem_iter (begin_tick n w) n 0 true else begin_tick n w) in *.
  assert (Hin0 : in_value_as as_list w0 n "list" = Ok l).
  { rewrite <- Hin. unfold w0. destruct u; reflexivity. }
  rewrite Hin0 in Hd.
  assert (Hm0 : a_counter (w_mem w0 n) = p /\ a_outch (w_mem w0 n) = oc).
  { subst p oc. unfold w0. destruct u; simpl; rewrite ?upd_eq; auto. }
  destruct Hm0 as [Hc0 Ho0].
  assert (Hp0 : private_step n (begin_tick n w) w0).
  { unfold w0. destruct u; [apply priv_mem|]. unfold private_step; auto. repeat split; auto. }
  assert (Houts0 : w_outs w0 n = map_io reset_updated (w_outs w n)).
  { unfold w0. destruct u; simpl; apply upd_eq. }
  clearbody w0. destruct l as [|v0 l0]; [congruence|].
  cbv iota in Hd. remember (v0 :: l0) as l1 eqn:El1.
  rewrite Hc0 in Hd. destruct (nth_error l1 p) as [v|] eqn:En.
  2:{ apply nth_error_None in En. lia. }
  unfold out_set in Hd. rewrite Houts0, dget_map_io in Hd.
  destruct (dget "list_item" (w_outs w n)) as [c|] eqn:Ed; cbn [option_map] in Hd.
  2:{ simpl in Hd. inversion Hd; subst b. destruct He as [_ [He _]]. discriminate. }
  destruct (set_value (reset_updated c) v) as [c1 [q|e|]] eqn:Esv; cbn [bind] in Hd.
  2: inversion Hd; subst b; destruct He as [_ [He _]]; discriminate.
  2: inversion Hd; subst b; destruct He as [_ He]; discriminate.
  destruct q.
  set (w1 := set_outs w0 n (dset "list_item" c1 (map_io reset_updated (w_outs w n)))) in *.
  assert (Hps : private_step n (begin_tick n w) w1).
  { destruct Hp0 as [A1 [A2 [A3 [A4 [A5 [A6 A7]]]]]]. unfold private_step, w1. simpl. repeat split; auto.
    intros m Hm. rewrite upd_neq by auto. apply A3; auto. }
  exists v, w1, w2, b. split; auto. split; auto. split.
  { exists c. split; auto. split; [rewrite Esv; auto|]. simpl. rewrite upd_eq. rewrite dget_dset_eq. rewrite Esv. reflexivity. }
  change (w_mem w1) with (w_mem w0). split; auto. split; auto. split; auto. split; [apply He|]. split; auto.
Qed.

Lemma ok_live : forall (ev : env E) n k name cs o w w' s,
  o = OTick \/ o = OUntick \/ o = OReset ->
  call o (make_obj ev n k name cs) w = (w', Ok s) -> live (w_st w n).
Proof.
  intros ev n k name cs o w w' s Ho H Hd.
  rewrite refuse_dead in H by (left; split; auto). discriminate.
Qed.

Lemma in_list_updated : forall (w : W) n l,
  in_value_as as_list w n "list" = Ok l -> exists u, any_updated w n ["list"%string] = Ok u.
Proof.
  intros w n l H. unfold in_value_as in H. simpl. destruct (dget "list" (w_ins w n)) as [c|]; [|discriminate].
  simpl. eauto.
Qed.

Lemma iterate_start : forall (ev : env E) n name cs o w w' s,
  o = OSetup \/ o = OReset -> Forall (blind n) cs ->
  call o (make_obj ev n KIterateList name cs) w = (w', Ok s) ->
  a_counter (w_mem w' n) = 0 /\ a_outch (w_mem w' n) = true.
Proof.
  intros ev n name cs o w w' s Ho Hb H.
  destruct (ok_api ev n KIterateList name cs o w w' s ltac:(tauto) H) as [w2 [Hd [_ [_ [Hm _]]]]].
  rewrite Hm. clear Hm.
  assert (Hf : first_or (call o) cs IDLE (mem_iter (prepare o n w) n 0 true) = (w2, Ok s)).
  { destruct Ho; subst o; exact Hd. }
  set (w1 := mem_iter (prepare o n w) n 0 true) in *.
  assert (Hw1 : a_counter (w_mem w1 n) = 0 /\ a_outch (w_mem w1 n) = true).
  { unfold w1, mem_iter. simpl. rewrite upd_eq. auto. }
  clearbody w1. destruct cs as [|c cs']; cbn [first_or] in Hf; [inversion Hf; subst; auto|].
  pose proof (Forall_inv Hb o w1) as [_ Hx]. rewrite Hf in Hx. simpl in Hx. rewrite Hx. auto.
Qed.

(** Without a child. *)
Lemma iterate_alone_run : forall (ev : env E) n name l w0 recs,
  op_run (make_obj ev n KIterateList name []) w0 recs ->
  l <> [] -> forall first k0,
  Forall (fun x : rec => fst (fst (fst x)) <> OReset /\ exists s, snd (fst x) = Ok s) recs ->
  steady n l first recs ->
  a_counter (w_mem w0 n) = k0 mod List.length l -> (first = true -> k0 = 0) ->
  forall pre w r w' post, recs = pre ++ (OTick, w, r, w') :: post ->
    exists v, nth_error l ((k0 + ticks_in pre) mod List.length l) = Some v /\ received n "list_item" v w w' /\
      ticks_private n w [] r w' r /\
      r = Ok (if Nat.eqb ((S (k0 + ticks_in pre)) mod List.length l) 0 then SUCCEEDED else RUNNING).
Proof.
  intros ev n name l w0 recs Hrun Hne. assert (Hlen : 0 < List.length l) by (destruct l; [congruence|simpl; lia]).
  induction Hrun as [w0|w0 o w r w' rs [Hst Hmem] Ho Hi Hc Hrun IH]; intros first k0 HF Hs Hk Hfirst pre wt rt wt' post Heq.
  { destruct pre; discriminate. }
  simpl in Hst, Hmem, Hi. destruct (Forall_inv HF) as [Hnr [s Hok]]. cbn [fst snd] in Hnr, Hok. subst r.
  pose proof (ok_live _ _ _ _ _ _ _ _ _ Ho Hc) as Hl.
  destruct Ho as [ -> | [ -> | -> ]]; [| |congruence].
  - destruct Hs as [Hin [Hupd Hs]]. destruct (in_list_updated _ _ _ Hin) as [u Hu].
    set (k := if u then 0 else k0).
    assert (Hcnt : (if u then 0 else a_counter (w_mem w n)) = k mod List.length l).
    { unfold k. destruct u; [symmetry; apply Nat.mod_0_l; lia|congruence]. }
    assert (Hk0 : k = k0).
    { unfold k. destruct u; auto. destruct first; [rewrite Hfirst; auto|]. rewrite Hupd in Hu by auto. discriminate. }
    rewrite Hk0 in Hcnt. clear Hk0. clear k.
    destruct (iterate_item ev n name [] w w' s l u _ _ Hl Hi Hin Hu eq_refl eq_refl Hne) as
      [v [w1 [w2 [b [Hv [Hps [Hrec [Hc1 [Ho1 [Houts [Hm [He Hb]]]]]]]]]]]]; auto.
    { rewrite Hcnt. apply Nat.mod_upper_bound. lia. }
    rewrite Hcnt in *. cbv zeta in Hb. rewrite Hc1 in Hb.
    assert (Hw2 : b = Ok (if Nat.eqb (S k0 mod List.length l) 0 then SUCCEEDED else RUNNING) /\
      a_counter (w_mem w2 n) = S k0 mod List.length l /\ private_step n w1 w2 /\ w_outs w2 = w_outs w1).
    { rewrite (succ_mod k0 (List.length l) Hlen).
      destruct (Nat.eqb (S (k0 mod List.length l)) (List.length l)); inversion Hb; subst.
      - split; [reflexivity|]. split; [simpl; rewrite upd_eq; reflexivity|]. split; [|reflexivity].
        unfold private_step; simpl; repeat split; auto. intros m Hmn. rewrite !upd_neq by auto. auto.
      - split; [reflexivity|]. split; [simpl; rewrite upd_eq; reflexivity|]. split; [apply priv_mem|reflexivity]. }
    destruct Hw2 as [Hb2 [Hc2 [Hp2 Ho2]]]. clear Hb.
    assert (Hrs : b = Ok s).
    { rewrite Hb2 in He. destruct He as [_ [[_ [_ He]]|[[_ [_ He]]|[_ [_ [[e [He _]]|He]]]]]]; congruence. }
    rewrite Hrs in Hb2, He.
    destruct pre as [|x pre']; simpl in Heq; inversion Heq.
    + subst wt rt wt' post. exists v. change (ticks_in (@nil rec)) with 0. rewrite Nat.add_0_r. split; auto. split.
      { destruct Hrec as [c [R1 [R2 R3]]]. exists c. rewrite Houts, Ho2. auto. }
      split; [|exact Hb2].
      exists w2. split; [|exact He].
      eapply rp_own; [exact Hps|]. eapply rp_own; [exact Hp2|apply rp_nil].
    + subst x rs. destruct (IH false (S k0) (Forall_inv_tail HF) Hs) with (pre := pre') (w := wt) (r := rt) (w' := wt') (post := post)
        as [v' [A [B [C D]]]]; auto; try congruence.
      exists v'. unfold ticks_in in *. simpl. rewrite Nat.add_succ_r. auto.
  - destruct (ok_api ev n KIterateList name [] OUntick w w' s ltac:(tauto) Hc) as [w2 [Hd [_ [_ [Hm _]]]]].
    inversion Hd as [[Hw2 Hs2]]. rewrite <- Hw2 in *. 
    destruct pre as [|x pre']; simpl in Heq; inversion Heq.
    subst x rs. destruct (IH first k0 (Forall_inv_tail HF) Hs) with (pre := pre') (w := wt) (r := rt) (w' := wt') (post := post)
        as [v' [A [B [C D]]]]; auto.
    { rewrite Hm. simpl. congruence. }
    exists v'. auto.
Qed.

(** With a child. *)
Lemma iterate_child_run : forall (ev : env E) n name c cs l w0 recs,
  Forall (blind n) (c :: cs) -> keeps_outs n c ->
  op_run (make_obj ev n KIterateList name (c :: cs)) w0 recs ->
  l <> [] -> forall first k0 f0,
  Forall (fun x : rec => fst (fst (fst x)) <> OReset /\ exists s, snd (fst x) = Ok s) recs ->
  steady n l first recs ->
  a_counter (w_mem w0 n) = k0 mod List.length l -> a_outch (w_mem w0 n) = f0 -> (first = true -> k0 = 0 /\ f0 = true) ->
  exists ls, Forall2 (did_private n) recs ls /\
  forall pre w r w' post, recs = pre ++ (OTick, w, r, w') :: post ->
    exists lp lt lr s, ls = lp ++ lt :: lr /\ List.length lp = List.length pre /\
      r = Ok s /\ ticks_private n w lt r w' r /\
      let p := (k0 + completions (List.concat lp)) mod List.length l in
      (exists v, nth_error l p = Some v /\ received n "list_item" v w w') /\
      if fold_left note_item (combine pre lp) f0 then lt = [] /\ s = RUNNING
      else exists x, lt = [(c, OTick, Ok x)] /\
        s = match x with
            | SUCCEEDED => if Nat.eqb (S p) (List.length l) then SUCCEEDED else RUNNING
            | FAILED => FAILED
            | _ => RUNNING
            end.
Proof.
  intros ev n name c cs l w0 recs Hbl Hko Hrun Hne. assert (Hlen : 0 < List.length l) by (destruct l; [congruence|simpl; lia]).
  induction Hrun as [w0|w0 o w r w' rs [Hst Hmem] Ho Hi Hc Hrun IH]; intros first k0 f0 HF Hs Hk Hf Hfirst.
  { exists []. split; [constructor|]. intros [|? ?] ? ? ? ? H; discriminate. }
  simpl in Hst, Hmem, Hi. destruct (Forall_inv HF) as [Hnr [s Hok]]. cbn [fst snd] in Hnr, Hok. subst r.
  pose proof (ok_live _ _ _ _ _ _ _ _ _ Ho Hc) as Hl.
  destruct Ho as [ -> | [ -> | -> ]]; [| |congruence].
  - destruct Hs as [Hin [Hupd Hs]]. destruct (in_list_updated _ _ _ Hin) as [u Hu].
    assert (Hcnt : (if u then 0 else a_counter (w_mem w n)) = k0 mod List.length l).
    { destruct u; [|congruence]. destruct first; [destruct (Hfirst eq_refl) as [-> _]; symmetry; apply Nat.mod_0_l; lia|].
      rewrite Hupd in Hu by auto. discriminate. }
    assert (Hfr : (if u then true else a_outch (w_mem w n)) = f0).
    { destruct u; [|congruence]. destruct first; [destruct (Hfirst eq_refl) as [_ ->]; auto|].
      rewrite Hupd in Hu by auto. discriminate. }
    destruct (iterate_item ev n name (c :: cs) w w' s l u _ _ Hl Hi Hin Hu eq_refl eq_refl Hne) as
      [v [w1 [w2 [b [Hv [Hps [Hrec [Hc1 [Ho1 [Houts [Hm [He Hb]]]]]]]]]]]]; auto.
    { rewrite Hcnt. apply Nat.mod_upper_bound. lia. }
    rewrite Hcnt in *. rewrite Hfr in *. cbv zeta in Hb. rewrite Hc1, Ho1 in Hb.
    assert (Hbs : b = Ok s).
    { destruct b as [s'|e|].
      - destruct He as [_ [[_ [_ He]]|[[_ [_ He]]|[_ [_ [[e [He _]]|He]]]]]]; congruence.
      - destruct He as [_ [He _]]. congruence.
      - destruct He as [_ He]. congruence. }
    subst b.
    assert (Hstep : exists lt, ran_private n (begin_tick n w) lt w2 /\ w_outs w2 n = w_outs w1 n /\
       a_counter (w_mem w2 n) = (k0 + completions lt) mod List.length l /\
       a_outch (w_mem w2 n) = note_item f0 ((OTick, w, Ok s, w'), lt) /\
       if f0 then lt = [] /\ s = RUNNING
       else exists x, lt = [(c, OTick, Ok x)] /\
         s = match x with
             | SUCCEEDED => if Nat.eqb (S (k0 mod List.length l)) (List.length l) then SUCCEEDED else RUNNING
             | FAILED => FAILED
             | _ => RUNNING
             end).
    { destruct f0.
      - inversion Hb; subst. exists []. split; [eapply rp_own; [exact Hps|]; eapply rp_own; [apply priv_mem|apply rp_nil]|].
        split; [reflexivity|]. simpl. rewrite upd_eq. simpl. unfold completions. simpl. rewrite Nat.add_0_r. auto.
      - destruct (o_tick c w1) as [w3 q] eqn:Eq. assert (Hcall : call OTick c w1 = (w3, q)) by exact Eq.
        pose proof (Forall_inv Hbl OTick w1) as [_ Hm3]. rewrite Hcall in Hm3. cbn [fst] in Hm3.
        pose proof (Hko OTick w1) as Ho3. rewrite Hcall in Ho3. cbn [fst] in Ho3.
        destruct q as [x|e|]; cbn [bind] in Hb; [|inversion Hb|inversion Hb].
        rewrite Hm3, Hc1 in Hb.
        assert (Hpre : forall w4, private_step n w3 w4 -> ran_private n (begin_tick n w) [(c, OTick, Ok x)] w4).
        { intros w4 H4. eapply rp_own; [exact Hps|]. eapply rp_call; [exact Hcall|]. eapply rp_own; [exact H4|apply rp_nil]. }
        assert (Hrefl : private_step n w3 w3) by (unfold private_step; repeat split; auto).
        exists [(c, OTick, Ok x)]. unfold completions.
        destruct (state_eqb x SUCCEEDED) eqn:Es.
        + apply state_eqb_true in Es. subst x. cbn [filter List.length map]. rewrite Nat.add_1_r. rewrite (succ_mod k0 _ Hlen).
          destruct (Nat.eqb (S (k0 mod List.length l)) (List.length l)); inversion Hb; subst.
          * split; [apply Hpre; unfold private_step; simpl; repeat split; auto; intros m Hmn; rewrite !upd_neq by auto; auto|].
            simpl. rewrite upd_eq. simpl. split; auto. split; auto. split; auto. exists SUCCEEDED; auto.
          * split; [apply Hpre; apply priv_mem|].
            simpl. rewrite upd_eq. simpl. split; auto. split; auto. split; auto. exists SUCCEEDED; auto.
        + assert (Hlen0 : List.length (filter (fun x0 : callrec => match x0 with (_, OTick, Ok SUCCEEDED) => true | _ => false end)
            [(c, OTick, Ok x)]) = 0) by (destruct x; try reflexivity; discriminate).
          rewrite Hlen0, Nat.add_0_r.
          assert (Hni : note_item false ((OTick, w, Ok s, w'), [(c, OTick, Ok x)]) = false) by (destruct x; try reflexivity; discriminate).
          rewrite Hni.
          destruct (state_eqb x FAILED) eqn:Ef; inversion Hb; subst.
          * split; [apply Hpre; auto|]. split; auto. split; [congruence|]. split; [congruence|].
            apply state_eqb_true in Ef. subst x. exists FAILED. auto.
          * split; [apply Hpre; auto|]. split; auto. split; [congruence|]. split; [congruence|].
            exists x. split; auto. destruct x; try reflexivity; discriminate. }
    destruct Hstep as [lt [Hr [Ho2 [Hc2 [Hf2 Hcase]]]]].
    destruct (IH false (k0 + completions lt) (note_item f0 ((OTick, w, Ok s, w'), lt)) (Forall_inv_tail HF) Hs) as [ls [H2 Hrest]].
    { rewrite Hm. exact Hc2. }
    { rewrite Hm. exact Hf2. }
    { discriminate. }
    exists (lt :: ls). assert (Htp : ticks_private n w lt (Ok s) w' (Ok s)) by (exists w2; auto).
    split; [constructor; auto; exists (Ok s); auto|].
    intros pre wt rt wt' post Heq. destruct pre as [|x pre']; simpl in Heq; inversion Heq.
    + subst. exists [], lt, ls, s. split; auto. split; auto. split; auto. split; auto.
      cbv zeta. unfold completions. simpl List.length. rewrite Nat.add_0_r. split; [|exact Hcase].
      exists v. split; auto. destruct Hrec as [c0 [R1 [R2 R3]]]. exists c0. rewrite Houts, Ho2. auto.
    + subst x rs. destruct (Hrest pre' wt rt wt' post eq_refl) as [lp [lt' [lr [s' [-> [Hle [-> [T D]]]]]]]].
      exists (lt :: lp), lt', lr, s'. split; auto. split; [simpl; congruence|]. split; auto. split; auto.
      cbv zeta in *. cbn [List.concat combine fold_left]. rewrite completions_app, Nat.add_assoc. exact D.
  - destruct (op_cases ev n KIterateList name (c :: cs) OUntick w w' (Ok s) ltac:(tauto) Hi Hc) as [[Hd _]|[_ [w2 [b [Hd [He Hm]]]]]]; [contradiction|].
    cbn [do_op do_untick] in Hd. unfold each_then in Hd. apply bind_then in Hd; [|exact w]. destruct Hd as [q [Hd ->]].
    destruct (for_each_blind n OUntick _ _ _ _ Hbl Hd) as [_ Hm2].
    destruct (for_each_each OUntick _ _ _ _ Hd) as [lt [Hr Hea]].
    assert (Hcl : completions lt = 0) by (eapply each_no_tick; [|exact Hea]; discriminate).
    change (w_mem (prepare OUntick n w) n) with (w_mem w n) in Hm2.
    destruct (IH first k0 f0 (Forall_inv_tail HF) Hs) as [ls [H2 Hrest]].
    { rewrite Hm. congruence. }
    { rewrite Hm. congruence. }
    { auto. }
    exists (lt :: ls). split.
    + constructor; auto. exists (match q with Ok _ => Ok PAUSED | Err e => Err e | Raise => Raise end).
      right. split; auto. exists w2. split; auto. apply ran_own_of. exact Hr.
    + intros pre wt rt wt' post Heq. destruct pre as [|x pre']; simpl in Heq; inversion Heq.
      subst x rs. destruct (Hrest pre' wt rt wt' post eq_refl) as [lp [lt' [lr [s' [-> [Hle [-> [T D]]]]]]]].
      exists (lt :: lp), lt', lr, s'. split; auto. split; [simpl; congruence|]. split; auto. split; auto.
      cbv zeta in *. cbn [List.concat combine fold_left]. rewrite completions_app, Hcl. simpl. exact D.
Qed.
End Timed.
