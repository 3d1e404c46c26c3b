(** C81: a request that answers success has done its work itself, in the right order, whatever
    other requests are handled and whatever the tick thread does at the same time; one that
    answers failure has left the rest alone. *)
From Coq Require Import List Bool Arith.
From Verif Require Import Base ModelExec SpecExec DemoExec ProofsExecOwn.
Import ListNotations.

(** RESET: after finding the state not ERROR and no tick thread, reset the root (or found no
    node), and then set the state to IDLE. *)
Theorem C81_reset : forall W (P : plant W) l, served P (KControl RESET) l true -> follows reset_done l.
Proof. exact @reset_success. Qed.
Print Assumptions C81_reset.
(** A RESET that fails changed nothing, except that the root's reset may have been tried. *)
Theorem C81_reset_failed : forall W (P : plant W) l, served P (KControl RESET) l false -> Forall reset_fails l.
Proof. exact @reset_failure. Qed.
Print Assumptions C81_reset_failed.

(** TICK_PERIODICALLY and TICK_UNTIL_RESULT: after finding no tick thread, found no node, or
    set the state and the two flags and started a thread. *)
Theorem C81_tick_many : forall W (P : plant W) (until_result : bool) l,
  served P (KControl (if until_result then TICK_UNTIL_RESULT else TICK_PERIODICALLY)) l true ->
  follows nothing_to_tick l \/ follows (many_started until_result) l.
Proof. exact @many_success. Qed.
Print Assumptions C81_tick_many.
Theorem C81_tick_many_failed : forall W (P : plant W) (until_result : bool) l,
  served P (KControl (if until_result then TICK_UNTIL_RESULT else TICK_PERIODICALLY)) l false -> Forall looks l.
Proof. exact @many_failure. Qed.
Print Assumptions C81_tick_many_failed.

(** TICK_ONCE: the same, and then found the thread ended and the state WAITING_FOR_TICK. *)
Theorem C81_tick_once : forall W (P : plant W) l, served P (KControl TICK_ONCE) l true ->
  follows nothing_to_tick l \/ follows (once_started ++ once_ended) l.
Proof. exact @once_success. Qed.
Print Assumptions C81_tick_once.

(** STOP: asked the thread to stop and found it ended and the state IDLE; or, between ticks,
    found no node, or tried untick and then found the root IDLE or PAUSED. *)
Theorem C81_stop : forall W (P : plant W) l, served P (KControl STOP) l true ->
  follows thread_stopped l \/ follows waiting_empty l \/ follows waiting_unticked l.
Proof. exact @stop_success. Qed.
Print Assumptions C81_stop.

(** SHUTDOWN: the same, unless nothing was being ticked, and then shut the root down (or found
    no node, or cut the links of a tree without a single root) before setting the state. *)
Theorem C81_shutdown : forall W (P : plant W) l, served P (KControl SHUT_DOWN) l true ->
  follows (thread_stopped ++ went_down) l \/ follows (waiting_empty ++ went_down) l \/
  follows (waiting_unticked ++ went_down) l \/ follows (not_ticked ++ went_down) l.
Proof. exact @shut_success. Qed.
Print Assumptions C81_shutdown.
(** SETUP_AND_SHUTDOWN: never while a tick thread is alive or the state is TICKING. *)
Theorem C81_setup_and_shutdown : forall W (P : plant W) l, served P (KControl SETUP_AND_SHUTDOWN) l true ->
  follows idle_down l \/ follows waiting_down l \/ follows empty_down l.
Proof. exact @ssd_success. Qed.
Print Assumptions C81_setup_and_shutdown.
(** If they fail the tree does not become editable. *)
Theorem C81_shutdown_failed : forall W (P : plant W) c l, c = SHUT_DOWN \/ c = SETUP_AND_SHUTDOWN ->
  served P (KControl c) l false -> ~ In (ASetState EDITABLE) l.
Proof. exact @shut_failure. Qed.
Print Assumptions C81_shutdown_failed.

(** DO_NOTHING changes nothing; an unknown command neither, and fails. *)
Theorem C81_do_nothing : forall W (P : plant W) l b, served P (KControl DO_NOTHING) l b -> Forall looks l.
Proof. exact @idle_answer. Qed.
Print Assumptions C81_do_nothing.
Theorem C81_unknown : forall W (P : plant W) n l b, served P (KControl (UNKNOWN_COMMAND n)) l b -> b = false /\ Forall looks l.
Proof. exact @unknown_answer. Qed.
Print Assumptions C81_unknown.

(** An editing service: found the state EDITABLE, and its changes, all successful, were made
    while it held the lock.  If it fails, it found another state and did nothing else, or a change
    was refused. *)
Theorem C81_edit : forall W (P : plant W) b l, served P (KEdit b) l true -> follows edit_done l.
Proof. exact @edit_success. Qed.
Print Assumptions C81_edit.
Theorem C81_edit_failed : forall W (P : plant W) b l, served P (KEdit b) l false ->
  (exists s, s <> EDITABLE /\ l = [AGetState s]) \/ In (AEditEnd false) l.
Proof. exact @edit_failure. Qed.
Print Assumptions C81_edit_failed.


(** STOP is handled while the tree is ticked, and a RESET arrives and is handled meanwhile. *)
Definition being_ticked : list (kind + nat) := inl (KControl TICK_PERIODICALLY) :: acc 0 15 ++ acc 1 7.
Definition ticked_once : list (kind + nat) := inl (KControl TICK_ONCE) :: acc 0 16 ++ acc 1 12 ++ acc 0 6.
Example C81_stop_example : served demo (KControl STOP)
  [AGetThread (Some 1); AGetState TICKING; AGetThread (Some 1); AGetThread (Some 1); AAlive 1 true; AGetState TICKING;
   ASetState STOP_REQUESTED; AGetThread (Some 1); AAlive 1 false; AGetState TIDLE] true.
Proof.
  apply (play_served (idle_root []) being_ticked _
    (acc 2 4 ++ inl (KControl RESET) :: acc 3 2 ++ acc 2 3 ++ acc 1 8 ++ acc 3 2 ++ acc 2 3)); [discriminate|vm_compute; reflexivity].
Qed.
(** Every answer the other theorems speak of occurs. *)
Ltac occurs w l0 l1 := eexists; apply (play_served w l0 _ l1); [discriminate|vm_compute; reflexivity].
Example C81_reset_example : exists l, served demo (KControl RESET) l true.
Proof. occurs (idle_root []) (@nil (kind + nat)) (acc 0 12). Qed.
Example C81_reset_failed_example : exists l, served demo (KControl RESET) l false.
Proof. occurs (idle_root []) being_ticked (acc 2 10). Qed.
Example C81_tick_many_example : exists l, served demo (KControl TICK_UNTIL_RESULT) l true.
Proof. occurs (idle_root []) [inl (KControl RESET) : kind + nat] (acc 0 5 ++ acc 1 19). Qed.
Example C81_tick_many_failed_example : exists l, served demo (KControl TICK_PERIODICALLY) l false.
Proof. occurs (idle_root []) being_ticked (acc 2 10). Qed.
Example C81_tick_once_example : exists l, served demo (KControl TICK_ONCE) l true.
Proof. occurs (idle_root []) (@nil (kind + nat)) (acc 0 16 ++ acc 1 12 ++ acc 0 6). Qed.
Example C81_shutdown_example : exists l, served demo (KControl SHUT_DOWN) l true.
Proof. occurs (idle_root []) (@nil (kind + nat)) (acc 0 9). Qed.
Example C81_setup_and_shutdown_failed_example : exists l, served demo (KControl SETUP_AND_SHUTDOWN) l false.
Proof. occurs (idle_root []) being_ticked (acc 2 8). Qed.
Example C81_do_nothing_example : exists l, served demo (KControl DO_NOTHING) l true.
Proof. occurs (idle_root []) being_ticked (acc 2 6). Qed.
Example C81_unknown_example : exists l, served demo (KControl (UNKNOWN_COMMAND 9)) l false.
Proof. occurs (idle_root []) being_ticked (acc 2 6). Qed.
Example C81_edit_example : exists l, served demo (KEdit true) l true.
Proof. occurs (idle_root []) (@nil (kind + nat)) (acc 0 8). Qed.
Example C81_edit_failed_example : exists l, served demo (KEdit true) l false.
Proof. occurs (idle_root []) being_ticked (acc 2 1). Qed.
Example C81_waiting_example : (exists l, served demo (KControl STOP) l true) /\ (exists l, served demo (KControl SHUT_DOWN) l true) /\
  exists l, served demo (KControl SETUP_AND_SHUTDOWN) l true.
Proof.
  split; [occurs (idle_root []) ticked_once (acc 2 11)|]. split; [occurs (idle_root []) ticked_once (acc 2 16)|].
  occurs (idle_root []) ticked_once (acc 2 20).
Qed.
