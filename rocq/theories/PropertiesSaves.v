(** Properties of trees that are saved at the same time: C107. *)
From Coq Require Import String Ascii Bool Arith List.
From Verif Require Import Base ModelFiles SpecFiles ModelSaves SpecSaves ProofsSaves PropertiesFiles.
Import ListNotations.
Local Open Scope string_scope.

(** * C107 Saving trees at the same time *)

(** However many SaveTree requests are handled at the same time, in whatever order their
    accesses to the file system happen, and wherever the process is stopped: a file that
    was there before, and that none of them may overwrite, keeps its content. *)
Theorem C107_old_kept : forall paths cwd version fuel f qs es f' hs p c,
  handling paths cwd version fuel f qs es f' hs -> f p = Some (File c) ->
  (forall q, In q qs -> ~ may_overwrite cwd q p) ->
  f' p = Some (File c).
Proof. exact old_kept. Qed.
Print Assumptions C107_old_kept.

(** A request that has been answered with success has opened the file it names, and if no
    other request has opened it, the file holds the tree of the request. *)
Theorem C107_written : forall paths cwd version fuel f qs es f' hs i u,
  handling paths cwd version fuel f qs es f' hs -> answered hs i (Ok (mkR true u)) ->
  In (i, Some u) es /\
  exists q, nth_error qs i = Some q /\ (only_opened_by es i u -> f' u = Some (saved version (q_yaml q))).
Proof. exact written. Qed.
Print Assumptions C107_written.

(** A request on its own has the outcome that C58 and C59 are about. *)
Theorem C107_alone : forall paths cwd version makedirs fuel f q f' r, makes_directories makedirs ->
  save_tree_to_path paths cwd version makedirs WAll fuel f q = Some (f', r) ->
  exists es f2, handling paths cwd version fuel f [q] es f2 [Answer r] /\ forall p, f2 p = f' p.
Proof. exact alone. Qed.
Print Assumptions C107_alone.

(** Two requests for the same new path, neither of which may overwrite a file. *)
Definition two : list save_request := [mkQ "/t" "n.yaml" false false "one"; mkQ "/t" "n.yaml" false true "other"].
Fixpoint times (k : nat) (a : nat * nat) : list (nat * nat) := match k with 0 => [] | S n => a :: times n a end.

(** Both are answered with success, and the file holds the tree of the second only: a tree
    that was saved successfully is lost, although nobody asked to overwrite anything. *)
Theorem C107_lost_refuted : exists paths cwd version fuel f qs es f' hs u q0 q1,
  handling paths cwd version fuel f qs es f' hs /\ f u = None /\ qs = [q0; q1] /\
  q_overwrite q0 = false /\ q_overwrite q1 = false /\ q_yaml q0 <> q_yaml q1 /\
  answered hs 0 (Ok (mkR true u)) /\ answered hs 1 (Ok (mkR true u)) /\
  f' u = Some (saved version (q_yaml q1)).
Proof.
  set (l := ([(0, 0); (0, 0); (0, 0); (0, 0)] ++ [(1, 0); (1, 0); (1, 0); (1, 0)] ++
             [(0, 0); (0, 99); (0, 0)] ++ [(1, 0); (1, 99); (1, 0)])%list).
  destruct (outcome_runs l ["/t"] "/w" "1.0" 9 demo_files two "/t/n.yaml" _ _ _ eq_refl) as (f' & hs & R & F & A).
  exists ["/t"], "/w", "1.0", 9, demo_files, two. eexists. exists f', hs, "/t/n.yaml". eexists. eexists.
  split; [exact R|]. split; [reflexivity|]. split; [reflexivity|]. split; [reflexivity|]. split; [reflexivity|].
  split; [discriminate|]. split; [apply A; reflexivity|]. split; [apply A; reflexivity|].
  rewrite F. vm_compute. reflexivity.
Qed.
Print Assumptions C107_lost_refuted.

(** Or the file holds neither of the two trees. *)
Theorem C107_mixed_refuted : exists paths cwd version fuel f qs es f' hs u,
  handling paths cwd version fuel f qs es f' hs /\ f u = None /\
  (forall i, i < List.length qs -> answered hs i (Ok (mkR true u))) /\
  (forall q, In q qs -> q_overwrite q = false /\ f' u <> Some (saved version (q_yaml q))) /\ List.length qs = 2.
Proof.
  set (l := ([(0, 0); (0, 0); (0, 0); (0, 0)] ++ [(1, 0); (1, 0); (1, 0); (1, 0)] ++
             [(0, 0); (1, 0)] ++ [(1, 99); (1, 0)] ++ [(0, 99); (0, 0)])%list).
  destruct (outcome_runs l ["/t"] "/w" "1.0" 9 demo_files two "/t/n.yaml" _ _ _ eq_refl) as (f' & hs & R & F & A).
  exists ["/t"], "/w", "1.0", 9, demo_files, two. eexists. exists f', hs, "/t/n.yaml".
  split; [exact R|]. split; [reflexivity|]. split.
  - intros [|[|i]] H; [apply A; reflexivity|apply A; reflexivity|].
    cbn in H. apply Nat.succ_lt_mono, Nat.succ_lt_mono in H. inversion H.
  - split; [|reflexivity]. intros q [<-|[<-|[]]]; (split; [reflexivity|]); rewrite F; vm_compute; discriminate.
Qed.
Print Assumptions C107_mixed_refuted.

(** A request that may overwrite a file does not replace it at once: if the process is
    stopped meanwhile, or the tree is loaded, the file holds neither the old tree nor the
    new one. *)
Theorem C107_crash_refuted : exists paths cwd version fuel f q es f' hs p c,
  handling paths cwd version fuel f [q] es f' hs /\ f p = Some (File c) /\ may_overwrite cwd q p /\
  f' p <> Some (File c) /\ f' p <> Some (saved version (q_yaml q)).
Proof.
  destruct (outcome_runs (times 6 (0, 7)) ["/t"] "/w" "1.0" 9 demo_files [mkQ "/t" "a.yaml" true false "one"] "/t/a.yaml" _ _ _ eq_refl)
    as (f' & hs & R & F & A).
  exists ["/t"], "/w", "1.0", 9, demo_files. eexists. eexists. exists f', hs, "/t/a.yaml". eexists.
  split; [exact R|]. split; [reflexivity|]. split; [repeat split|]. split; rewrite F; vm_compute; discriminate.
Qed.
Print Assumptions C107_crash_refuted.

(** Two requests at the same time: one does not get to overwrite a.yaml, the other one is
    given a new name and writes its tree in pieces.  Both theorems apply. *)
Example C107_example : exists qs es f' hs,
  handling ["/t"] "/w" "1.0" 9 demo_files qs es f' hs /\ List.length qs = 2 /\
  (forall q, In q qs -> ~ may_overwrite "/w" q "/t/a.yaml") /\ demo_files "/t/a.yaml" = Some (File "A") /\
  answered hs 0 (Ok (mkR false "/t/a.yaml")) /\ answered hs 1 (Ok (mkR true "/t/a_3.yaml")) /\
  only_opened_by es 1 "/t/a_3.yaml" /\ f' "/t/a_3.yaml" = Some (saved "1.0" "other").
Proof.
  set (qs := [mkQ "/t" "a.yaml" false false "one"; mkQ "/t" "a.yaml" false true "other"]).
  set (l := ([(1, 0); (0, 0); (1, 0); (0, 0)] ++ times 2 (0, 0) ++ times 7 (1, 0) ++ times 5 (1, 4) ++ [(1, 0)])%list).
  destruct (outcome_runs l ["/t"] "/w" "1.0" 9 demo_files qs "/t/a_3.yaml" _ _ _ eq_refl) as (f' & hs & R & F & A).
  exists qs. eexists. exists f', hs. split; [exact R|]. split; [reflexivity|]. split.
  { intros q [<-|[<-|[]]] (_ & O & _); discriminate. }
  split; [reflexivity|]. split; [apply A; reflexivity|]. split; [apply A; reflexivity|]. split; [|rewrite F; reflexivity].
  intros j H. vm_compute in H. repeat (destruct H as [H|H]; [try discriminate H; injection H as <-; reflexivity|]). destruct H.
Qed.
