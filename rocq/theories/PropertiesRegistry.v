(** C98: the classes of nodes a process offers are those it can create nodes of. *)
From Coq Require Import String Ascii Bool Arith Lia List.
From Verif Require Import Base ModelData ModelEdit ModelRegistry SpecRegistry ProofsRegistry.
Import ListNotations.
Local Open Scope list_scope.

(** A decorated class becomes known iff it is not abstract, no class of this name is known
    and its interface can be put together with those of its bases: then its interface
    consists of all of them.  What was known stays as it was. *)
Theorem C98_define : forall g d parts, process g -> proper_config (k_config d) -> inherits g (k_bases d) parts ->
  forall m c x, known (define g d) m c x <->
    known g m c x \/
    m = k_module d /\ c = k_name d /\ unknown g m c /\ k_abstract d = false /\ together (k_config d :: parts) x.
Proof. intros g d parts P Pr I. exact (proj2 (define_spec g d parts (process_good g P) Pr I)). Qed.
Print Assumptions C98_define.

(** A known class stays known with the same interface, whatever is loaded, listed or created,
    also if an import fails. *)
Theorem C98_kept : forall g o m c x, process g -> proper_op o -> known g m c x ->
  known (gstep g o) m c x /\ forall y, known (gstep g o) m c y -> y = x.
Proof.
  intros g o m c x P Po K. destruct (step_grows g o (process_good g P) Po) as [G H]. split; [now apply H |].
  intros y Y. exact (known_fun _ m c y x G Y (H m c x K)).
Qed.
Print Assumptions C98_kept.

(** The service lists every known class exactly once, with its interface, and nothing else. *)
Theorem C98_list : forall g l g' answer, process g -> Forall (fun mi => proper_import (snd mi)) l ->
  get_available_nodes l g = (g', Ok answer) ->
  (forall e, In e answer <-> known g' (l_module e) (l_class e) (mkCfg (l_ins e) (l_outs e) (l_max e))) /\
  NoDup (map (fun e => (l_module e, l_class e)) answer).
Proof.
  intros g l g' answer P F E. pose proof (load_all_grows l g (process_good g P) F) as [G _]. unfold get_available_nodes in E.
  destruct (load_all l g) as [g1 [[] | |]]; try discriminate E. injection E as <- <-. cbn [fst] in G.
  split; [intros e; now apply listed_known | now apply listed_once].
Qed.
Print Assumptions C98_list.

(** It answers with success iff all modules named in the request can be imported. *)
Theorem C98_success : forall g l, process g ->
  (exists g' answer, get_available_nodes l g = (g', Ok answer)) <->
  Forall (fun mi => fst mi = ""%string \/ ~ raising (fst mi) (snd mi) /\ ~ failing (fst mi) (snd mi)) l.
Proof.
  intros g l _. transitivity (snd (load_all l g) = Ok true).
  { unfold get_available_nodes. destruct (load_all l g) as [g1 [[] | |]]; cbn [snd]; split; try discriminate; eauto;
      intros (g' & answer & E); try discriminate E; reflexivity. }
  revert g. induction l as [| [m i] l IH]; intros g; cbn [load_all fst snd].
  - split; [constructor | reflexivity].
  - destruct (String.eqb_spec m "") as [-> | N].
    + rewrite IH. split; [intros F; constructor; auto | intros F; now inversion F].
    + pose proof (load_result m i g) as R. destruct (load_node_module m i g) as [g1 [[] | |]]; cbn [snd] in R.
      * rewrite IH. split; [intros F; constructor; cbn; tauto | intros F; now inversion F].
      * split; [discriminate |]. intros F. inversion F as [| ? ? [H | [_ H]] _]; contradiction.
      * destruct R.
      * split; [discriminate |]. intros F. inversion F as [| ? ? [H | [H _]] _]; contradiction.
Qed.
Print Assumptions C98_success.

(** Creating a node: every class that is known is found without importing anything; one that is
    not known is imported; the class is found iff it is known then. *)
Theorem C98_find : forall g m c i, process g -> proper_import i ->
  let (g', r) := find_class m c i g in
  (forall x, known g m c x -> g' = g) /\
  match r with
  | Ok k => exists x, known g' m c x /\ In (k, x) (g_attr g')
  | Err _ => unknown g' m c /\ ~ raising m i
  | Raise => unknown g m c /\ raising m i
  end.
Proof.
  intros g m c i P Pi. pose proof (process_good g P) as G. unfold find_class.
  destruct (lookup g m c) as [k |] eqn:E.
  - split; [reflexivity |]. now apply lookup_known.
  - apply lookup_unknown in E; [| exact G]. pose proof (load_result m i g) as R. pose proof (load_grows m i g G Pi) as [G' _].
    destruct (load_node_module m i g) as [g' [b | e |]]; cbn [fst snd] in R, G'.
    + destruct (lookup g' m c) as [k |] eqn:E'.
      * split; [intros x K; destruct (E x K) |]. now apply lookup_known.
      * split; [intros x K; destruct (E x K) |]. apply lookup_unknown in E'; [| exact G']. split; [exact E' |].
        destruct b; [tauto |]. unfold failing, raising in *. intros [[s H] | [H1 H2]].
        -- destruct R as [-> | [R _]]; [discriminate H | exact (R s H)].
        -- destruct R as [-> | [_ R]]; congruence.
    + destruct R.
    + split; [intros x K; destruct (E x K) |]. auto.
Qed.
Print Assumptions C98_find.

(** Not every request is answered: if the name of the module begins with a dot, or if importing
    it ends with another exception than ImportError and ValueError, creating the node and
    listing the nodes raise. *)
Theorem C98_raise_refuted : forall g m c i l, process g -> raising m i -> m <> ""%string ->
  (unknown g m c -> snd (find_class m c i g) = Raise) /\ snd (get_available_nodes ((m, i) :: l) g) = Raise.
Proof.
  intros g m c i l P R N.
  assert (H : snd (load_node_module m i g) = Raise).
  { pose proof (load_result m i g) as H. destruct (snd (load_node_module m i g)) as [[] | e |]; [tauto | | destruct H | reflexivity].
    exfalso. unfold failing, raising in *. destruct R as [[s R] | [_ R]]; destruct H as [H | [H H']]; congruence. }
  split.
  - intros U. apply lookup_unknown in U; [| now apply process_good]. unfold find_class. rewrite U.
    destruct (load_node_module m i g) as [g' r]. cbn [snd] in H. now subst r.
  - unfold get_available_nodes. cbn [load_all]. destruct (String.eqb_spec m "") as [E | _]; [contradiction |].
    destruct (load_node_module m i g) as [g' r]. cbn [snd] in H. now subst r.
Qed.
Print Assumptions C98_raise_refuted.

(** The hypotheses are met: a base class, a class that inherits from it, one that repeats an
    input of its base and is not registered, an abstract class, and a name used twice. *)
Local Open Scope string_scope.
Definition demo_in : container := mkC (TInt BinNums.Z0 (BinNums.Zpos BinNums.xH)) true true false None false.
Definition demo_leaf : cdef := mkDef "node" "Leaf" [] true (mkCfg [] [] (Some 0)).
Definition demo_base : cdef := mkDef "mine" "Base" [[0]] false (mkCfg [("a", demo_in)] [] (Some 0)).
Definition demo_sub : cdef := mkDef "mine" "Sub" [[1; 0]] false (mkCfg [("b", demo_in)] [] (Some 0)).
Definition demo_clash : cdef := mkDef "mine" "Clash" [[1; 0]] false (mkCfg [("a", demo_in)] [] (Some 0)).
Definition demo_again : cdef := mkDef "mine" "Sub" [[0]] false (mkCfg [("z", demo_in)] [] (Some 0)).
Definition demo_hist : list gop := [GLoad "mine" ([demo_leaf; demo_base; demo_sub; demo_clash; demo_again], ImportOrValueError)].
Example demo_process : process (grun demo_hist).
Proof.
  exists demo_hist. split; [reflexivity |]. repeat constructor; cbn; intuition discriminate.
Qed.
Example demo_available : snd (get_available_nodes [("", ([], Loaded))] (grun demo_hist)) =
  Ok [mkListed "mine" "Base" (Some 0) [("a", demo_in)] []; mkListed "mine" "Sub" (Some 0) [("b", demo_in); ("a", demo_in)] []].
Proof. reflexivity. Qed.
Example demo_found : snd (find_class "mine" "Sub" ([], ImportOrValueError) (grun demo_hist)) = Ok 2 /\
  snd (find_class "mine" "Clash" ([], ImportOrValueError) (grun demo_hist)) = Err EKey /\
  snd (find_class ".mine" "Sub" ([], Loaded) (grun demo_hist)) = Raise.
Proof. repeat split. Qed.
Example demo_inherits : inherits (grun demo_hist) [[0]; [1; 0]] [mkCfg [] [] (Some 0); mkCfg [("a", demo_in)] [] (Some 0)].
Proof.
  apply (I_base _ [] 0 []); [intros c [] | cbn; auto |]. apply (I_base _ [] 1 [0]); [intros c [] | cbn; auto |]. constructor.
Qed.
