(** C99: the migration script does not lose trees.

    In all theorems [parse] and [dump] are reading and writing YAML, [read_version] reads
    version numbers, [installed] is the version of ros_bt_py and [opens] says which files
    can be opened for writing.  [main fuel argv f] is the script run on the files [f]; it
    answers what is written to which files, in this order, and whether the script came to
    its end. *)
From Coq Require Import String Ascii Bool Arith NArith Lia List.
From Verif Require Import Base ModelFiles ModelMsg ModelMigrate SpecFiles SpecMigrate ProofsMigrate.
Import ListNotations.
Local Open Scope string_scope.

(** Without "--inplace" all files stay as they were, wherever the script stops. *)
Theorem C99_keeps : forall parse dump read_version installed opens fuel argv f s ok f',
  ~ In "--inplace" argv ->
  main parse dump read_version installed opens fuel argv f = Some (s, ok) -> crash f s f' ->
  forall p e, f p = Some e -> f' p = Some e.
Proof.
  intros parse dump rv inst opens fuel argv f s ok f' N H C p e E. unfold main in H. rewrite (no_inplace _ N) in H.
  destruct (script_fresh parse dump rv inst opens _ _ _ _ _ H) as [_ Fr]. rewrite (crash_keeps _ _ _ C); [exact E|].
  intros I. apply Fr in I. congruence.
Qed.
Print Assumptions C99_keeps.

(** If it comes to its end, then every file that was named is either refused, because its
    version is below 1.0.0, or there is a new file of its own with the migrated tree, under
    the first free name.  Nothing else is written. *)
Theorem C99_result : forall parse dump read_version installed opens fuel prog names f s,
  ~ In "--inplace" (prog :: names) ->
  main parse dump read_version installed opens fuel (prog :: names) f = Some (s, true) ->
  exists os, Forall2 (became parse dump read_version installed f (written s f)) names os /\
    NoDup (chosen os) /\ forall p, ~ In p (chosen os) -> written s f p = f p.
Proof.
  intros parse dump rv inst opens fuel prog names f s N H. unfold main in H. rewrite (no_inplace _ N) in H. cbn [tl] in H.
  destruct (script_fresh parse dump rv inst opens _ _ _ _ _ H) as [ND _].
  destruct (script_result parse dump rv inst opens _ _ _ _ H) as (os & A & C). exists os. rewrite C.
  split; [exact A|]. split; [exact ND|]. intros p I. now apply written_other.
Qed.
Print Assumptions C99_result.

(** With "--inplace" (and every file named once) a file is refused and stays as it is, or it
    holds the migrated tree afterwards.  Other files stay as they were. *)
Theorem C99_inplace : forall parse dump read_version installed opens fuel prog names f s,
  NoDup names -> main parse dump read_version installed opens fuel (prog :: "--inplace" :: names) f = Some (s, true) ->
  prog <> "--inplace" ->
  (forall q, ~ In q names -> written s f q = f q) /\
  forall p, In p names -> exists d, holds parse f p d /\
    (too_old read_version d /\ written s f p = f p \/
     ~ too_old read_version d /\ exists d', up_to_date installed d d' /\ written s f p = Some (File (dump d'))).
Proof.
  intros parse dump rv inst opens fuel prog names f s ND H P. unfold main in H. cbn [remove_first] in H.
  destruct (String.eqb_spec INPLACE prog) as [E | _]; [exfalso; apply P; now symmetry|]. rewrite String.eqb_refl in H. cbn [tl] in H.
  exact (script_inplace parse dump rv inst opens _ _ _ _ ND H).
Qed.
Print Assumptions C99_inplace.

(** Migrating the same files once more, in place, changes nothing, if YAML reads what it
    writes, the installed version is at least 1.0.0 and files can be opened. *)
Theorem C99_again : forall parse dump read_version installed opens a b c fuel prog names f s,
  (forall p d d', In p names -> holds parse f p d -> up_to_date installed d d' -> parse (dump d') = Some (YDict d')) ->
  read_version installed = Some (S a, b, c) -> (forall g q, opens g q = true) ->
  NoDup names -> prog <> "--inplace" ->
  main parse dump read_version installed opens fuel (prog :: "--inplace" :: names) f = Some (s, true) ->
  exists s', main parse dump read_version installed opens fuel (prog :: "--inplace" :: names) (written s f) = Some (s', true) /\
    forall q, written s' (written s f) q = written s f q.
Proof.
  intros parse dump rv inst opens a b c fuel prog names f s Y R Op ND P H. unfold main in *. cbn [remove_first] in *.
  destruct (String.eqb_spec INPLACE prog) as [E | _]; [exfalso; apply P; now symmetry|]. rewrite String.eqb_refl in *. cbn [tl] in *.
  exists s. split; [exact (script_again parse dump rv inst opens a b c R Op _ _ _ _ _ ND Y H (fun p _ => eq_refl))|].
  intros q. apply written_twice. now apply (inplace_names parse dump rv inst opens _ _ _ _ _ H).
Qed.
Print Assumptions C99_again.

(** The script comes to its end, with and without "--inplace", if the files that are named
    hold trees, of whatever version, and files can be opened. *)
Theorem C99_completes : forall parse dump read_version installed opens fuel prog names f s ok,
  (forall g q, opens g q = true) -> prog <> "--inplace" -> ~ In "--inplace" names ->
  (forall p, In p names -> readable parse read_version f p) ->
  (main parse dump read_version installed opens fuel (prog :: names) f = Some (s, ok) \/
   NoDup names /\ main parse dump read_version installed opens fuel (prog :: "--inplace" :: names) f = Some (s, ok)) ->
  ok = true.
Proof.
  intros parse dump rv inst opens fuel prog names f s ok Op P N R H. unfold main in H.
  rewrite (no_inplace (prog :: names)) in H by (intros [E | I]; [now apply P | contradiction]). cbn [tl remove_first] in H.
  destruct (String.eqb_spec INPLACE prog) as [E | _]; [exfalso; apply P; now symmetry|]. rewrite String.eqb_refl in H. cbn [tl] in H.
  destruct H as [H | [ND H]].
  - refine (script_completes parse dump rv inst opens Op fuel false names f s ok _ R H). discriminate.
  - exact (script_completes parse dump rv inst opens Op _ _ _ _ _ _ (fun _ => ND) R H).
Qed.
Print Assumptions C99_completes.

(** The search for a free name ends. *)
Theorem C99_returns : forall parse dump read_version installed opens fuel argv f names,
  only_files f names -> List.length names + List.length argv < fuel ->
  main parse dump read_version installed opens fuel argv f <> None.
Proof.
  intros parse dump rv inst opens fuel argv f names O L. unfold main.
  assert (R : forall l, remove_first INPLACE argv = Some l -> List.length l <= List.length argv).
  { clear. generalize INPLACE. intros x. induction argv as [|y argv IH]; intros l H; [discriminate|]. cbn in H.
    destruct (String.eqb x y); [injection H as <-; cbn; lia|]. destruct (remove_first x argv) as [r|]; [|discriminate].
    injection H as <-. cbn. specialize (IH r eq_refl). lia. }
  assert (Tl : forall l : list string, List.length (tl l) <= List.length l) by (intros [|x l]; cbn; lia).
  destruct (remove_first INPLACE argv) as [l|]; apply (script_returns _ _ _ _ _ _ _ _ _ names); try exact O.
  - specialize (R l eq_refl). specialize (Tl l). lia.
  - specialize (Tl argv). lia.
Qed.
Print Assumptions C99_returns.

(** A crash during a migration in place can lose the tree: the file is empty, whatever it
    was. *)
Theorem C99_crash_refuted : forall parse dump read_version installed opens fuel p f s,
  main parse dump read_version installed opens fuel ["migrate"; "--inplace"; p] f = Some (s, true) ->
  s = [] \/ exists f', crash f s f' /\ f' p = Some (File "").
Proof.
  intros parse dump rv inst opens fuel p f s H. unfold main in H. cbn in H.
  destruct (f p) as [[t|]|]; try discriminate. destruct (parse t) as [[d|]|]; try discriminate.
  destruct (migrate_dict rv inst d) as [d' | e |]; [| injection H as <-; now left | discriminate].
  destruct (opens f p); [|discriminate]. injection H as <-. right. exists (put (written [] f) p (File "")). split; [|apply put_same].
  now apply (crash_within f [(p, dump d')] [] p (dump d') [] "" (dump d')).
Qed.
Print Assumptions C99_crash_refuted.

(** One file that cannot be read, or whose version is no text (as in "version: 1.0"), keeps
    the script from migrating the files named after it. *)
Theorem C99_stops_refuted : forall parse dump read_version installed opens fuel prog p names f r,
  ~ In "--inplace" (prog :: p :: names) -> unreadable parse read_version f p ->
  main parse dump read_version installed opens fuel (prog :: p :: names) f = Some r -> r = ([], false).
Proof.
  intros parse dump rv inst opens fuel prog p names f r N U H. unfold main in H. rewrite (no_inplace _ N) in H. cbn [tl] in H.
  exact (script_unreadable parse dump rv inst opens _ _ _ _ _ _ U H).
Qed.
Print Assumptions C99_stops_refuted.

(** The hypotheses are met: a tree of version 1, one of version 0 and one with "version: 1.0";
    "a_new.yaml" exists. *)
Definition demo_v1 : ydict := [("version", YText "1.0.0"); ("name", YText "t")].
Definition demo_parse (t : string) : option yaml :=
  if String.eqb t "one" then Some (YDict demo_v1)
  else if String.eqb t "two" then Some (YDict [("version", YText "2.0.0"); ("name", YText "t")])
  else if String.eqb t "old" then Some (YDict [("name", YText "t")])
  else if String.eqb t "float" then Some (YDict [("version", YThing 1)]) else None.
Definition demo_dump (d : ydict) : string := match dget "version" d with Some (YText "2.0.0") => "two" | _ => "?" end.
Definition demo_version (s : string) : option version :=
  if String.eqb s "1.0.0" then Some (1, 0, 0) else if String.eqb s "2.0.0" then Some (2, 0, 0) else None.
Definition demo_files : files := fun p =>
  if String.eqb p "a.yaml" then Some (File "one") else if String.eqb p "b.yaml" then Some (File "old")
  else if String.eqb p "c.yaml" then Some (File "float") else if String.eqb p "a_new.yaml" then Some Dir else None.
Definition demo_main := main demo_parse demo_dump demo_version "2.0.0" (fun _ _ => true).
Example demo_migrates : demo_main 9 ["migrate"; "a.yaml"; "b.yaml"; "a.yaml"] demo_files =
  Some ([("a_new_1.yaml", "two"); ("a_new_2.yaml", "two")], true).
Proof. reflexivity. Qed.
Example demo_inplace : demo_main 0 ["migrate"; "--inplace"; "a.yaml"; "b.yaml"] demo_files = Some ([("a.yaml", "two")], true).
Proof. reflexivity. Qed.
Example demo_reads : forall p d d', In p ["a.yaml"] -> holds demo_parse demo_files p d -> up_to_date "2.0.0" d d' ->
  demo_parse (demo_dump d') = Some (YDict d').
Proof.
  intros p d d' [<- | []] (t & F & T) (K & V & O). injection F as <-. injection T as <-.
  destruct d' as [|[k1 v1] [|[k2 v2] [|]]]; try discriminate. injection K as -> ->. specialize (O "name"). cbn in V, O.
  injection V as ->. assert (X := O ltac:(discriminate)). now injection X as ->.
Qed.
Example demo_stops : demo_main 9 ["migrate"; "c.yaml"; "a.yaml"] demo_files = Some ([], false) /\
  unreadable demo_parse demo_version demo_files "c.yaml".
Proof.
  split; [reflexivity|]. right. exists [("version", YThing 1)]. split; [exists "float"; split; reflexivity|].
  exists (YThing 1). split; [reflexivity | intros s E; discriminate].
Qed.
Example demo_readable : forall p, In p ["a.yaml"; "b.yaml"] -> readable demo_parse demo_version demo_files p.
Proof.
  intros p [<- | [<- | []]].
  - exists demo_v1. split; [exists "one"; split; reflexivity|]. right. exists "1.0.0", (1, 0, 0). split; reflexivity.
  - exists [("name", YText "t")]. split; [exists "old"; split; reflexivity|]. now left.
Qed.
Example demo_crash : crash demo_files [("a.yaml", "two")] (put demo_files "a.yaml" (File "")).
Proof. now apply (crash_within demo_files [("a.yaml", "two")] [] "a.yaml" "two" [] "" "two"). Qed.
Example demo_only : only_files demo_files ["a.yaml"; "b.yaml"; "c.yaml"; "a_new.yaml"].
Proof.
  intros q H. unfold demo_files in H. cbn.
  destruct (String.eqb_spec q "a.yaml"); [subst; tauto|]. destruct (String.eqb_spec q "b.yaml"); [subst; tauto|].
  destruct (String.eqb_spec q "c.yaml"); [subst; tauto|]. destruct (String.eqb_spec q "a_new.yaml"); [subst; tauto | contradiction].
Qed.
