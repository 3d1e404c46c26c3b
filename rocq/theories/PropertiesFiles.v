(** Properties of file handling: C57-C59, C70. *)
From Coq Require Import String Ascii Bool Arith NArith Lia List.
From Verif Require Import Base ModelFiles SpecFiles ProofsFiles ProofsSave.
Import ListNotations.
Local Open Scope string_scope.

(** * C57 Generated names are fresh *)

(** A name that ends in an underscore and a number gets the next number. *)
Theorem C57_number : forall base d, digits d -> d <> "" -> (N.of_nat (String.length base + String.length d) <= 4096)%N ->
  exists k, decimal (value d + 1) k /\ increment_name (base ++ "_" ++ d) = Ok (base ++ "_" ++ k).
Proof.
  intros base d D N L. exists (str_of (value d + 1)). split; [apply str_of_decimal|].
  assert (V := value_bound_len d D). apply incr_number; auto; unfold too_long; apply N.ltb_ge; lia.
Qed.
Print Assumptions C57_number.
(** Any other name gets "_2". *)
Theorem C57_plain : forall name, ~ numbered name -> increment_name name = Ok (name ++ "_2").
Proof. exact incr_plain. Qed.
Print Assumptions C57_plain.

(** make_filepath_unique ends, after at most as many rounds as there are paths, with a path
    that does not exist.  It is the given one if that does not exist; otherwise a number is
    put before the extension, the first free one. *)
Theorem C57_unique : forall ex l p,
  (forall q, ex q = true -> In q l /\ (N.of_nat (String.length q) <= 4096)%N) ->
  forall fuel, 2 + List.length l <= fuel ->
  exists u, make_filepath_unique fuel ex p = Some (Ok u) /\ ex u = false /\
    (ex p = false -> u = p) /\
    (ex p = true -> exists name ext first base k, name_and_extension p name ext /\ increment_name name = Ok (base ++ "_" ++ first) /\
       decimal k first /\ exists j n, decimal (k + j) n /\ u = base ++ "_" ++ n ++ ext /\
       forall i m, (i < j)%N -> decimal (k + i) m -> ex (base ++ "_" ++ m ++ ext) = true).
Proof.
  intros ex l p F fuel L. unfold make_filepath_unique. assert (J := splitext_join p). assert (N := splitext_is p). destruct (splitext p) as [name ext].
  cbn in J, N. destruct (loop_any ex l F fuel name ext) as (u & U & X & A & B); [lia|]. exists u. rewrite J in A, B.
  split; [exact U|]. split; [exact X|]. split; [exact A|]. intros E. destruct (B E) as (base & k & n & I & -> & j & -> & K).
  exists name, ext, (str_of k), base, k. split; [exact N|]. split; [exact I|]. split; [apply str_of_decimal|].
  exists (N.of_nat j), (str_of (k + N.of_nat j)). split; [apply str_of_decimal|].
  split; [unfold nth_name; rewrite !app_assoc_s; reflexivity|]. intros i m Li M.
  specialize (K (N.to_nat i)). unfold nth_name in K. rewrite N2Nat.id, !app_assoc_s in K.
  rewrite (decimal_unique _ _ _ M (str_of_decimal _)). apply K. lia.
Qed.
Print Assumptions C57_unique.
(** A number followed by a newline counts as a number, but the underscore stays. *)
Theorem C57_newline_refuted : increment_name ("a_5" ++ newline) = Ok "a__6".
Proof. vm_compute. reflexivity. Qed.
Print Assumptions C57_newline_refuted.
(** A name with too many digits raises. *)
Theorem C57_long_refuted : exists base d, digits d /\ increment_name (base ++ "_" ++ d) = Raise.
Proof.
  exists "a", (String.concat "" (repeat "1234567890" 431)). split.
  - apply digitsb_ok. vm_compute. reflexivity.
  - vm_compute. reflexivity.
Qed.
Print Assumptions C57_long_refuted.

Definition demo_files : files := fun p =>
  if String.eqb p "/" then Some Dir
  else if String.eqb p "/t" then Some Dir
  else if String.eqb p "/t/a.yaml" then Some (File "A")
  else if String.eqb p "/t/a_2.yaml" then Some (File "B")
  else if String.eqb p "/u" then Some (File "C") else None.
Example C57_example :
  increment_name "a_09" = Ok "a_10" /\ increment_name "a" = Ok "a_2" /\ increment_name "a_b" = Ok "a_b_2" /\
  make_filepath_unique 9 (exists_ demo_files) "/t/a.yaml" = Some (Ok "/t/a_3.yaml") /\
  make_filepath_unique 9 (exists_ demo_files) "/t/b.yaml" = Some (Ok "/t/b.yaml") /\
  splitext "/t.x/a" = ("/t.x/a", "") /\ splitext "/t/.a" = ("/t/.a", "").
Proof. vm_compute. repeat split. Qed.
Example C57_example_finite : finite_files 5 demo_files.
Proof.
  exists ["/"; "/t"; "/t/a.yaml"; "/t/a_2.yaml"; "/u"]. split; [reflexivity|]. intros p H. unfold demo_files in H.
  destruct (String.eqb_spec p "/") as [E|_]; [rewrite E; split; [cbn; auto 6|vm_compute; discriminate]|].
  destruct (String.eqb_spec p "/t") as [E|_]; [rewrite E; split; [cbn; auto 6|vm_compute; discriminate]|].
  destruct (String.eqb_spec p "/t/a.yaml") as [E|_]; [rewrite E; split; [cbn; auto 6|vm_compute; discriminate]|].
  destruct (String.eqb_spec p "/t/a_2.yaml") as [E|_]; [rewrite E; split; [cbn; auto 6|vm_compute; discriminate]|].
  destruct (String.eqb_spec p "/u") as [E|_]; [rewrite E; split; [cbn; auto 6|vm_compute; discriminate]|].
  exfalso. apply H. reflexivity.
Qed.

(** * C58 Saving never overwrites a file without permission *)

(** Everything that exists stays as it is, except the requested file, if overwriting was
    allowed and renaming was not. *)
Theorem C58_kept : forall paths cwd version makedirs write fuel f q f' r, makes_directories makedirs ->
  save_tree_to_path paths cwd version makedirs write fuel f q = Some (f', r) ->
  forall p e, f p = Some e ->
  f' p = Some e \/
  p = target cwd q /\ (exists c c', e = File c /\ f' p = Some (File c')) /\
    q_overwrite q = true /\ q_rename q = false /\ In (q_storage q) paths.
Proof.
  intros paths cwd version makedirs write fuel f q f' r D H p e F. apply save_frame in H; [|exact D].
  destruct H as [H|(u & I & (g & G1 & G2) & U & _ & R)].
  - left. destruct (H p) as [E|[A B]]; congruence.
  - destruct (string_dec p u) as [->|N].
    + right. destruct U as [U|(-> & (c & C) & O1 & O2)]; [congruence|]. split; [reflexivity|]. split; [|auto].
      rewrite C in F. injection F as <-. destruct R as [(_ & _ & R)|(_ & c' & _ & R)]; unfold saved in R; eauto.
    + left. rewrite (G2 p N). destruct (G1 p) as [E|[A B]]; congruence.
Qed.
Print Assumptions C58_kept.
(** A save that succeeds has written the tree, to the returned path: the requested one, or,
    if that is taken and renaming is allowed, one where nothing was. *)
Theorem C58_written : forall paths cwd version makedirs write fuel f q f' u, makes_directories makedirs ->
  save_tree_to_path paths cwd version makedirs write fuel f q = Some (f', Ok (mkR true u)) ->
  In (q_storage q) paths /\ f' u = Some (saved version (q_yaml q)) /\
  (forall p, p <> u -> f' p = f p \/ f p = None /\ f' p = Some Dir) /\
  (u = target cwd q /\ (f u = None \/ exists c, f u = Some (File c) /\ q_overwrite q = true /\ q_rename q = false) \/
   f u = None /\ q_rename q = true /\ exists c, f (target cwd q) = Some (File c)).
Proof. intros. eapply save_written; eassumption. Qed.
Print Assumptions C58_written.
(** A request for an existing file that may neither overwrite nor rename is refused. *)
Theorem C58_denied : forall paths cwd version makedirs write fuel f q f' r c, makes_directories makedirs ->
  f (target cwd q) = Some (File c) -> q_overwrite q = false -> q_rename q = false ->
  save_tree_to_path paths cwd version makedirs write fuel f q = Some (f', r) ->
  only_directories f f' /\ forall u, r <> Ok (mkR true u).
Proof. intros. eapply save_denied; eauto. Qed.
Print Assumptions C58_denied.
(** A request for another storage directory changes nothing. *)
Theorem C58_storage : forall paths cwd version makedirs write fuel f q, ~ In (q_storage q) paths ->
  save_tree_to_path paths cwd version makedirs write fuel f q = Some (f, Ok (mkR false "")).
Proof.
  intros paths cwd version makedirs write fuel f q N. unfold save_tree_to_path.
  destruct (existsb (String.eqb (q_storage q)) paths) eqn:E; [|reflexivity]. exfalso. apply N.
  apply existsb_exists in E. destruct E as (x & I & E). apply String.eqb_eq in E. subst. exact I.
Qed.
Print Assumptions C58_storage.
(** The request is answered, if its loop gets rounds enough for the existing paths. *)
Theorem C58_answers : forall n paths cwd version makedirs write fuel f q,
  finite_files n (fst (makedirs f (dirname (target cwd q)))) -> 2 + n <= fuel -> (forall c, write <> WRaise c) ->
  exists f' ok u, save_tree_to_path paths cwd version makedirs write fuel f q = Some (f', Ok (mkR ok u)).
Proof. intros. eapply saves; eauto. Qed.
Print Assumptions C58_answers.
(** Only files below the storage directory are written, if the given path is relative and
    does not go upwards.  What is missing: other paths. *)
Theorem C58_inside_partial : forall paths cwd version makedirs write fuel f q f' r, makes_directories makedirs ->
  clean_dir (q_storage q) -> f (q_storage q) = Some Dir -> downward (q_filepath q) ->
  save_tree_to_path paths cwd version makedirs write fuel f q = Some (f', r) ->
  forall p c, f' p = Some (File c) -> f p <> Some (File c) -> below (q_storage q) p.
Proof. intros. eapply save_inside; eassumption. Qed.
Print Assumptions C58_inside_partial.

Definition demo_makedirs (f : files) (p : string) : files * bool := (f, false).
Lemma demo_makedirs_ok : makes_directories demo_makedirs.
Proof. intros f p. split; [left; reflexivity|discriminate]. Qed.
Definition demo_save (fp : string) (overwrite rename : bool) (w : writing) :=
  save_tree_to_path ["/t"] "/w" "1.0" demo_makedirs w 9 demo_files (mkQ "/t" fp overwrite rename "y").
(** A path can leave the storage directory. *)
Theorem C58_inside_refuted : exists paths cwd version makedirs write fuel f q f' r p c, makes_directories makedirs /\
  clean_dir (q_storage q) /\ f (q_storage q) = Some Dir /\
  save_tree_to_path paths cwd version makedirs write fuel f q = Some (f', r) /\
  f p = Some (File c) /\ f' p <> Some (File c) /\ ~ below (q_storage q) p.
Proof.
  exists ["/t"], "/w", "1.0", demo_makedirs, WAll, 9, demo_files, (mkQ "/t" "../u" true false "y"), (put demo_files "/u" (saved "1.0" "y")),
    (Ok (mkR true "/u")), "/u", "C".
  split; [exact demo_makedirs_ok|]. split.
  { exists ["t"]. split; [discriminate|]. split; [|reflexivity]. constructor; [|constructor]. split; [|repeat split; discriminate].
    intros [|x [|y a]] b H; discriminate H. }
  split; [reflexivity|]. split; [reflexivity|]. split; [reflexivity|]. split; [vm_compute; discriminate|].
  intros (r & _ & H). discriminate H.
Qed.
Print Assumptions C58_inside_refuted.

Example C58_example :
  (exists f', demo_save "a.yaml" false true WAll = Some (f', Ok (mkR true "/t/a_3.yaml")) /\
     f' "/t/a_3.yaml" = Some (File ("version: 1.0" ++ newline ++ "y")) /\ f' "/t/a.yaml" = Some (File "A")) /\
  (exists f', demo_save "a.yaml" true false WAll = Some (f', Ok (mkR true "/t/a.yaml")) /\
     f' "/t/a.yaml" = Some (File ("version: 1.0" ++ newline ++ "y"))) /\
  (exists f', demo_save "a.yaml" true true WAll = Some (f', Ok (mkR true "/t/a_3.yaml")) /\ f' "/t/a.yaml" = Some (File "A")) /\
  (exists f', demo_save "a.yaml" false false WAll = Some (f', Ok (mkR false "/t/a.yaml"))) /\
  (exists f', demo_save "./b//c" false false WAll = Some (f', Ok (mkR false "/t/b"))) /\
  (exists f', demo_save "./b" false false WAll = Some (f', Ok (mkR true "/t/b"))) /\
  downward "./b//c" /\ clean_dir "/t".
Proof.
  split; [eexists; split; [reflexivity|split; reflexivity]|].
  split; [eexists; split; reflexivity|]. split; [eexists; split; reflexivity|].
  split; [eexists; reflexivity|]. split; [eexists; reflexivity|]. split; [eexists; reflexivity|]. split.
  - exists ["."; "b"; ""; "c"]. split; [reflexivity|]. split; [|discriminate].
    repeat (constructor; [split; [intros [|x [|y a]] b H; discriminate H|discriminate]|]). constructor.
  - exists ["t"]. split; [discriminate|]. split; [|reflexivity]. constructor; [|constructor]. split; [|repeat split; discriminate].
    intros [|x [|y a]] b H; discriminate H.
Qed.

(** * C70 A failed save leaves the old tree *)

(** A save that does not succeed leaves every file as it was, except when overwriting the
    requested file failed after open().  What is missing: that exception. *)
Theorem C70_partial : forall paths cwd version makedirs write fuel f q f' r, makes_directories makedirs ->
  save_tree_to_path paths cwd version makedirs write fuel f q = Some (f', r) -> (forall u, r <> Ok (mkR true u)) ->
  forall p e, f p = Some e ->
  f' p = Some e \/
  p = target cwd q /\ q_overwrite q = true /\ q_rename q = false /\
    exists c, (write = WPart c \/ write = WRaise c) /\ f' p = Some (File c).
Proof.
  intros paths cwd version makedirs write fuel f q f' r D H X p e F. apply save_frame in H; [|exact D].
  destruct H as [H|(u & I & (g & G1 & G2) & U & _ & R)].
  - left. destruct (H p) as [E|[A B]]; congruence.
  - destruct (string_dec p u) as [->|N].
    + right. destruct U as [U|(-> & (c & C) & O1 & O2)]; [congruence|]. split; [reflexivity|]. split; [exact O2|]. split; [exact O1|].
      destruct R as [(R & _)|(_ & R)]; [exfalso; exact (X _ R)|exact R].
    + left. rewrite (G2 p N). destruct (G1 p) as [E|[A B]]; congruence.
Qed.
Print Assumptions C70_partial.
(** In that case the old content is gone. *)
Theorem C70_refuted : exists paths cwd version makedirs write fuel f q f' r p c, makes_directories makedirs /\
  save_tree_to_path paths cwd version makedirs write fuel f q = Some (f', r) /\ r = Ok (mkR false "") /\
  f p = Some (File c) /\ c <> "" /\ f' p = Some (File "").
Proof.
  exists ["/t"], "/w", "1.0", demo_makedirs, (WPart ""), 9, demo_files, (mkQ "/t" "a.yaml" true false "y"), (put demo_files "/t/a.yaml" (File "")),
    (Ok (mkR false "")), "/t/a.yaml", "A".
  split; [exact demo_makedirs_ok|]. split; [reflexivity|]. split; [reflexivity|]. split; [reflexivity|]. split; [discriminate|reflexivity].
Qed.
Print Assumptions C70_refuted.
Example C70_example :
  (exists f', demo_save "a.yaml" true false WOpenFails = Some (f', Ok (mkR false "")) /\ f' "/t/a.yaml" = Some (File "A")) /\
  (exists f', demo_save "a.yaml" false true (WPart "v") = Some (f', Ok (mkR false "")) /\ f' "/t/a.yaml" = Some (File "A") /\
     f' "/t/a_3.yaml" = Some (File "v")).
Proof. split; eexists; repeat split; reflexivity. Qed.

(** * C59 Folder listings have unique ids *)

(** The listing has the names and the nesting of the folder, without hidden entries unless
    asked for; the ids are 1, 2, ... in order, and each item names its folder as parent. *)
Theorem C59_listing : forall paths folder show t i, get_folder_structure paths folder show t = Some i ->
  lists show t i /\ i_parent i = 0 /\
  map i_id (items i) = seq 1 (List.length (items i)) /\ NoDup (map i_id (items i)) /\
  (forall j c, In j (items i) -> In c (i_children j) -> i_parent c = i_id j).
Proof.
  intros paths folder show t i H. unfold get_folder_structure in H.
  destruct (existsb (String.eqb folder) paths); [|discriminate].
  destruct (path_to_dict (fun k => k) show t 0 0) as [i' k] eqn:E. injection H as <-.
  destruct (listing_ok _ _ _ _ _ _ E) as (A & B & C & _ & D). rewrite C.
  split; [exact A|]. split; [exact B|]. split; [reflexivity|]. split; [apply seq_NoDup|exact D].
Qed.
Print Assumptions C59_listing.
Theorem C59_unknown : forall paths folder show t, ~ In folder paths <-> get_folder_structure paths folder show t = None.
Proof.
  intros paths folder show t. unfold get_folder_structure. destruct (existsb (String.eqb folder) paths) eqn:E.
  - split; [|discriminate]. intros N. exfalso. apply N. apply existsb_exists in E. destruct E as (x & I & E).
    apply String.eqb_eq in E. subst. exact I.
  - split; [reflexivity|]. intros _ I. assert (X : existsb (String.eqb folder) paths = true); [|congruence].
    apply existsb_exists. exists folder. split; [exact I|apply String.eqb_refl].
Qed.
Print Assumptions C59_unknown.
(** The same for the share directory of a package, of any package there is. *)
Theorem C59_package : forall share package show t, share package = Ok (Some t) ->
  exists i, get_installed_package_structure share package show = Ok (Some i) /\
    lists show t i /\ i_parent i = 0 /\
    map i_id (items i) = seq 1 (List.length (items i)) /\ NoDup (map i_id (items i)) /\
    (forall j c, In j (items i) -> In c (i_children j) -> i_parent c = i_id j).
Proof.
  intros share package show t S. unfold get_installed_package_structure. rewrite S.
  destruct (path_to_dict (fun k => k) show t 0 0) as [i k] eqn:E. exists i. split; [reflexivity|].
  destruct (listing_ok _ _ _ _ _ _ E) as (A & B & C & _ & D). rewrite C.
  split; [exact A|]. split; [exact B|]. split; [reflexivity|]. split; [apply seq_NoDup|exact D].
Qed.
Theorem C59_no_package : forall share package show,
  (forall t, share package <> Ok (Some t)) <-> forall i, get_installed_package_structure share package show <> Ok (Some i).
Proof.
  intros share package show. unfold get_installed_package_structure.
  destruct (share package) as [[t|]| |]; split; intros H; try discriminate; [destruct (H t eq_refl)|destruct (H _ eq_refl)].
Qed.
Print Assumptions C59_package.
Print Assumptions C59_no_package.
(** Two listings at the same time share the counter: when the other one starts, ids repeat. *)
Theorem C59_concurrent_refuted : exists others show t, 
  ~ NoDup (map i_id (items (fst (path_to_dict others show t 0 0)))).
Proof.
  exists (fun k => if Nat.eqb k 1 then 0 else k), true, (FDir "t" (Some [FFile "a"])). vm_compute. intros N.
  inversion N as [|? ? A _]; subst. apply A. left. reflexivity.
Qed.
Print Assumptions C59_concurrent_refuted.
Example C59_example :
  get_folder_structure ["/t"] "/t" false
    (FDir "t" (Some [FFile ".x"; FDir "a" (Some [FFile "b"; FFile "c"]); FDir "d" None; FFile "e"])) =
  Some (Item "t" 1 0 TyDirectory
    [Item "a" 2 1 TyDirectory [Item "b" 3 2 TyFile []; Item "c" 4 2 TyFile []]; Item "d" 5 1 TyReadonly []; Item "e" 6 1 TyFile []]).
Proof. reflexivity. Qed.
Example C59_package_example : get_installed_package_structure
  (fun p => Ok (if String.eqb p "p" then Some (FDir "p" (Some [FFile "package.xml"; FFile ".git"])) else None)) "p" false =
  Ok (Some (Item "p" 1 0 TyDirectory [Item "package.xml" 2 1 TyFile []])).
Proof. reflexivity. Qed.
