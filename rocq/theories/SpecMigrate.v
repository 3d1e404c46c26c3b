(** Vocabulary for C99. *)
From Coq Require Import String Ascii Bool Arith NArith List.
From Verif Require Import Base ModelFiles ModelMsg ModelMigrate SpecFiles.
Import ListNotations.
Local Open Scope string_scope.

(** The files after some texts were written, and what a crash can leave: some files are
    written, the next may have been written in part. *)
Definition written (s : list (string * string)) (f : files) : files :=
  fold_left (fun f pt => put f (fst pt) (File (snd pt))) s f.
Inductive crash (f : files) (s : list (string * string)) : files -> Prop :=
| crash_between : forall done rest, s = (done ++ rest)%list -> crash f s (written done f)
| crash_within : forall done p t rest part more, s = (done ++ (p, t) :: rest)%list -> t = part ++ more ->
    crash f s (put (written done f) p (File part)).

Section Meaning.
Variable parse : string -> option yaml.
Variable dump : ydict -> string.
Variable read_version : string -> option version.
Variable installed : string.

(** The file [p] holds a tree. *)
Definition holds (f : files) (p : string) (d : ydict) : Prop :=
  exists t, f p = Some (File t) /\ parse t = Some (YDict d).
(** A tree of a version before 1.0.0, or without version. *)
Definition too_old (d : ydict) : Prop :=
  dget "version" d = None \/
  exists s b c, dget "version" d = Some (YText s) /\ read_version s = Some (0, b, c).
(** [d'] is [d] with the installed version. *)
Definition up_to_date (d d' : ydict) : Prop :=
  map fst d' = map fst d /\ dget "version" d' = Some (YText installed) /\
  forall k, k <> "version" -> dget k d' = dget k d.
(** The [k]-th name for the new file. *)
Definition candidate (p : string) (k : nat) (q : string) : Prop :=
  exists name ext, splitext p = (name, ext) /\
    (k = 0 /\ q = name ++ "_new" ++ ext \/
     0 < k /\ exists s, decimal (N.of_nat k) s /\ q = name ++ "_new_" ++ s ++ ext).
(** What became of the file [p]: it was refused ([None]), or its migrated form is in the new
    file [q], which has the first name that was free. *)
Definition became (f f' : files) (p : string) (o : option string) : Prop :=
  exists d, holds f' p d /\
    match o with
    | None => too_old d
    | Some q => ~ too_old d /\ f q = None /\ (exists d', up_to_date d d' /\ f' q = Some (File (dump d'))) /\
                exists k, candidate p k q /\ forall i x, i < k -> candidate p i x -> f' x <> None
    end.
(** [p] cannot be migrated: there is no such file, it holds no tree, or what it gives as
    version is none. *)
Definition unreadable (f : files) (p : string) : Prop :=
  (forall d, ~ holds f p d) \/
  exists d, holds f p d /\ exists v, dget "version" d = Some v /\
    forall s, v = YText s -> read_version s = None.
(** [p] holds a tree of some version or without version. *)
Definition readable (f : files) (p : string) : Prop :=
  exists d, holds f p d /\
    (dget "version" d = None \/ exists s v, dget "version" d = Some (YText s) /\ read_version s = Some v).
End Meaning.

(** The files named in the list exist and no others. *)
Definition only_files (f : files) (l : list string) : Prop := forall q, f q <> None -> In q l.

Definition chosen (l : list (option string)) : list string :=
  flat_map (fun o => match o with Some q => [q] | None => [] end) l.
