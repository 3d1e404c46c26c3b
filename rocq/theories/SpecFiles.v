(** Vocabulary for the properties of file handling (C57-C59, C70). *)
From Coq Require Import String Ascii Bool Arith NArith List.
From Verif Require Import Base ModelFiles.
Import ListNotations.
Local Open Scope string_scope.

(** Strings of digits and the number they stand for. *)
Fixpoint digits (s : string) : Prop :=
  match s with "" => True | String c r => 48 <= nat_of_ascii c <= 57 /\ digits r end.
Fixpoint value_from (n : N) (s : string) : N :=
  match s with "" => n | String c r => value_from (10 * n + (N_of_ascii c - 48)) r end.
Definition value (s : string) : N := value_from 0 s.
(** The decimal notation of [n]: its digits, without leading zero. *)
Definition decimal (n : N) (s : string) : Prop :=
  digits s /\ value s = n /\ s <> "" /\ (forall r, s = String "0"%char r -> r = "").
(** [name] ends in an underscore and a number (perhaps with a newline after it). *)
Definition numbered (name : string) : Prop :=
  exists base d, digits d /\ d <> "" /\ (name = base ++ "_" ++ d \/ name = base ++ "_" ++ d ++ newline).

(** The extension [ext] of a path begins with its last dot; in the last part of the path there
    is more than dots before it. *)
Definition lacks (c : ascii) (s : string) : Prop := forall a b, s <> a ++ String c b.
Definition extension (p name ext : string) : Prop :=
  exists a c b r, name = a ++ String c b /\ ext = String dot r /\ p = name ++ ext /\
    c <> dot /\ c <> slash /\ lacks slash b /\ lacks slash r /\ lacks dot r.
Definition name_and_extension (p name ext : string) : Prop :=
  extension p name ext \/ name = p /\ ext = "" /\ forall n e, ~ extension p n e.

(** os.makedirs only creates directories, where nothing was, above or at [p]. *)
Definition makes_directories (makedirs : files -> string -> files * bool) : Prop := forall f p,
  (forall q, fst (makedirs f p) q = f q \/ f q = None /\ fst (makedirs f p) q = Some Dir) /\
  (snd (makedirs f p) = true -> fst (makedirs f p) p = Some Dir).

(** Below the directory [d]. *)
Definition below (d p : string) : Prop := exists r, r <> "" /\ p = d ++ "/" ++ r.

(** Parts of a path between slashes; real ones name an entry of a directory. *)
Definition part (c : string) : Prop := forall a b, c <> a ++ "/" ++ b.
Definition real_part (c : string) : Prop := part c /\ c <> "" /\ c <> "." /\ c <> "..".
(** A directory given by a clean absolute path, other than the root. *)
Definition clean_dir (d : string) : Prop :=
  exists cs, cs <> [] /\ Forall real_part cs /\ d = "/" ++ String.concat "/" cs.
(** A path that is relative and does not go upwards. *)
Definition downward (p : string) : Prop :=
  exists fs, p = String.concat "/" fs /\ Forall (fun c => part c /\ c <> "..") fs /\ hd "." fs <> "".
(** The path a SaveTree request asks for. *)
Definition target (cwd : string) (q : save_request) : string :=
  rstrip (abspath cwd (path_join (q_storage q) (q_filepath q))).
(** What a saved file contains. *)
Definition saved (version yaml : string) : entry := File ("version: " ++ version ++ newline ++ yaml).
(** Only directories have been created. *)
Definition only_directories (f f' : files) : Prop := forall p, f' p = f p \/ f p = None /\ f' p = Some Dir.
(** Finitely many paths exist, none longer than the operating system allows. *)
Definition finite_files (n : nat) (f : files) : Prop :=
  exists l, length l = n /\ forall p, f p <> None -> In p l /\ (N.of_nat (String.length p) <= 4096)%N.

(** The items of a listing. *)
Definition i_id (i : item) : nat := match i with Item _ id _ _ _ => id end.
Definition i_name (i : item) : string := match i with Item n _ _ _ _ => n end.
Definition i_parent (i : item) : nat := match i with Item _ _ p _ _ => p end.
Definition i_type (i : item) : dtype := match i with Item _ _ _ t _ => t end.
Definition i_children (i : item) : list item := match i with Item _ _ _ _ l => l end.
Fixpoint items (i : item) : list item := i :: match i with Item _ _ _ _ l => concat (map items l) end.

(** The listing of [t]: the same names and nesting, without what is hidden. *)
Inductive lists (show : bool) : ftree -> item -> Prop :=
| li_file n id p : lists show (FFile n) (Item n id p TyFile [])
| li_closed n id p : lists show (FDir n None) (Item n id p TyReadonly [])
| li_dir n l id p l' :
    Forall2 (lists show) (filter (fun t => show || negb (prefix "." (f_name t))) l) l' ->
    lists show (FDir n (Some l)) (Item n id p TyDirectory l').
