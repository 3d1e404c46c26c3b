(** Model of the file handling of the package manager
    (/repo/ros_bt_py/ros_bt_py/package_manager.py) and of increment_name
    (/repo/ros_bt_py/ros_bt_py/node.py:1300-1314).

    Simplifications: a string is a string of bytes; a file system maps absolute paths to
    files and directories, links and permissions appear only as outcomes of operations;
    nobody else changes the file system during a request.  No proofs in this file. *)
From Coq Require Import DecimalString String Ascii Bool Arith NArith List.
From Verif Require Import Base.
Import ListNotations.
Local Open Scope string_scope.

(** Helper; no code of its own. *)
Definition slash : ascii := "/"%char.
(** Helper; no code of its own. *)
Definition dot : ascii := "."%char.
(** Helper; no code of its own. *)
Definition underscore : ascii := "_"%char.
(** Helper; no code of its own. *)
Definition newline : string := String (ascii_of_nat 10) "".

(** ** increment_name *)

(** Helper; no code of its own. *)
Definition is_digit (c : ascii) : bool := Nat.leb 48 (nat_of_ascii c) && Nat.leb (nat_of_ascii c) 57.
(** The longest prefix of digits, and the rest.  Python: re (node.py:1299-1314). *)
Fixpoint span_digits (s : string) : string * string :=
  match s with
  | "" => ("", "")
  | String c r => if is_digit c then let (d, t) := span_digits r in (String c d, t) else ("", s)
  end.
(** The regular expression ["_([0-9]+)$"] at the beginning of [s]: the group.  ["$"] also
    matches before a newline at the end.  node.py:1299-1314. *)
Definition match_number (s : string) : option string :=
  match s with
  | String c r =>
      if Ascii.eqb c underscore then
        match span_digits r with
        | ("", _) => None
        | (d, t) => if String.eqb t "" || String.eqb t newline then Some d else None
        end
      else None
  | "" => None
  end.
(** re.search: the leftmost match.  node.py:1299-1314. *)
Fixpoint search_number (s : string) : option string :=
  match match_number s with
  | Some d => Some d
  | None => match s with "" => None | String _ r => search_number r end
  end.

(** int() and str(); both raise ValueError beyond 4300 digits.  Python; node.py:1299-1314. *)
Definition int_of (d : string) : N :=
  match NilEmpty.uint_of_string d with Some u => N.of_uint u | None => 0%N end.
(** Python; node.py:1299-1314. *)
Definition str_of (n : N) : string := NilEmpty.string_of_uint (N.to_uint n).
(** Python; node.py:1299-1314. *)
Definition too_long (d : string) : bool := N.ltb 4300 (N.of_nat (String.length d)).

(** increment_name (node.py:1300-1314). *)
Definition increment_name (name : string) : res string :=
  match search_number name with
  | None => Ok (name ++ "_" ++ str_of 2)
  | Some d =>
      if too_long d then Raise
      else let k := str_of (int_of d + 1) in
           if too_long k then Raise
           else Ok (substring 0 (String.length name - (1 + String.length d)) name ++ "_" ++ k)
  end.

(** ** make_filepath_unique *)

(** Position of the last [c].  Python: rfind, in os.path.splitext. *)
Fixpoint rfind (c : ascii) (s : string) : option nat :=
  match s with
  | "" => None
  | String a r =>
      match rfind c r with
      | Some i => Some (S i)
      | None => if Ascii.eqb a c then Some 0 else None
      end
  end.
(** Python: in os.path.splitext. *)
Fixpoint only_dots (s : string) : bool :=
  match s with "" => true | String a r => Ascii.eqb a dot && only_dots r end.
(** os.path.splitext: the extension begins at the last dot of the last component, unless
    there are only dots before it.  package_manager.py:73. *)
Definition splitext (p : string) : string * string :=
  match rfind dot p with
  | None => (p, "")
  | Some d =>
      let start := match rfind slash p with Some i => S i | None => 0 end in
      if Nat.leb start d && negb (only_dots (substring start (d - start) p))
      then (substring 0 d p, substring d (String.length p - d) p)
      else (p, "")
  end.

(** make_filepath_unique (package_manager.py:72-76); [None]: still running after [fuel]
    rounds of the loop.  [ex]: os.path.exists. *)
Fixpoint unique_loop (fuel : nat) (ex : string -> bool) (name ext : string) : option (res string) :=
  match fuel with
  | 0 => None
  | S f =>
      if ex (name ++ ext) then
        match increment_name name with
        | Ok name' => unique_loop f ex name' ext
        | Err e => Some (Err e)
        | Raise => Some Raise
        end
      else Some (Ok (name ++ ext))
  end.
Definition make_filepath_unique (fuel : nat) (ex : string -> bool) (p : string) : option (res string) :=
  let (name, ext) := splitext p in unique_loop fuel ex name ext.

(** ** Paths (os.path) *)

(** str.split("/").  Python. *)
Fixpoint split_slash (s : string) : list string :=
  match s with
  | "" => [""]
  | String c r =>
      if Ascii.eqb c slash then "" :: split_slash r
      else match split_slash r with
           | [] => [String c ""]
           | a :: l => String c a :: l
           end
  end.
(** The loop of normpath for an absolute path, on components.
    Python: os.path.normpath, in os.path.abspath (package_manager.py:153). *)
Fixpoint norm (done : list string) (l : list string) : list string :=
  match l with
  | [] => rev done
  | c :: r =>
      if String.eqb c "" || String.eqb c "." then norm done r
      else if String.eqb c ".." then norm (tl done) r
      else norm (c :: done) r
  end.
(** Python: startswith. *)
Definition starts_with_slash (s : string) : bool := match s with String c _ => Ascii.eqb c slash | "" => false end.
(** os.path.join.  package_manager.py:154. *)
Definition path_join (a b : string) : string :=
  if starts_with_slash b then b
  else if String.eqb a "" then b
  else match rfind slash a with
       | Some i => if Nat.eqb (S i) (String.length a) then a ++ b else a ++ "/" ++ b
       | None => a ++ "/" ++ b
       end.
(** os.path.abspath; exactly two slashes at the beginning are kept.  package_manager.py:153. *)
Definition abspath (cwd p : string) : string :=
  let q := if starts_with_slash p then p else path_join cwd p in
  let root := if prefix "//" q && negb (prefix "///" q) then "//" else "/" in
  root ++ String.concat "/" (norm [] (split_slash q)).
(** rstrip("/").  package_manager.py:157. *)
Fixpoint all_slashes (s : string) : bool :=
  match s with "" => true | String c r => Ascii.eqb c slash && all_slashes r end.
(** package_manager.py:157. *)
Fixpoint rstrip (s : string) : string :=
  match s with "" => "" | String c r => if all_slashes s then "" else String c (rstrip r) end.
(** os.path.split(p)[0].  package_manager.py:158. *)
Definition dirname (p : string) : string :=
  match rfind slash p with
  | None => ""
  | Some i => let head := substring 0 (S i) p in if all_slashes head then head else rstrip head
  end.

(** ** save_tree_to_path *)

(** The file system; no code of its own. *)
Inductive entry : Set := File (content : string) | Dir.
(** The file system; no code of its own. *)
Definition files : Type := string -> option entry.
(** Python: os.path.isdir (package_manager.py:163, 169). *)
Definition isdir (f : files) (p : string) : bool := match f p with Some Dir => true | _ => false end.
(** Python: os.path.isfile (package_manager.py:175, 178). *)
Definition isfile (f : files) (p : string) : bool := match f p with Some (File _) => true | _ => false end.
(** Python: os.path.exists (package_manager.py:74). *)
Definition exists_ (f : files) (p : string) : bool := match f p with Some _ => true | None => false end.
(** Python: a file is written (package_manager.py:194-197). *)
Definition put (f : files) (p : string) (e : entry) : files := fun q => if String.eqb q p then Some e else f q.

(** A SaveTree request.  [q_yaml]: the message as YAML, with its path set to "".
    package_manager.py:122-206. *)
Record save_request : Set := mkQ {
  q_storage : string; q_filepath : string; q_overwrite : bool; q_rename : bool; q_yaml : string }.
(** package_manager.py:122-206. *)
Record save_response : Set := mkR { r_success : bool; r_path : string }.

(** What the operating system does with the request: os.makedirs (the new file system, and
    whether there was no OSError), and how far open() and write() get.
    package_manager.py:161-206. *)
Inductive writing : Set :=
| WOpenFails                    (* OSError by open() *)
| WPart (written : string)      (* OSError by write(); the file has this content *)
| WRaise (written : string)     (* another exception after open(), e.g. by metadata.version *)
| WAll.

(** save_tree_to_path (122-206).  [paths]: tree_storage_directory_paths; [version]:
    metadata.version. *)
Definition save_tree_to_path (paths : list string) (cwd version : string) (makedirs : files -> string -> files * bool)
  (write : writing) (fuel : nat) (f : files) (q : save_request) : option (files * res save_response) :=
  if negb (existsb (String.eqb (q_storage q)) paths) then Some (f, Ok (mkR false ""))     (* 145-148 *)
  else
    let p := rstrip (abspath cwd (path_join (q_storage q) (q_filepath q))) in             (* 156-160 *)
    let dir := dirname p in
    let (f1, made) := makedirs f dir in                                                   (* 163-170 *)
    if negb made && negb (isdir f1 dir) then Some (f1, Ok (mkR false dir))
    else if isdir f1 p then Some (f1, Ok (mkR false dir))                                 (* 172-176 *)
    else
      let save (p : string) :=                                                            (* 192-206 *)
        match write with
        | WOpenFails => Some (f1, Ok (mkR false ""))
        | WPart c => Some (put f1 p (File c), Ok (mkR false ""))
        | WRaise c => Some (put f1 p (File c), Raise)
        | WAll => Some (put f1 p (File ("version: " ++ version ++ newline ++ q_yaml q)), Ok (mkR true p))
        end in
      if isfile f1 p then                                                                 (* 178-192 *)
        if q_rename q then
          match make_filepath_unique fuel (exists_ f1) p with
          | None => None
          | Some (Ok u) => if isfile f1 u then Some (f1, Ok (mkR false u)) else save u
          | Some (Err e) => Some (f1, Err e)
          | Some Raise => Some (f1, Raise)
          end
        else if negb (q_overwrite q) then Some (f1, Ok (mkR false p))
        else save p
      else save p.

(** ** path_to_dict *)

(** A directory as it is listed; [None]: listdir raises an OSError.  Simplification: the
    tree is finite (links to an enclosing directory are not followed for ever).
    package_manager.py:294-314. *)
Inductive ftree : Set := FFile (name : string) | FDir (name : string) (content : option (list ftree)).
(** Python: os.path.basename (package_manager.py:296). *)
Definition f_name (t : ftree) : string := match t with FFile n | FDir n _ => n end.
(** The types in package_manager.py:294-314. *)
Inductive dtype : Set := TyFile | TyDirectory | TyReadonly.
(** The dictionaries in package_manager.py:294-314. *)
Inductive item : Set := Item (name : string) (id parent : nat) (ty : dtype) (children : list item).

(** package_manager.py:294-314. *)
Definition hidden (name : string) : bool := match name with String c _ => Ascii.eqb c dot | "" => false end.

(** path_to_dict (294-314) and get_id (287-289): the counter before and after.
    [others]: what other threads do to the counter before it is incremented. *)
Fixpoint path_to_dict (others : nat -> nat) (show : bool) (t : ftree) (parent counter : nat) {struct t} : item * nat :=
  let id := S (others counter) in
  match t with
  | FFile n => (Item n id parent TyFile [], id)
  | FDir n None => (Item n id parent TyReadonly [], id)
  | FDir n (Some l) =>
      let '(l', k) :=
        (fix go (l : list ftree) (k : nat) : list item * nat :=
           match l with
           | [] => ([], k)
           | a :: r =>
               if show || negb (hidden (f_name a)) then
                 let (a', k1) := path_to_dict others show a id k in
                 let (r', k2) := go r k1 in (a' :: r', k2)
               else go r k
           end) l id in
      (Item n id parent TyDirectory l', k)
  end.
(** get_folder_structure (342-369): [t] is the tree found at the storage folder. *)
Definition get_folder_structure (paths : list string) (folder : string) (show : bool) (t : ftree) : option item :=
  if existsb (String.eqb folder) paths then Some (fst (path_to_dict (fun k => k) show t 0 0)) else None.
(** get_installed_package_structure (316-340): [share] is the tree found at the share directory
    of a package; [Ok None]: there is no such package (PackageNotFoundError, 336-338); other
    exceptions of ament, for example for names no package can have, are not caught. *)
Definition get_installed_package_structure (share : string -> res (option ftree)) (package : string) (show : bool) : res (option item) :=
  match share package with
  | Ok (Some t) => Ok (Some (fst (path_to_dict (fun k => k) show t 0 0)))
  | Ok None => Ok None
  | Err e => Err e
  | Raise => Raise
  end.
