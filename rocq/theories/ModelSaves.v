(** Model of SaveTree requests that are handled at the same time: the save_tree service is
    in a reentrant callback group and the node has three executor threads
    (/repo/ros_bt_py/ros_bt_py/tree_node.py:231, 245-250, 518), so that the accesses to the
    file system that save_tree_to_path makes (package_manager.py:122-206) may interleave
    with those of other requests.  ModelFiles.v has one request on its own.

    A handler is a tree of such accesses; a step is one access of one handler.
    Simplifications: only these handlers change the file system; what a file object has
    buffered reaches the file in pieces of any size, at the position of that file object;
    metadata.version does not raise.  No proofs in this file. *)
From Coq Require Import String Ascii Bool Arith List.
From Verif Require Import Base ModelFiles.
Import ListNotations.
Local Open Scope string_scope.

(** The accesses of save_tree_to_path (package_manager.py:122-206).  The argument of a
    constructor is the rest of the handler as a function of the answer. *)
Inductive handler : Type :=
| Answer (r : res save_response)                    (* return, or an exception *)
| Busy                                              (* still in the loop of make_filepath_unique *)
| MakeDirs (d : string) (k : bool -> handler)       (* os.makedirs; false: OSError *)
| IsDir (p : string) (k : bool -> handler)
| IsFile (p : string) (k : bool -> handler)
| Exists (p : string) (k : bool -> handler)
| Open (p : string) (k : bool -> handler)           (* open(p, "w"); false: OSError *)
| Write (p : string) (pos : nat) (rest : string) (k : bool -> handler).
                                                    (* write the rest at [pos], close *)

(** What is written to the file (package_manager.py:194-199). *)
Definition text (version : string) (q : save_request) : string :=
  "version: " ++ version ++ newline ++ q_yaml q.

(** Writing and answering (package_manager.py:192-206). *)
Definition finish (p : string) (ok : bool) : handler :=
  Answer (Ok (if ok then mkR true p else mkR false "")).
Definition write_to (version : string) (q : save_request) (p : string) : handler :=
  Open p (fun opened => if opened then Write p 0 (text version q) (finish p) else finish p false).

(** make_filepath_unique (package_manager.py:72-76) and the check after it (180-186). *)
Fixpoint unique_then (fuel : nat) (version : string) (q : save_request) (name ext : string) : handler :=
  match fuel with
  | 0 => Busy
  | S n =>
      Exists (name ++ ext) (fun there =>
        if there then
          match increment_name name with
          | Ok name' => unique_then n version q name' ext
          | Err e => Answer (Err e)
          | Raise => Answer Raise
          end
        else
          IsFile (name ++ ext) (fun file =>
            if file then Answer (Ok (mkR false (name ++ ext))) else write_to version q (name ++ ext)))
  end.

(** save_tree_to_path (package_manager.py:122-206). *)
Definition save_handler (paths : list string) (cwd version : string) (fuel : nat) (q : save_request) : handler :=
  if negb (existsb (String.eqb (q_storage q)) paths) then Answer (Ok (mkR false ""))
  else
    let p := rstrip (abspath cwd (path_join (q_storage q) (q_filepath q))) in
    let dir := dirname p in
    let checks :=
      IsDir p (fun isdir =>
        if isdir then Answer (Ok (mkR false dir))
        else
          IsFile p (fun file =>
            if file then
              if q_rename q then let (name, ext) := splitext p in unique_then fuel version q name ext
              else if negb (q_overwrite q) then Answer (Ok (mkR false p))
              else write_to version q p
            else write_to version q p)) in
    MakeDirs dir (fun made =>
      if made then checks
      else IsDir dir (fun isdir => if isdir then checks else Answer (Ok (mkR false dir)))).

(** File objects and write (package_manager.py:192-200): write [s] at position [pos] of a file; a hole is filled with zero bytes. *)
Fixpoint zeros (n : nat) : string := match n with 0 => "" | S k => String zero (zeros k) end.
Definition overlay (pos : nat) (s c : string) : string :=
  substring 0 pos c ++ zeros (pos - String.length c) ++ s ++
  substring (pos + String.length s) (String.length c) c.

(** One access (os.makedirs, os.path and open in package_manager.py:72-76 and 163-200): the handler and the files before and after; [Some p]: [p] was opened. *)
Inductive access : handler -> files -> option string -> handler -> files -> Prop :=
| a_makedirs d k f f' made :
    (forall p, f' p = f p \/ f p = None /\ f' p = Some Dir) -> (made = true -> f' d = Some Dir) ->
    access (MakeDirs d k) f None (k made) f'
| a_isdir p k f : access (IsDir p k) f None (k (isdir f p)) f
| a_isfile p k f : access (IsFile p k) f None (k (isfile f p)) f
| a_exists p k f : access (Exists p k) f None (k (exists_ f p)) f
| a_open p k f : isdir f p = false -> access (Open p k) f (Some p) (k true) (put f p (File ""))
| a_open_fails p k f : access (Open p k) f None (k false) f
| a_write p pos s rest k f c : f p = Some (File c) ->
    access (Write p pos (s ++ rest) k) f None
      (Write p (pos + String.length s) rest k) (put f p (File (overlay pos s c)))
| a_close p pos k f : access (Write p pos "" k) f None (k true) f
| a_write_fails p pos rest k f : access (Write p pos rest k) f None (k false) f.

(** The threads of the node (tree_node.py:518): the files and the handlers; an access of one of them. *)
Fixpoint set_nth {A} (l : list A) (i : nat) (a : A) : list A :=
  match l, i with
  | [], _ => []
  | _ :: r, 0 => a :: r
  | x :: r, S j => x :: set_nth r j a
  end.
Inductive runs (f : files) (hs : list handler) : list (nat * option string) -> files -> list handler -> Prop :=
| r_start : runs f hs [] f hs
| r_step es f1 hs1 i h e h' f2 : runs f hs es f1 hs1 -> nth_error hs1 i = Some h -> access h f1 e h' f2 ->
    runs f hs (es ++ [(i, e)]) f2 (set_nth hs1 i h').
