(** Model of the script that migrates tree files
    (/repo/ros_bt_py/ros_bt_py/migrate_tree_files.py:36-85).

    Simplifications: the keys of YAML dictionaries are texts; different paths are different
    files (no links).  No proofs in this file. *)
From Coq Require Import String Ascii Bool Arith NArith List.
From Verif Require Import Base ModelFiles ModelMsg.
Import ListNotations.
Local Open Scope string_scope.

(** What yaml.safe_load gives: a dictionary, whose values are texts and other things.
    Python: yaml. *)
Inductive yval : Set := YText (s : string) | YThing (k : nat).
(** Python: yaml. *)
Definition ydict : Set := list (string * yval).
(** Python: yaml. *)
Inductive yaml : Set := YDict (d : ydict) | YElse.

Section Script.
(** yaml.safe_load ([None]: an exception) and yaml.safe_dump with sort_keys=False. *)
Variable parse : string -> option yaml.
Variable dump : ydict -> string.
(** packaging.version.Version ([None]: InvalidVersion) and the text of the installed
    version. *)
Variable read_version : string -> option version.
Variable installed : string.
(** Whether [open(p, "w+")] succeeds. *)
Variable opens : files -> string -> bool.

(** migrate_legacy_tree_structure (36-46).  Version(...) of anything but a text raises
    TypeError. *)
Definition migrate_dict (d : ydict) : res ydict :=
  match match dget "version" d with
        | None => Some (0, 0, 0)
        | Some (YText s) => read_version s
        | Some (YThing _) => None
        end with
  | None => Raise
  | Some v => match migrate v with
              | Ok _ => Ok (dset "version" (YText installed) d)
              | Err e => Err e
              | Raise => Raise
              end
  end.

(** The names tried (62-67). *)
Definition new_name (name ext : string) (k : nat) : string :=
  match k with
  | 0 => name ++ "_new" ++ ext
  | S _ => name ++ "_new_" ++ str_of (N.of_nat k) ++ ext
  end.
Fixpoint find_name (fuel : nat) (f : files) (name ext : string) (k : nat) : option string :=
  match fuel with
  | 0 => None
  | S fuel => if exists_ f (new_name name ext k) then find_name fuel f name ext (S k) else Some (new_name name ext k)
  end.
(** 58-67; [None]: still searching after [fuel] rounds. *)
Definition new_file (fuel : nat) (inplace : bool) (p : string) (f : files) : option string :=
  if inplace then Some p else let (name, ext) := splitext p in find_name fuel f name ext 0.

(** The loop over the files (55-85): what is written to which file, one after the other,
    and whether the script gets to its end ([false]: an exception). *)
Fixpoint script (fuel : nat) (inplace : bool) (l : list string) (f : files) : option (list (string * string) * bool) :=
  match l with
  | [] => Some ([], true)
  | p :: l =>
      match new_file fuel inplace p f with
      | None => None
      | Some q =>
          match f p with
          | Some (File t) =>
              match parse t with
              | Some (YDict d) =>
                  match migrate_dict d with
                  | Ok d' =>
                      if opens f q then
                        match script fuel inplace l (put f q (File (dump d'))) with
                        | Some (s, ok) => Some ((q, dump d') :: s, ok)
                        | None => None
                        end
                      else Some ([], false)
                  | Err _ => script fuel inplace l f                    (* printed, next file *)
                  | Raise => Some ([], false)
                  end
              | Some YElse | None => Some ([], false)
              end
          | _ => Some ([], false)
          end
      end
  end.

(** [sys.argv.remove("--inplace")] (50-54). *)
Definition INPLACE : string := "--inplace".
Fixpoint remove_first (x : string) (l : list string) : option (list string) :=
  match l with
  | [] => None
  | y :: l => if String.eqb x y then Some l else match remove_first x l with Some l => Some (y :: l) | None => None end
  end.
(** main (49-85). *)
Definition main (fuel : nat) (argv : list string) (f : files) : option (list (string * string) * bool) :=
  match remove_first INPLACE argv with
  | Some l => script fuel true (tl l) f
  | None => script fuel false (tl argv) f
  end.
End Script.
