(** Vocabulary for C113: templates, how they are spelled as a format string, and the text
    they stand for. *)
From Coq Require Import Ascii String ZArith Bool Arith List.
From Verif Require Import Base ModelData ModelFormat.
Import ListNotations.
Local Open Scope string_scope.

(** The conversions the node documents. *)
Inductive conversion : Set := Upper | Lower | Capital | AsStr | AsRepr | AsAscii.
Definition letter (c : conversion) : string :=
  match c with Upper => "u" | Lower => "l" | Capital => "c" | AsStr => "s" | AsRepr => "r" | AsAscii => "a" end.

(** A text, or the value of a key, perhaps converted, and perhaps formatted. *)
Inductive part : Set := Text (s : string) | Slot (key : string) (c : option conversion) (spec : string).

(** Braces of a text are doubled. *)
Fixpoint escaped (s : string) : string :=
  match s with
  | EmptyString => EmptyString
  | String c r => if Ascii.eqb c "{" then "{{" ++ escaped r
                  else if Ascii.eqb c "}" then "}}" ++ escaped r
                  else String c (escaped r)
  end.
Definition spelled_part (p : part) : string :=
  match p with
  | Text s => escaped s
  | Slot k c sp => "{" ++ k ++ match c with None => "" | Some c => "!" ++ letter c end ++
                   (if String.eqb sp "" then "" else ":" ++ sp) ++ "}"
  end.
Definition spelled (t : list part) : string := List.fold_right (fun p s => spelled_part p ++ s) "" t.

(** What a conversion makes of a value. *)
Definition converted (py : python) (c : option conversion) (v : value) : value :=
  match c with
  | None => v
  | Some Upper => VStr (py_upper py (py_str py v))
  | Some Lower => VStr (py_lower py (py_str py v))
  | Some Capital => VStr (py_capitalize py (py_str py v))
  | Some AsStr => VStr (py_str py v)
  | Some AsRepr => VStr (py_repr py v)
  | Some AsAscii => VStr (py_ascii py v)
  end.
Definition text_of (py : python) (d : list (string * value)) (p : part) : option string :=
  match p with
  | Text s => Some s
  | Slot k c sp => match dget k d with None => None | Some v => py_format py (converted py c v) sp end
  end.
(** One after the other; [None] if a key is missing or a value cannot be formatted. *)
Fixpoint texts_of (py : python) (d : list (string * value)) (t : list part) : option string :=
  match t with
  | [] => Some ""
  | p :: t => match text_of py d p, texts_of py d t with Some a, Some b => Some (a ++ b) | _, _ => None end
  end.

(** Keys: any text without the characters that have a meaning in format strings, except
    numbers.  Specifications: any text without braces. *)
Fixpoint has_none (l : list ascii) (s : string) : bool :=
  match s with EmptyString => true | String c r => negb (existsb (Ascii.eqb c) l) && has_none l r end.
Definition is_number (k : string) : bool :=
  forallb (fun c => existsb (Ascii.eqb c) ["0"; "1"; "2"; "3"; "4"; "5"; "6"; "7"; "8"; "9"]%char) (list_ascii_of_string k).
Definition is_key (k : string) : Prop :=
  k <> "" /\ is_number k = false /\ has_none ["{"; "}"; "["; "]"; "!"; ":"; "."]%char k = true.
Definition plain_part (p : part) : Prop :=
  match p with Text _ => True | Slot k _ sp => is_key k /\ has_none ["{"; "}"]%char sp = true end.

(** Only the conversions that the node adds, or all but those it inherits taken away. *)
Definition case_only (p : part) : Prop :=
  match p with Slot _ (Some AsStr) _ | Slot _ (Some AsRepr) _ | Slot _ (Some AsAscii) _ => False | _ => True end.
Definition unconverted (p : part) : part :=
  match p with
  | Slot k (Some AsStr) sp | Slot k (Some AsRepr) sp | Slot k (Some AsAscii) sp => Slot k None sp
  | _ => p
  end.

(** Attributes and items of a value, one after the other, and how they are spelled. *)
Inductive step : Set := Attr (name : string) | Item (index : string).
Definition plain_step (x : step) : Prop :=
  match x with
  | Attr n => has_none ["{"; "}"; "["; "]"; "!"; ":"; "."]%char n = true
  | Item i => has_none ["]"]%char i = true
  end.
Definition path (l : list step) : string :=
  List.fold_right (fun x s => match x with Attr n => "." ++ n | Item i => "[" ++ i ++ "]" end ++ s) "" l.
(** Two texts, if there are both. *)
Definition both (a b : option string) : option string :=
  match a, b with Some a, Some b => Some (a ++ b) | _, _ => None end.
