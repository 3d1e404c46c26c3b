(** Model of the formatter of FormatString: ExtendedFormatter
    (/repo/ros_bt_py/ros_bt_py/nodes/format.py:41-75) and what it inherits from Python's
    string.Formatter.  Texts are [string]s.  No proofs in this file. *)
From Coq Require Import Ascii String ZArith Bool Arith List.
From Verif Require Import Base ModelData.
Import ListNotations.
Local Open Scope string_scope.
Local Open Scope char_scope.

(** What Python does with objects and texts: str, repr and ascii of an object, upper, lower
    and capitalize of a text, format(object, spec), and attributes and items of an object as
    written in a replacement field; [None]: an exception.  Python. *)
Record python : Type := mkPy {
  py_str : value -> string; py_repr : value -> string; py_ascii : value -> string;
  py_upper : string -> string; py_lower : string -> string; py_capitalize : string -> string;
  py_format : value -> string -> option string;
  py_access : value -> string -> option value }.

(** A part of a format string: a literal text, and a replacement field with its name, its
    specification and its conversion.  Python: what Formatter.parse yields. *)
Record field : Set := mkField { fl_name : string; fl_spec : string; fl_conv : option ascii }.
(** Python: what Formatter.parse yields. *)
Record piece : Set := mkPiece { pc_lit : string; pc_field : option field }.

(** Python: MarkupIterator_next, up to the first brace: the text before it, the brace, the
    text behind it. *)
Fixpoint until_brace (s : string) : string * option (ascii * string) :=
  match s with
  | EmptyString => (EmptyString, None)
  | String c r =>
      if (c =? "{") || (c =? "}") then (EmptyString, Some (c, r))
      else let (a, o) := until_brace r in (String c a, o)
  end.

(** Python: parse_field, the name and the character that ends it; [inside]: between
    square brackets. *)
Fixpoint field_name (inside : bool) (s : string) : option (string * ascii * string) :=
  match s with
  | EmptyString => None
  | String c r =>
      let on b := match field_name b r with Some (n, e, q) => Some (String c n, e, q) | None => None end in
      if inside then on (negb (c =? "]"))
      else if c =? "{" then None
      else if c =? "[" then on true
      else if (c =? "}") || (c =? ":") || (c =? "!") then Some (EmptyString, c, r)
      else on false
  end.

(** Python: parse_field, the specification up to the brace that closes the field. *)
Fixpoint field_spec (open : nat) (s : string) : option (string * string) :=
  match s with
  | EmptyString => None
  | String c r =>
      let on n := match field_spec n r with Some (a, q) => Some (String c a, q) | None => None end in
      if c =? "{" then on (S open)
      else if c =? "}" then match open with 0 => Some (EmptyString, r) | S n => on n end
      else on open
  end.

(** Python: parse_field, behind the opening brace. *)
Definition parse_field (s : string) : option (field * string) :=
  match field_name false s with
  | None => None
  | Some (n, e, r) =>
      if e =? "}" then Some (mkField n EmptyString None, r)
      else if e =? ":" then
        match field_spec 0 r with Some (sp, q) => Some (mkField n sp None, q) | None => None end
      else
        match r with
        | String k (String x q) =>
            if x =? "}" then Some (mkField n EmptyString (Some k), q)
            else if x =? ":" then
              match field_spec 0 q with Some (sp, q) => Some (mkField n sp (Some k), q) | None => None end
            else None
        | _ => None
        end
  end.

(** Python: MarkupIterator_next for a text that is not empty. *)
Definition next_piece (s : string) : option (piece * string) :=
  match until_brace s with
  | (lit, None) => Some (mkPiece lit None, EmptyString)
  | (lit, Some (c, EmptyString)) => None
  | (lit, Some (c, String x r)) =>
      if c =? x then Some (mkPiece (lit ++ String c EmptyString)%string None, r)
      else if c =? "}" then None
      else match parse_field (String x r) with
           | Some (f, q) => Some (mkPiece lit (Some f), q)
           | None => None
           end
  end.

(** Python: Formatter.parse.  [fuel]: at least as many as there are characters. *)
Fixpoint pieces (fuel : nat) (s : string) : option (list piece) :=
  match s, fuel with
  | EmptyString, _ => Some []
  | _, 0 => None
  | _, S n =>
      match next_piece s with
      | Some (p, r) => match pieces n r with Some l => Some (p :: l) | None => None end
      | None => None
      end
  end.
(** Python: Formatter.parse. *)
Definition parse (s : string) : option (list piece) := pieces (String.length s) s.

(** Python: formatter_field_name_split, the part before the first dot or bracket. *)
Fixpoint split_name (s : string) : string * string :=
  match s with
  | EmptyString => (EmptyString, EmptyString)
  | String c r => if (c =? ".") || (c =? "[") then (EmptyString, s) else let (a, b) := split_name r in (String c a, b)
  end.
(** Python: str.isdigit of ASCII texts. *)
Definition is_digit (c : ascii) : bool := ((48 <=? nat_of_ascii c) && (nat_of_ascii c <=? 57))%nat.
(** Python. *)
Fixpoint all_digits (s : string) : bool :=
  match s with EmptyString => true | String c r => is_digit c && all_digits r end.

Section Formatter.
Variable py : python.

(** Python: Formatter.get_field with keyword arguments only; numbers and the empty name
    stand for positional arguments, of which there are none. *)
Definition get_field (d : list (string * value)) (name : string) : option value :=
  let (first, rest) := split_name name in
  if String.eqb name EmptyString || (negb (String.eqb first EmptyString) && all_digits first) then None
  else match dget first d with
       | None => None
       | Some v => if String.eqb rest EmptyString then Some v else py_access py v rest
       end.

(** Python: Formatter.convert_field. *)
Definition super_convert (v : value) (c : option ascii) : option value :=
  match c with
  | None => Some v
  | Some c =>
      if c =? "s" then Some (VStr (py_str py v))
      else if c =? "r" then Some (VStr (py_repr py v))
      else if c =? "a" then Some (VStr (py_ascii py v))
      else None
  end.
(** ExtendedFormatter.convert_field (format.py:48-72): the result of the inherited method is
    not used (69), only its exception. *)
Definition convert_field (v : value) (c : option ascii) : option value :=
  let default := match super_convert v c with Some _ => Some v | None => None end in
  match c with
  | Some "u" => Some (VStr (py_upper py (py_str py v)))
  | Some "l" => Some (VStr (py_lower py (py_str py v)))
  | Some "c" => Some (VStr (py_capitalize py (py_str py v)))
  | _ => default
  end.

(** Python: Formatter._vformat; [depth] is recursion_depth + 1. *)
Fixpoint vformat (depth : nat) (d : list (string * value)) (s : string) : option string :=
  match depth with
  | 0 => None
  | S k =>
      match parse s with
      | None => None
      | Some ps =>
          (fix go (l : list piece) : option string :=
             match l with
             | [] => Some EmptyString
             | p :: r =>
                 let field :=
                   match pc_field p with
                   | None => Some EmptyString
                   | Some f =>
                       match get_field d (fl_name f) with
                       | None => None
                       | Some v =>
                           match convert_field v (fl_conv f) with
                           | None => None
                           | Some v =>
                               match vformat k d (fl_spec f) with
                               | None => None
                               | Some sp => py_format py v sp
                               end
                           end
                       end
                   end in
                 match field, go r with
                 | Some t, Some q => Some (pc_lit p ++ t ++ q)%string
                 | _, _ => None
                 end
             end) ps
      end
  end.
(** [myformatter.format(s, **d)] (format.py:141); Python: Formatter.format, vformat. *)
Definition format (s : string) (d : list (string * value)) : option string := vformat 3 d s.
End Formatter.
