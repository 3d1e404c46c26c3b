(** Property C113: what FormatString makes of its format string. *)
From Coq Require Import Ascii String ZArith Bool Arith List.
From Verif Require Import Base ModelData ModelTree ModelLeaf ModelDataLeaf SpecData SpecLeaf SpecDataLeaf.
From Verif Require Import ModelFormat SpecFormat ProofsDataLeaf ProofsDataMore ProofsFormat PropertiesDataLeaf Demo DemoLeaf DemoDataLeaf.
Import ListNotations.
Local Open Scope string_scope.
Local Open Scope list_scope.

(** Partial: for every template whose conversions are u, l and c, the node writes the text
    the template stands for, or fails if a key is missing or a value cannot be formatted.
    Missing: the conversions s, r and a (refuted below). *)
Theorem C113_node_partial : forall X known n name py t (w w' : world X) r,
  ticks known format_ins format_outs (tick_only (fun _ => format_tick (format py))) n name w w' r ->
  value_at (w_ins w n) "format_string" (VStr (spelled t)) -> Forall plain_part t -> Forall case_only t ->
  exists d, value_at (w_ins w n) "dict" (VDict d) /\
    (texts_of py d t = None -> r = Ok FAILED) /\
    (forall q, texts_of py d t = Some q -> (zlen q <= INT_FLOAT_MAX)%Z ->
       r = Ok SUCCEEDED /\ written n "formatted_string" (VStr q) w w').
Proof.
  intros X known n name py t w w' r H V P C. destruct (C76_format known n name (format py) w w' r H) as (s & d & S & D & _ & A & B).
  assert (E : s = spelled t) by (destruct S as (c1 & S1 & S2), V as (c2 & V1 & V2); congruence). subst s.
  exists d. split; [exact D|]. rewrite (format_templates py d t P), (case_map t C) in *. auto.
Qed.
Print Assumptions C113_node_partial.

(** The conversions s, r and a have no effect. *)
Theorem C113_inherited : forall py d t, Forall plain_part t ->
  format py (spelled t) d = texts_of py d (map unconverted t).
Proof. intros py d t. exact (format_templates py d t). Qed.
Print Assumptions C113_inherited.

(** Any other letter is refused. *)
Theorem C113_unknown : forall py d k c s, is_key k -> ~ In c ["u"; "l"; "c"; "s"; "r"; "a"]%char ->
  format py ("{" ++ k ++ "!" ++ String c ("}" ++ s)) d = None.
Proof.
  intros py d k c s K N. apply unknown_letter; [exact K|]. destruct (existsb _ _) eqn:E; [|reflexivity].
  apply existsb_exists in E. destruct E as (x & I & Q). apply Ascii.eqb_eq in Q. subst x. contradiction.
Qed.
Print Assumptions C113_unknown.

(** ** A node at work. *)
(** Enough of Python for the integer 5: numbers are aligned to the right, texts to the left. *)
Definition py5 : python :=
  {| py_str := fun v => match v with VInt 5 => "5" | VStr s => s | _ => "?" end;
     py_repr := fun v => match v with VInt 5 => "5" | _ => "?" end;
     py_ascii := fun v => match v with VInt 5 => "5" | _ => "?" end;
     py_upper := fun s => s; py_lower := fun s => s; py_capitalize := fun s => s;
     py_format := fun v sp => match v, sp with
       | VInt 5, "" => Some "5" | VInt 5, "3" => Some "  5"
       | VStr s, "" => Some s | VStr "5", "3" => Some "5  "
       | _, _ => None end;
     py_access := fun _ _ => None |}.
Definition braces : list part := [Text "{x} is "; Slot "x" None "3"; Text ", or "; Slot "x" (Some Upper) "3"; Text "!"].
Example C113_spelled : spelled braces = "{{x}} is {x:3}, or {x!u:3}!".
Proof. reflexivity. Qed.
Example C113_plain : Forall plain_part braces /\ Forall case_only braces.
Proof. split; repeat constructor; cbn; try discriminate; auto. Qed.
Definition five : list (string * value) := [("x", VInt 5)].
Definition format_msg (s : string) : list (string * slot * text) :=
  [plain_in "format_string" any_str (VStr s); plain_in "dict" (TDict any_int true INT_FLOAT_MAX false) (VDict five)].
Lemma five_at : forall X (w : world X) s,
  map (fun kc => (fst kc, c_val (snd kc))) (w_ins w 0) = [("format_string", Some (VStr s)); ("dict", Some (VDict five))] ->
  value_at (w_ins w 0) "format_string" (VStr s) /\ value_at (w_ins w 0) "dict" (VDict five).
Proof.
  intros X w s M. destruct (w_ins w 0) as [|[k1 c1] [|[k2 c2] [|]]]; try discriminate. cbn in M. injection M as -> E1 -> E2.
  split; [exists c1|exists c2]; cbn; auto.
Qed.
Example C113_example : exists w w' : world unit,
  ticks no_msgs format_ins format_outs (demo_leaf (format_tick (format py5))) 0 "n" w w' (Ok SUCCEEDED) /\
  value_at (w_ins w 0) "format_string" (VStr (spelled braces)) /\
  written 0 "formatted_string" (VStr "{x} is   5, or 5  !") w w'.
Proof.
  assert (H : exists w w', ticks no_msgs format_ins format_outs (demo_leaf (format_tick (format py5))) 0 "n" w w' (Ok SUCCEEDED) /\
    map (fun kc => (fst kc, c_val (snd kc))) (w_ins w 0) = [("format_string", Some (VStr (spelled braces))); ("dict", Some (VDict five))])
    by shows (format_msg (spelled braces)) tt (@nil (string * value)).
  destruct H as (w & w' & T & M). exists w, w'. apply five_at in M. destruct M as [M1 M2]. split; [exact T|]. split; [exact M1|].
  destruct C113_plain as [P C]. destruct (C113_node_partial _ _ _ _ _ _ _ _ _ T M1 P C) as (d & D & _ & S).
  assert (E : d = five) by (destruct M2 as (c1 & S1 & S2), D as (c2 & V1 & V2); congruence). subst d.
  exact (proj2 (S "{x} is   5, or 5  !" eq_refl ltac:(discriminate))).
Qed.

(** Not in general: "{x!s:3}" should write the text "5" aligned to the left, as Python's
    own formatter does, and writes the number, aligned to the right. *)
Theorem C113_conversion_refuted : exists (py : python) (t : list part) (w w' : world unit),
  py_str py (VInt 5) = "5" /\ py_format py (VInt 5) "3" = Some "  5" /\ py_format py (VStr "5") "3" = Some "5  " /\
  Forall plain_part t /\ spelled t = "{x!s:3}" /\
  ticks no_msgs format_ins format_outs (tick_only (fun _ => format_tick (format py))) 0 "n" w w' (Ok SUCCEEDED) /\
  value_at (w_ins w 0) "format_string" (VStr (spelled t)) /\ value_at (w_ins w 0) "dict" (VDict [("x", VInt 5)]) /\
  texts_of py [("x", VInt 5)] t = Some "5  " /\ written 0 "formatted_string" (VStr "  5") w w'.
Proof.
  exists py5, [Slot "x" (Some AsStr) "3"].
  assert (H : exists w w', ticks no_msgs format_ins format_outs (demo_leaf (format_tick (format py5))) 0 "n" w w' (Ok SUCCEEDED) /\
    map (fun kc => (fst kc, c_val (snd kc))) (w_ins w 0) = [("format_string", Some (VStr "{x!s:3}")); ("dict", Some (VDict five))])
    by shows (format_msg "{x!s:3}") tt (@nil (string * value)).
  destruct H as (w & w' & T & M). exists w, w'. apply five_at in M. destruct M as [M1 M2].
  do 3 (split; [reflexivity|]). split; [repeat constructor; cbn; discriminate|]. split; [reflexivity|].
  split; [exact T|]. split; [exact M1|]. split; [exact M2|]. split; [reflexivity|].
  destruct (C76_format _ _ _ _ _ _ _ T) as (s & d & S & D & _ & _ & B).
  assert (E1 : d = five) by (destruct M2 as (c1 & S1 & S2), D as (c2 & V1 & V2); congruence).
  assert (E2 : s = "{x!s:3}") by (destruct M1 as (c1 & S1 & S2), S as (c2 & V1 & V2); congruence). subst d s.
  exact (proj2 (B "  5" eq_refl ltac:(discriminate))).
Qed.
Print Assumptions C113_conversion_refuted.

Example C113_unknown_example : is_key "x" /\ ~ In "z"%char ["u"; "l"; "c"; "s"; "r"; "a"]%char /\ format py5 "{x!z}" five = None.
Proof. repeat split; try discriminate; cbn; intuition discriminate. Qed.

(** A key may be followed by attributes and items, which Python looks up in its value. *)
Theorem C113_access : forall py d k l s, is_key k -> l <> [] -> Forall plain_step l ->
  format py ("{" ++ k ++ path l ++ "}" ++ s) d =
  match dget k d with
  | None => None
  | Some v => match py_access py v (path l) with None => None | Some x => both (py_format py x "") (format py s d) end
  end.
Proof. exact access_field. Qed.
Print Assumptions C113_access.

(** Numbers are refused, even if they are keys. *)
Theorem C113_number : forall py d k l s, k <> "" -> is_number k = true -> Forall plain_step l ->
  format py ("{" ++ k ++ path l ++ "}" ++ s) d = None.
Proof. exact number_field. Qed.
Print Assumptions C113_number.

(** "{p.x[0]} {y}": an attribute and an item of the value of p. *)
Definition py_point : python :=
  {| py_str := py_str py5; py_repr := py_repr py5; py_ascii := py_ascii py5; py_upper := py_upper py5; py_lower := py_lower py5;
     py_capitalize := py_capitalize py5; py_format := fun v _ => Some (py_str py5 v);
     py_access := fun v a => if String.eqb a ".x[0]" then Some (VInt 5) else None |}.
Example C113_access_example :
  is_key "p" /\ Forall plain_step [Attr "x"; Item "0"] /\
  format py_point "{p.x[0]} {y}" [("p", VBool true); ("y", VInt 5)] = Some "5 5" /\
  format py_point "{p.y} {y}" [("p", VBool true); ("y", VInt 5)] = None /\
  is_number "12" = true /\ format py_point "{12}" [("12", VInt 5)] = None.
Proof. repeat split; try discriminate; repeat constructor; vm_compute; reflexivity. Qed.
