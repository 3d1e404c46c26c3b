(** Vocabulary for the properties of reference types and data leaves (C75-C80). *)
From Coq Require Import String Ascii ZArith Bool SpecFloat Arith List.
From Verif Require Import Base ModelData ModelTree ModelLeaf ModelDataLeaf SpecData SpecLeaf.
Import ListNotations.
Local Open Scope string_scope.
Local Open Scope list_scope.

(** ** Types *)

(** A description of a type (the value of a GenericType input) and the type it describes.
    [known]: the message types that are installed. *)
Inductive names (known : string -> bool) : value -> ctype -> Prop :=
| names_bool d : dget "type_identifier" d = Some (VInt 1) -> names known (VDict d) TBool
| names_int d a b : dget "type_identifier" d = Some (VInt 2) ->
    dget "min_value" d = Some (VInt a) -> dget "max_value" d = Some (VInt b) -> (a <= b)%Z -> names known (VDict d) (TInt a b)
| names_float d a b : dget "type_identifier" d = Some (VInt 3) ->
    dget "min_value" d = Some (VFloat a) -> dget "max_value" d = Some (VFloat b) -> SFltb b a = false ->
    names known (VDict d) (TFloat a b)
| names_str d n : dget "type_identifier" d = Some (VInt 4) -> dget "max_length" d = Some (VInt n) ->
    names known (VDict d) (TStr n None)
| names_bytes d n : dget "type_identifier" d = Some (VInt 7) -> dget "max_length" d = Some (VInt n) ->
    names known (VDict d) (TBytes n None)
| names_list d e n s x : dget "type_identifier" d = Some (VInt 5) -> dget "max_length" d = Some (VInt n) ->
    dget "strict_length" d = Some (VBool s) -> dget "element_type" d = Some x -> names known x e ->
    names known (VDict d) (TList e true n s)
| names_dict d e n s x : dget "type_identifier" d = Some (VInt 6) -> dget "max_length" d = Some (VInt n) ->
    dget "strict_length" d = Some (VBool s) -> dget "element_type" d = Some x -> names known x e ->
    names known (VDict d) (TDict e true n s)
| names_msg d s : dget "type_identifier" d = Some (VInt 12) -> dget "ros_msg_type" d = Some (VStr s) -> known s = true ->
    names known (VDict d) (TRosMsg s 0)
(** The identifier may be any value that Python takes to be equal. *)
| names_eq d i z t : dget "type_identifier" d = Some i -> py_eq (VInt z) i = true ->
    names known (VDict (dset "type_identifier" (VInt z) d)) t -> names known (VDict d) t.

(** A type input that names the type [t]. *)
Definition selects (known : string -> bool) (s : slot) (t : ctype) : Prop :=
  exists c v, s = SPlain c /\ c_val c = Some v /\
    match c_ty c with
    | TGeneric _ => names known v t
    | TRosType _ _ => exists i n, v = VType i n /\ t = TRosMsg n 0
    | _ => False
    end.

(** A reference to the input [r]; lists and dictionaries of its type. *)
Definition refers (s : slot) (k : refkind) (r : string) : Prop :=
  exists dyn sta static inner, s = SRef k r dyn sta static inner.
(** What the input or output accepts, if anything. *)
Definition slot_type (s : slot) : option ctype :=
  match s with SPlain c => Some (c_ty c) | SRef _ _ _ _ _ i => option_map c_ty i end.
Definition of_kind (k : refkind) (t u : ctype) : Prop :=
  match k with
  | RefItem => u = t
  | RefList => exists sta, u = TList t sta INT_FLOAT_MAX false
  | RefDict => exists sta, u = TDict t sta INT_FLOAT_MAX false
  end.

(** The message mentions the input. *)
Definition mentions (msg : list (string * slot * text)) (k : string) : Prop := In k (map (fun x => fst (fst x)) msg).
(** No input is mentioned twice, and references come without a type of their own. *)
Definition proper (msg : list (string * slot * text)) : Prop :=
  NoDup (map (fun x => fst (fst x)) msg) /\
  forall k s v, In (k, s, v) msg -> match s with SPlain _ => True | SRef _ _ _ _ _ inner => inner = None end.

(** ** A node in use *)

(** The value meets the constraints of the type; floats are not given as integers. *)
Definition stored (t : ctype) (v : value) : Prop :=
  admits t v /\ forall a b, t = TFloat a b -> exists f, v = VFloat f.
Definition fits (m : iomap) : Prop := forall k c v, dget k m = Some c -> c_val c = Some v -> stored (c_ty c) v.
Definition value_at (m : iomap) (k : string) (v : value) : Prop := exists c, dget k m = Some c /\ c_val c = Some v.

Section Life.
Context {X : Type}.
Variables (f : leafcode X) (i o : iomap) (n : nid) (name : string).

(** The node from its construction with the inputs [i] and outputs [o]: operations, values
    that arrive at its inputs, and everything that happens elsewhere. *)
Inductive life : world X -> Prop :=
| l_new w : w_st w n = UNINITIALIZED -> w_ins w n = i -> w_outs w n = o -> life w
| l_else w w' : life w -> w_st w' n = w_st w n -> w_ins w' n = w_ins w n -> w_outs w' n = w_outs w n -> life w'
| l_data w k c v c' r : life w -> dget k (w_ins w n) = Some c -> set_value c v = (c', r) ->
    life (set_ins w n (dset k c' (w_ins w n)))
| l_op w op w' r : life w -> call op (the_leaf f n name) w = (w', r) -> life w'.

(** The container [t] takes what [s] can hold. *)
Definition takes (t s : container) : Prop :=
  c_static t = false /\ bytes_plain (c_ty t) /\ forall v, admits (c_ty s) v -> admits (c_ty t) v.
(** The outputs are wired to inputs that take their values. *)
Definition deliverable (w : world X) : Prop :=
  (exists l, w_conns w n = Some l /\ forall k, In k l -> exists c t,
     dget (k_src k) (w_outs w n) = Some c /\ w_conns w (k_tid k) <> None /\
     dget (k_tkey k) (w_ins w (k_tid k)) = Some t /\ takes t c) /\
  (forall k c t, dget k (w_outs w n) = Some c -> og_get n k (w_outg w) = Some t -> takes t c).
(** A tick is not refused, all inputs have values, and the outputs can be delivered. *)
Definition ready (w : world X) : Prop := executes n w = true /\ deliverable w.
End Life.

(** A node of the class with inputs [ins], outputs [outs] and code [f], created from a
    message; all references are resolved, and the values it starts with fit their types. *)
Definition built {X} (known : string -> bool) (ins outs : smap) (f : leafcode X) (n : nid) (name : string) (w : world X) : Prop :=
  exists msg i o mi mo, proper msg /\ node_of_msg known ins outs msg = Ok (i, o) /\
    containers i = Some mi /\ containers o = Some mo /\ fits mi /\ life f mi mo n name w.

(** Such a node is ticked. *)
Definition ticks {X} (known : string -> bool) (ins outs : smap) (f : leafcode X) (n : nid) (name : string)
    (w w' : world X) (r : res state) : Prop :=
  built known ins outs f n name w /\ ready n w /\ call OTick (the_leaf f n name) w = (w', r).

(** ** Results *)

Definition success_if (b : bool) : state := if b then SUCCEEDED else FAILED.
(** [l] with [v] inserted so that it has index [i], or is the last. *)
Definition inserted (l : list value) (i : Z) (v : value) (l' : list value) : Prop :=
  exists a b, l = a ++ b /\ l' = a ++ v :: b /\ Z.of_nat (length a) = Z.min i (Z.of_nat (length l)).
(** [d'] maps [k] to [v], and agrees with [d] elsewhere. *)
Definition updated_dict (d : list (string * value)) (k : string) (v : value) (d' : list (string * value)) : Prop :=
  dget k d' = Some v /\ forall k', k' <> k -> dget k' d' = dget k' d.
(** [e] is the extension of the path [p], from the last dot; the name [f] before it does not
    consist of dots. *)
Definition has_extension (p f e : list ascii) : Prop :=
  exists a c b r, f = a ++ c :: b /\ e = "."%char :: r /\ p = f ++ e /\ c <> "."%char /\ c <> "/"%char /\
    ~ In "/"%char b /\ ~ In "/"%char r /\ ~ In "."%char r.
Definition split_path (p f e : string) : Prop :=
  let l := list_ascii_of_string in
  has_extension (l p) (l f) (l e) \/ f = p /\ e = ""%string /\ forall f' e', ~ has_extension (l p) f' e'.

(** ** Integer arithmetic *)
Local Open Scope Z_scope.
Inductive int_result : string -> Z -> Z -> Z -> Prop :=
| ir_add s a b : In s ["add"; "+"]%string -> int_result s a b (a + b)
| ir_sub s a b : In s ["sub"; "-"]%string -> int_result s a b (a - b)
| ir_mul s a b : In s ["mul"; "*"]%string -> int_result s a b (a * b)
| ir_floordiv s a b q m : In s ["floordiv"; "//"]%string -> a = b * q + m -> 0 <= m < b \/ b < m <= 0 -> int_result s a b q
| ir_mod s a b q m : In s ["mod"; "%"]%string -> a = b * q + m -> 0 <= m < b \/ b < m <= 0 -> int_result s a b m
| ir_pow s a b : In s ["pow"; "**"]%string -> 0 <= b -> int_result s a b (a ^ b)
| ir_lshift s a b : In s ["lshift"; "<<"]%string -> 0 <= b -> int_result s a b (a * 2 ^ b)
| ir_rshift s a b q m : In s ["rshift"; ">>"]%string -> 0 <= b -> a = 2 ^ b * q + m -> 0 <= m < 2 ^ b -> int_result s a b q
| ir_and s a b c : In s ["and"; "&"]%string -> (forall i, Z.testbit c i = Z.testbit a i && Z.testbit b i) -> int_result s a b c
| ir_or s a b c : In s ["or"; "|"]%string -> (forall i, Z.testbit c i = Z.testbit a i || Z.testbit b i) -> int_result s a b c
| ir_xor s a b c : In s ["xor"; "^"]%string -> (forall i, Z.testbit c i = xorb (Z.testbit a i) (Z.testbit b i)) -> int_result s a b c.
(** The operation raises an exception. *)
Definition undefined (s : string) (b : Z) : Prop :=
  In s ["floordiv"; "//"; "mod"; "%"; "div"; "/"; "truediv"]%string /\ b = 0 \/ In s ["lshift"; "<<"; "rshift"; ">>"]%string /\ b < 0.
Definition is_division (s : string) : Prop := In s ["div"; "/"; "truediv"]%string.
(** The result is a double, or there is none. *)
Definition real_result (s : string) (b : Z) : Prop := is_division s \/ In s ["pow"; "**"]%string /\ b < 0.

Inductive is_factorial : Z -> Z -> Prop :=
| factorial_0 : is_factorial 0 1
| factorial_next n f : 0 <= n -> is_factorial n f -> is_factorial (n + 1) ((n + 1) * f).
Inductive int_unary : string -> Z -> Z -> Prop :=
| iu_neg s a : In s ["neg"; "-"]%string -> int_unary s a (- a)
| iu_inv s a : In s ["inv"; "~"]%string -> int_unary s a (- a - 1)
| iu_id s a : In s ["pos"; "+"; "ceil"; "floor"]%string -> int_unary s a a
| iu_factorial a f : is_factorial a f -> int_unary "factorial" a f.
(** Functions whose result is a double. *)
Definition real_functions : list string :=
  ["exp"; "expm1"; "log"; "log1p"; "log10"; "fabs"; "sqrt"; "acos"; "asin"; "atan"; "acosh"; "asinh"; "atanh";
   "cos"; "sin"; "tan"; "cosh"; "sinh"; "tanh"; "degrees"; "radians"; "erf"; "erfc"; "gamma"; "lgamma"]%string.

(** The result [z] is stored if it is in the range of the output, and refused otherwise. *)
Definition stores_result {X} (n : nid) (v : value) (z : Z) (w w' : world X) (r : res state) : Prop :=
  exists c lo hi, dget "result"%string (w_outs w n) = Some c /\ c_ty c = TInt lo hi /\
    (lo <= z <= hi -> r = Ok SUCCEEDED /\ written n "result"%string v w w') /\
    (~ (lo <= z <= hi) -> (exists e, r = Err e) /\ w_st w' n = BROKEN /\ dget "result"%string (w_outs w' n) = Some (reset_updated c)).

(** ** Doubles *)
(** The finite double [f] is the number [n] / [d]. *)
Inductive fraction : spec_float -> Z -> Z -> Prop :=
| fraction_zero b : fraction (S754_zero b) 0 1
| fraction_whole m e : 0 <= e -> fraction (S754_finite false m e) (Zpos m * 2 ^ e) 1
| fraction_whole_neg m e : 0 <= e -> fraction (S754_finite true m e) (- (Zpos m * 2 ^ e)) 1
| fraction_part m e : e < 0 -> fraction (S754_finite false m e) (Zpos m) (2 ^ (- e))
| fraction_part_neg m e : e < 0 -> fraction (S754_finite true m e) (- Zpos m) (2 ^ (- e)).
Definition is_floor (f : spec_float) (z : Z) : Prop := exists n d, fraction f n d /\ z * d <= n < (z + 1) * d.
Definition is_ceil (f : spec_float) (z : Z) : Prop := exists n d, fraction f n d /\ (z - 1) * d < n <= z * d.

(** The result [z] of an operator on doubles: the IEEE operations, and what the C library
    gives for floor division, remainder and power. *)
Inductive float_result (lib : mathlib) : string -> spec_float -> spec_float -> spec_float -> Prop :=
| fr_add s x y : In s ["add"; "+"]%string -> float_result lib s x y (SFadd prec emax x y)
| fr_sub s x y : In s ["sub"; "-"]%string -> float_result lib s x y (SFsub prec emax x y)
| fr_mul s x y : In s ["mul"; "*"]%string -> float_result lib s x y (SFmul prec emax x y)
| fr_div s x y : is_division s -> (forall b, y <> S754_zero b) -> float_result lib s x y (SFdiv prec emax x y)
| fr_floordiv s x y z : In s ["floordiv"; "//"]%string -> ml_float lib OpFloorDiv x y = Some z -> float_result lib s x y z
| fr_mod s x y z : In s ["mod"; "%"]%string -> ml_float lib OpMod x y = Some z -> float_result lib s x y z
| fr_pow s x y z : In s ["pow"; "**"]%string -> ml_float lib OpPow x y = Some z -> float_result lib s x y z.
(** The result of an operator on one double, as a Python value. *)
Inductive float_unary (lib : mathlib) : string -> spec_float -> value -> Prop :=
| fu_neg s x : In s ["neg"; "-"]%string -> float_unary lib s x (VFloat (SFopp x))
| fu_pos s x : In s ["pos"; "+"]%string -> float_unary lib s x (VFloat x)
| fu_not_zero b : float_unary lib "not" (S754_zero b) (VBool true)
| fu_not x : (forall b, x <> S754_zero b) -> float_unary lib "not" x (VBool false)
| fu_ceil x z : is_ceil x z -> float_unary lib "ceil" x (VInt z)
| fu_floor x z : is_floor x z -> float_unary lib "floor" x (VInt z)
| fu_fun s x z : In s real_functions -> ml_fun lib s (VFloat x) = Some z -> float_unary lib s x (VFloat z).
(** The value [v], which is the double [f], is stored if [f] is in the range of the output,
    and refused otherwise. *)
Definition stores_float {X} (n : nid) (v : value) (f : spec_float) (w w' : world X) (r : res state) : Prop :=
  exists c lo hi, dget "result"%string (w_outs w n) = Some c /\ c_ty c = TFloat lo hi /\
    (SFltb f lo = false -> SFltb hi f = false -> r = Ok SUCCEEDED /\ written n "result"%string v w w') /\
    (SFltb f lo = true \/ SFltb hi f = true ->
      (exists e, r = Err e) /\ w_st w' n = BROKEN /\ dget "result"%string (w_outs w' n) = Some (reset_updated c)).

(** ** Files *)
(** The recorded type of the content is that of the output (a variable of the model only). *)
Definition typed (n : nid) (w : world yaml) : Prop :=
  forall c, dget "content"%string (w_outs w n) = Some c -> c_ty c = ya_ty (w_ext w).
(** Not set up or reset again, and the path stays the same. *)
Definition keeps_file (n : nid) (it : item yaml) : Prop :=
  match i_op it with
  | OSetup | OReset => False
  | OTick => is_updated (w_ins (i_before it) n) ["file_path"%string] = false
  | _ => True
  end.
(** Data that YamlList and YamlDict accept. *)
Definition good_content (is_list : bool) (v : value) : Prop :=
  if is_list then exists x l, v = VList (x :: l) else exists k x d, v = VDict ((k, x) :: d).
