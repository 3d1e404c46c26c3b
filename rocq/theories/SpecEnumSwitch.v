(** Vocabulary for C111. *)
From Coq Require Import String ZArith Bool SpecFloat List.
From Verif Require Import Base ModelData.
Import ListNotations.

(** The types that have an input of their own, and their values. *)
Inductive of_type : bty -> value -> Prop :=
| ot_bool b : of_type BBool (VBool b)
| ot_int z : of_type BInt (VInt z)
| ot_float f : of_type BFloat (VFloat f)
| ot_str s : of_type BStr (VStr s)
| ot_bytes s : of_type BBytes (VBytes s)
| ot_list l : of_type BList (VList l)
| ot_dict d : of_type BDict (VDict d).

(** A message with constants, all of type [b]. *)
Definition constants_of (b : bty) (cs : list (string * value)) : Prop :=
  cs <> [] /\ Forall (fun fv => of_type b (snd fv)) cs.

(** The constants that fit into an input: integers of 64 bits with sign, numbers, one byte. *)
Inductive fits : value -> Prop :=
| ft_bool b : fits (VBool b)
| ft_int z : (- 2 ^ 63 <= z < 2 ^ 63)%Z -> fits (VInt z)
| ft_float f : f <> S754_nan -> SFltb f DBL_MIN = false -> SFltb DBL_MAX f = false -> fits (VFloat f)
| ft_str s : (Z.of_nat (String.length s) <= 2 ^ 63)%Z -> fits (VStr s)
| ft_byte a : fits (VBytes (String a EmptyString)).
