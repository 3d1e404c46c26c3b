(** Vocabulary for C103. *)
From Coq Require Import String Bool List.
From Verif Require Import Base ModelData ModelDataLeaf ModelJson ModelOptions SpecData.
Import ListNotations.
Local Open Scope string_scope.

(** A class: every input and output was made by the constructor of a container, or is a
    reference. *)
Definition is_class (ins : smap) : Prop :=
  NoDup (map fst ins) /\
  (forall k c, In (k, SPlain c) ins -> exists t dyn sta static init, construct t dyn sta (Some static) init = Some c).

(** The container of an input. *)
Definition holds (s : slot) (c : container) : Prop :=
  s = SPlain c \/ exists k x dyn sta static, s = SRef k x dyn sta static (Some c).
(** The same input with another container. *)
Definition put (s : slot) (c : container) : slot :=
  match s with
  | SPlain _ => SPlain c
  | SRef k x dyn sta static _ => SRef k x dyn sta static (Some c)
  end.
Definition sets (o : cop) : bool := match o with CSet _ => true | _ => false end.

Section Use.
Variable r : ros.
Variable known : string -> bool.
Variable fuel : nat.
Variables ins outs : smap.

(** The inputs of a node of the class, since it was made from a message: values arrive at
    those that are not static, and the rest of the code flags and resets them. *)
Inductive in_use : smap -> Prop :=
| U_new : forall l i o, NoDup (map fst l) -> node_from_msg r known fuel ins outs l = Ok (i, o) -> in_use i
| U_op : forall i k s c ops, in_use i -> dget k i = Some s -> holds s c ->
    (c_static c = true -> existsb sets ops = false) ->
    in_use (dset k (put s (cops_run ops c)) i).
End Use.

(** Types that messages can describe completely (see C32). *)
Definition complete (c : container) : Prop :=
  shallow (c_ty c) (c_dyn c) /\ (element_static (c_ty c) = None \/ element_static (c_ty c) = Some (c_sta c)).
