(** Vocabulary for C105: what the editor should be told about the system. *)
From Coq Require Import String ZArith NArith Bool List.
From Verif Require Import Base ModelData ModelFields SpecFields ModelCatalogue.
Import ListNotations.
Local Open Scope string_scope.
Local Open Scope list_scope.

(** "package/interface" is installed. *)
Definition is_installed (l : list (string * list string)) (s : string) : Prop :=
  exists p ms m, In (p, ms) l /\ In m ms /\ s = (p ++ "/" ++ m)%string.

(** The class is in the package [p], in a module such as p.kind._file. *)
Definition named (k : msgclass) (p kind : string) : Prop :=
  exists mid file, k_module k = p :: mid ++ [kind; file].

(** The types of the fields can be read: they are types of ROS, and the classes of nested
    messages can be loaded. *)
Definition readable_fields (i : installed) (k : msgclass) : Prop :=
  Forall (fun f => exists F t, snd f = text F /\ no_string_name F /\ holds (class_of i) F t) (k_fields k).
Definition readable (i : installed) : Prop :=
  forall s, is_installed (i_messages i) s ->
    exists k p kind, dget s (i_class i) = Some k /\ named k p kind /\ readable_fields i k.

(** The entry [y] describes the message of class [k]: its name, the type of a value of it
    and the name and type of each field. *)
Definition describes (i : installed) (k : msgclass) (y : mtype) : Prop :=
  (exists p kind, named k p kind /\ y_name y = (p ++ "/" ++ kind ++ "/" ++ k_name k)%string) /\
  y_type y = ser_type (TRosMsg (y_name y) 0) true true true /\
  Forall2 (fun f z => fst z = fst f /\
             exists F t, snd f = text F /\ holds (class_of i) F t /\ snd z = ser_type t true true true)
          (k_fields k) (y_fields y).

(** One entry for each message, in their order, but for those without a default value. *)
Inductive shown (i : installed) : list string -> list mtype -> Prop :=
| Sh_none : shown i [] []
| Sh_one : forall n k y ns ys, dget n (i_class i) = Some k -> k_new k = true -> describes i k y ->
    shown i ns ys -> shown i (n :: ns) (y :: ys)
| Sh_skip : forall n k ns ys, dget n (i_class i) = Some k -> k_new k = false -> shown i ns ys -> shown i (n :: ns) ys.

(** [r] is [l] without the elements for which [P] does not hold. *)
Inductive keeps {A} (P : A -> Prop) : list A -> list A -> Prop :=
| K_nil : keeps P [] []
| K_keep : forall x l r, P x -> keeps P l r -> keeps P (x :: l) (x :: r)
| K_skip : forall x l r, ~ P x -> keeps P l r -> keeps P (x :: l) r.

(** [l] has each installed interface, and as many entries as there are. *)
Definition lists_all (d : list (string * list string)) (l : list string) : Prop :=
  (forall s, In s l <-> is_installed d s) /\ length l = list_sum (map (fun p => length (snd p)) d).

Definition is_messages (x : sent) : Prop := match x with SMessages _ => True | _ => False end.
Definition is_packages (x : sent) : Prop := match x with SPackages _ => True | _ => False end.
(** [x] is the last in [l] of its kind. *)
Definition last_of (P : sent -> Prop) (l : list sent) (x : sent) : Prop :=
  P x /\ exists a b, l = a ++ x :: b /\ forall y, In y b -> ~ P y.
(** With [n] subscribers the last list is sent again, if there was one. *)
Definition again (P : sent -> Prop) (n : nat) (l xs : list sent) : Prop :=
  (0 < n /\ exists x, last_of P l x /\ xs = [x]) \/ ((n = 0 \/ forall y, In y l -> ~ P y) /\ xs = []).
