(** Vocabulary of the statements about log messages. *)
From Coq Require Import String Ascii Bool Arith List.
From Verif Require Import Base ModelLog.
Import ListNotations.
Local Open Scope list_scope.

(** [a] is what the last step that sets it sets it to, or [d] if none does. *)
Definition last_set {A} (sets : lop -> A -> Prop) (d : A) (h : list lop) (a : A) : Prop :=
  (exists h1 o h2, h = h1 ++ o :: h2 /\ sets o a /\ forall o' b, In o' h2 -> ~ sets o' b) \/
  (forall o b, In o h -> ~ sets o b) /\ a = d.

(** A client sets the level. *)
Definition sets_level (o : lop) (l : nat) : Prop := o = LSetLevel l.
(** The tree with manager [i] gets a name, an id. *)
Definition sets_name (i : nat) (o : lop) (s : string) : Prop := o = LTreeName i s.
Definition sets_id (i : nat) (o : lop) (t : option nat) : Prop := exists t', t = Some t' /\ o = LTreeId i t'.

Fixpoint managers (h : list lop) : nat :=
  match h with [] => 0 | LNew _ :: h => S (managers h) | _ :: h => managers h end.

(** Manager [i] is made in [h] with callback [cb], and its tree now has this id and name. *)
Definition has_manager (h : list lop) (i : nat) (cb tid : option nat) (tname : string) : Prop :=
  exists h1 h2, h = h1 ++ LNew cb :: h2 /\ managers h1 = i /\
    last_set (sets_id i) None h2 tid /\ last_set (sets_name i) ""%string h2 tname.

(** The level that counts after [h]. *)
Definition level (h : list lop) (l : nat) : Prop := last_set sets_level 20 h l.

(** What is published on the topics, in this order. *)
Definition published (h : list lop) : list (nat * logmsg) := lw_pub (lrun h).
(** What is given to the loggers of ROS. *)
Definition logged (h : list lop) := lw_ros (lrun h).

(** The numbers that BTLogMessage.msg documents. *)
Definition documented (s : severity) : nat :=
  match s with DEBUG => 10 | INFO => 20 | WARN => 30 | ERROR => 40 | FATAL => 50 end.
(** Messages with this severity appear: its number is not below the level. *)
Definition appears (h : list lop) (s : severity) : Prop := exists l, level h l /\ l <= documented s.

(** A step that logs nothing. *)
Definition silent (o : lop) : Prop :=
  match o with LManager _ _ _ _ _ | LNode _ _ _ _ _ _ _ => False | _ => True end.

(** The character is in the text. *)
Fixpoint occurs (c : ascii) (s : string) : Prop :=
  match s with EmptyString => False | String d s => c = d \/ occurs c s end.

(** The same tree, and the same node of it. *)
Definition same_ids (p q : option (nat * string * option (nat * string))) : Prop :=
  match p, q with
  | None, None => True
  | Some (t, _, None), Some (t', _, None) => t = t'
  | Some (t, _, Some (n, _)), Some (t', _, Some (n', _)) => t = t' /\ n = n'
  | _, _ => False
  end.
