(** Specification of the getter nodes: which item their inputs ask for. *)
From Coq Require Import List String Ascii ZArith Bool.
From Verif Require Import Base ModelData ModelTree SpecTree SpecControl.
Import ListNotations.

Section SpecGetter.
Context {E : Type}.

(** The input [key] of node [n] holds [v]. *)
Definition holds (w : world E) (n : nid) (key : string) (v : value) : Prop :=
  exists c, dget key (w_ins w n) = Some c /\ c_val c = Some v.

(** One of the inputs [keys] is marked as updated. *)
Definition fresh_input (w : world E) (n : nid) (keys : list string) : Prop :=
  exists key c, In key keys /\ dget key (w_ins w n) = Some c /\ c_upd c = true.

(** An attribute with a path of names: [follow attr v names x], where [x] is [None] if one of
    the names is not there. *)
Inductive follow (attr : value -> string -> option value) : value -> list string -> option value -> Prop :=
| fo_end v : follow attr v [] (Some v)
| fo_none v a r : attr v a = None -> follow attr v (a :: r) None
| fo_some v a y r x : attr v a = Some y -> follow attr y r x -> follow attr v (a :: r) x.

Fixpoint has_dot (s : string) : Prop :=
  match s with EmptyString => False | String a r => a = "."%char \/ has_dot r end.

(** The item that the inputs of a getter ask for; [None]: there is no such item.  A list index
    below zero counts from the end. *)
Inductive asks (w : world E) (n : nid) : getter -> option value -> Prop :=
| as_item l i : holds w n "list" (VList l) -> holds w n "index" (VInt i) -> (0 <= i)%Z ->
    asks w n GListItem (nth_error l (Z.to_nat i))
| as_item_back l i : holds w n "list" (VList l) -> holds w n "index" (VInt i) ->
    (i < 0)%Z -> (- Z.of_nat (List.length l) <= i)%Z ->
    asks w n GListItem (nth_error l (List.length l - Z.to_nat (- i)))
| as_item_before l i : holds w n "list" (VList l) -> holds w n "index" (VInt i) ->
    (i < - Z.of_nat (List.length l))%Z -> asks w n GListItem None
| as_entry d k : holds w n "dict" (VDict d) -> holds w n "key" (VStr k) -> asks w n GDictItem (dget k d)
| as_entries d ks vs : holds w n "dict" (VDict d) -> holds w n "keys" (VList ks) ->
    Forall2 (fun k v => exists s, k = VStr s /\ dget s d = Some v) ks vs ->
    asks w n GMultiDict (Some (VList vs))
| as_no_entry d ks : holds w n "dict" (VDict d) -> holds w n "keys" (VList ks) ->
    Exists (fun k => forall s, k = VStr s -> dget s d = None) ks -> asks w n GMultiDict None
| as_attribute attr v names x : holds w n "object" v -> holds w n "attr_name" (VStr (String.concat "." names)) ->
    names <> [] -> Forall (fun a => ~ has_dot a) names -> follow attr v names x -> asks w n (GAttr attr) x.

(** The inputs a getter looks at, and its output. *)
Definition looks_at (g : getter) : list string :=
  match g with
  | GListItem => ["list"; "index"]
  | GDictItem => ["dict"; "key"]
  | GMultiDict => ["dict"; "keys"]
  | GAttr _ => ["object"; "attr_name"]
  end%string.
Definition puts_on (g : getter) : string :=
  match g with GListItem => "item" | GDictItem => "value" | GMultiDict => "values" | GAttr _ => "attr" end.
(** The inputs are there. *)
Definition has_inputs (w : world E) (n : nid) (g : getter) : Prop :=
  forall key, In key (looks_at g) -> exists c, dget key (w_ins w n) = Some c.

(** The child is ticked first if there is one. *)
Definition child_first (cs : list (obj E)) (w w2 : world E) (b : res state) : Prop :=
  match cs with [] => w2 = w /\ b = Ok SUCCEEDED | c :: _ => call OTick c w = (w2, b) end.

(** How the tick goes on in world [w2], after the child answered [b]; [stale]: the option
    succeed_on_stale_data. *)
Definition getter_goes_on (g : getter) (n : nid) (stale : bool) (b : res state) (w2 w' : world E) (r : res state) : Prop :=
  match b with
  | Ok s =>
      if match s with FAILED | RUNNING => true | _ => false end then end_tick n (Ok s) w2 w' r
      else
        forall x, asks w2 n g x ->
        match x with
        | None => end_tick n (Ok FAILED) w2 w' r
        | Some v =>
            (fresh_input w2 n (looks_at g) \/ stale = true ->
             forall c c', dget (puts_on g) (w_outs w2 n) = Some c -> set_value c v = (c', Ok tt) ->
               dget (puts_on g) (w_outs w' n) = Some c' /\
               end_tick n (Ok SUCCEEDED) (set_outs w2 n (dset (puts_on g) c' (w_outs w2 n))) w' r) /\
            (~ fresh_input w2 n (looks_at g) /\ stale = false ->
             w_outs w' n = w_outs w2 n /\ end_tick n (Ok RUNNING) w2 w' r)
        end
  | _ => end_tick n b w2 w' r
  end.
End SpecGetter.
