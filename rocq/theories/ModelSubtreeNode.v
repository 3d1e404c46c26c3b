(** Model of the Subtree node (/repo/ros_bt_py/ros_bt_py/ros_nodes/subtree.py:69-283) and
    of the parts of DataFlowManager it needs
    (/repo/ros_bt_py/ros_bt_py/data_flow_manager.py:85-112, 161-184).

    The node has a tree of its own, with its own nodes and data; here the inner world of
    type [world F] is part of what lies outside the outer tree ([w_ext], of type
    [X * sub F]).  The data flow manager of the inner tree is given the input and output
    dictionaries of the Subtree node itself (subtree.py:109-112): its incoming data are the
    inputs of the node, its outgoing data ([w_outg] of the inner world) are the outputs of
    the node, the same container objects.

    Simplifications: the tree was loaded when the node was constructed (subtree.py:86-160),
    what find_root answers is a parameter; what is reported to the subtree manager is left
    out (see ModelSubtrees.v); that calculate_utility also assigns [self.root]
    (subtree.py:280) is left out.  No proofs in this file. *)
From Coq Require Import List String Ascii ZArith Bool Arith.
From Verif Require Import Base ModelData ModelUtility ModelTree.
Import ListNotations.
Local Open Scope string_scope.

(** The text of UUIDs: [str(uuid)], and [uuid.UUID(text)], [None] for a ValueError (several
    texts may be read as the same UUID).  Python: uuid.UUID. *)
Record uuids : Set := mkU {
  u_str : nid -> string;
  u_of : string -> option nid
}.

(** [text.split(".")], for texts that contain exactly one dot.  data_flow_manager.py:161-184. *)
Fixpoint split_dot (s : string) : option (string * string) :=
  match s with
  | EmptyString => None
  | String c r =>
      if Ascii.eqb c "."%char then
        match split_dot r with
        | None => if existsb (Ascii.eqb "."%char) (list_ascii_of_string r) then None else Some ("", r)
        | Some _ => None
        end
      else match split_dot r with
           | Some (a, b) => Some (String c a, b)
           | None => None
           end
  end.

(** Lines 171-172 of data_flow_manager.py. *)
Definition split_key (u : uuids) (s : string) : option (nid * string) :=
  match split_dot s with
  | Some (a, key) => match u_of u a with Some n => Some (n, key) | None => None end
  | None => None
  end.

(** [f"{node_id}.{key}"] (data_flow_manager.py:146, subtree.py:174, 191). *)
Definition public_name (u : uuids) (n : nid) (key : string) : string := u_str u n ++ "." ++ key.

(** A Wiring message; an identifier that is no UUID is [None].  Wiring.msg. *)
Record iwire : Set := mkIW { iw_src : option nid; iw_skey : string; iw_tgt : option nid; iw_tkey : string }.

(** What is fixed when the tree of the node has been loaded: the answer of find_root, the
    identifiers of the nodes, the wirings.  subtree.py:86-160. *)
Record subdef : Set := mkSD {
  sd_found : res (option tree);
  sd_ids : list nid;
  sd_wires : list iwire
}.

(** The attributes of the node: [self.root] and everything below [self.manager].
    subtree.py:86-160. *)
Record sub (F : Type) : Type := mkSub { sb_root : option tree; sb_w : world F }.
Arguments mkSub {F}. Arguments sb_root {F}. Arguments sb_w {F}.

(** data_flow_manager.py:85-112. *)
Definition conns := nid -> option (list conn).
(** Field update; no code of its own. *)
Definition set_conns {F} (w : world F) (c : conns) : world F :=
  mkW (w_st w) (w_mem w) (w_ins w) (w_outs w) c (w_outg w) (w_ext w).

(** The loop of DataFlowManager.initialize (data_flow_manager.py:92-111); a source that is
    no node of the tree is a KeyError (105). *)
Fixpoint connect (l : list iwire) (c : conns) : conns * res unit :=
  match l with
  | [] => (c, Ok tt)
  | x :: r =>
      match iw_src x with
      | None => (c, Err EWire)
      | Some s =>
          match iw_tgt x with
          | None => (c, Err EWire)
          | Some t =>
              match c s with
              | None => (c, Raise)
              | Some k => connect r (fun n => if Nat.eqb n s then Some (k ++ [mkConn (iw_skey x) t (iw_tkey x)])%list
                                             else c n)
              end
          end
      end
  end.

(** DataFlowManager.initialize (85-112). *)
Definition initialize {F} (d : subdef) (w : world F) : world F * res unit :=
  let c0 := fun n => if existsb (Nat.eqb n) (sd_ids d) then Some [] else None in
  let (c, r) := connect (sd_wires d) c0 in (set_conns w c, r).

(** DataFlowManager.push_incoming_data (161-184), [l] the incoming data. *)
Fixpoint push_incoming {F} (u : uuids) (l : iomap) (w : world F) : world F * res unit :=
  match l with
  | [] => (w, Ok tt)
  | (k, c) :: r =>
      if negb (c_upd c) then push_incoming u r w
      else match c_val c with
           | None => push_incoming u r w
           | Some v =>
               match split_key u k with
               | None => push_incoming u r w
               | Some (m, key) =>
                   match w_conns w m with
                   | None => push_incoming u r w
                   | Some _ =>
                       match dget key (w_ins w m) with
                       | None => push_incoming u r w
                       | Some t =>
                           match set_value t v with
                           | (t', Ok _) => push_incoming u r (set_ins w m (dset key t' (w_ins w m)))
                           | (_, Err e) => (w, Err e)
                           | (_, Raise) => (w, Raise)
                           end
                       end
                   end
               end
           end
  end.

(** The outputs of the Subtree node as outgoing data of its tree, and back.
    Simplification: only outputs named like public outputs are seen by the inner tree.
    subtree.py:109-112, data_flow_manager.py:161-184. *)
Definition outgoing_of (u : uuids) (outs : iomap) : list (nid * string * container) :=
  flat_map (fun kc => match split_key u (fst kc) with
                      | Some (m, key) => if String.eqb (public_name u m key) (fst kc) then [(m, key, snd kc)] else []
                      | None => []
                      end) outs.
(** subtree.py:109-112, data_flow_manager.py:161-184. *)
Definition outputs_from (u : uuids) (g : list (nid * string * container)) (outs : iomap) : iomap :=
  map (fun kc => match split_key u (fst kc) with
                 | Some (m, key) => if String.eqb (public_name u m key) (fst kc) then
                                      match og_get m key g with Some c => (fst kc, c) | None => kc end
                                    else kc
                 | None => kc
                 end) outs.

Section Node.
  Context {X F : Type}.
  Variable ev : env F.
  Variable u : uuids.
  Variable d : subdef.
  Variable n : nid.

  (** Helper; no code of its own. *)
  Definition inner (w : world (X * sub F)) : sub F := snd (w_ext w).
  (** Field update; no code of its own. *)
  Definition set_inner (w : world (X * sub F)) (s : sub F) : world (X * sub F) := set_ext w (fst (w_ext w), s).

  (** Run something on the inner tree.  subtree.py:161-283. *)
  Definition inside (f : world F -> world F * res state) : act (X * sub F) := fun w =>
    let s := inner w in
    let (wi, r) := f (set_outg (sb_w s) (outgoing_of u (w_outs w n))) in
    (set_outs (set_inner w (mkSub (sb_root s) wi)) n (outputs_from u (w_outg wi) (w_outs w n)), r).

  (** _do_setup (196-217). *)
  Definition sub_setup : act (X * sub F) := fun w =>
    match sd_found d with
    | Err e => (w, Err e)
    | Raise => (w, Raise)
    | Ok root =>
        let w1 := set_inner w (mkSub root (sb_w (inner w))) in
        match root with
        | None => (w1, Ok IDLE)
        | Some t => inside (fun wi => bind (initialize d wi) (fun _ wi' => o_setup (obj_of ev t) wi')) w1
        end
    end.

  (** _do_tick (219-237). *)
  Definition sub_tick : act (X * sub F) := fun w =>
    match sb_root (inner w) with
    | None => (w, Err ETopo)
    | Some t => inside (fun wi => bind (push_incoming u (w_ins w n) wi) (fun _ wi' => o_tick (obj_of ev t) wi')) w
    end.

  (** _do_untick (239-247). *)
  Definition sub_untick : act (X * sub F) := fun w =>
    match sb_root (inner w) with
    | None => (w, Err ETopo)
    | Some t => inside (o_untick (obj_of ev t)) w
    end.

  (** _do_reset (249-257). *)
  Definition sub_reset : act (X * sub F) := fun w =>
    match sb_root (inner w) with
    | None => (w, Ok IDLE)
    | Some t => inside (o_reset (obj_of ev t)) w
    end.

  (** _do_shutdown (259-267). *)
  Definition sub_shutdown : act (X * sub F) := fun w =>
    match sb_root (inner w) with
    | None => (w, Ok SHUTDOWN)
    | Some t => inside (o_shutdown (obj_of ev t)) w
    end.

  (** _do_calculate_utility (269-283). *)
  Definition sub_util (w : world (X * sub F)) : res bounds :=
    match sd_found d with
    | Ok (Some t) => o_util (obj_of ev t) (sb_w (inner w))
    | _ => Ok bounds0
    end.

  (** The node object (the wrappers are those of every node, node.py:334-713). *)
  Definition subtree_obj (name : string) : obj (X * sub F) :=
    mkObj n name (node_setup n sub_setup) (node_tick n sub_tick) (node_untick n sub_untick)
      (node_reset n sub_reset) (node_shutdown n [] sub_shutdown) sub_util.
End Node.
