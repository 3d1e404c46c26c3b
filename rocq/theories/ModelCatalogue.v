(** Model of what the tree node tells the editor about the system: the list of message
    types and packages of the package manager (/repo/ros_bt_py/ros_bt_py/package_manager.py:
    79-100, 208-285) and the channels (ros_helpers.py:63-75, 95-110).

    What is installed and what the ROS graph holds are parameters of each call, since both
    may change between calls.  The dictionaries of rosidl_runtime_py and ament_index_python
    are lists of pairs in their order.  A publisher counts its subscribers; what it sends is
    appended to a list.  No proofs in this file. *)
From Coq Require Import String ZArith Bool Ascii List.
From Verif Require Import Base ModelData ModelEdit ModelFiles ModelFields.
Import ListNotations.
Local Open Scope string_scope.
Local Open Scope bool_scope.
Local Open Scope list_scope.

(** A class generated for a message: the parts of [__module__], [__name__], whether [T()]
    works and the result of get_fields_and_field_types().  Used in package_manager.py:79-98. *)
Record msgclass : Set := mkK {
  k_module : list string; k_name : string; k_new : bool; k_fields : list (string * string) }.

(** The installed interfaces.  Used in package_manager.py:208-270. *)
Record installed : Set := mkI {
  i_messages : list (string * list string);   (* get_message_interfaces *)
  i_services : list (string * list string);   (* get_service_interfaces *)
  i_actions : list (string * list string);    (* get_action_interfaces *)
  i_class : list (string * msgclass) }.       (* utilities.get_message; others raise *)

(** MessageType and MessageTypes (ros_bt_py_interfaces/msg).  package_manager.py:79-98. *)
Record mtype : Set := mkM { y_name : string; y_type : tmsg; y_fields : list (string * tmsg) }.
(** NodeDataType() as MessageType.msg has it. *)
Definition no_mtype : tmsg := msg_base 0 false false false.
(** package_manager.py:208-249. *)
Record mtypes : Set := mkMs { ms_topics : list mtype; ms_services : list string; ms_actions : list string }.

(** get_interface_name (ros_helpers.py:63-75); [None]: IndexError. *)
Definition get_interface_name (k : msgclass) : option string :=
  match k_module k, rev (k_module k) with
  | p :: _, _ :: t :: _ => Some (p ++ "/" ++ t ++ "/" ++ k_name k)%string
  | _, _ => None
  end.

(** The class name for the text of a field: get_message and get_interface_name.
    package_manager.py:79-98, ros_helpers.py:63-75. *)
Definition class_of (i : installed) (s : string) : option string :=
  match dget s (i_class i) with Some k => get_interface_name k | None => None end.

(** get_element_fields (data_types.py:1376-1387), with the containers. *)
Fixpoint element_containers (i : installed) (l : list (string * string)) : res (list (string * container)) :=
  match l with
  | [] => Ok []
  | (f, ft) :: t =>
      match get_message_field_io_type (class_of i) ft with
      | Ok c => match element_containers i t with Ok cs => Ok ((f, c) :: cs) | Err e => Err e | Raise => Raise end
      | Err e => Err e
      | Raise => Raise
      end
  end.

(** to_message_type (package_manager.py:79-100); [Ok None]: None. *)
Definition to_message_type (i : installed) (k : msgclass) : res (option mtype) :=
  match get_interface_name k with
  | None => Raise
  | Some n =>
      match (if k_new k then construct (TRosMsg n 0) true true None None else None) with
      | None => Ok None
      | Some c =>
          match element_containers i (k_fields k) with
          | Err _ => Ok (Some (mkM n (serialize_type c) []))
          | Ok fs => Ok (Some (mkM n (serialize_type c) (map (fun f => (fst f, serialize_type (snd f))) fs)))
          | Raise => Raise
          end
      end
  end.

(** The loops over packages and their interfaces (226-246). *)
Definition interfaces (l : list (string * list string)) : list string :=
  flat_map (fun p => map (fun m => (fst p ++ "/" ++ m)%string) (snd p)) l.
Fixpoint message_types (i : installed) (l : list string) : res (list mtype) :=
  match l with
  | [] => Ok []
  | n :: t =>
      match dget n (i_class i) with
      | None => Raise
      | Some k =>
          match to_message_type i k with
          | Ok o => match message_types i t with
                    | Ok r => Ok (match o with Some y => y :: r | None => r end)
                    | Err e => Err e
                    | Raise => Raise
                    end
          | Err e => Err e
          | Raise => Raise
          end
      end
  end.

(** What the node sends.  package_manager.py:208-270, ros_helpers.py:95-110. *)
Inductive sent : Set :=
| SMessages (l : mtypes)
| SPackages (l : list (string * string))                                            (* package, path *)
| SChannels (topics services actions : list (string * string)).                     (* name, type *)

(** PackageManager (package_manager.py:104-120). *)
Record catalogue : Set := mkCat {
  g_message_pub : bool; g_package_pub : bool;     (* the publishers are not None *)
  g_messages : option mtypes;                     (* self.message_types *)
  g_packages : option (list (string * string));   (* self.packages *)
  g_sent : list sent }.
(** package_manager.py:104-120. *)
Definition new_catalogue (mp pp : bool) : catalogue := mkCat mp pp None None [].
(** publish() of a publisher (package_manager.py:208-285). *)
Definition send (x : sent) (g : catalogue) : catalogue :=
  mkCat (g_message_pub g) (g_package_pub g) (g_messages g) (g_packages g) (g_sent g ++ [x]).

(** publish_message_list (208-249); [false]: an exception leaves it. *)
Definition publish_message_list (i : installed) (g : catalogue) : catalogue * bool :=
  if negb (g_message_pub g) then (g, true)
  else match message_types i (interfaces (i_messages i)) with
       | Ok l =>
           let m := mkMs l (interfaces (i_services i)) (interfaces (i_actions i)) in
           (send (SMessages m) (mkCat (g_message_pub g) (g_package_pub g) (Some m) (g_packages g) (g_sent g)), true)
       | _ => (g, false)
       end.

(** publish_packages_list (251-270): [l] is get_packages_with_prefixes. *)
Definition publish_packages_list (l : list (string * string)) (g : catalogue) : catalogue :=
  if negb (g_package_pub g) then g
  else
    let r := filter (fun p => negb (String.prefix "/opt/ros" (snd p))) l in
    send (SPackages r) (mkCat (g_message_pub g) (g_package_pub g) (g_messages g) (Some r) (g_sent g)).

(** republish_lists (272-285); [n] and [k]: the numbers of subscribers. *)
Definition republish_lists (n k : nat) (g : catalogue) : catalogue :=
  let g := match g_messages g with
           | Some m => if g_message_pub g && Nat.ltb 0 n then send (SMessages m) g else g
           | None => g
           end in
  match g_packages g with
  | Some l => if g_package_pub g && Nat.ltb 0 k then send (SPackages l) g else g
  | None => g
  end.

(** publish_message_channels (ros_helpers.py:95-110): names with the list of their types. *)
Definition graph := list (string * list string).
Fixpoint channels (l : graph) : option (list (string * string)) :=
  match l with
  | [] => Some []
  | (n, t :: _) :: r => match channels r with Some c => Some ((n, t) :: c) | None => None end
  | (_, []) :: _ => None    (* ValueError: not enough values to unpack *)
  end.
Definition publish_message_channels (topics services actions : graph) (g : catalogue) : catalogue * bool :=
  match channels topics with
  | None => (g, false)
  | Some t => match channels services with
              | None => (g, false)
              | Some s => match channels actions with
                          | None => (g, false)
                          | Some a => (send (SChannels t s a) g, true)
                          end
              end
  end.

(** Calls: at the start (tree_node.py:229, 264) and by timers (265-267, 438-445). *)
Inductive gop : Set :=
| GMessages (i : installed)
| GPackages (l : list (string * string))
| GRepublish (n k : nat)
| GChannels (topics services actions : graph).
Definition gstep (g : catalogue) (o : gop) : catalogue * bool :=
  match o with
  | GMessages i => publish_message_list i g
  | GPackages l => (publish_packages_list l g, true)
  | GRepublish n k => (republish_lists n k g, true)
  | GChannels t s a => publish_message_channels t s a g
  end.
Fixpoint grun (h : list gop) (g : catalogue) : catalogue :=
  match h with [] => g | o :: h => grun h (fst (gstep g o)) end.
