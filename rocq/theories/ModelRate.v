(** Model of the tick frequency and of the diagnostics of a tree
    (/repo/ros_bt_py/ros_bt_py/tree_exec_manager.py: 351-355, 439-452, 474-528, 683-740,
    754-780, 898-921, 1067-1111).

    Simplifications: frequencies are rational numbers (no NaN, no infinity, no rounding).
    Node.create_rate of rclpy raises ValueError unless the frequency is above 0.  What the
    rest of the manager does to the state of the tree appears as steps.  No proofs here. *)
From Coq Require Import String List Bool QArith ZArith.
From Verif Require Import Base.
From Verif Require ModelEdit ModelFiles.
Import ListNotations.
Local Open Scope Q_scope.
Local Open Scope list_scope.

Notation tstate := ModelEdit.tstate.
Notation tstate_eqb := ModelEdit.tstate_eqb.

(** DiagnosticStatus: level, message and name.  Used in tree_exec_manager.py:474-528. *)
Inductive dlevel : Set := DOk | DWarn | DError.
(** Used in tree_exec_manager.py:474-528. *)
Record dstatus : Set := mkDS { ds_level : dlevel; ds_message : string; ds_name : string }.

Record rman : Set := mkR
  { r_state : tstate;
    r_thread : bool;            (* a tick thread runs *)
    r_freq : Q;                 (* _tree_structure.tick_frequency_hz *)
    r_rate : Q;                 (* the frequency [self.rate] was made with *)
    r_window : list Q;          (* tick_sliding_window *)
    r_name : string;            (* the name of the tree *)
    r_diag : dstatus;           (* diagnostic_status *)
    r_has_diag : bool;          (* publish_diagnostic is not None *)
    r_warned : list Z;          (* durations of the ticks warned about (724-728) *)
    r_told : list Q;            (* what was published as tick frequency (736-739) *)
    r_shown : list dstatus }.   (* the diagnostics published (528) *)

(** Field update; no code of its own. *)
Definition with_state (s : tstate) (m : rman) : rman :=
  mkR s (r_thread m) (r_freq m) (r_rate m) (r_window m) (r_name m) (r_diag m) (r_has_diag m) (r_warned m) (r_told m) (r_shown m).
(** Field update; no code of its own. *)
Definition with_thread (b : bool) (m : rman) : rman :=
  mkR (r_state m) b (r_freq m) (r_rate m) (r_window m) (r_name m) (r_diag m) (r_has_diag m) (r_warned m) (r_told m) (r_shown m).
(** Field update; no code of its own. *)
Definition with_name (s : string) (m : rman) : rman :=
  mkR (r_state m) (r_thread m) (r_freq m) (r_rate m) (r_window m) s (r_diag m) (r_has_diag m) (r_warned m) (r_told m) (r_shown m).
(** Field update; no code of its own. *)
Definition with_diag (d : dstatus) (m : rman) : rman :=
  mkR (r_state m) (r_thread m) (r_freq m) (r_rate m) (r_window m) (r_name m) d (r_has_diag m) (r_warned m) (r_told m) (r_shown m).

(** The setter of tick_frequency_hz (443-452). *)
Definition set_freq (f : Q) (m : rman) : rman :=
  let f := if Qeq_bool f 0 then 10 else f in
  mkR (r_state m) (r_thread m) f (r_rate m) (r_window m) (r_name m) (r_diag m) (r_has_diag m) (r_warned m) (r_told m) (r_shown m).
(** [self.rate = self.ros_node.create_rate(self.tick_frequency_hz)] (353, 909, 1106);
    [false]: ValueError. *)
Definition make_rate (m : rman) : rman * bool :=
  if Qle_bool (r_freq m) 0 then (m, false)
  else (mkR (r_state m) (r_thread m) (r_freq m) (r_freq m) (r_window m) (r_name m) (r_diag m) (r_has_diag m) (r_warned m) (r_told m) (r_shown m), true).

Definition UNKNOWN_TREE : string := "UNKNOWN TREE".
(** The constructor (262-385) with the default frequency. *)
Definition new_manager (has_diag : bool) (name : string) : rman :=
  mkR ModelEdit.EDITABLE false 10 10 [10; 10; 10; 10; 10; 10; 10; 10; 10; 10] name
    (mkDS DOk "" "") has_diag [] [] [].

(** set_diagnostics_name (474-503); a root node does not change the name that is there. *)
Definition set_diagnostics_name (has_root : bool) (m : rman) : rman :=
  let d := r_diag m in
  if negb (String.eqb (r_name m) "") then with_diag (mkDS (ds_level d) (ds_message d) (fst (ModelFiles.splitext (r_name m)))) m
  else if has_root then m
  else with_diag (mkDS (ds_level d) (ds_message d) "") m.
(** clear_diagnostics_name (505-507). *)
Definition clear_diagnostics_name (m : rman) : rman :=
  let d := r_diag m in with_diag (mkDS (ds_level d) (ds_message d) "") m.
(** diagnostic_callback (509-528). *)
Definition diagnostic_callback (m : rman) : rman :=
  if r_has_diag m then
    let n := ds_name (r_diag m) in
    let d := match r_state m with
             | ModelEdit.TICKING => mkDS DOk "Ticking" n
             | ModelEdit.EDITABLE | ModelEdit.TIDLE | ModelEdit.WAITING_FOR_TICK | ModelEdit.STOP_REQUESTED =>
                 mkDS DWarn "Not ticking" n
             | ModelEdit.TERROR => mkDS DError "Error in Behavior Tree" n
             end in
    let m := with_diag d m in
    mkR (r_state m) (r_thread m) (r_freq m) (r_rate m) (r_window m) (r_name m) d (r_has_diag m) (r_warned m) (r_told m)
      (r_shown m ++ [d])
  else m.

(** clear (754-780). *)
Definition clear (m : rman) : rman :=
  clear_diagnostics_name (with_state ModelEdit.EDITABLE (with_name UNKNOWN_TREE m)).
(** load_tree after the checks (898-921), which begin with a clear (842-850); [has_root]: the
    tree has nodes. *)
Definition load (name : string) (f : Q) (has_root : bool) (m : rman) : rman * bool :=
  let m := set_freq f (with_name name (clear m)) in
  let (m, ok) := make_rate m in
  if ok then ((if r_has_diag m then m else set_diagnostics_name has_root m), true) else (m, false).

(** _control_execution_tick_multiple (1067-1111). *)
Definition tick_multiple (f : Q) (has_root : bool) (m : rman) : rman * bool :=
  if r_thread m then (m, true)
  else if negb has_root then (m, true)
  else
    let m := with_state ModelEdit.TICKING m in
    let (m, ok) := if Qeq_bool f 0 then (m, true) else make_rate (set_freq f m) in
    if ok then (with_thread true m, true) else (m, false).

Definition BILLION : Q := 1000000000 # 1.
(** The end of the loop of the tick thread (718-740) for a tick of [d] nanoseconds. *)
Definition measure (d : Z) (m : rman) : rman :=
  let x := inject_Z d * BILLION in
  let warn := negb (Qle_bool (1 / r_freq m) x) in
  let window := tl (r_window m) ++ [x] in
  mkR (r_state m) (r_thread m) (r_freq m) (r_rate m) window (r_name m) (r_diag m) (r_has_diag m)
    (if warn then r_warned m ++ [d] else r_warned m)
    (r_told m ++ [fold_left Qplus window 0 / inject_Z (Z.of_nat (length window))])
    (r_shown m).

(** Steps.  Loading and clearing are refused unless the tree can be edited (92-124). *)
Inductive rop : Set :=
| RLoad (name : string) (f : Q) (has_root : bool)      (* a tree that passes all checks *)
| RClear
| RRename (s : string)                                 (* change_tree_name *)
| RTickMany (f : Q) (has_root : bool)                  (* TICK_PERIODICALLY, TICK_UNTIL_RESULT *)
| RTicked (d : Z)                                      (* a tick that took [d] ns *)
| RState (s : tstate) (thread : bool)                  (* anything else *)
| RDiag.                                               (* the timer *)

(** tree_exec_manager.py:438-528, 683-740. *)
Definition rstep (m : rman) (o : rop) : rman * bool :=
  let edit x := if tstate_eqb (r_state m) ModelEdit.EDITABLE then x else (m, true) in
  match o with
  | RLoad name f has_root => edit (load name f has_root m)
  | RClear => edit (clear m, true)
  | RRename s => edit (with_name s m, true)
  | RTickMany f has_root => tick_multiple f has_root m
  | RTicked d => (if r_thread m then measure d m else m, true)
  | RState s t => (with_thread t (with_state s m), true)
  | RDiag => (diagnostic_callback m, true)
  end.
(** Helper; no code of its own. *)
Fixpoint rrun (h : list rop) (m : rman) : rman :=
  match h with [] => m | o :: h => rrun h (fst (rstep m o)) end.
