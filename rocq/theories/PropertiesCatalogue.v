(** C105: what the tree node tells the editor about messages, packages and channels. *)
From Coq Require Import String ZArith NArith Bool Ascii List.
From Verif Require Import Base ModelData ModelEdit ModelFiles ModelFields SpecFields ModelCatalogue SpecCatalogue ProofsCatalogue.
Import ListNotations.
Local Open Scope string_scope.
Local Open Scope list_scope.

(** The list of interfaces: all installed services and actions, and an entry for each
    message that has a default value, with its fields.  It is sent and kept. *)
Theorem C105_messages : forall i g, g_message_pub g = true -> readable i ->
  exists m, gstep g (GMessages i) = (mkCat true (g_package_pub g) (Some m) (g_packages g) (g_sent g ++ [SMessages m]), true) /\
    (exists names, lists_all (i_messages i) names /\ shown i names (ms_topics m)) /\
    lists_all (i_services i) (ms_services m) /\ lists_all (i_actions i) (ms_actions m).
Proof. exact messages. Qed.
Print Assumptions C105_messages.

(** In every history the lists of interfaces that were sent describe what was installed at
    one of the calls. *)
Theorem C105_origin : forall h mp pp, (forall i, In (GMessages i) h -> readable i) ->
  forall m, In (SMessages m) (g_sent (grun h (new_catalogue mp pp))) ->
  exists i, In (GMessages i) h /\ exists names, lists_all (i_messages i) names /\ shown i names (ms_topics m).
Proof.
  intros h mp pp R m I. destruct (sent_from h (new_catalogue mp pp) R (good_new mp pp) m I) as [[]|H]. exact H.
Qed.
Print Assumptions C105_origin.

(** The list of packages: in their order, those outside of /opt/ros... *)
Theorem C105_packages : forall l g, g_package_pub g = true ->
  exists r, gstep g (GPackages l) = (mkCat (g_message_pub g) true (g_messages g) (Some r) (g_sent g ++ [SPackages r]), true) /\
    keeps (fun p => ~ starts "/opt/ros" (snd p)) l r.
Proof. exact packages. Qed.
Print Assumptions C105_packages.

(** In every history the timer sends the last lists again, to subscribers only, and nothing
    before there was a list. *)
Theorem C105_republish : forall h mp pp n k,
  let g := grun h (new_catalogue mp pp) in
  exists ms ps, g_sent (fst (gstep g (GRepublish n k))) = g_sent g ++ ms ++ ps /\
    again is_messages n (g_sent g) ms /\ again is_packages k (g_sent g) ps.
Proof. exact republished_again. Qed.
Print Assumptions C105_republish.

(** The channels: each name, in their order, with the first of its types. *)
Theorem C105_channels : forall t s a g,
  (forall n ts, In (n, ts) (t ++ s ++ a) -> ts <> []) ->
  let first := Forall2 (fun x y => fst y = fst x /\ exists r, snd x = snd y :: r) in
  exists t' s' a', gstep g (GChannels t s a) = (send (SChannels t' s' a') g, true) /\
    first t t' /\ first s s' /\ first a a'.
Proof.
  intros t s a g H first.
  destruct (first_types t) as (t' & T & T'); [intros n ts I; apply (H n ts); apply in_app_iff; now left|].
  destruct (first_types s) as (s' & S & S'); [intros n ts I; apply (H n ts); rewrite !in_app_iff; tauto|].
  destruct (first_types a) as (a' & A & A'); [intros n ts I; apply (H n ts); rewrite !in_app_iff; tauto|].
  exists t', s', a'. cbn. unfold publish_message_channels. rewrite T, S, A. auto.
Qed.
Print Assumptions C105_channels.

(** Refuted: one message whose class cannot be loaded (its package has no Python module)
    makes the call raise.  No list is sent, and the call is made when the node starts. *)
Theorem C105_broken_refuted : forall i g n, g_message_pub g = true -> is_installed (i_messages i) n ->
  dget n (i_class i) = None -> gstep g (GMessages i) = (g, false).
Proof. exact broken. Qed.
Print Assumptions C105_broken_refuted.

(** Refuted: packages in any directory whose path begins with "/opt/ros" are left out, such
    as "/opt/rosbot/install". *)
Theorem C105_prefix_refuted : forall g l p s, g_package_pub g = true ->
  exists r g', gstep g (GPackages l) = (g', true) /\ g_packages g' = Some r /\ ~ In (p, ("/opt/ros" ++ s)%string) r.
Proof.
  intros g l p s P. destruct (packages l g P) as (r & E & K). eexists. eexists. split; [exact E|]. split; [reflexivity|].
  clear E. induction K as [|x l r X K IH|x l r X K IH]; [intros []| |exact IH]. intros [->|I]; [|exact (IH I)].
  apply X. exists s. reflexivity.
Qed.
Print Assumptions C105_prefix_refuted.

(** A system with a message that has fields, one without default value, a service, and a
    history. *)
Definition demo_system : installed :=
  mkI [("geometry_msgs", ["msg/Point"; "msg/Odd"; "msg/Path"])] [("std_srvs", ["srv/Empty"; "srv/Trigger"])] []
    [("geometry_msgs/msg/Point", mkK ["geometry_msgs"; "msg"; "_point"] "Point" true [("x", "double"); ("y", "double")]);
     ("geometry_msgs/msg/Odd", mkK ["geometry_msgs"; "msg"; "_odd"] "Odd" false []);
     ("geometry_msgs/Point", mkK ["geometry_msgs"; "msg"; "_point"] "Point" true [("x", "double"); ("y", "double")]);
     ("geometry_msgs/msg/Path", mkK ["geometry_msgs"; "msg"; "_path"] "Path" true [("points", "sequence<geometry_msgs/Point>")])].
Example C105_readable : readable demo_system.
Proof.
  assert (D : exists F t, "double" = text F /\ no_string_name F /\ holds (class_of demo_system) F t).
  { exists FDouble, (TFloat DBL_MIN DBL_MAX). split; [reflexivity|]. split; [intros n []|]. apply H_one. apply H_double. }
  intros s (p & ms & m & [E|[]] & M & ->). injection E as <- <-. destruct M as [<-|[<-|[<-|[]]]].
  - do 3 eexists. split; [reflexivity|]. split; [exists [], "_point"; reflexivity|]. repeat constructor; exact D.
  - do 3 eexists. split; [reflexivity|]. split; [exists [], "_odd"; reflexivity|]. constructor.
  - do 3 eexists. split; [reflexivity|]. split; [exists [], "_path"; reflexivity|]. constructor; [|constructor].
    exists (FSeq (FMsg "geometry_msgs/Point") None), (TList (TRosMsg "geometry_msgs/msg/Point" 0) true INT_FLOAT_MAX false).
    split; [reflexivity|]. split.
    + intros n [<-|[]]. split; [|split; intros [r H]; discriminate H]. split; [cbn; tauto|]. exists "geometry_msgs", "Point". reflexivity.
    + apply (H_seq _ (FMsg "geometry_msgs/Point") None). apply H_msg. reflexivity.
Qed.
Example C105_history :
  let g := grun [GRepublish 1 1; GPackages [("a", "/home/ws/install/a"); ("std_srvs", "/opt/ros/jazzy")]; GMessages demo_system;
                 GRepublish 0 2; GChannels [("/chatter", ["std_msgs/msg/String"])] [] []] (new_catalogue true true) in
  map (fun x => match x with SMessages m => map y_name (ms_topics m) ++ ms_services m | SPackages l => map fst l | SChannels t _ _ => map fst t end)
    (g_sent g) =
  [["a"]; ["geometry_msgs/msg/Point"; "geometry_msgs/msg/Path"; "std_srvs/srv/Empty"; "std_srvs/srv/Trigger"]; ["a"]; ["/chatter"]].
Proof. vm_compute. reflexivity. Qed.
Example C105_broken_example : is_installed [("cpp_msgs", ["msg/Only"])] "cpp_msgs/msg/Only" /\ dget "cpp_msgs/msg/Only" (i_class demo_system) = None.
Proof. split; [|reflexivity]. exists "cpp_msgs", ["msg/Only"], "msg/Only". cbn. auto. Qed.
(** A name with two types. *)
Example C105_two_types : gstep (new_catalogue true true) (GChannels [("/x", ["a/msg/A"; "b/msg/B"])] [] []) =
  (send (SChannels [("/x", "a/msg/A")] [] []) (new_catalogue true true), true).
Proof. reflexivity. Qed.
