(** * What the meters on a switch should be

    Written from docs/configuration.rst (meters, packetin_pps, slowpath_pps) with only
    the configuration records of MeterModel and AclModel, and the switch. *)

From Coq Require Import ZArith List Bool Permutation.
From Verif Require Import OpenFlow ReorderModel AclModel AclSpec MeterModel.
Import ListNotations.
Open Scope Z_scope.

(** the limits in force after the events, the latest first *)
Fixpoint limits_now (evs : list mevent) : limits :=
  match evs with
  | [] => mkLimits [] false None None
  | MConnect c _ _ :: _ => c
  | MReload m _ :: r => mkLimits m (li_unused (limits_now r)) (li_packetin (limits_now r)) (li_slowpath (limits_now r))
  | MAcl _ :: r => limits_now r
  end.
(** the events that concern ACLs *)
Fixpoint acl_events (evs : list mevent) : list aevent :=
  match evs with
  | [] => []
  | MConnect _ vs ps :: _ => [AConnect vs ps]
  | MReload _ (Some e) :: r | MAcl e :: r => e :: acl_events r
  | MReload _ None :: r => acl_events r
  end.

(** a meter the switch should have: one that an ACL uses, or one of the two that
    limit the packets the switch sends to the controller *)
Definition wanted (c : limits) (id : Z) (bands : list Z) : Prop :=
  (exists name, In (name, (id, bands)) (li_meters c)) \/
  (id = OFPM_CONTROLLER /\ exists pps, li_packetin c = Some pps /\ bands = [pps]) \/
  (id = OFPM_SLOWPATH /\ exists pps, li_slowpath c = Some pps /\ bands = [pps]).

(** The meters have different names and different ids, up to the maximum of OpenFlow
    (meter.py 49-56; FAUCET does not check that the ids are different). *)
Definition names_ok (m : meters_conf) : Prop := NoDup (map fst m).
Definition ids_ok (m : meters_conf) : Prop :=
  NoDup (map (fun x => fst (snd x)) m) /\ forall x, In x m -> 0 <= fst (snd x) <= 4294901760.

Definition mevent_ok (evs : list mevent) (e : mevent) : Prop :=
  match e with
  | MConnect c vs ps => names_ok (li_meters c) /\ event_ok [] (AConnect vs ps)
  | MReload m (Some e) => names_ok m /\ (forall vs ps, e <> AConnect vs ps) /\ event_ok (acl_events evs) e
  | MReload m None => names_ok m
  | MAcl e => (forall vs ps, e <> AConnect vs ps) /\ event_ok (acl_events evs) e
  end.

(** [mhistory am lowest evs s]: the switch is in state [s] after the events.  Before
    the first connection it may hold any flow entries and groups, and any meters if
    the datapath has a limit (if not, FAUCET does not look at meters at all). *)
Inductive mhistory (am : amanager) (lowest : Z) : list mevent -> switch -> Prop :=
| mh_connect : forall s c vs ps sh ub out,
    (forall l, Permutation (sh l) l) ->
    mevent_ok [] (MConnect c vs ps) -> config_ok am lowest [AConnect vs ps] ->
    (li_meters c <> [] \/ li_unused c = true \/ li_packetin c <> None \/ li_slowpath c <> None \/ sw_meters s = []) ->
    valve_flowreorder sh ub (mbatch am lowest [] (MConnect c vs ps)) = Some out ->
    mhistory am lowest [MConnect c vs ps] (apply_msgs out s)
| mh_event : forall evs s e sh ub out,
    mhistory am lowest evs s ->
    (forall l, Permutation (sh l) l) ->
    (forall c vs ps, e <> MConnect c vs ps) ->
    mevent_ok evs e -> config_ok am lowest (acl_events (e :: evs)) ->
    valve_flowreorder sh ub (mbatch am lowest (li_meters (limits_now evs)) e) = Some out ->
    mhistory am lowest (e :: evs) (apply_msgs out s).

(** the meters of every configuration in the history have different ids *)
Fixpoint ids_differ (evs : list mevent) : Prop :=
  match evs with
  | [] => True
  | MConnect c _ _ :: _ => ids_ok (li_meters c)
  | MReload m _ :: r => ids_ok m /\ ids_differ r
  | MAcl _ :: r => ids_differ r
  end.
(** no reload drops or changes a meter *)
Fixpoint only_adds (evs : list mevent) : Prop :=
  match evs with
  | [] => True
  | MConnect _ _ _ :: _ => True
  | MReload m _ :: r => incl (li_meters (limits_now r)) m /\ only_adds r
  | MAcl _ :: r => only_adds r
  end.

(** every meter a rule in force names is configured (dp.py 1181-1186) *)
Definition meters_known (am : amanager) (evs : list mevent) : Prop :=
  forall sp r a id, In r (rules_of (acls_at am (acl_events evs) sp)) ->
    ru_actions r = Some a -> ac_meter a = Some id ->
    exists name bands, In (name, (id, bands)) (li_meters (limits_now evs)).

(** the meter of a rule *)
Definition rule_meter (r : rule) : option Z := match ru_actions r with Some a => ac_meter a | None => None end.
(** the flow entry sends its packets through exactly the meter [o], if any, which the
    switch has, with the configured rates *)
Definition metered_by (s : switch) (c : limits) (f : flow) (o : option Z) : Prop :=
  (forall id, In (MeterI id) (f_inst f) <-> o = Some id) /\
  (forall id, o = Some id -> exists bands, In (id, bands) (sw_meters s) /\ wanted c id bands).
