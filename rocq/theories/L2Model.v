(** * One standalone datapath: from controller events to flow-mods

    Transcription of the parts of /repo/faucet/valve.py (382-517, 531-541,
    641-709, 791-1004, 1234-1305, 1448-1533), valve_switch_standalone.py
    (529-667, 691-898, 1138-1190, 1275-1375), valve_pipeline.py (147-160,
    209-222), valve_lldp.py (53-80), valve_outonly.py and vlan.py (302-318,
    600-619) that program the VLAN, learning, forwarding and flood tables.

    Simplifications: one datapath that is not in a stack; no ACLs, routing,
    802.1X, meters, coprocessor ports or egress pipeline, so the classification
    table is eth_src; packet-outs, notifications, logging and metrics are left
    out; ports are kept in configuration order where the code iterates over a
    set; times are integers.  The learning decisions are [LearnModel], the flood
    rules [FloodRulesModel]. *)

From Coq Require Import List Bool ZArith.
From Verif Require Import PyBase OpenFlow TrimModel TableModel FloodModel FloodRulesModel HostCacheModel LearnModel.
Import ListNotations.
Open Scope Z_scope.

(** ** Configuration *)

(** port.py 77-300, the attributes used here.  VLANs are VIDs. *)
Record pconf := mkPconf {
  pc_num : Z;
  pc_enabled : bool;
  pc_native : option Z;         (** native_vlan *)
  pc_tagged : list Z;           (** tagged_vlans *)
  pc_hairpin : bool;
  pc_hairpin_unicast : bool;
  pc_unicast_flood : bool;
  pc_lacp : Z;                  (** LAG id, 0 for none *)
  pc_force_sel : bool;          (** lacp_selected *)
  pc_force_unsel : bool;        (** lacp_unselected *)
  pc_ext : bool;                (** loop_protect_external *)
  pc_restricted : bool;         (** restricted_bcast_arpnd *)
  pc_mirror : list Z;           (** ports this port is mirrored to *)
  pc_perm : bool;               (** permanent_learn *)
  pc_loop : bool;               (** loop_protect *)
  pc_max_hosts : Z;
  pc_opstatus : bool;           (** opstatus_reconf *)
  pc_count_miss : bool;         (** count_untag_vlan_miss *)
  pc_output_only : bool;
  pc_lldp : bool                (** receive_lldp *)
}.

(** vlan.py 84-168, the attributes used here *)
Record vconf := mkVconf {
  vc_vid : Z;
  vc_unicast_flood : bool;
  vc_max_hosts : Z;
  vc_mac : Z                    (** faucet_mac *)
}.

(** dp.py 68-330, the attributes used here *)
Record dconf := mkDconf {
  d_ports : list pconf;
  d_vlans : list vconf;
  d_tvlan : table;              (** tables["vlan"] *)
  d_tsrc : table;               (** tables["eth_src"] *)
  d_thp : table;                (** tables["eth_dst_hairpin"], if any port hairpins *)
  d_tdst : table;               (** tables["eth_dst"] *)
  d_tflood : table;             (** tables["flood"] *)
  d_mode : mode;                (** combinatorial_port_flood, group_table *)
  d_lowest : Z;                 (** lowest_priority *)
  d_high : Z;                   (** high_priority *)
  d_highest : Z;                (** highest_priority *)
  d_timeout : Z;
  d_guard : Z;                  (** cache_update_guard_time *)
  d_jitter : Z;                 (** learn_jitter *)
  d_idle_dst : bool;
  d_ban_timeout : Z;            (** learn_ban_timeout *)
  d_lacp_timeout : Z;
  d_drop_spoof : bool;          (** drop_spoofed_faucet_mac *)
  d_drop_bcast : bool;          (** drop_broadcast_source_address *)
  d_hash : Z -> Z               (** hash() of a MAC address *)
}.

(** valve_switch_standalone.py 20-31 (ValveManagerBase priorities,
    valve_manager_base.py 13-18) *)
Definition LOW_PRIORITY : Z := 0x1000.
Definition HOST_PRIORITY : Z := 0x2000.
Definition FILTER_PRIORITY : Z := 0x5000.

(** dp.ports.get(n) *)
Definition find_port (cfg : dconf) (n : Z) : option pconf :=
  find (fun p => pc_num p =? n) (d_ports cfg).
(** dp.vlans.get(vid) *)
Definition find_vlan (cfg : dconf) (vid : Z) : option vconf :=
  find (fun v => vc_vid v =? vid) (d_vlans cfg).

(** port.py 497-509 [Port.vlans] without 802.1X *)
Definition port_vlans (p : pconf) : list Z :=
  match pc_native p with Some v => [v] | None => [] end ++ pc_tagged p.
(** dp.py 1350-1353 *)
Definition has_externals (cfg : dconf) : bool := existsb pc_ext (d_ports cfg).
(** dp.py 748-752 *)
Definition any_restricted (cfg : dconf) : bool := existsb pc_restricted (d_ports cfg).
Definition hairpinning (p : pconf) : bool := pc_hairpin p || pc_hairpin_unicast p.
(** dp.py 813-814: dp.hairpin_ports *)
Definition has_hairpin (cfg : dconf) : bool := existsb hairpinning (d_ports cfg).
(** dp.py 709-720 [output_tables]: the first one is [output_table] *)
Definition output_table (cfg : dconf) : table := if has_hairpin cfg then d_thp cfg else d_tdst cfg.
(** valve.py 469-475 [_get_all_configured_port_nos], one port *)
Definition configured (p : pconf) : bool := pc_output_only p || nonempty (port_vlans p).

(** What LearnModel sees of the configuration. *)
Definition port_attr {A} (cfg : dconf) (f : pconf -> A) (d : A) (n : Z) : A :=
  match find_port cfg n with Some p => f p | None => d end.
Definition learn_cfg (cfg : dconf) : lcfg := {|
  c_timeout := d_timeout cfg; c_guard := d_guard cfg; c_jitter := d_jitter cfg;
  c_idle_dst := d_idle_dst cfg; c_externals := has_externals cfg;
  c_perm := port_attr cfg pc_perm false;
  c_loop := port_attr cfg pc_loop false;
  c_lacp := port_attr cfg pc_lacp 0;
  c_pmax := port_attr cfg pc_max_hosts 0;
  c_hairpin := port_attr cfg hairpinning false;
  c_loop_ext := port_attr cfg pc_ext false;
  c_pvlans := port_attr cfg port_vlans [];
  c_vmax := fun vid => match find_vlan cfg vid with Some v => vc_max_hosts v | None => 0 end;
  c_hash := d_hash cfg |}.

(** ** Dynamic state *)

(** port.py 23-44 *)
Inductive actor_state := ANotConfigured | ANone | AInit | AUp | ANoSync.
Inductive port_role := RNotConfigured | RUnselected | RSelected | RStandby.
Definition actor_eq_dec : forall a b : actor_state, {a = b} + {a <> b}.
Proof. decide equality. Defined.
Definition role_eq_dec : forall a b : port_role, {a = b} + {a <> b}.
Proof. decide equality. Defined.

Record dstate := mkDstate {
  ds_learn : lstate;                 (** VLAN host caches, update and ban times *)
  ds_phys : Z -> bool;               (** port.dyn_phys_up *)
  ds_actor : Z -> actor_state;       (** port.dyn_lacp_actor_state *)
  ds_role : Z -> port_role;          (** port.dyn_lacp_port_selected *)
  ds_ltime : Z -> option Z;          (** port.dyn_lacp_updated_time *)
  ds_running : bool;                 (** dp.dyn_running *)
  ds_up : list Z                     (** dp.dyn_up_port_nos *)
}.

(** A freshly loaded datapath (port.py 271-300) *)
Definition dstate_init : dstate :=
  mkDstate lstate_init (fun _ => false) (fun _ => ANotConfigured) (fun _ => RNotConfigured)
           (fun _ => None) false [].

Definition set_learn (st : dstate) (l : lstate) : dstate :=
  mkDstate l (ds_phys st) (ds_actor st) (ds_role st) (ds_ltime st) (ds_running st) (ds_up st).
Definition set_phys (st : dstate) (n : Z) (b : bool) : dstate :=
  mkDstate (ds_learn st) (upd n b (ds_phys st)) (ds_actor st) (ds_role st) (ds_ltime st) (ds_running st) (ds_up st).
Definition set_lacp (st : dstate) (n : Z) (a : actor_state) (r : port_role) (t : option Z) : dstate :=
  mkDstate (ds_learn st) (ds_phys st) (upd n a (ds_actor st)) (upd n r (ds_role st)) (upd n t (ds_ltime st))
           (ds_running st) (ds_up st).
Definition set_running (st : dstate) (b : bool) : dstate :=
  mkDstate (ds_learn st) (ds_phys st) (ds_actor st) (ds_role st) (ds_ltime st) b (ds_up st).
Definition set_up (st : dstate) (l : list Z) : dstate :=
  mkDstate (ds_learn st) (ds_phys st) (ds_actor st) (ds_role st) (ds_ltime st) (ds_running st) l.

(** port.py 511-513 [Port.running] *)
Definition port_running (st : dstate) (p : pconf) : bool := pc_enabled p && ds_phys st (pc_num p).

Definition is_sel (r : port_role) : bool := match r with RSelected => true | _ => false end.
Definition is_up (a : actor_state) : bool := match a with AUp => true | _ => false end.

(** The port as flooding sees it now. *)
Definition snap_port (st : dstate) (p : pconf) : port :=
  mkPort (pc_num p) (pc_hairpin p) (pc_unicast_flood p) (pc_lacp p)
    (is_sel (ds_role st (pc_num p))) (is_up (ds_actor st (pc_num p))) (ds_phys st (pc_num p))
    (pc_ext p) (pc_restricted p) (pc_mirror p) None.

Definition memZ (x : Z) (l : list Z) : bool := existsb (Z.eqb x) l.
Definition native_is (vid : Z) (p : pconf) : bool :=
  match pc_native p with Some v => v =? vid | None => false end.
Definition sorted_ports (cfg : dconf) : list pconf :=
  py_sorted (fun a b => pc_num a <=? pc_num b) (d_ports cfg).
(** vlan.py 302-318 [VLAN.reset_ports] without 802.1X *)
Definition tagged_ports (cfg : dconf) (vid : Z) : list pconf :=
  filter (fun p => memZ vid (pc_tagged p)) (sorted_ports cfg).
Definition untagged_ports (cfg : dconf) (vid : Z) : list pconf :=
  filter (native_is vid) (sorted_ports cfg).
Definition snap_vlan (cfg : dconf) (st : dstate) (v : vconf) : vlan :=
  mkVlan (vc_vid v) (map (snap_port st) (tagged_ports cfg (vc_vid v)))
         (map (snap_port st) (untagged_ports cfg (vc_vid v))) [] (vc_unicast_flood v).

(** ** Switch manager: VLANs *)

Definition goto (t : table) : instruction := Goto (tb_id t).

(** valve_pipeline.py 209-222 [filter_packets] *)
Definition filter_packets (cfg : dconf) (m : fmatch) (off : Z) : ofmsg :=
  FlowMod (tb_drop (d_tsrc cfg) (FILTER_PRIORITY + off) m 0).

(** valve_switch_standalone.py 529-540 [add_vlan] *)
Definition add_vlan (cfg : dconf) (st : dstate) (cold : bool) (v : vconf) : list ofmsg :=
  (if d_drop_spoof cfg then [filter_packets cfg [exact EthSrc (vc_mac v)] 0] else [])
  ++ [FlowMod (tb_controller (d_tsrc cfg) LOW_PRIORITY [vlan_item (vc_vid v)] [goto (output_table cfg)] 96)]
  ++ flood_rules (d_tflood cfg) (d_mode cfg) (any_restricted cfg) FAdd cold (snap_vlan cfg st v).

(** valve.py 440-444 [add_vlans]; VLANs by VID *)
Definition add_vlans (cfg : dconf) (st : dstate) (cold : bool) (vids : list Z) : list ofmsg :=
  flat_map (fun vid => match find_vlan cfg vid with Some v => add_vlan cfg st cold v | None => [] end) vids.

(** valve_switch_standalone.py 550-552 [update_vlan] *)
Definition update_vlans (cfg : dconf) (st : dstate) (vids : list Z) : list ofmsg :=
  flat_map (fun vid => match find_vlan cfg vid with
     | Some v => flood_rules (d_tflood cfg) (d_mode cfg) (any_restricted cfg) FModifyStrict false (snap_vlan cfg st v)
     | None => [] end) vids.

(** ** Switch manager: ports *)

Definition mirror_acts (p : pconf) : list action := map out (pc_mirror p).
(** valve_table.py 86-90 *)
Definition set_no_external : action := SetField VlanPcp 0.

(** valve_switch_standalone.py 554-577 [_port_add_vlan_rules]; 605 [push_vlan_act] (valve_of.py 604-616) *)
Definition port_vlan_rule (cfg : dconf) (p : pconf) (vid : Z) (push : bool) : ofmsg :=
  FlowMod (tb_add (d_tvlan cfg) LOW_PRIORITY
    [exact InPort (pc_num p); if push then vlan_item OFPVID_NONE else vlan_item vid]
    [Apply (mirror_acts p
            ++ (if push then [PushVlan; SetField VlanVid (vid_present vid)] else [])
            ++ (if has_externals cfg
                then [if pc_ext p then set_no_external else set_external_forwarding_requested] else []));
     goto (d_tsrc cfg)]).

Definition ETH_TYPE_SLOW : Z := 0x8809.
Definition SLOW_MULTICAST : Z := 0x0180c2000002.
Definition ETH_TYPE_LLDP : Z := 0x88cc.
Definition LLDP_NEAREST : Z := 0x0180c200000e.
Definition BRIDGE_GROUP_MASK : Z := 0xfffffffffff0.
Definition ETH_TYPE_ECTP : Z := 0x9000.
Definition MAC_BROADCAST : Z := 0xffffffffffff.

(** valve_switch_standalone.py 593-598 [_lacp_match] *)
Definition lacp_match (p : pconf) : fmatch :=
  [exact InPort (pc_num p); exact EthDst SLOW_MULTICAST; exact EthType ETH_TYPE_SLOW].
(** valve_lldp.py 53-59 [_lldp_match] *)
Definition lldp_match (p : pconf) : fmatch :=
  [exact InPort (pc_num p); masked EthDst LLDP_NEAREST BRIDGE_GROUP_MASK; exact EthType ETH_TYPE_LLDP].

(** valve_switch_standalone.py 600-628 [add_port] *)
Definition switch_add_port (cfg : dconf) (p : pconf) : list ofmsg :=
  if nonempty (port_vlans p) then
    map (fun vid => port_vlan_rule cfg p vid false) (pc_tagged p)
    ++ (match pc_native p with
        | Some vid => [port_vlan_rule cfg p vid true]
        | None => if pc_count_miss p
                  then [FlowMod (tb_drop (d_tvlan cfg) LOW_PRIORITY
                          [exact InPort (pc_num p); vlan_item OFPVID_NONE] 0)]
                  else []
        end)
    ++ (if pc_lacp p =? 0 then []
        else [FlowMod (tb_controller (d_tvlan cfg) (d_highest cfg) (lacp_match p) [] 124)])
  else [].

(** valve_switch_standalone.py 630-640 [_del_host_flows] *)
Definition del_host_flows (cfg : dconf) (p : pconf) : list ofmsg :=
  [FlowMod (tb_del (d_tsrc cfg) FDelete 0 [exact InPort (pc_num p)] OFPP_ANY);
   FlowMod (tb_del (d_tdst cfg) FDelete 0 [] (pc_num p))]
  ++ (if has_hairpin cfg then [FlowMod (tb_del (d_thp cfg) FDelete 0 [] (pc_num p))] else []).

(** valve_switch_standalone.py 642-667 [del_port] *)
Definition switch_del_port (cfg : dconf) (p : pconf) : list ofmsg :=
  if nonempty (port_vlans p) then
    del_host_flows cfg p
    ++ (match pc_native p, pc_count_miss p with
        | None, false => []
        | _, _ => [FlowMod (tb_del (d_tvlan cfg) FDelete LOW_PRIORITY
                    [exact InPort (pc_num p); vlan_item OFPVID_NONE] OFPP_ANY)]
        end)
    ++ map (fun vid => FlowMod (tb_del (d_tvlan cfg) FDelete LOW_PRIORITY
                    [exact InPort (pc_num p); vlan_item vid] OFPP_ANY)) (pc_tagged p)
    ++ (if pc_lacp p =? 0 then []
        else [FlowMod (tb_del (d_tvlan cfg) FDelete (d_highest cfg) (lacp_match p) OFPP_ANY)])
  else [].

(** valve_lldp.py 61-80, valve_outonly.py 28-48 *)
Definition lldp_add_port (cfg : dconf) (p : pconf) : list ofmsg :=
  if pc_lldp p then [FlowMod (tb_controller (d_tvlan cfg) (d_highest cfg) (lldp_match p) [] 128)] else [].
Definition lldp_del_port (cfg : dconf) (p : pconf) : list ofmsg :=
  if pc_lldp p then [FlowMod (tb_del (d_tvlan cfg) FDelete (d_highest cfg) (lldp_match p) OFPP_ANY)] else [].
Definition outonly_add_port (cfg : dconf) (p : pconf) : list ofmsg :=
  if pc_output_only p then [FlowMod (tb_drop (d_tvlan cfg) (d_highest cfg) [exact InPort (pc_num p)] 0)] else [].
Definition outonly_del_port (cfg : dconf) (p : pconf) : list ofmsg :=
  if pc_output_only p
  then [FlowMod (tb_del (d_tvlan cfg) FDelete (d_highest cfg) [exact InPort (pc_num p)] OFPP_ANY)] else [].

(** valve.py 865-866, 831-836: every manager in turn *)
Definition managers_add_port (cfg : dconf) (p : pconf) : list ofmsg :=
  switch_add_port cfg p ++ lldp_add_port cfg p ++ outonly_add_port cfg p.
Definition managers_del_port (cfg : dconf) (p : pconf) : list ofmsg :=
  switch_del_port cfg p ++ lldp_del_port cfg p ++ outonly_del_port cfg p.

(** ** LACP *)

(** valve_switch_standalone.py 1168-1190 *)
Definition enable_forwarding (cfg : dconf) (p : pconf) : ofmsg :=
  FlowMod (tb_del (d_tvlan cfg) FDeleteStrict (d_high cfg) [exact InPort (pc_num p)] OFPP_ANY).
Definition disable_forwarding (cfg : dconf) (p : pconf) : ofmsg :=
  FlowMod (tb_drop (d_tvlan cfg) (d_high cfg) [exact InPort (pc_num p)] 0).

(** port.py 567-598 [lacp_actor_update], not cold starting *)
Definition next_actor (st : dstate) (p : pconf) (lacp_up has_pkt : bool) : actor_state :=
  if negb (port_running st p) then ANone
  else if negb has_pkt then AInit
  else if lacp_up then AUp else ANoSync.
(** port.py 600-628 [lacp_port_update], not cold starting, on a datapath that
    nominates itself (valve_switch_standalone.py 1257-1289) *)
Definition next_role (p : pconf) : port_role :=
  if pc_force_sel p then RSelected
  else if pc_force_unsel p then RUnselected
  else RSelected.

(** valve.py 958-1004 [lacp_update] *)
Definition lacp_update (cfg : dconf) (st : dstate) (p : pconf) (lacp_up : bool) (now : option Z)
    (has_pkt cold : bool) : dstate * list ofmsg :=
  let n := pc_num p in
  let st0 := if cold then set_lacp st n ANotConfigured RNotConfigured now else st in
  let a := next_actor st p lacp_up has_pkt in
  let r := next_role p in
  let st1 := set_lacp st0 n a r now in
  if actor_eq_dec (ds_actor st0 n) a then
    if role_eq_dec (ds_role st0 n) r then (st1, [])
    else (st1, if is_sel r && is_up a
               then enable_forwarding cfg p :: add_vlans cfg st1 false (port_vlans p)
               else disable_forwarding cfg p ::
                    (if cold then [] else switch_del_port cfg p ++ switch_add_port cfg p
                                          ++ add_vlans cfg st1 false (port_vlans p)))
  else (st1, if is_sel r && is_up a
             then enable_forwarding cfg p :: add_vlans cfg st1 false (port_vlans p)
             else disable_forwarding cfg p ::
                  (if cold then [] else switch_del_port cfg p ++ switch_add_port cfg p
                                        ++ add_vlans cfg st1 false (port_vlans p))).

(** ** Ports coming and going *)

(** valve.py 857-880, one port of [ports_add] *)
Definition port_add_one (cfg : dconf) (cold : bool) (st : dstate) (p : pconf) : dstate * list ofmsg :=
  let st1 := set_phys st (pc_num p) true in
  if port_running st1 p then
    let ms := managers_add_port cfg p in
    if pc_lacp p =? 0 then (st1, ms)
    else let '(st2, ms2) := lacp_update cfg st1 p false None false cold in (st2, ms ++ ms2)
  else (st1, []).
Fixpoint ports_add_each (cfg : dconf) (cold : bool) (st : dstate) (ps : list pconf) : dstate * list ofmsg :=
  match ps with
  | [] => (st, [])
  | p :: r =>
      let '(st1, ms1) := port_add_one cfg cold st p in
      let '(st2, ms2) := ports_add_each cfg cold st1 r in
      (st2, ms1 ++ ms2)
  end.
(** valve.py 845-885 [ports_add].  The VLANs of ports that are not enabled are
    not updated (874-880 come after the [continue] of 862-863). *)
Definition ports_add (cfg : dconf) (cold : bool) (st : dstate) (ps : list pconf) : dstate * list ofmsg :=
  let '(st1, ms) := ports_add_each cfg cold st ps in
  (st1, ms ++ if cold then []
              else add_vlans cfg st1 false (nodup Z.eq_dec (flat_map port_vlans (filter pc_enabled ps)))).

(** valve.py 531-541 [_set_port_status] *)
Definition set_port_status (cfg : dconf) (st : dstate) (n : Z) (up : bool) (now : Z) : dstate :=
  let others := filter (fun x => negb (x =? n)) (ds_up st) in
  let st1 := set_up st (if up then n :: others else others) in
  match find_port cfg n with
  | Some _ => set_learn st1 (with_upd (ds_learn st1) (upd n (Some now) (s_upd (ds_learn st1))))
  | None => st1
  end.

(** valve.py 908-926, one port of [ports_delete]; [None]: the host cache raised. *)
Definition port_delete_one (cfg : dconf) (keep_cache : bool) (now : option Z) (st : dstate) (p : pconf)
  : option (dstate * list ofmsg) :=
  let n := pc_num p in
  let st1 := set_phys st n false in
  let st2 := match now with Some t => set_port_status cfg st1 n false t | None => st1 end in
  if pc_lacp p =? 0 then
    if keep_cache then Some (st2, managers_del_port cfg p)
    else match clear_vlans (ds_learn st2) n (port_vlans p) with
         | None => None
         | Some l => Some (set_learn st2 l, managers_del_port cfg p)
         end
  else Some (lacp_update cfg st2 p false None false false).
Fixpoint ports_delete_each (cfg : dconf) (keep_cache : bool) (now : option Z) (st : dstate) (ps : list pconf)
  : option (dstate * list ofmsg) :=
  match ps with
  | [] => Some (st, [])
  | p :: r =>
      match port_delete_one cfg keep_cache now st p with
      | None => None
      | Some (st1, ms1) =>
          match ports_delete_each cfg keep_cache now st1 r with
          | None => None
          | Some (st2, ms2) => Some (st2, ms1 ++ ms2)
          end
      end
  end.
(** valve.py 897-933 [ports_delete] *)
Definition ports_delete (cfg : dconf) (keep_cache : bool) (now : option Z) (st : dstate) (ps : list pconf)
  : option (dstate * list ofmsg) :=
  match ports_delete_each cfg keep_cache now st ps with
  | None => None
  | Some (st1, ms) => Some (st1, ms ++ update_vlans cfg st1 (nodup Z.eq_dec (flat_map port_vlans ps)))
  end.

(** ** Cold start *)

Definition wildcard_table : table := mkTable OFPTT_ALL 0 0.
(** valve.py 382-389 [_delete_all_valve_flows] *)
Definition delete_all_msgs (cfg : dconf) : list ofmsg :=
  FlowMod (tb_del wildcard_table FDelete 0 [] OFPP_ANY) ::
  match d_mode cfg with Grouped => [GroupMod GDelete (mkGroup OFPG_ALL GT_ALL [])] | _ => [] end.
(** valve.py 395-411 [_add_default_drop_flows] with the miss_goto of
    faucet_pipeline.py 126-215 *)
Definition default_msgs (cfg : dconf) : list ofmsg :=
  let drop t := FlowMod (tb_drop t (d_lowest cfg) [] 0) in
  let miss t next := FlowMod (tb_add t (d_lowest cfg) [] [goto next]) in
  [drop (d_tvlan cfg); miss (d_tsrc cfg) (d_tdst cfg)]
  ++ (if has_hairpin cfg then [miss (d_thp cfg) (d_tdst cfg)] else [])
  ++ [miss (d_tdst cfg) (d_tflood cfg); drop (d_tflood cfg)].
(** valve_pipeline.py 147-160 and valve_switch_standalone.py 162-176
    [initialise_tables] *)
Definition init_msgs (cfg : dconf) : list ofmsg :=
  (if d_drop_bcast cfg then [filter_packets cfg [exact EthSrc MAC_BROADCAST] 0] else [])
  ++ [filter_packets cfg [exact EthType ETH_TYPE_ECTP] 10]
  ++ initialise_msgs (d_tflood cfg).

(** valve.py 486-507: the status of every configured port *)
Definition discovered (cfg : dconf) (ups : list Z) (p : pconf) : bool :=
  memZ (pc_num p) ups || negb (pc_opstatus p).
Definition cold_status (cfg : dconf) (ups : list Z) (now : Z) (st : dstate) : dstate :=
  fold_left (fun st p => set_port_status cfg st (pc_num p) (discovered cfg ups p) now)
            (filter configured (d_ports cfg)) st.

(** valve.py 486-529 [_cold_start_ports_and_vlans], 791-806 [datapath_connect],
    dp.py 344-349 [cold_start] *)
Definition datapath_connect (cfg : dconf) (st : dstate) (now : Z) (ups : list Z) : dstate * list ofmsg :=
  let st1 := cold_status cfg ups now st in
  let '(st2, ms) := ports_add cfg true st1 (filter (discovered cfg ups) (filter configured (d_ports cfg))) in
  let msgs := delete_all_msgs cfg ++ default_msgs cfg ++ init_msgs cfg ++ [ConfigMsg 0] ++ ms
              ++ add_vlans cfg st2 true (map vc_vid (d_vlans cfg)) in
  let l := ds_learn st2 in
  (set_running
     (set_learn st2 {| s_cache := fun v => reset_caches (s_cache l v); s_upd := s_upd l; s_ban := s_ban l;
                       s_expired := s_expired l; s_cold := Some now |}) true, msgs).

(** valve.py 808-816 [datapath_disconnect]; the messages are not sent *)
Definition datapath_disconnect (cfg : dconf) (st : dstate) (now : Z) : option dstate :=
  match ports_delete cfg false (Some now) (set_running st false) (d_ports cfg) with
  | None => None
  | Some (st1, _) => Some st1
  end.

(** ** Port status *)

Inductive preason := PAdd | PDelete | PModify | POther.
(** valve.py 641-709 [port_status_handler]; [down] and [blocked] are the bits
    OFPPS_LINK_DOWN and OFPPS_BLOCKED of the state. *)
Definition port_status_handler (cfg : dconf) (st : dstate) (now n : Z) (reason : preason) (down blocked : bool)
  : option (dstate * list ofmsg) :=
  let st1 := set_port_status cfg st n (negb down) now in
  match find_port cfg n with
  | None => Some (st1, [])
  | Some p =>
      if negb (pc_opstatus p) then Some (st1, [])
      else
        let handle (new_status : bool) :=
          if eqb new_status (ds_phys st1 n) then
            if new_status && (blocked || down) then ports_delete cfg true None st1 [p]
            else Some (st1, [])
          else if new_status then Some (ports_add cfg false st1 [p])
          else ports_delete cfg true None st1 [p] in
        match reason with
        | PAdd => handle true
        | PModify => handle (negb down)
        | PDelete => handle false
        | POther => Some (st1, [])
        end
  end.

(** ** Learning *)

(** vlan.py 600-619 [output_port] *)
Definition output_port (cfg : dconf) (p : pconf) (vid : Z) (hairpin : bool) (ext : bool) : list action :=
  (if native_is vid p then PopVlan :: mirror_acts p
   else mirror_acts p ++ (if ext then [set_external_forwarding_requested] else []))
  ++ [out (if hairpin then OFPP_IN_PORT else pc_num p)].

(** valve_switch_standalone.py 803-898, 737-752, 913-919: the flow-mods behind
    each symbolic learning message *)
Definition host_ofmsgs (cfg : dconf) (m : host_msg) : list ofmsg :=
  match m with
  | MDelHost vid mac =>
      [FlowMod (tb_del (d_tsrc cfg) FDelete 0 [exact EthSrc mac; vlan_item vid] OFPP_ANY);
       FlowMod (tb_del (d_tdst cfg) FDelete 0 [exact EthDst mac; vlan_item vid] OFPP_ANY)]
      ++ (if has_hairpin cfg
          then [FlowMod (tb_del (d_thp cfg) FDelete 0 [exact EthDst mac; vlan_item vid] OFPP_ANY)] else [])
  | MSrc vid n mac hard idle =>
      [FlowMod (tb_write (d_tsrc cfg) FAdd (HOST_PRIORITY - 1)
         [exact InPort n; exact EthSrc mac; vlan_item vid] [goto (output_table cfg)] hard idle)]
  | MDst vid n mac idle =>
      match find_port cfg n with
      | None => []
      | Some p =>
          [FlowMod (tb_write (d_tdst cfg) FAdd HOST_PRIORITY
             (exact EthDst mac :: vlan_item vid :: (if has_externals cfg then [exact VlanPcp PCP_EXT_PORT_FLAG] else []))
             [Apply (output_port cfg p vid false (has_externals cfg))] 0 idle)]
      end
  | MDstNonExt vid n mac idle =>
      match find_port cfg n with
      | None => []
      | Some p =>
          [FlowMod (tb_write (d_tdst cfg) FAdd HOST_PRIORITY
             [exact EthDst mac; vlan_item vid; exact VlanPcp 0]
             [Apply (output_port cfg p vid false (has_externals cfg))] 0 idle)]
      end
  | MHairpin vid n mac idle =>
      match find_port cfg n with
      | None => []
      | Some p =>
          [FlowMod (tb_write (d_thp cfg) FAdd HOST_PRIORITY
             [exact InPort n; exact EthDst mac; vlan_item vid]
             [Apply (output_port cfg p vid true false)] 0 idle)]
      end
  | MBanPort n => [FlowMod (tb_drop (d_tsrc cfg) (LOW_PRIORITY + 1) [exact InPort n] (d_ban_timeout cfg))]
  | MBanVlan vid => [FlowMod (tb_drop (d_tsrc cfg) (LOW_PRIORITY + 1) [vlan_item vid] (d_ban_timeout cfg))]
  | MFilter mac n => [filter_packets cfg [exact InPort n; exact EthSrc mac] 0]
  end.

(** valve_packet.py [mac_addr_is_unicast], [mac_addr_all_zeros] on integers *)
Definition learnable_mac (mac : Z) : bool := negb (Z.testbit mac 40) && negb (mac =? 0).

(** valve.py 1234-1305 [parse_pkt_meta], 1448-1464 [_vlan_rcv_packet], 1466-1481
    [rcv_packet]: a packet-in with ingress port [n], (outer) VID [vid] and source
    [mac], sent by a flow *)
Definition rcv_vlan_packet (cfg : dconf) (st : dstate) (now n vid mac : Z) : option (dstate * list ofmsg) :=
  if negb (ds_running st) then Some (st, [])
  else match find_port cfg n, find_vlan cfg vid with
       | Some _, Some _ =>
           if learnable_mac mac then
             match vlan_rcv_packet (learn_cfg cfg) (ds_learn st) now vid n mac with
             | None => None
             | Some (l, hs) => Some (set_learn st l, flat_map (host_ofmsgs cfg) hs)
             end
           else Some (st, [])
       | _, _ => Some (st, [])
       end.

(** valve_switch_standalone.py 1306-1375 [lacp_handler]: an LACPDU from port [n]
    whose synchronization bit is [sync] *)
Definition rcv_lacp (cfg : dconf) (st : dstate) (now n : Z) (sync : bool) : dstate * list ofmsg :=
  if negb (ds_running st) then (st, [])
  else match find_port cfg n with
       | Some p => if pc_lacp p =? 0 then (st, []) else lacp_update cfg st p sync (Some now) true false
       | None => (st, [])
       end.

(** valve.py 1483-1505 [_lacp_state_expire] (the members of LAGs that are up,
    LAG by LAG; here in port order) *)
Definition lacp_expired (cfg : dconf) (st : dstate) (now : Z) (p : pconf) : bool :=
  negb (pc_lacp p =? 0) && is_up (ds_actor st (pc_num p)) &&
  match ds_ltime st (pc_num p) with Some t => d_lacp_timeout cfg <? now - t | None => false end.
Fixpoint lacp_expire_each (cfg : dconf) (st : dstate) (now : Z) (ps : list pconf) : dstate * list ofmsg :=
  match ps with
  | [] => (st, [])
  | p :: r =>
      let '(st1, ms1) := lacp_update cfg st p false (Some now) false false in
      let '(st2, ms2) := lacp_expire_each cfg st1 now r in
      (st2, ms1 ++ ms2)
  end.
Fixpoint hosts_expire_each (cfg : dconf) (l : lstate) (now : Z) (vids : list Z) : option (lstate * list host_msg) :=
  match vids with
  | [] => Some (l, [])
  | v :: r =>
      match state_expire_vlan (learn_cfg cfg) l now v with
      | None => None
      | Some (l1, h1) =>
          match hosts_expire_each cfg l1 now r with
          | None => None
          | Some (l2, h2) => Some (l2, h1 ++ h2)
          end
      end
  end.
(** valve.py 1507-1533 [state_expire] *)
Definition state_expire (cfg : dconf) (st : dstate) (now : Z) : option (dstate * list ofmsg) :=
  if negb (ds_running st) then Some (st, [])
  else
    let '(st1, ms1) := lacp_expire_each cfg st now (filter (lacp_expired cfg st now) (d_ports cfg)) in
    match hosts_expire_each cfg (ds_learn st1) now (map vc_vid (d_vlans cfg)) with
    | None => None
    | Some (l, hs) => Some (set_learn st1 l, ms1 ++ flat_map (host_ofmsgs cfg) hs)
    end.

(** ** Everything that can happen to the controller *)
Inductive cevent :=
| CConnect (now : Z) (ups : list Z)
| CDisconnect (now : Z)
| CPortStatus (now n : Z) (reason : preason) (down blocked : bool)
| CPacketIn (now n vid mac : Z)
| CLacp (now n : Z) (sync : bool)
| CExpire (now : Z).

(** The OpenFlow channel must be up for port status messages to arrive
    (faucet.py [_port_status_handler] requires a running datapath). *)
Definition cstep (cfg : dconf) (st : dstate) (ev : cevent) : option (dstate * list ofmsg) :=
  match ev with
  | CConnect now ups => Some (datapath_connect cfg st now ups)
  | CDisconnect now => option_map (fun s => (s, [])) (datapath_disconnect cfg st now)
  | CPortStatus now n r down blocked =>
      if ds_running st then port_status_handler cfg st now n r down blocked else Some (st, [])
  | CPacketIn now n vid mac => rcv_vlan_packet cfg st now n vid mac
  | CLacp now n sync => Some (rcv_lacp cfg st now n sync)
  | CExpire now => state_expire cfg st now
  end.
