(** * The rules that bring packets to the router

    Transcription of [add_vlan], [_add_faucet_vip_nd] and [_add_faucet_fib_to_vip]
    (/repo/faucet/valve_route.py 405-505, 1007-1045, 1170-1240), of [select_packets]
    (/repo/faucet/valve_pipeline.py 216-226), of [flowcontroller]
    (/repo/faucet/valve_table.py 291-300) and of the default rule of the VIP table
    (/repo/faucet/valve.py 395-411, faucet_pipeline.py 153-170): which packets are taken
    out of the classification table for the router, and which of them reach the
    controller.

    Simplifications: the rules in the FIB tables are in [RouteModel]; global_vlan is not
    set; other managers' rules are in the state of the switch to begin with. *)
From Coq Require Import List Bool ZArith.
From Verif Require Import OpenFlow IpModel AskModel.
Import ListNotations.
Open Scope Z_scope.

(** OXM number of arp_tpa *)
Definition ArpTpa : field := OtherField 23.

(** vlan.py: vid, faucet_mac, faucet_vips *)
Record rvlan := mkRvlan { rv_vid : Z; rv_mac : Z; rv_vips : list vip }.
(** The tables' numbers, the cookie and proactive_learn_v4 and _v6 *)
Record vipconf := mkVipconf {
  vc_vlans : list rvlan;
  vc_class : Z; vc_vip : Z; vc_fib4 : Z; vc_fib6 : Z; vc_out : Z;
  vc_cookie : Z; vc_learn4 : bool; vc_learn6 : bool }.

(** valve_manager_base.py 13-18 *)
Definition MISS_PRIORITY : Z := 0.
Definition LPM_PRIORITY : Z := 0x3000.
Definition HIGH_PRIORITY : Z := 0x4000.

(** valve_route.py 982-990, 1150-1158 and valve_packet.py 40-67 *)
Definition eth_type (ver : Z) : Z := if ver =? 4 then 0x0800 else 0x86dd.
Definition icmp_type (ver : Z) : Z := if ver =? 4 then 1 else 58.
Definition VLAN_ARP_PKT_SIZE : Z := 14 + 4 + 46.
Definition icmp_size (ver : Z) : Z :=
  if ver =? 4 then 14 + 4 + 20 + (8 + 128) else 14 + 4 + 40 + (8 + 128).
Definition MAX_PACKET_IN_SIZE : Z := 194.
Definition max_prefixlen (ver : Z) : Z := if ver =? 4 then 32 else 128.
Definition ETH_TYPE_ARP : Z := 0x0806.
Definition IPV6_ALL_ROUTERS_MCAST : Z := 0x333300000002.

(** valve_of.py 530-538 *)
Definition vid_present (vid : Z) : Z := Z.lor vid OFPVID_PRESENT.

Section Vip.
  Variable cfg : vipconf.

  (** valve_table.py 171-225: a flow is added *)
  Definition vip_add (table prio : Z) (m : fmatch) (inst : list instruction) : flowmod :=
    mkFlowMod FAdd table prio m (vc_cookie cfg) OFPP_ANY OFPG_ANY inst 0 0 0.

  (** valve_pipeline.py 216-226 *)
  Definition select_packets (target : Z) (m : fmatch) : flowmod :=
    vip_add (vc_class cfg) HIGH_PRIORITY m [Goto target].
  (** valve_table.py 291-300 *)
  Definition flowcontroller (m : fmatch) (prio max_len : Z) : flowmod :=
    vip_add (vc_vip cfg) prio m [Apply [Output OFPP_CONTROLLER max_len]].
  (** valve_pipeline.py 51-56, 73-84 (accept_to_l2_forwarding); valve_route.py 264-268
      (_controller_and_flood) *)
  Definition accept_to_l2_forwarding (acts : list action) : list instruction :=
    Goto (vc_out cfg) :: match acts with [] => [] | _ => [Apply acts] end.
  Definition controller_and_flood (m : fmatch) (prio : Z) : flowmod :=
    vip_add (vc_vip cfg) prio m (accept_to_l2_forwarding [Output OFPP_CONTROLLER MAX_PACKET_IN_SIZE]).

  (** valve_route.py 1007-1045 *)
  Definition vip_nd4 (v : rvlan) (priority : Z) (p : vip) : list flowmod :=
    [ select_packets (vc_vip cfg) [exact EthType ETH_TYPE_ARP; exact VlanVid (vid_present (rv_vid v))];
      flowcontroller [exact EthType ETH_TYPE_ARP; exact EthDst mac_broadcast; exact ArpTpa (ip_val (v_ip p))]
        priority VLAN_ARP_PKT_SIZE;
      flowcontroller [exact EthType ETH_TYPE_ARP; exact EthDst (rv_mac v)] priority VLAN_ARP_PKT_SIZE;
      vip_add (vc_vip cfg) (priority - 1) [exact EthType ETH_TYPE_ARP] (accept_to_l2_forwarding []) ].

  (** The rule for ICMPv6 messages of one type to one Ethernet address *)
  Definition icmp6_match (dst type : Z) : fmatch :=
    [exact EthType (eth_type 6); exact EthDst dst; exact IpProto 58; exact Icmpv6Type type].

  (** valve_route.py 1170-1240 *)
  Definition vip_nd6 (v : rvlan) (priority : Z) (p : vip) : list flowmod :=
    (if is_link_local (v_ip p) then
       [ select_packets (vc_vip cfg) [exact EthType (eth_type 6); exact EthDst IPV6_ALL_ROUTERS_MCAST;
                                      exact VlanVid (vid_present (rv_vid v))];
         controller_and_flood (icmp6_match IPV6_ALL_ROUTERS_MCAST 133) priority ]
     else []) ++
    [ flowcontroller (icmp6_match (rv_mac v) 128) priority (icmp_size 6);
      flowcontroller (icmp6_match (rv_mac v) 136) priority (icmp_size 6);
      select_packets (vc_vip cfg) [exact EthType (eth_type 6); exact EthDst (vip_nd_mcast p);
                                   exact VlanVid (vid_present (rv_vid v))];
      controller_and_flood (icmp6_match (vip_nd_mcast p) 135) priority ].

  (** valve_route.py 408-472, the rules that are not in a FIB table *)
  Definition fib_to_vip (ver : Z) (v : rvlan) (priority : Z) (p : vip) : list flowmod :=
    select_packets (if ver =? 4 then vc_fib4 cfg else vc_fib6 cfg)
      [exact EthType (eth_type ver); exact EthDst (rv_mac v); exact VlanVid (vid_present (rv_vid v))]
    :: (if (if ver =? 4 then vc_learn4 cfg else vc_learn6 cfg) && negb (is_link_local (v_ip p)) then
          [ flowcontroller [exact EthType (eth_type ver); exact EthDst (rv_mac v); exact IpProto (icmp_type ver)]
              (priority - 1) (icmp_size ver);
            controller_and_flood [exact EthType (eth_type ver); exact IpProto (icmp_type ver)] (priority - 2);
            flowcontroller [exact EthType (eth_type ver); exact EthDst (rv_mac v)]
              (priority - 3) MAX_PACKET_IN_SIZE;
            controller_and_flood [exact EthType (eth_type ver)] (priority - 4) ]
        else []).

  (** valve_route.py 488-502 *)
  Definition add_vlan (ver : Z) (v : rvlan) : list flowmod :=
    flat_map (fun p =>
      let priority := LPM_PRIORITY + max_prefixlen ver in
      (if ver =? 4 then vip_nd4 v priority p else vip_nd6 v priority p) ++ fib_to_vip ver v priority p)
      (filter (fun p => ip_ver (v_ip p) =? ver) (rv_vips v)).

  (** valve.py 395-411, then 433-441 for each VLAN and each of the managers *)
  Definition vip_rules : list flowmod :=
    vip_add (vc_vip cfg) MISS_PRIORITY [] [] ::
    flat_map (fun v => add_vlan 4 v ++ add_vlan 6 v) (vc_vlans cfg).
  Definition vip_switch (s : switch) : switch := apply_msgs (map FlowMod vip_rules) s.
End Vip.
