(** * What the router sends of its own accord

    Transcription of [_resolve_gateway_flows], [_resolve_gw_on_vlan],
    [_resolve_gw_on_port] and [_flood_stack_links] (/repo/faucet/valve_route.py 200-263,
    609-631), of [advertise] (1418-1434), of [flood_pkt] and [pkt_out_port]
    (/repo/faucet/vlan.py 621-655) and of the packets (/repo/faucet/valve_packet.py
    492-517, 597-663, 757-794).

    Simplifications: when requests are due is in [RouteModel].  Frames are kept as
    records.  The packet-outs of one flood are kept as pairs of port and frame, be it one
    message for all ports or one for each ([multi_out]); [random.shuffle] of the ports is
    left out. *)
From Coq Require Import List Bool ZArith.
From Verif Require Import PyBase IpModel FloodModel.
Import ListNotations.
Open Scope Z_scope.

Inductive abody :=
| ArpRequest (sender_mac : Z) (sender target : ip)
| Solicitation (src dst target : ip) (link_address : Z)
| RouterAdvert (src dst : ip) (prefixes : list net) (link_address : Z).
Record aframe := mkAframe { fa_src : Z; fa_dst : Z; fa_tag : option Z; fa_body : abody }.

(** [IPv6Address.packed]: the 16 bytes of an address *)
Definition packed (a : Z) : list Z :=
  map (fun i => (a / 256 ^ (15 - Z.of_nat i)) mod 256) (seq 0 16).
(** [packed[-3:]] *)
Definition last3 (l : list Z) : list Z := skipn 13 l.
Definition from_bytes (l : list Z) : Z := fold_left (fun a b => a * 256 + b) l 0.

(** valve_packet.py 597-610 *)
Definition ipv6_link_eth_mcast (dst : Z) : Z := from_bytes ([0x33; 0x33; 0xff] ++ last3 (packed dst)).
(** valve_packet.py 613-627; [link_mcast_prefix]: ff02::1:ff00:0 *)
Definition ipv6_solicited_node_from_ucast (ucast : Z) : Z :=
  from_bytes (firstn 13 (packed 0xff0200000000000000000001ff000000) ++ last3 (packed ucast)).

(** valve_of.mac.BROADCAST_STR *)
Definition mac_broadcast : Z := 0xffffffffffff.
(** valve_packet.py 230-241 *)
Definition mac_addr_is_unicast (mac : Z) : bool :=
  if mac =? mac_broadcast then false else negb (Z.testbit mac 40).

(** valve_packet.py 492-517 *)
Definition arp_request (vid : option Z) (eth_src eth_dst : Z) (src_ip dst_ip : ip) : aframe :=
  {| fa_src := eth_src; fa_dst := eth_dst; fa_tag := vid; fa_body := ArpRequest eth_src src_ip dst_ip |}.
(** valve_packet.py 630-663 *)
Definition nd_request (vid : option Z) (eth_src eth_dst : Z) (src_ip dst_ip : ip) : aframe :=
  let nd_mac := if mac_addr_is_unicast eth_dst then eth_dst else ipv6_link_eth_mcast (ip_val dst_ip) in
  let nd_ip := if mac_addr_is_unicast eth_dst then dst_ip
               else mkIp 6 (ipv6_solicited_node_from_ucast (ip_val dst_ip)) in
  {| fa_src := eth_src; fa_dst := nd_mac; fa_tag := vid; fa_body := Solicitation src_ip nd_ip dst_ip eth_src |}.
(** valve_packet.py 757-794 *)
Definition router_advert (vid : option Z) (eth_src eth_dst : Z) (src_ip dst_ip : ip) (vips : list vip) : aframe :=
  {| fa_src := eth_src; fa_dst := eth_dst; fa_tag := vid;
     fa_body := RouterAdvert src_ip dst_ip (map vip_net vips) eth_src |}.

(** A VLAN with its address, its VIPs and targeted_gw_resolution. *)
Record avlan := mkAvlan { a_vlan : vlan; a_mac : Z; a_vips : list vip; a_targeted : bool }.

Section Ask.
  (** [port.running()], by number *)
  Variable running : Z -> bool.

  (** vlan.py 629-655 *)
  Definition flood_pkt (v : vlan) (builder : option Z -> aframe) : list (Z * aframe) :=
    flat_map
      (fun vp : option Z * list port =>
         let pkt := builder (fst vp) in
         let exclude := excluded_lag_ports v None in
         map (fun q => (p_num q, pkt))
           (filter (fun q => running (p_num q) && negb (in_ports q exclude)) (snd vp)))
      [(Some (v_vid v), tagged_flood_ports v false); (None, untagged_flood_ports v false)].

  (** vlan.py 621-627 *)
  Definition pkt_out_port (v : vlan) (builder : option Z -> aframe) (q : port) : Z * aframe :=
    (p_num q, builder (if in_ports q (v_tagged v) then Some (v_vid v) else None)).

  (** The stack manager's view (valve_stack.py): port numbers. *)
  Record stack_view := { sv_root : bool; sv_away : list Z; sv_inactive : list Z; sv_pruned : list Z;
    sv_chosen : option Z }.

  (** valve_route.py 200-230; [None]: no stack *)
  Definition flood_stack_links (sv : option stack_view) (v : vlan) (builder : option Z -> aframe)
    : list (Z * aframe) :=
    match sv with
    | None => []
    | Some s =>
        let ports :=
          if sv_root s
          then filter (fun n => negb (mem Z.eqb n (sv_inactive s)) && negb (mem Z.eqb n (sv_pruned s))) (sv_away s)
          else match sv_chosen s with Some n => [n] | None => [] end in
        map (fun n => (n, builder (Some (v_vid v)))) (filter running ports)
    end.

  (** valve_route.py 996-997, 1161-1162 [_gw_resolve_pkt] *)
  Definition gw_resolve_pkt (ver : Z) : option Z -> Z -> Z -> ip -> ip -> aframe :=
    if ver =? 4 then arp_request else nd_request.

  (** valve_route.py 232-256 *)
  Definition resolve_gw_on_vlan (sv : option stack_view) (v : avlan) (p : vip) (gw : ip) : list (Z * aframe) :=
    let build vid := gw_resolve_pkt (ip_ver gw) vid (a_mac v) mac_broadcast (v_ip p) gw in
    flood_stack_links sv (a_vlan v) build ++ flood_pkt (a_vlan v) build.
  (** valve_route.py 258-262 *)
  Definition resolve_gw_on_port (v : avlan) (q : port) (p : vip) (gw : ip) (eth_dst : Z) : Z * aframe :=
    pkt_out_port (a_vlan v) (fun vid => gw_resolve_pkt (ip_ver gw) vid (a_mac v) eth_dst (v_ip p) gw) q.

  (** valve_route.py 609-631: [tried]: [last_retry_time] is set; [known]: the port and
      the MAC address of the entry *)
  Definition resolve_gateway_flows (sv : option stack_view) (v : avlan) (gw : ip) (tried : bool)
      (known : option (port * Z)) : list (Z * aframe) :=
    match find (fun p => ip_in_net gw (vip_net p)) (a_vips v) with
    | None => []
    | Some p =>
        match a_targeted v && negb tried, known with
        | true, Some (q, mac) => [resolve_gw_on_port v q p gw mac]
        | _, _ => resolve_gw_on_vlan sv v p gw
        end
    end.

  (** valve_route.py 1418-1434, vlan.py 399-404 *)
  Definition advertise (v : avlan) : list (Z * aframe) :=
    let vips6 := filter (fun p => ip_ver (v_ip p) =? 6) (a_vips v) in
    let link_local := filter (fun p => is_link_local (v_ip p)) vips6 in
    let others := filter (fun p => negb (is_link_local (v_ip p))) vips6 in
    flat_map (fun p => flood_pkt (a_vlan v)
        (fun vid => router_advert vid (a_mac v) 0x333300000001 (v_ip p)
                      (mkIp 6 0xff020000000000000000000000000001) others)) link_local.
End Ask.

(** valve_route.py 1172-1174: the Ethernet address that the rule for neighbour
    solicitations for a VIP matches *)
Definition vip_nd_mcast (p : vip) : Z :=
  ipv6_link_eth_mcast (ipv6_solicited_node_from_ucast (ip_val (v_ip p))).
