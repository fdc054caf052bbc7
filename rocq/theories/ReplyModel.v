(** * What the router answers

    valve_route.py 184-191 (_unicast_to_vip), 270-298 (_resolve_vip_response), 1047-1148
    and 1261-1417 (the handlers of the two IP versions), valve.py 1080-1097
    (_control_plane_handler), 1413-1445 (router_rcv_packet), vlan.py 399-404
    (link_and_other_vips), 621-627 (pkt_out_port), 665-703 (the VIPs), valve_packet.py
    521-600 and 666-794 (the packets), 823-832 and 877-931 (how much of a packet is
    parsed).

    RouteModel has what packets do to routes and neighbours, this has what is sent back.
    The answer does not depend on them.  [RouteModel.vlan], with its VIPs, and the
    functions on VIPs are those of RouteModel. *)

From Coq Require Import ZArith List Bool.
From Verif Require Import PyBase IpModel RouteModel.
Import ListNotations.
Open Scope Z_scope.

(** A VLAN with the ports that have it tagged. *)
Record yvlan := mkYvlan { y_vlan : vlan; y_tagged : list Z }.

(** ** Packets *)

(** What comes after the ICMPv6 header. *)
Inductive icmp6 :=
| NeighbourSolicit (target : ip)
| NeighbourAdvert (target : ip)
| RouterSolicit
| EchoRequest6 (id seq : Z) (data : list Z)
| OtherIcmp6.
(** What comes after the Ethernet header and VLAN tag.  [ext]: there are extension
    headers. *)
Inductive l3 :=
| Arp (opcode : Z) (src dst : ip)
| Icmp (src dst : ip) (type : Z) (data : list Z)
| Icmp6 (src dst : ip) (hop_limit : Z) (ext : bool) (body : icmp6)
| OtherIp (src dst : ip) (ext : bool).
Definition l3_src (p : l3) : ip :=
  match p with Arp _ s _ | Icmp s _ _ _ | Icmp6 s _ _ _ _ | OtherIp s _ _ => s end.
Definition l3_dst (p : l3) : ip :=
  match p with Arp _ _ d | Icmp _ d _ _ | Icmp6 _ d _ _ _ | OtherIp _ d _ => d end.
(** A packet that comes to the controller: where from, its length (orig_len, with the
    VLAN tag that the pipeline has given it), how much of it the switch sent along, and
    whether that was because its TTL ran out. *)
Record request := mkRequest {
  q_port : Z; q_eth_src : Z; q_eth_dst : Z; q_len : Z; q_sent : Z; q_ttl : bool; q_l3 : l3 }.

(** What is sent back. *)
Inductive answer :=
| ArpReply (sender_mac : Z) (sender : ip) (target_mac : Z) (target : ip)
| NeighbourAdvertisement (src dst target : ip) (link_address : Z)
| RouterAdvertisement (src dst : ip) (prefixes : list net) (link_address : Z)
| EchoReply (src dst : ip) (data : list Z)
| EchoReply6 (src dst : ip) (hop_limit id seq : Z) (data : list Z)
| TimeExceeded (src dst : ip).
Record reply := mkReply { s_port : Z; s_tag : option Z; s_eth_src : Z; s_eth_dst : Z; s_body : answer }.

(** ** How much of a packet is looked at *)

(** valve_packet.py 48-67 *)
Definition ETH_VLAN_HEADER_SIZE : Z := 18.
Definition IPV6_HEADER_SIZE : Z := 40.
Definition VLAN_ARP_PKT_SIZE : Z := 64.
Definition VLAN_ICMP_ECHO_REQ_SIZE : Z := 174.
Definition MAX_PACKET_IN_BYTES : Z := 194. (* valve_of.py 53 *)
(** valve_packet.py 829-832 and 877-890 (reparse): the data is cut. *)
Definition right_size (p : l3) (len : Z) : Z :=
  match p with
  | Arp _ _ _ => VLAN_ARP_PKT_SIZE
  | Icmp6 _ _ _ _ _ => len
  | Icmp _ _ _ _ => VLAN_ICMP_ECHO_REQ_SIZE
  | OtherIp s _ _ => if ip_ver s =? 4 then VLAN_ICMP_ECHO_REQ_SIZE else len
  end.
(** valve_packet.py 929-931 (packet_complete), after valve.py 1252-1253 *)
Definition packet_complete (q : request) : bool :=
  let len := Z.min (q_sent q) MAX_PACKET_IN_BYTES in
  Z.min len (right_size (q_l3 q) len) =? q_len q.

(** ** The handlers *)

(** vlan.py 621-627 (pkt_out_port) and the arguments common to all its uses *)
Definition pkt_out (v : yvlan) (q : request) (b : answer) : reply :=
  mkReply (q_port q) (if mem Z.eqb (q_port q) (y_tagged v) then Some (vl_id (y_vlan v)) else None)
    (vl_mac (y_vlan v)) (q_eth_src q) b.

(** lines 270-298 (_resolve_vip_response) *)
Definition resolve_vip_response (v : yvlan) (q : request) (solicited : ip) : option reply :=
  let src := l3_src (q_l3 q) in
  if is_faucet_vip (y_vlan v) solicited && ip_in_vip_subnet (y_vlan v) src then
    Some (pkt_out v q
      (match q_l3 q with
       | Arp _ _ _ => ArpReply (vl_mac (y_vlan v)) solicited (q_eth_src q) src
       | _ => NeighbourAdvertisement solicited src solicited (vl_mac (y_vlan v))
       end))
  else None.
(** lines 184-191 (_unicast_to_vip), vlan.py 690-703 (from_connected_to_vip) *)
Definition unicast_to_vip (v : yvlan) (q : request) : bool :=
  (q_eth_dst q =? vl_mac (y_vlan v))
  && is_faucet_vip (y_vlan v) (l3_dst (q_l3 q)) && ip_in_vip_subnet (y_vlan v) (l3_src (q_l3 q)).
(** lines 1099-1126 and 1364-1399 (_control_plane_time_exceeded_handler); the answer has
    the VIP of the subnet that the source is in. *)
Definition has_ext (p : l3) : bool :=
  match p with Icmp6 _ _ _ e _ | OtherIp _ _ e => e | _ => false end.
Definition time_exceeded (v : yvlan) (q : request) : option reply :=
  let src := l3_src (q_l3 q) in
  if has_ext (q_l3 q) then None
  else
    match vlan_vip_map (y_vlan v) src with
    | Some p => if in_subnet src p then Some (pkt_out v q (TimeExceeded (v_ip p) src)) else None
    | None => None
    end.
(** vlan.py 399-404 *)
Definition link_local_vips (v : vlan) : list vip :=
  filter (fun p => (ip_ver (v_ip p) =? 6) && is_link_local (v_ip p)) (vl_vips v).
Definition other_vips (v : vlan) : list vip :=
  filter (fun p => (ip_ver (v_ip p) =? 6) && negb (is_link_local (v_ip p))) (vl_vips v).
(** lines 1275-1296 (_router_solicit_handler) *)
Definition router_solicit (v : yvlan) (q : request) : option reply :=
  let src := l3_src (q_l3 q) in
  match find (fun p => ip_in_net src (vip_net p)) (link_local_vips (y_vlan v)) with
  | Some p => Some (pkt_out v q (RouterAdvertisement (v_ip p) src (map vip_net (other_vips (y_vlan v))) (vl_mac (y_vlan v))))
  | None => None
  end.
(** line 1326 and valve_packet.py 902-927 (reparse_ip): the packet is parsed anew up to
    96 bytes after the IPv6 header, of which 8 are the ICMPv6 and echo headers. *)
Definition echo6_data (data : list Z) : list Z := firstn 88 data.

Definition BROADCAST : Z := 0xffffffffffff.
(** lines 1047-1148 *)
Definition ipv4_handler (v : yvlan) (q : request) : option reply :=
  match q_l3 q with
  | Arp op _ dst =>
    if (op =? 1) && ((q_eth_dst q =? BROADCAST) || (q_eth_dst q =? vl_mac (y_vlan v)))
    then resolve_vip_response v q dst else None
  | _ =>
    if q_ttl q then time_exceeded v q
    else
      match q_l3 q with
      | Icmp src dst ty data =>
        if unicast_to_vip v q && (ty =? 8) then Some (pkt_out v q (EchoReply dst src data)) else None
      | _ => None
      end
  end.
(** lines 1329-1362, 1401-1417 *)
Definition ipv6_handler (v : yvlan) (q : request) : option reply :=
  if q_ttl q then time_exceeded v q
  else
    match q_l3 q with
    | Icmp6 src dst hop_limit ext body =>
      if ext || negb (ip_in_vip_subnet (y_vlan v) src) then None
      else if negb (hop_limit =? 255) && (match body with EchoRequest6 _ _ _ => false | _ => true end) then None
      else
        match body with
        | NeighbourSolicit t => resolve_vip_response v q t
        | RouterSolicit => router_solicit v q
        | EchoRequest6 id seq data =>
          if unicast_to_vip v q then Some (pkt_out v q (EchoReply6 dst src hop_limit id seq (echo6_data data))) else None
        | _ => None
        end
    | _ => None
    end.
(** valve_packet.py 230-241 (mac_addr_is_unicast) *)
Definition is_group (mac : Z) : bool := Z.testbit mac 40.
Definition is_v4 (p : l3) : bool := ip_ver (l3_src p) =? 4.
(** valve.py 1080-1097, 1413-1445.  A route manager is active if some VLAN has a VIP of
    its version; with none on this VLAN, nothing is answered either way. *)
Definition answer_packet (v : yvlan) (q : request) : option reply :=
  match vl_vips (y_vlan v) with
  | [] => None
  | _ =>
    if (q_eth_dst q =? vl_mac (y_vlan v)) || is_group (q_eth_dst q) || q_ttl q then
      if packet_complete q then (if is_v4 (q_l3 q) then ipv4_handler v q else ipv6_handler v q) else None
    else None
  end.
