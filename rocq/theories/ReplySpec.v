(** * What a router may answer, and must *)

From Coq Require Import ZArith List.
From Verif Require Import IpModel IpSpec RouteModel ReplyModel.
Import ListNotations.
Open Scope Z_scope.

(** The address is one of the router's on the VLAN. *)
Definition own (v : vlan) (a : ip) : Prop := exists p, In p (vl_vips v) /\ v_ip p = a.
(** The address is in the subnet of the VIP, and is neither the first nor the last in
    it. *)
Definition beside (p : vip) (a : ip) : Prop :=
  let n := vip_net p in
  ip_ver a = n_ver n /\ n_addr n < ip_val a < n_addr n + 2 ^ (bits (n_ver n) - n_len n) - 1.
(** A host with this address is directly connected on the VLAN. *)
Definition on_link (v : vlan) (a : ip) : Prop := exists p, In p (vl_vips v) /\ beside p a.

(** The link-local addresses, fe80::/10 *)
Definition link_local6 (a : ip) : Prop :=
  ip_ver a = 6 /\ 0xFE800000000000000000000000000000 <= ip_val a < 0xFEC00000000000000000000000000000.

(** The answer is one that the router may give to the packet. *)
Definition proper (v : vlan) (q : request) (b : answer) : Prop :=
  match b with
  | ArpReply sender_mac sender target_mac target =>
      q_l3 q = Arp 1 target sender /\ sender_mac = vl_mac v /\ target_mac = q_eth_src q /\
      own v sender /\ on_link v target
  | NeighbourAdvertisement src dst target link =>
      (exists d, q_l3 q = Icmp6 dst d 255 false (NeighbourSolicit src)) /\
      target = src /\ link = vl_mac v /\ own v src /\ on_link v dst
  | RouterAdvertisement src dst prefixes link =>
      (exists d, q_l3 q = Icmp6 dst d 255 false RouterSolicit) /\
      own v src /\ link_local6 src /\ on_link v dst /\ link = vl_mac v /\
      forall n, In n prefixes <-> exists p, In p (vl_vips v) /\ ip_ver (v_ip p) = 6 /\ ~ link_local6 (v_ip p) /\ n = vip_net p
  | EchoReply src dst data =>
      q_l3 q = Icmp dst src 8 data /\ q_eth_dst q = vl_mac v /\ own v src /\ on_link v dst
  | EchoReply6 src dst hop id seq data =>
      (exists rest, q_l3 q = Icmp6 dst src hop false (EchoRequest6 id seq (data ++ rest))) /\
      q_eth_dst q = vl_mac v /\ own v src /\ on_link v dst
  | TimeExceeded src dst =>
      q_ttl q = true /\ l3_src (q_l3 q) = dst /\ exists p, In p (vl_vips v) /\ v_ip p = src /\ beside p dst
  end.

(** Well-formed VLANs and packets. *)
Definition good_vlan (v : vlan) : Prop := forall p, In p (vl_vips v) -> good_vip p.
Definition good_packet (q : request) : Prop :=
  good_ip (l3_src (q_l3 q)) /\ good_ip (l3_dst (q_l3 q)) /\
  match q_l3 q with
  | Arp _ s _ | Icmp s _ _ _ => ip_ver s = 4
  | Icmp6 s _ _ _ b => ip_ver s = 6 /\ match b with NeighbourSolicit t | NeighbourAdvert t => good_ip t | _ => True end
  | OtherIp _ _ _ => True
  end.
(** The subnets of the VIPs do not overlap. *)
Definition apart (v : vlan) : Prop :=
  forall p p', In p (vl_vips v) -> In p' (vl_vips v) -> p = p' \/ disjoint (vip_net p) (vip_net p').
(** The switch sent the packet whole, and it is of no more than [n] bytes. *)
Definition whole (q : request) (n : Z) : Prop := q_sent q = q_len q /\ q_len q <= n.
