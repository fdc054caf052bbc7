(** * The rules that bring packets to the router: specification *)
From Coq Require Import List Bool ZArith.
From Verif Require Import OpenFlow IpModel AskSpec VipModel.
Import ListNotations.
Open Scope Z_scope.

(** The tables are different, and the router's own Ethernet addresses are not group
    addresses. *)
Definition wf_vip (cfg : vipconf) : Prop :=
  vc_class cfg <> vc_vip cfg /\
  forall v, In v (vc_vlans cfg) -> Z.testbit (rv_mac v) 40 = false.

(** In table [t] the packet finds a rule, and whichever rule the switch takes says [inst]. *)
Definition does (s : switch) (t : Z) (pk : packet) (inst : list instruction) : Prop :=
  (exists f, hit (sw_flows s) t pk f) /\ forall f, hit (sw_flows s) t pk f -> f_inst f = inst.

(** The first [n] bytes go to the controller, and the packet goes no further *)
Definition to_router (n : Z) : list instruction := [Apply [Output OFPP_CONTROLLER n]].
(** The first [n] bytes go to the controller, and the packet is forwarded like others *)
Definition to_router_and_on (cfg : vipconf) (n : Z) : list instruction :=
  [Goto (vc_out cfg); Apply [Output OFPP_CONTROLLER n]].
(** The packet is forwarded like others *)
Definition on (cfg : vipconf) : list instruction := [Goto (vc_out cfg)].
(** The packet is dropped *)
Definition dropped : list instruction := [].

(** [v] is a VLAN on which the router has the address [p] *)
Definition router_on (cfg : vipconf) (v : rvlan) (p : vip) : Prop := In v (vc_vlans cfg) /\ In p (rv_vips v).

(** An ARP packet for the router: sent to its Ethernet address, or asking everybody for
    one of its addresses *)
Definition arp (pk : packet) : Prop := pk_get pk EthType = Some 0x0806.
Definition arp_for_router (cfg : vipconf) (pk : packet) : Prop :=
  exists v p, router_on cfg v p /\ ip_ver (v_ip p) = 4 /\
    (pk_get pk EthDst = Some (rv_mac v) \/
     pk_get pk EthDst = Some 0xffffffffffff /\ pk_get pk ArpTpa = Some (ip_val (v_ip p))).

(** IP packets, by version, and ICMP among them *)
Definition ip_packet (ver : Z) (pk : packet) : Prop :=
  ver = 4 /\ pk_get pk EthType = Some 0x0800 \/ ver = 6 /\ pk_get pk EthType = Some 0x86dd.
Definition icmp6 (type : Z) (pk : packet) : Prop :=
  pk_get pk EthType = Some 0x86dd /\ pk_get pk IpProto = Some 58 /\ pk_get pk Icmpv6Type = Some type.

(** A neighbour solicitation sent to the group of an address of the router; a router
    solicitation, where the router has a link-local address; a ping or an answer to the
    router's own solicitation, sent to its Ethernet address. *)
Definition solicits_router (cfg : vipconf) (pk : packet) : Prop :=
  (icmp6 135 pk /\ exists v p, router_on cfg v p /\ ip_ver (v_ip p) = 6 /\
    pk_get pk EthDst = Some (group_mac (group_of (ip_val (v_ip p))))) \/
  icmp6 133 pk /\ pk_get pk EthDst = Some 0x333300000002 /\
    exists v p, router_on cfg v p /\ ip_ver (v_ip p) = 6 /\ is_link_local (v_ip p) = true.
Definition answers_router (cfg : vipconf) (pk : packet) : Prop :=
  (icmp6 128 pk \/ icmp6 136 pk) /\
  exists v p, router_on cfg v p /\ ip_ver (v_ip p) = 6 /\ pk_get pk EthDst = Some (rv_mac v).

(** Hosts of a VLAN are learned proactively when it has an address that is not link-local. *)
Definition learning (cfg : vipconf) (ver : Z) (v : rvlan) : Prop :=
  (ver = 4 /\ vc_learn4 cfg = true \/ ver = 6 /\ vc_learn6 cfg = true) /\
  exists p, router_on cfg v p /\ ip_ver (v_ip p) = ver /\ is_link_local (v_ip p) = false.

(** The other rules of the switch, before the router's are added: none in the VIP table *)
Definition fresh_vip (cfg : vipconf) (s : switch) : Prop :=
  forall f, In f (sw_flows s) -> f_table f <> vc_vip cfg.
(** the packet is not caught in the classification table by a filter *)
Definition unfiltered (cfg : vipconf) (s : switch) (pk : packet) : Prop :=
  forall f, In f (sw_flows s) -> f_table f = vc_class cfg -> matches pk (f_match f) = true -> f_prio f < 0x4000.

(** The frame is on the VLAN *)
Definition on_vlan (v : rvlan) (pk : packet) : Prop := pk_get pk VlanVid = Some (Z.lor (rv_vid v) OFPVID_PRESENT).
