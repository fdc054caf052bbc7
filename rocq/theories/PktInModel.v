(** * Which packets the controller looks at

    Transcription of [parse_pkt_meta] and [parse_rcv_packet] (/repo/faucet/valve.py
    1180-1305), of [parse_packet_in_pkt], [int_from_mac], [mac_addr_is_unicast] and
    [mac_addr_all_zeros] (/repo/faucet/valve_packet.py 100-103, 174-241), of
    [port_no_valid] (/repo/faucet/dp.py 677-679) and [ignore_port]
    (/repo/faucet/valve_of.py 258-270).

    Simplifications: MAC addresses are numbers.  Parsing of the packet beyond the Ethernet
    and VLAN headers, which is done later, is left out.  The library's [packet.Packet] is
    taken to parse header by header until what is left is empty or all zeros or too short
    for the next header, and to keep such a rest (unless all zeros) as the last item. *)
From Coq Require Import List Bool ZArith.
From Verif Require Import PyBase.
Import ListNotations.
Open Scope Z_scope.

(** port.py: number, stack, tagged_vlans, native_vlan *)
Record iport := mkIport { ip_num : Z; ip_stack : bool; ip_tagged : list Z; ip_native : option Z }.
(** dp.py: dyn_running, strict_packet_in_cookie, cookie, ports, vlans (VID and
    faucet_mac), global_vlan, and whether there is a stack *)
Record iconf := mkIconf {
  ic_running : bool; ic_strict : bool; ic_cookie : Z;
  ic_ports : list iport; ic_vlans : list (Z * Z); ic_global : Z; ic_stacked : bool }.

(** OFPPacketIn: cookie, reason, the in_port of the match (None: the match is empty), data *)
Record pktin := mkPktin { pi_cookie : Z; pi_reason : Z; pi_in_port : option Z; pi_data : list Z }.

(** PacketMeta: port, VLAN, addresses and type *)
Record meta := mkMeta { pm_port : Z; pm_vlan : option Z; pm_src : Z; pm_dst : Z; pm_type : Z }.
Inductive outcome := Ignored | Raised | Meta (m : meta).

(** OFPR_ACTION and OFPR_INVALID_TTL *)
Definition OFPR_ACTION : Z := 1.
Definition OFPR_INVALID_TTL : Z := 2.
Definition OFPP_LOCAL : Z := 0xfffffffe.
Definition OFPP_IN_PORT : Z := 0xfffffff8.
(** valve_packet.py 43-44 *)
Definition ETH_HEADER_SIZE : nat := 14.
Definition ETH_VLAN_HEADER_SIZE : nat := 18.
Definition ETH_TYPE_8021Q : Z := 0x8100.

Definition from_be (l : list Z) : Z := fold_left (fun a b => a * 256 + b) l 0.
(** bytes.strip(b"\x00") leaves nothing *)
Definition all_zeros (l : list Z) : bool := forallb (fun b => b =? 0) l.

(** valve_of.py 258-270 *)
Definition ignore_port (n : Z) : bool :=
  if (n =? OFPP_LOCAL) || (n =? OFPP_IN_PORT) then false else 0xF0000000 <? n.
(** dp.py 677-679; the port itself *)
Definition valid_port (cfg : iconf) (n : Z) : option iport :=
  if ignore_port n then None else find (fun p => ip_num p =? n) (ic_ports cfg).

(** The Ethernet header: [packet.Packet(data[:ETH_HEADER_SIZE])] *)
Record ether := mkEther { et_dst : Z; et_src : Z; et_type : Z }.
Definition parse_eth (data : list Z) : option ether :=
  let d := firstn ETH_HEADER_SIZE data in
  if all_zeros d || negb (Nat.eqb (length d) ETH_HEADER_SIZE) then None
  else Some {| et_dst := from_be (firstn 6 d); et_src := from_be (firstn 6 (skipn 6 d));
               et_type := from_be (skipn 12 d) |}.

(** valve_packet.py 174-213, with the data cut: the Ethernet header, the type and the VID.
    [None]: an exception that is not caught, as the two names are given one value.  A tag
    cut short is left as bytes, which have no vid: that exception is caught. *)
Definition parse_packet_in_pkt (data : list Z) : option (option ether * Z * option Z) :=
  match parse_eth data with
  | None => Some (None, 0, None)
  | Some e =>
      if et_type e =? ETH_TYPE_8021Q then
        let rest := skipn ETH_HEADER_SIZE (firstn ETH_VLAN_HEADER_SIZE data) in
        if all_zeros rest then None
        else if Nat.eqb (length rest) 4 then
          Some (Some e, from_be (skipn 2 rest), Some (Z.land (from_be (firstn 2 rest)) 0xfff))
        else Some (Some e, et_type e, None)
      else Some (Some e, et_type e, None)
  end.

(** valve_packet.py 100-103 *)
Definition int_from_mac (mac : Z) : Z := mac mod 65536.
(** valve_packet.py 217-241 *)
Definition mac_addr_all_zeros (mac : Z) : bool := mac =? 0.
Definition mac_addr_is_unicast (mac : Z) : bool :=
  if mac =? 0xffffffffffff then false else negb (Z.testbit mac 40).

Definition opt_is (a : option Z) (b : Z) : bool := match a with Some x => x =? b | None => false end.

(** valve.py 1180-1232 *)
Definition parse_rcv_packet (cfg : iconf) (p : iport) (vid : option Z) (e : ether) (eth_type : Z) : meta :=
  let vlan := match vid with Some v => if mem Z.eqb v (map fst (ic_vlans cfg)) then Some v else None | None => None end in
  if opt_is vid (ic_global cfg) then
    let v' := int_from_mac (et_dst e) in
    match find (fun q => fst q =? v') (ic_vlans cfg) with
    | Some (_, mac) => mkMeta (ip_num p) (Some v') (et_src e) mac eth_type
    | None => mkMeta (ip_num p) None (et_src e) (et_dst e) eth_type
    end
  else mkMeta (ip_num p) vlan (et_src e) (et_dst e) eth_type.

(** valve.py 1234-1305 *)
Definition parse_pkt_meta (cfg : iconf) (msg : pktin) : outcome :=
  if negb (ic_running cfg) then Ignored
  else if ic_strict cfg && negb (ic_cookie cfg =? pi_cookie msg) then Ignored
  else if negb (mem Z.eqb (pi_reason msg) [OFPR_ACTION; OFPR_INVALID_TTL]) then Ignored
  else match pi_in_port msg with
  | None => Ignored
  | Some n =>
    if n =? 0 then Ignored else
    match valid_port cfg n with
    | None => Ignored
    | Some p =>
      match pi_data msg with
      | [] => Ignored
      | _ =>
        match parse_packet_in_pkt (firstn 194 (pi_data msg)) with
        | None => Raised
        | Some (None, _, _) => Ignored
        | Some (Some e, eth_type, vid) =>
          if match vid with
             | Some v => negb (mem Z.eqb v (map fst (ic_vlans cfg))) && negb (v =? ic_global cfg)
             | None => false
             end
          then Ignored
          else
            let m := parse_rcv_packet cfg p vid e eth_type in
            if negb (mac_addr_is_unicast (pm_src m)) then Ignored
            else if mac_addr_all_zeros (pm_src m) then Ignored
            else if ic_stacked cfg && negb (ip_stack p) &&
                    match pm_vlan m with
                    | Some v => negb (mem Z.eqb v (ip_tagged p)) && negb (opt_is (ip_native p) v)
                    | None => false
                    end
            then Ignored
            else Meta m
        end
      end
    end
  end.
