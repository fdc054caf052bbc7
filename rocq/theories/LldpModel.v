(** * LLDP beacons: what is sent, and what is made of what comes in

    valve_packet.py 267-392 (lldp_beacon, faucet_oui, faucet_lldp_tlvs,
    faucet_lldp_stack_state_tlvs, tlvs_by_type, tlvs_by_subtype, tlv_cast, faucet_tlvs,
    parse_faucet_lldp), valve.py 728-754 (_send_lldp_beacon_on_port), 1006-1075
    (lldp_handler), 1252-1253 (parse_pkt_meta), valve_lldp.py 59-69 (add_port), 82-140
    (verify_lldp), port.py 22-43 (the states).

    Bytes are integers.  Names and descriptions are the bytes of their UTF-8 encoding:
    two different names have different encodings, and decoding an encoded name gives it
    back.  (Decoding bytes that are no encoding puts replacement characters for the
    wrong ones; a configured name with replacement characters could be matched by such
    bytes, which the model does not have.)

    The bytes on the wire are the work of the packet library, which is not part of the
    repository.  [enc_tlv] and [parse_tlvs] are IEEE 802.1AB as the library has it. *)

From Coq Require Import ZArith List Bool Decimal DecimalZ.
From Verif Require Import PyBase.
Import ListNotations.
Open Scope Z_scope.

Definition bytes := list Z.
Fixpoint bytes_eqb (a b : bytes) : bool :=
  match a, b with
  | [], [] => true
  | x :: a, y :: b => (x =? y) && bytes_eqb a b
  | _, _ => false
  end.

(** ** Numbers as text *)

(** The decimal digits in ASCII, most significant first: str(n).encode("utf-8") *)
Fixpoint uint_bytes (d : uint) : bytes :=
  match d with
  | Nil => []
  | D0 d => 48 :: uint_bytes d | D1 d => 49 :: uint_bytes d | D2 d => 50 :: uint_bytes d
  | D3 d => 51 :: uint_bytes d | D4 d => 52 :: uint_bytes d | D5 d => 53 :: uint_bytes d
  | D6 d => 54 :: uint_bytes d | D7 d => 55 :: uint_bytes d | D8 d => 56 :: uint_bytes d
  | D9 d => 57 :: uint_bytes d
  end.
Definition py_str (n : Z) : bytes :=
  match Z.to_int n with
  | Pos d => uint_bytes d
  | Neg d => 45 :: uint_bytes d
  end.

(** int(b) of bytes: white space around it, a sign, and digits which may have single
    underscores between them; anything else is a ValueError, None here. *)
Definition is_space (c : Z) : bool := (c =? 32) || ((9 <=? c) && (c <=? 13)).
Fixpoint lstrip (b : bytes) : bytes :=
  match b with [] => [] | c :: r => if is_space c then lstrip r else b end.
Definition strip (b : bytes) : bytes := List.rev (lstrip (List.rev (lstrip b))).
Definition digit (c : Z) : option (uint -> uint) :=
  if c =? 48 then Some D0 else if c =? 49 then Some D1 else if c =? 50 then Some D2
  else if c =? 51 then Some D3 else if c =? 52 then Some D4 else if c =? 53 then Some D5
  else if c =? 54 then Some D6 else if c =? 55 then Some D7 else if c =? 56 then Some D8
  else if c =? 57 then Some D9 else None.
(** after a digit ([seen]) or where there must be one *)
Fixpoint digits (seen : bool) (b : bytes) : option uint :=
  match b with
  | [] => if seen then Some Nil else None
  | c :: r =>
    match digit c with
    | Some f => option_map f (digits true r)
    | None => if seen && (c =? 95) then digits false r else None
    end
  end.
Definition py_int (b : bytes) : option Z :=
  match strip b with
  | c :: r =>
    if c =? 45 then option_map (fun d => Z.of_int (Neg d)) (digits false r)
    else if c =? 43 then option_map (fun d => Z.of_int (Pos d)) (digits false r)
    else option_map (fun d => Z.of_int (Pos d)) (digits false (c :: r))
  | [] => None
  end.

(** ** TLVs *)

Inductive tlv :=
| End
| ChassisId (subtype : Z) (id : bytes)
| PortId (subtype : Z) (id : bytes)
| Ttl (seconds : Z)
| PortDescr (b : bytes)
| SysName (b : bytes)
| Org (oui : bytes) (subtype : Z) (info : bytes)
| Other (ty : Z) (b : bytes).
Definition tlv_type (t : tlv) : Z :=
  match t with
  | End => 0 | ChassisId _ _ => 1 | PortId _ _ => 2 | Ttl _ => 3 | PortDescr _ => 4
  | SysName _ => 5 | Org _ _ _ => 127 | Other ty _ => ty
  end.
Definition tlv_body (t : tlv) : bytes :=
  match t with
  | End => []
  | ChassisId s b | PortId s b => s :: b
  | Ttl n => [n / 256; n mod 256]
  | PortDescr b | SysName b | Other _ b => b
  | Org oui s info => oui ++ s :: info
  end.
(** Seven bits of type and nine bits of length. *)
Definition enc_tlv (t : tlv) : bytes :=
  let len := Z.of_nat (length (tlv_body t)) in
  [tlv_type t * 2 + len / 256; len mod 256] ++ tlv_body t.
Definition dec_tlv (ty : Z) (b : bytes) : option tlv :=
  if ty =? 0 then Some End
  else if ty =? 1 then match b with s :: r => Some (ChassisId s r) | [] => None end
  else if ty =? 2 then match b with s :: r => Some (PortId s r) | [] => None end
  else if ty =? 3 then match b with [x; y] => Some (Ttl (x * 256 + y)) | _ => None end
  else if ty =? 4 then Some (PortDescr b)
  else if ty =? 5 then Some (SysName b)
  else if ty =? 127 then match b with x :: y :: z :: s :: r => Some (Org [x; y; z] s r) | _ => None end
  else if (6 <=? ty) && (ty <=? 8) then Some (Other ty b)
  else None.
(** One TLV after another up to the End, what comes after it being ignored.  Bytes
    that stop short, or a type that is not known, make the packet not an LLDP packet.
    The first argument is more than there can be TLVs. *)
Fixpoint parse_tlvs (fuel : nat) (b : bytes) : option (list tlv) :=
  match fuel, b with
  | S fuel, h1 :: h2 :: r =>
    let ty := h1 / 2 in
    let len := Z.to_nat (h1 mod 2 * 256 + h2) in
    if (length r <? len)%nat then None
    else
      match dec_tlv ty (firstn len r) with
      | None => None
      | Some t =>
        if ty =? 0 then Some [t]
        else option_map (cons t) (parse_tlvs fuel (skipn len r))
      end
  | _, _ => None
  end.
(** Chassis, port and TTL come first. *)
Definition well_formed (tlvs : list tlv) : bool :=
  match tlvs with
  | ChassisId _ _ :: PortId _ _ :: Ttl _ :: _ :: _ => true
  | _ => false
  end.
Definition parse_lldp (b : bytes) : option (list tlv) :=
  match parse_tlvs (length b) b with
  | Some tlvs => if well_formed tlvs then Some tlvs else None
  | None => None
  end.

(** ** What is sent *)

(** A datapath and one of its ports, as far as its beacon tells of them.  [b_stack] is
    whether it is a stack port, and its state. *)
Record beacon_conf := mkBeaconConf {
  b_mac : bytes;                  (* dp.faucet_dp_mac *)
  b_dp_id : Z; b_dp_name : bytes;
  b_dp_system_name : option bytes; (* dp.lldp_beacon["system_name"] *)
  b_send_interval : Z;
  b_port : Z;
  b_port_system_name : option bytes; (* port.lldp_beacon["system_name"] *)
  b_port_descr : option bytes;
  b_org_tlvs : list (bytes * Z * bytes); (* port.lldp_beacon["org_tlvs"] *)
  b_stack : option Z }.

Definition LLDP_FAUCET_DP_ID : Z := 1. (* valve_packet.py 83 *)
Definition LLDP_FAUCET_STACK_STATE : Z := 2. (* valve_packet.py 84 *)
(** valve_packet.py 314-316 *)
Definition faucet_oui (mac : bytes) : bytes := firstn 3 mac.
(** valve_packet.py 319-326 *)
Definition faucet_lldp_tlvs (c : beacon_conf) : list (bytes * Z * bytes) :=
  [(faucet_oui (b_mac c), LLDP_FAUCET_DP_ID, py_str (b_dp_id c))].
(** valve_packet.py 329-341 *)
Definition faucet_lldp_stack_state_tlvs (c : beacon_conf) : list (bytes * Z * bytes) :=
  match b_stack c with
  | None => []
  | Some state => [(faucet_oui (b_mac c), LLDP_FAUCET_STACK_STATE, py_str state)]
  end.
Definition opt_tlv (f : bytes -> tlv) (b : option bytes) : list tlv :=
  match b with Some b => [f b] | None => [] end.
(** valve_packet.py 267-311 (lldp_beacon), the TLVs *)
Definition lldp_tlvs (mac : bytes) (port_id ttl : Z) (org_tlvs : list (bytes * Z * bytes))
    (system_name port_descr : option bytes) : list tlv :=
  [ChassisId 4 mac; PortId 5 (py_str port_id); Ttl ttl]
  ++ opt_tlv SysName system_name ++ opt_tlv PortDescr port_descr
  ++ map (fun '(oui, s, info) => Org oui s info) org_tlvs ++ [End].
(** to 01:80:c2:00:00:0e, of type 0x88cc *)
Definition lldp_frame (mac : bytes) (tlvs : list tlv) : bytes :=
  [1; 128; 194; 0; 0; 14] ++ mac ++ [136; 204] ++ flat_map enc_tlv tlvs.
(** valve.py 728-754 (_send_lldp_beacon_on_port).  dp.lldp_beacon has a system name
    unless it is empty altogether (dp.py 425-426); either way the name of the datapath
    is what is used if none is configured. *)
Definition beacon_name (c : beacon_conf) : bytes :=
  match b_port_system_name c with
  | Some (x :: r) => x :: r
  | _ => match b_dp_system_name c with Some n => n | None => b_dp_name c end
  end.
Definition beacon_tlvs (c : beacon_conf) : list tlv :=
  lldp_tlvs (b_mac c) (b_port c) (Z.min (b_send_interval c * 3) 65535)
    (b_org_tlvs c ++ faucet_lldp_tlvs c ++ faucet_lldp_stack_state_tlvs c)
    (Some (beacon_name c)) (b_port_descr c).
Definition beacon_frame (c : beacon_conf) : bytes := lldp_frame (b_mac c) (beacon_tlvs c).

(** ** What is made of a packet *)

Definition MAX_PACKET_IN_BYTES : nat := 194. (* valve_of.py 53 *)
(** valve_lldp.py 66: how much of an LLDP frame the switch is told to send. *)
Definition LLDP_MAX_LEN : nat := 128.
(** valve.py 1252-1253 (the data is cut), valve_packet.py 176-213 (parse_packet_in_pkt)
    and 164-172 (parse_lldp) for a frame without a VLAN tag. *)
Definition packet_in_lldp (data : bytes) : option (list tlv) :=
  parse_lldp (skipn 14 (firstn MAX_PACKET_IN_BYTES data)).

(** valve_packet.py 344-376: the first TLV of the ones chosen, and its value *)
Definition first_some {A} (f : tlv -> option A) (tlvs : list tlv) : option A :=
  match flat_map (fun t => match f t with Some x => [x] | None => [] end) tlvs with
  | x :: _ => Some x
  | [] => None
  end.
Definition org_info (oui : bytes) (subtype : Z) (t : tlv) : option bytes :=
  match t with
  | Org o s info => if bytes_eqb o oui && (s =? subtype) then Some info else None
  | _ => None
  end.
Definition is_faucet (oui : bytes) (t : tlv) : bool :=
  match t with Org o _ _ => bytes_eqb o oui | _ => false end.
Definition cast (b : option bytes) : option Z := match b with Some b => py_int b | None => None end.
(** valve_packet.py 379-392 (parse_faucet_lldp) *)
Record remote := mkRemote { r_dp_id : option Z; r_dp_name : option bytes; r_port : option Z; r_state : option Z }.
Definition parse_faucet_lldp (tlvs : list tlv) (mac : bytes) : remote :=
  let oui := faucet_oui mac in
  if existsb (is_faucet oui) tlvs then
    mkRemote
      (cast (first_some (org_info oui LLDP_FAUCET_DP_ID) tlvs))
      (first_some (fun t => match t with SysName b => Some b | _ => None end) tlvs)
      (cast (first_some (fun t => match t with PortId _ b => Some b | _ => None end) tlvs))
      (cast (first_some (org_info oui LLDP_FAUCET_STACK_STATE) tlvs))
  else mkRemote None None None None.

(** port.py 22-43: ADMIN_DOWN, INIT, BAD, UP, GONE and NONE *)
Definition known_state (s : Z) : bool := mem Z.eqb s [0; 1; 2; 3; 4; -1].

(** The port a packet comes in on: whether it is a stack port, and then the identifier
    and name of the datapath and the number of the port at the other end; and the state
    last heard (dyn_lldp_beacon_recv_state). *)
Record lldp_port := mkLldpPort { l_peer : option (Z * bytes * Z); l_heard : option Z }.
(** What comes of it: an exception, or the state heard and, if the cabling was looked
    at, whether it was found to be right (dyn_stack_probe_info["stack_correct"]). *)
Inductive outcome :=
| Raised
| Handled (heard : option Z) (stack_correct : option bool).

(** valve_lldp.py 107-126 (verify_lldp) *)
Definition stack_correct (peer : option (Z * bytes * Z)) (dp_id : Z) (dp_name : option bytes) (port : Z) : option bool :=
  match peer with
  | None => None
  | Some (peer_id, peer_name, peer_port) =>
    Some (negb (negb (dp_id =? peer_id)
                || negb (match dp_name with Some n => bytes_eqb n peer_name | None => false end)
                || negb (port =? peer_port)))
  end.
Definition opt_eqb (a b : option Z) : bool :=
  match a, b with Some a, Some b => a =? b | None, None => true | _, _ => false end.
(** valve.py 1006-1075 (lldp_handler), from the TLVs on.  The message logged about a
    changed state formats the port as a number and looks the name of the state up
    (lines 1032-1043).  Warnings about an unexpected MAC address are left out. *)
Definition lldp_handler (mac : bytes) (p : lldp_port) (tlvs : list tlv) : outcome :=
  let r := parse_faucet_lldp tlvs mac in
  let changed := negb (opt_eqb (l_heard p) (r_state r)) in
  let truthy o := match o with Some n => negb (n =? 0) | None => false end in
  let raises :=
    changed && truthy (r_state r) &&
    (match r_port r with None => true | Some _ => false end
     || match r_state r with Some s => negb (known_state s) | None => false end) in
  if raises then Raised
  else
    Handled (r_state r)
      (match r_dp_id r, r_port r with
       | Some i, Some n =>
         if negb (i =? 0) && negb (n =? 0) then stack_correct (l_peer p) i (r_dp_name r) n else None
       | _, _ => None
       end).
(** and from the data of the packet on: nothing is done if it cannot be parsed
    (lines 1014-1017) *)
Definition lldp_packet_in (mac : bytes) (p : lldp_port) (data : bytes) : option outcome :=
  option_map (lldp_handler mac p) (packet_in_lldp data).
