(** * Packet sanity checks and addresses carried in MAC strings

    Models /repo/faucet/valve_packet.py (sanity checks made before a packet-in
    is handed to the packet library, MAC helpers) and the proxy addresses of
    /repo/faucet/faucet_dot1x.py.  Byte strings are lists of numbers; Python
    strings are Coq strings; Python exceptions are values. *)

From Coq Require Import List Bool NArith String Ascii.
From Coq Require Hexadecimal HexadecimalN HexadecimalString.
Import ListNotations.
Open Scope N_scope.

(** ** IPv4 sanity check *)

(** The result of calling a predicate that may raise. *)
Inductive pyres (A : Type) : Type :=
| PyRaise
| PyVal (x : A).
Arguments PyRaise {A}.
Arguments PyVal {A} x.

(** valve_packet.py 49-56: frame sizes. *)
Definition ETH_HEADER_SIZE : N := 14.
Definition ETH_VLAN_HEADER_SIZE : N := 18.
Definition IPV4_HEADER_SIZE : N := 20.
Definition IPV6_HEADER_SIZE : N := 40.
Definition VLAN_ARP_REQ_PKT_SIZE : N := ETH_VLAN_HEADER_SIZE + 28.

(** [b[i]] of a byte string. *)
Definition byte (data : list N) (i : nat) : N := nth i data 0.

(** The big-endian 16 bit field at [i] ([struct] format [!H]). *)
Definition half (data : list N) (i : nat) : N := byte data i * 256 + byte data (S i).

(** valve_packet.py 112-133: [ipv4_parseable].  [struct.unpack] raises when
    fewer than 20 bytes are available. *)
Definition ipv4_parseable (ip_header_data : list N) : pyres bool :=
  if N.of_nat (List.length ip_header_data) <? IPV4_HEADER_SIZE then PyRaise
  else PyVal
    (let header_size := N.land (byte ip_header_data 0) 0xF * 32 / 8 in
     if header_size <? IPV4_HEADER_SIZE then false
     else
       let flags := N.shiftr (half ip_header_data 6) 12 in
       if negb (N.land flags 0x2 =? 0) then false
       else
         let ip_off := N.land (half ip_header_data 6) 0xFFF in
         if negb (ip_off =? 0) then false
         else
           let protocol := byte ip_header_data 9 in
           (protocol =? 1) || (protocol =? 17) || (protocol =? 6)).

(** Ethernet types. *)
Definition ETH_TYPE_IP : N := 0x0800.
Definition ETH_TYPE_ARP : N := 0x0806.
Definition ETH_TYPE_IPV6 : N := 0x86DD.

(** valve_packet.py 817-827: the entry of [ETH_TYPES_PARSERS] and
    [MIN_ETH_TYPE_PKT_SIZE]: IP version, whether [ipv4_parseable] is asked,
    and the size of the headers. *)
Definition eth_parser (eth_type : N) : option (option N * bool * N) :=
  if eth_type =? ETH_TYPE_IP then Some (Some 4, true, ETH_VLAN_HEADER_SIZE + IPV4_HEADER_SIZE)
  else if eth_type =? ETH_TYPE_ARP then Some (None, false, VLAN_ARP_REQ_PKT_SIZE)
  else if eth_type =? ETH_TYPE_IPV6 then Some (Some 6, false, ETH_VLAN_HEADER_SIZE + IPV6_HEADER_SIZE)
  else None.

(** valve_packet.py 895-900: [PacketMeta.ip_ver]. *)
Definition ip_ver (data : list N) : option N :=
  if ETH_VLAN_HEADER_SIZE <? N.of_nat (List.length data)
  then Some (N.shiftr (byte data 18) 4)
  else None.

(** What [reparse_ip] does before it calls the packet library. *)
Inductive gate : Type :=
| GateRaise            (** an exception escapes *)
| GateSkip             (** returns without parsing *)
| GateParse (limit : N) (** parses at most this many bytes *).

Definition opt_N_eqb (a b : option N) : bool :=
  match a, b with
  | None, None => true
  | Some x, Some y => x =? y
  | _, _ => false
  end.

(** valve_packet.py 902-916: [PacketMeta.reparse_ip] up to the call of the
    parser.  [size_check] is [vlan is not None and vlan.minimum_ip_size_check]. *)
Definition reparse_ip (eth_type : N) (size_check : bool) (data : list N) (payload : N) : gate :=
  match eth_parser eth_type with
  | None => GateSkip
  | Some (ver, ask, header_size) =>
      let limit := header_size + payload in
      match ver with
      | None => GateParse limit
      | Some v =>
          if negb (opt_N_eqb (Some v) (ip_ver data)) then GateSkip
          else if size_check && (N.of_nat (List.length data) <? header_size) then GateSkip
          else if ask then
                 match ipv4_parseable (skipn 18 data) with
                 | PyRaise => GateRaise
                 | PyVal true => GateParse limit
                 | PyVal false => GateSkip
                 end
               else GateParse limit
      end
  end.

(** ** MAC strings *)

(** Python's [%x]. *)
Definition py_hex (n : N) : string :=
  HexadecimalString.NilZero.string_of_uint (N.to_hex_uint n).

(** Python's [int(s, 16)] on hexadecimal digits; [None] is ValueError.
    Python also accepts signs, blanks and a 0x prefix, which are not modelled. *)
Definition py_int16 (s : string) : option N :=
  match s with
  | EmptyString => None
  | _ => option_map N.of_hex_uint (HexadecimalString.NilEmpty.uint_of_string s)
  end.

(** Zero padding of [%0kx]. *)
Fixpoint zeros (k : nat) : string :=
  match k with O => EmptyString | S k' => String "0" (zeros k') end.

Definition pad (k : nat) (s : string) : string :=
  (zeros (k - String.length s) ++ s)%string.

Definition colon : ascii := ":"%char.

(** [s.split(":")] *)
Fixpoint split_colon (s : string) : list string :=
  match s with
  | EmptyString => [EmptyString]
  | String c r =>
      if Ascii.eqb c colon then EmptyString :: split_colon r
      else match split_colon r with
           | [] => [String c EmptyString]
           | x :: xs => String c x :: xs
           end
  end.

(** [":".join(l)] *)
Fixpoint join_colon (l : list string) : string :=
  match l with
  | [] => EmptyString
  | [x] => x
  | x :: r => (x ++ String colon (join_colon r))%string
  end.

(** valve_packet.py 106-109: [int_in_mac]. *)
Definition int_in_mac (mac : string) (to_int : N) : string :=
  join_colon (firstn 4 (split_colon mac) ++
              [py_hex (N.shiftr to_int 8); py_hex (N.land to_int 0xFF)]).

(** valve_packet.py 100-103: [int_from_mac]; [l[-2:]] is the last two. *)
Definition last_two (l : list string) : option (string * string) :=
  match rev l with
  | b :: a :: _ => Some (a, b)
  | _ => None
  end.

Definition int_from_mac (mac : string) : option N :=
  match last_two (split_colon mac) with
  | None => None
  | Some (hi, lo) =>
      match py_int16 hi, py_int16 lo with
      | Some h, Some l => Some (N.shiftl h 8 + l)
      | _, _ => None
      end
  end.

(** ** MAC addresses as numbers *)

(** valve_packet.py 88-89: [EUI_BITS] and [MAC_MASK_BITMAP], a dictionary from
    mask value to number of bits. *)
Definition EUI_BITS : N := 48.

Definition MAC_MASK_BITMAP : list (N * N) :=
  map (fun i => (2 ^ EUI_BITS - 2 ^ N.of_nat i, EUI_BITS - N.of_nat i)) (seq 0 49).

(** valve_packet.py 92-97: [mac_mask_bits], for a mask given by its value. *)
Definition mac_mask_bits (mac_mask : option N) : N :=
  match mac_mask with
  | None => 0
  | Some m =>
      match find (fun kv => fst kv =? m) MAC_MASK_BITMAP with
      | Some kv => snd kv
      | None => 0
      end
  end.

(** valve_packet.py 229-241: [mac_addr_is_unicast]; an address is its six
    bytes, most significant first, [is_multicast] tests bit 0 of the first. *)
Definition mac_addr_is_unicast (mac_bin : list N) : bool :=
  if forallb (N.eqb 0xFF) mac_bin then false
  else negb (N.testbit (byte mac_bin 0) 0).

(** valve_packet.py 136-139: [mac_byte_mask] as a value; the assertion raises. *)
Definition mac_byte_mask (mask_bytes : N) : pyres N :=
  if 6 <? mask_bytes then PyRaise
  else PyVal (2 ^ 48 - 2 ^ (8 * (6 - mask_bytes))).

(** ** 802.1X proxy addresses *)

(** faucet_dot1x.py 25-36: [get_mac_str]. *)
Definition get_mac_str (valve_index port_num : N) : string :=
  let p := pad 4 (py_hex port_num) in
  ("00:00:00:" ++ pad 2 (py_hex valve_index) ++ ":" ++
   substring 0 2 p ++ ":" ++ substring 2 (String.length p - 2) p)%string.

(** One 802.1X switch as [reset] sees it: its identifier, and the numbers of
    its 802.1X ports. *)
Record dot1x_valve := mk_dot1x_valve { dv_id : N; dv_ports : list N }.

(** faucet_dot1x.py 48-49: [mac_to_port] and [dp_id_to_valve_index]. *)
Record dot1x_maps := mk_dot1x_maps {
  dm_port : list (string * (N * N));
  dm_index : list (N * N) }.

Definition dot1x_maps0 : dot1x_maps := mk_dot1x_maps [] [].

Section Put.
  Context {K V : Type} (eqb : K -> K -> bool).
  (** [d[k] = v], the order of the keys being irrelevant here. *)
  Definition put (k : K) (v : V) (d : list (K * V)) : list (K * V) :=
    (k, v) :: filter (fun kv => negb (eqb k (fst kv))) d.
  Definition get (k : K) (d : list (K * V)) : option V :=
    option_map snd (find (fun kv => eqb k (fst kv)) d).
End Put.

(** faucet_dot1x.py 182-195: [set_mac_str]. *)
Definition set_mac_str (valve valve_index : N) (m : dot1x_maps) (port_num : N) : dot1x_maps :=
  mk_dot1x_maps (put String.eqb (get_mac_str valve_index port_num) (valve, port_num) (dm_port m))
                (dm_index m).

(** faucet_dot1x.py 355-362: one turn of the loop of [reset]. *)
Definition reset_valve (m : dot1x_maps) (iv : N * dot1x_valve) : dot1x_maps :=
  let '(valve_index, v) := iv in
  fold_left (set_mac_str (dv_id v) valve_index) (dv_ports v)
            (mk_dot1x_maps (dm_port m) (put N.eqb (dv_id v) valve_index (dm_index m))).

(** [enumerate(l, start=k)] *)
Fixpoint enumerate {A} (k : N) (l : list A) : list (N * A) :=
  match l with [] => [] | x :: r => (k, x) :: enumerate (N.succ k) r end.

(** faucet_dot1x.py 326-364: [reset], given the switches that have 802.1X
    ports; the assertion on their number raises.  Starting the speaker is not
    modelled. *)
Definition dot1x_reset (m : dot1x_maps) (dot1x_valves : list dot1x_valve) : pyres dot1x_maps :=
  if 255 <=? N.of_nat (List.length dot1x_valves) then PyRaise
  else PyVal (fold_left reset_valve (enumerate 0 dot1x_valves) m).

(** faucet_dot1x.py 88-93: [_get_valve_and_port]. *)
Definition get_valve_and_port (m : dot1x_maps) (port_id : string) : option (N * N) :=
  get String.eqb port_id (dm_port m).

(** faucet_dot1x.py 231, 264, 286, 304: the address used for a port. *)
Definition port_mac (m : dot1x_maps) (dp_id port_num : N) : option string :=
  option_map (fun i => get_mac_str i port_num) (get N.eqb dp_id (dm_index m)).

(** ** LACP port identifiers *)

(** A port for [finalize_config]: number, whether it runs LACP, and the
    configured identifier (-1 when not configured, here [None]). *)
Record lacp_conf := mk_lacp_conf { lc_number : N; lc_lacp : bool; lc_id : option N }.

(** dp.py 1355-1359: the identifier of a port of the switch at [dp_index]. *)
Definition lacp_port_id (dp_index : N) (p : lacp_conf) : option N :=
  match lc_id p with
  | Some i => Some i
  | None => if lc_lacp p then Some (dp_index * 100 + lc_number p) else None
  end.

(** ** Packet-in rate limit *)

(** valve.py 209-210: the limiter's state; times are compared for equality
    only. *)
Record limiter := mk_limiter { lm_sec : N; lm_count : N; lm_ignored : N }.

(** valve.py 209-210: [dp_init]. *)
Definition limiter0 : limiter := mk_limiter 0 0 0.

(** valve.py 1099-1109: [rate_limit_packet_ins]; 0 means not configured. *)
Definition rate_limit (limit : N) (s : limiter) (now : N) : limiter * bool :=
  let s1 := if lm_sec s =? now then s else mk_limiter now 0 (lm_ignored s) in
  let s2 := mk_limiter (lm_sec s1) (lm_count s1 + 1) (lm_ignored s1) in
  if negb (limit =? 0) && (lm_count s2 mod limit =? 0)
  then (mk_limiter (lm_sec s2) (lm_count s2) (lm_ignored s2 + 1), true)
  else (s2, false).

(** A run over packet arrival times: the final state and, for each packet,
    whether it is ignored. *)
Fixpoint rate_run (limit : N) (s : limiter) (ts : list N) : limiter * list bool :=
  match ts with
  | [] => (s, [])
  | t :: r =>
      let '(s1, b) := rate_limit limit s t in
      let '(s2, bs) := rate_run limit s1 r in
      (s2, b :: bs)
  end.
