(** * What the router should send of its own accord: specification *)
From Coq Require Import List Bool ZArith.
From Verif Require Import PyBase IpModel FloodModel FloodSpec AskModel.
Import ListNotations.
Open Scope Z_scope.

(** RFC 4291, 2.7.1: the group of an address is ff02::1:ff00:0 with its low 24 bits. *)
Definition group_of (a : Z) : Z := 0xff0200000000000000000001ff000000 + a mod 2 ^ 24.
(** RFC 2464, 7: frames to a group go to 33:33 and its low 32 bits. *)
Definition group_mac (g : Z) : Z := 0x333300000000 + g mod 2 ^ 32.

(** The frame asks, by ARP or neighbour discovery, for the address of [gw] on behalf of
    the router's address [me] at [mac]: of everybody, or of the host at [whom]. *)
Definition asks (mac : Z) (me gw : ip) (whom : option Z) (f : aframe) : Prop :=
  fa_src f = mac /\
  if ip_ver gw =? 4 then
    fa_dst f = match whom with Some h => h | None => 0xffffffffffff end /\
    fa_body f = ArpRequest mac me gw
  else
    match whom with
    | Some h => fa_dst f = h /\ fa_body f = Solicitation me gw gw mac
    | None => fa_dst f = group_mac (group_of (ip_val gw)) /\
              fa_body f = Solicitation me (mkIp 6 (group_of (ip_val gw))) gw mac
    end.

(** Port [q] of VLAN [v] is to get what the router sends to all of the VLAN: it runs
    and, if it is in a LAG, is the port that carries floods there. *)
Definition reached (running : Z -> bool) (v : vlan) (q : port) : Prop :=
  In q (members v) /\ running (p_num q) = true /\ (p_lacp q <> 0 -> lag_carrier v q).
(** The tag of frames on port [q]. *)
Definition tag_on (v : vlan) (q : port) (t : option Z) : Prop :=
  (is_tagged v q -> t = Some (v_vid v)) /\ (is_untagged v q -> t = None).

(** The links of a stack to send over: the root sends away from itself, on links in use
    that were not pruned; others send towards the root on the link chosen. *)
Definition stack_link (running : Z -> bool) (sv : option stack_view) (n : Z) : Prop :=
  exists s, sv = Some s /\ running n = true /\
    if sv_root s then In n (sv_away s) /\ ~ In n (sv_inactive s) /\ ~ In n (sv_pruned s)
    else sv_chosen s = Some n.

(** An Ethernet address of one host. *)
Definition one_host (mac : Z) : Prop := 0 <= mac < 2 ^ 48 /\ Z.testbit mac 40 = false.
