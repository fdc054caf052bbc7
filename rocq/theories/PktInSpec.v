(** * Which packets the controller looks at: specification *)
From Coq Require Import List Bool ZArith.
From Verif Require Import PktInModel.
Import ListNotations.
Open Scope Z_scope.

(** An Ethernet address, byte by byte, and as a number *)
Record mac := mkMac { m0 : Z; m1 : Z; m2 : Z; m3 : Z; m4 : Z; m5 : Z }.
Definition mac_bytes (a : mac) : list Z := [m0 a; m1 a; m2 a; m3 a; m4 a; m5 a].
Definition mac_num (a : mac) : Z :=
  m0 a * 2 ^ 40 + m1 a * 2 ^ 32 + m2 a * 2 ^ 24 + m3 a * 2 ^ 16 + m4 a * 2 ^ 8 + m5 a.
Definition byte (b : Z) : Prop := 0 <= b < 256.
Definition wf_mac (a : mac) : Prop := Forall byte (mac_bytes a).

(** IEEE 802.3 and 802.1Q: a frame, possibly with a tag (priority and drop eligibility as
    one number, and VLAN ID), as it is on the wire *)
Record eframe := mkEframe { ef_dst : mac; ef_src : mac; ef_tag : option (Z * Z); ef_type : Z; ef_payload : list Z }.
Definition two_bytes (n : Z) : list Z := [n / 256; n mod 256].
Definition wire (f : eframe) : list Z :=
  mac_bytes (ef_dst f) ++ mac_bytes (ef_src f) ++
  match ef_tag f with Some (pcp, vid) => [0x81; 0x00] ++ two_bytes (pcp * 4096 + vid) | None => [] end ++
  two_bytes (ef_type f) ++ ef_payload f.
Definition wf_frame (f : eframe) : Prop :=
  wf_mac (ef_dst f) /\ wf_mac (ef_src f) /\ 0 <= ef_type f < 65536 /\
  match ef_tag f with Some (pcp, vid) => 0 <= pcp < 16 /\ 0 <= vid < 4096 | None => ef_type f <> 0x8100 end.

(** The packet was asked for: the switch is set up, the packet is of a rule of this
    controller (if that is to be checked) that sends packets, or has run out of time to
    live; and came in on a port of the configuration. *)
Definition asked_for (cfg : iconf) (msg : pktin) (p : iport) : Prop :=
  ic_running cfg = true /\
  (ic_strict cfg = true -> pi_cookie msg = ic_cookie cfg) /\
  (pi_reason msg = 1 \/ pi_reason msg = 2) /\
  pi_in_port msg = Some (ip_num p) /\ In p (ic_ports cfg).

(** Port numbers are different, and physical or the switch's own; VLAN IDs are different *)
Definition wf_iconf (cfg : iconf) : Prop :=
  NoDup (map ip_num (ic_ports cfg)) /\ NoDup (map fst (ic_vlans cfg)) /\
  forall p, In p (ic_ports cfg) -> 0 < ip_num p <= 0xF0000000 \/ ip_num p = 0xfffffffe.

(** A host may have this address. *)
Definition host_address (a : mac) : Prop := (m0 a) mod 2 = 0 /\ mac_num a <> 0.

(** The VLAN of a frame that has no tag of the global VLAN: that of its tag *)
Definition in_vlan (cfg : iconf) (f : eframe) (v : option Z) : Prop :=
  match ef_tag f with
  | Some (_, vid) => vid <> ic_global cfg /\ In vid (map fst (ic_vlans cfg)) /\ v = Some vid
  | None => v = None
  end.

(** In a stack, the port carries the VLAN or is a stack port. *)
Definition member (cfg : iconf) (p : iport) (v : option Z) : Prop :=
  forall vid, v = Some vid -> ic_stacked cfg = true -> ip_stack p = false ->
  In vid (ip_tagged p) \/ ip_native p = Some vid.
