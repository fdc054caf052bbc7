(** * What LACP frames should say: specification

    Written from the meaning of LACP (IEEE 802.1AX) and of the options of ports, over
    the events alone: what was heard from the partner, and which role a port has. *)
From Coq Require Import List Bool ZArith.
From Verif Require Import PyBase L2Model LacpPduModel.
Import ListNotations.
Open Scope Z_scope.

(** Port numbers are unique, and ports named as passthrough peers are ports. *)
Definition lconf_ok (cfg : lconf) : Prop :=
  NoDup (map lp_num (lc_ports cfg)) /\
  forall p m, In p (lc_ports cfg) -> In m (lp_passthrough p) -> In m (map lp_num (lc_ports cfg)).

(** Port [n] is in a LAG. *)
Definition lag_port (cfg : lconf) (p : lport) : Prop := In p (lc_ports cfg) /\ lp_lag p <> 0.
(** A frame is LACP when it is sent to 01:80:c2:00:00:02 with type 0x8809. *)
Definition is_lacp (f : lframe) : bool := (fr_dst f =? 1652522221570) && (fr_type f =? 34825).

(** The partner's packet that stands on port [n]: the last LACP packet to come since
    LACP last started afresh there. *)
Definition hear (n : Z) (h : option pdu) (e : levent) : option pdu :=
  match e with
  | LFrame _ m f _ => if (m =? n) && is_lacp f then Some (fr_pdu f) else h
  | LReset m _ => if m =? n then None else h
  | _ => h
  end.
Definition heard (n : Z) (es : list levent) : option pdu := fold_left (hear n) es None.
(** The partner on port [n] says it is in sync. *)
Definition in_sync (n : Z) (es : list levent) : Prop :=
  exists k, heard n es = Some k /\ sd_synchronization (pd_actor k) <> 0.

(** The roles of ports: those left by the last event that sets roles (frames do when
    they are LACP on a LAG's port). *)
Definition next_roles (cfg : lconf) (r : Z -> port_role) (e : levent) : Z -> port_role :=
  match e with
  | LFrame _ m f roles =>
      if is_lacp f && existsb (fun p => (lp_num p =? m) && negb (lp_lag p =? 0)) (lc_ports cfg) then roles else r
  | LReset _ roles | LChange _ roles => roles
  | LAdvertise _ => r
  end.
Definition roles_after (cfg : lconf) (es : list levent) : Z -> port_role :=
  fold_left (next_roles cfg) es (fun _ => RNotConfigured).

Definition bit (b : bool) : Z := if b then 1 else 0.
(** What a frame for port [p] in role [r] says of this switch: the key is the LAG; the
    link is meant to be used when selected or standing by, and is used when selected;
    a port told to collect and distribute always says all of that. *)
Definition of_us (cfg : lconf) (p : lport) (r : port_role) (f : lframe) : Prop :=
  let a := pd_actor (fr_pdu f) in
  let used := match r with RSelected => true | _ => lp_collect p end in
  let meant := match r with RSelected | RStandby => true | _ => lp_collect p end in
  sd_system a = lc_mac cfg /\ sd_key a = lp_lag p /\ sd_port a = lp_id p /\
  sd_port_priority a = lp_priority p /\ sd_system_priority a = 65535 /\
  sd_activity a = bit (lp_active p) /\ sd_timeout a = 1 /\ sd_aggregation a = 1 /\
  sd_synchronization a = bit meant /\ sd_collecting a = bit used /\ sd_distributing a = bit used /\
  sd_defaulted a = 0 /\ sd_expired a = 0.
(** What it says of the partner: just what the partner last said of itself; nothing if
    nothing was heard. *)
Definition nothing_known : side := mkSide 0 0 0 0 0 0 0 0 0 0 0 0 0.
Definition of_partner (h : option pdu) (f : lframe) : Prop :=
  pd_partner (fr_pdu f) = match h with Some k => pd_actor k | None => nothing_known end.
(** An untagged LACP frame, version 1, from this switch. *)
Definition carried (cfg : lconf) (f : lframe) : Prop :=
  fr_src f = lc_mac cfg /\ is_lacp f = true /\ fr_vid f = None /\ pd_version (fr_pdu f) = 1.

(** Times do not go back, and are past 0. *)
Fixpoint times (es : list levent) : list Z :=
  match es with
  | [] => []
  | LFrame now _ _ _ :: rest => now :: times rest
  | _ :: rest => times rest
  end.
Fixpoint rising (t : Z) (l : list Z) : Prop :=
  match l with [] => True | x :: rest => t <= x /\ rising x rest end.
Definition clock_ok (es : list levent) : Prop := rising 1 (times es).

Definition history (cfg : lconf) (es : list levent) : list entry := fst (ptrace cfg pstate_init es).
(** Entry: LACP packet [k] came on port [n] at [now] and was answered with [f]. *)
Definition answered (now n : Z) (k : pdu) (x : entry) : Prop :=
  exists f roles r, x = (LFrame now n f roles, Sent [(n, r)]) /\ is_lacp f = true /\ fr_pdu f = k.
