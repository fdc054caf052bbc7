(** * Learning with idle timeouts (use_idle_timeout)

    Transcription of [ValveSwitchFlowRemovedManager]
    (/repo/faucet/valve_switch_standalone.py 1387-1452), of its caller
    [flowremoved_handler] (/repo/faucet/faucet.py 409-422, valve.py 1857-1867), and
    of the rules of hosts at the switch, which this mode relies on: the controller
    forgets a host when the switch reports that the rule for its source went unused.

    Simplifications: those of [LearnModel]; the rules of hosts are kept as [hrule]s,
    which [L2Model.host_ofmsgs] spells out as flow-mods; the switch is connected, and
    each report is handled as the rule goes; ports have no LACP when they go up or
    down; this mode is not used on stacks (valve_switch.py 63-89). *)
From Coq Require Import List Bool ZArith.
From Verif Require Import PyBase OpenFlow TrimModel FloodModel HostCacheModel LearnModel.
Import ListNotations.
Open Scope Z_scope.

(** valve_switch_standalone.py 822-896: a rule for a host, with its idle timeout (0:
    none).  [RDst]'s [pcp] is the forwarding flag it matches, if any; [RDst] sends to
    [port], [RHair] sends frames from [port] back to it. *)
Inductive hrule :=
| RSrc (vid port mac idle : Z)
| RDst (vid mac : Z) (pcp : option Z) (port idle : Z)
| RHair (vid port mac idle : Z).
Definition hrule_eq_dec : forall a b : hrule, {a = b} + {a <> b}.
Proof. repeat decide equality. Defined.

(** [self.vlans], [self.ports] (as numbers), and the IDs of the tables. *)
Record iconf := { i_cfg : lcfg; i_vids : list Z; i_ports : list Z; i_tsrc : Z; i_tdst : Z; i_thp : Z }.

Definition memb (x : Z) (l : list Z) : bool := existsb (Z.eqb x) l.

Section Idle.
  Variable ic : iconf.
  Let cfg := i_cfg ic.

  (** valve_switch_standalone.py 1032-1072 [_learn_check] with this class's
      [_learn_host_timeouts] (1419-1428) *)
  Definition idle_learn_check (vid mac p : Z) (del refresh : bool) : check :=
    {| ck_exit := true;
       ck_msgs := learn_flows cfg p vid mac del refresh (learn_host_timeouts_removed cfg p mac);
       ck_update := true; ck_delete := del; ck_refresh := refresh; ck_ban := None |}.

  (** valve_switch_standalone.py 1074-1131 [learn_host_on_vlan_ports]; [del] is
      [delete_existing] as lines 1091-1098 leave it *)
  Definition idle_learn (s : lstate) (now p vid mac : Z) (del : bool) : check :=
    let e := cached_host (s_cache s vid) mac in
    let k1 := perm_learn_check cfg e mac p del false in
    if ck_exit k1 then k1 else
    let k2 := learn_cache_check cfg s now e p (ck_delete k1) (ck_refresh k1) in
    if ck_exit k2 then k2 else
    let k3 := loop_protect_check cfg s now e p (ck_delete k2) (ck_refresh k2) in
    if ck_exit k3 then k3 else
    idle_learn_check vid mac p (ck_delete k3) (ck_refresh k3).

  (** [port.dyn_last_ban_time = now] (1006-1020) *)
  Definition note_ban (s : lstate) (p : Z) (k : check) : lstate :=
    match ck_ban k with Some t => with_ban s (upd p (Some t) (s_ban s)) | None => s end.

  (** valve.py 1111-1141 [learn_host], 1448-1464 [_vlan_rcv_packet] *)
  Definition idle_rcv_packet (s : lstate) (now vid p mac : Z) : option (lstate * list host_msg) :=
    match ban_rules cfg s vid p mac with
    | [] =>
        let k := idle_learn s now p vid mac (delete_default s vid (cached_host (s_cache s vid) mac)) in
        let s1 := note_ban s p k in
        if ck_update k then
          match add_cache_host mac p now (s_cache s1 vid) with
          | None => None
          | Some c => Some (with_cache s1 vid c, ck_msgs k)
          end
        else Some (s1, ck_msgs k)
    | bans => Some (s, bans)
    end.

  (** valve_switch_standalone.py 1430-1438 [_src_rule_expire] *)
  Definition src_rule_expire (s : lstate) (vid p mac : Z) : option (lstate * list host_msg) :=
    match cached_host_on_port (s_cache s vid) mac p with
    | Some _ =>
        match expire_cache_host mac (s_cache s vid) with
        | None => None
        | Some c => Some (with_cache s vid c, [])
        end
    | None => Some (s, [])
    end.

  (** valve_switch_standalone.py 1440-1452 [_dst_rule_expire] *)
  Definition dst_rule_expire (s : lstate) (now vid mac : Z) : lstate * list host_msg :=
    match cached_host (s_cache s vid) mac with
    | Some e =>
        let k := idle_learn s now (e_port e) vid mac false in
        (note_ban s (e_port e) k, ck_msgs k)
    | None => (s, [])
    end.

  (** The value of a field of a match, [match.items()] *)
  Definition item_value (f : field) (m : fmatch) : option Z :=
    fold_left (fun acc it => if field_eqb (fst it) f then Some (fst (snd it)) else acc) m None.

  (** valve_switch_standalone.py 1395-1414 [flow_timeout].  [None]: an exception. *)
  Definition flow_timeout (s : lstate) (now table : Z) (m : fmatch) : option (lstate * list host_msg) :=
    if (table =? i_tsrc ic) || (table =? i_tdst ic) then
      match item_value VlanVid m with
      | None => Some (s, [])
      | Some vv =>
          let vid := devid_present vv in
          if memb vid (i_vids ic) then
            match item_value EthSrc m, item_value InPort m, item_value EthDst m with
            | Some mac, Some p, d =>
                if p =? 0 then
                  match d with Some mac' => Some (dst_rule_expire s now vid mac') | None => Some (s, []) end
                else if memb p (i_ports ic) then src_rule_expire s vid p mac else None
            | _, _, Some mac => Some (dst_rule_expire s now vid mac)
            | _, _, None => Some (s, [])
            end
          else None
      end
    else Some (s, []).

  (** valve_switch_standalone.py 818-820, 848-871, 888-890: the match of each rule,
      and its table *)
  Definition rule_match (r : hrule) : fmatch :=
    match r with
    | RSrc v p mac _ => [exact InPort p; exact EthSrc mac; exact VlanVid (vid_present v)]
    | RDst v mac pcp _ _ => [exact EthDst mac; exact VlanVid (vid_present v)] ++ (match pcp with Some x => [exact VlanPcp x] | None => [] end)
    | RHair v p mac _ => [exact InPort p; exact EthDst mac; exact VlanVid (vid_present v)]
    end.
  Definition rule_table (r : hrule) : Z :=
    match r with RSrc _ _ _ _ => i_tsrc ic | RDst _ _ _ _ _ => i_tdst ic | RHair _ _ _ _ => i_thp ic end.
  Definition rule_idle (r : hrule) : Z :=
    match r with RSrc _ _ _ i | RDst _ _ _ _ i | RHair _ _ _ i => i end.

  (** Two rules of one table with one match (and one priority): the second replaces
      the first. *)
  Definition same_rule (a b : hrule) : bool :=
    match a, b with
    | RSrc v p m _, RSrc v' p' m' _ => (v =? v') && (p =? p') && (m =? m')
    | RDst v m x _ _, RDst v' m' x' _ _ =>
        (v =? v') && (m =? m') && (match x, x' with Some a, Some b => a =? b | None, None => true | _, _ => false end)
    | RHair v p m _, RHair v' p' m' _ => (v =? v') && (p =? p') && (m =? m')
    | _, _ => false
    end.
  Definition put_rule (r : hrule) (rs : list hrule) : list hrule := r :: filter (fun x => negb (same_rule x r)) rs.
  (** The rule is for host [mac] of VLAN [vid]. *)
  Definition rule_of (vid mac : Z) (r : hrule) : bool :=
    match r with RSrc v _ m _ | RDst v m _ _ _ | RHair v _ m _ => (v =? vid) && (m =? mac) end.

  (** valve_switch_standalone.py 742-752, 822-896: what the messages do to the rules
      (the drops of [MBanPort], [MBanVlan] and [MFilter] are not rules of hosts) *)
  Definition apply_host_msg (rs : list hrule) (m : host_msg) : list hrule :=
    match m with
    | MDelHost vid mac => filter (fun r => negb (rule_of vid mac r)) rs
    | MSrc vid p mac _ idle => put_rule (RSrc vid p mac idle) rs
    | MDst vid p mac idle => put_rule (RDst vid mac (if c_externals cfg then Some PCP_EXT_PORT_FLAG else None) p idle) rs
    | MDstNonExt vid p mac idle => put_rule (RDst vid mac (Some 0) p idle) rs
    | MHairpin vid p mac idle => put_rule (RHair vid p mac idle) rs
    | MBanPort _ | MBanVlan _ | MFilter _ _ => rs
    end.

  (** valve_switch_standalone.py 630-640 [_del_host_flows].  A hairpin rule's action
      targets OFPP_IN_PORT (valve_of.py 686-692), not its port, so it stays. *)
  Definition del_port_rules (p : Z) (rs : list hrule) : list hrule :=
    filter (fun r => match r with RSrc _ q _ _ | RDst _ _ _ q _ => negb (q =? p) | RHair _ _ _ _ => true end) rs.

  Record istate := { is_l : lstate; is_rules : list hrule }.
  Definition istate_init : istate := {| is_l := lstate_init; is_rules := [] |}.

  (** The controller's answer is applied by the switch. *)
  Definition answered (st : istate) (r : option (lstate * list host_msg)) : option istate :=
    match r with
    | None => None
    | Some (s, ms) => Some {| is_l := s; is_rules := fold_left apply_host_msg ms (is_rules st) |}
    end.

  Inductive ievent :=
  | IPacket (now vid port mac : Z)   (** a frame of a host is sent to the controller *)
  | IIdle (now : Z) (r : hrule)      (** the switch drops [r], unused for its idle timeout *)
  | IPortUp (now port : Z)
  | IPortDown (now port : Z)
  | ICold (now : Z).                 (** connecting: the switch is emptied *)

  Definition istep (st : istate) (ev : ievent) : option istate :=
    match ev with
    | IPacket now vid p mac => answered st (idle_rcv_packet (is_l st) now vid p mac)
    | IIdle now r =>
        if in_dec hrule_eq_dec r (is_rules st) then
          if rule_idle r =? 0 then Some st
          else answered {| is_l := is_l st; is_rules := remove hrule_eq_dec r (is_rules st) |}
                 (flow_timeout (is_l st) now (rule_table r) (rule_match r))
        else Some st
    | IPortUp now p => answered st (lstep cfg (is_l st) (LPortUp now p))
    | IPortDown now p =>
        answered {| is_l := is_l st; is_rules := del_port_rules p (is_rules st) |} (lstep cfg (is_l st) (LPortDown now p))
    | ICold now => answered {| is_l := is_l st; is_rules := [] |} (lstep cfg (is_l st) (LColdStart now))
    end.

  Fixpoint irun (st : istate) (evs : list ievent) : option istate :=
    match evs with
    | [] => Some st
    | ev :: r => match istep st ev with None => None | Some st' => irun st' r end
    end.
End Idle.
