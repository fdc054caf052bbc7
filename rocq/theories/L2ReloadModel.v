(** * Reloading the configuration of a standalone datapath

    Transcription of /repo/faucet/dp.py 334-343, 1402-1459, 1477-1507 and
    1538-1682, valve.py 446-467, 1558-1716, port.py 297-306, conf.py 166-176 and
    valve_switch_standalone.py 542-548: what changed between two configurations,
    and the messages that take the switch from the old one to the new one without
    restarting it.

    Simplifications: the datapath-level settings are those of the old
    configuration (a change there is a cold start, dp.py 1722-1738); no ACLs,
    meters, stacking or routing.  Settings of ports and VLANs that the model does
    not have may also change: [xp] and [xv] list the ports and VLANs of which
    that is so.  Ports name their VLANs by VID, where the code compares the names
    in their configuration.  Sets are kept in configuration order. *)
From Coq Require Import List Bool ZArith.
From Verif Require Import PyBase OpenFlow TableModel FloodModel FloodRulesModel HostCacheModel LearnModel L2Model.
Import ListNotations.
Open Scope Z_scope.

(** The new configuration: other ports and VLANs, the same datapath settings. *)
Definition reconf (cfg : dconf) (ps : list pconf) (vs : list vconf) : dconf :=
  mkDconf ps vs (d_tvlan cfg) (d_tsrc cfg) (d_thp cfg) (d_tdst cfg) (d_tflood cfg) (d_mode cfg)
    (d_lowest cfg) (d_high cfg) (d_highest cfg) (d_timeout cfg) (d_guard cfg) (d_jitter cfg) (d_idle_dst cfg)
    (d_ban_timeout cfg) (d_lacp_timeout cfg) (d_drop_spoof cfg) (d_drop_bcast cfg) (d_hash cfg).

Definition pconf_eq_dec : forall a b : pconf, {a = b} + {a <> b}.
Proof. decide equality; first [apply Z.eq_dec | apply bool_dec | apply (list_eq_dec Z.eq_dec) | decide equality; apply Z.eq_dec]. Defined.
Definition vconf_eq_dec : forall a b : vconf, {a = b} + {a <> b}.
Proof. decide equality; first [apply Z.eq_dec | apply bool_dec]. Defined.

(** What a port's own configuration says: mirroring is configured on the port
    that receives the copies (dp.py 1017-1038). *)
Definition own_conf (p : pconf) : pconf :=
  mkPconf (pc_num p) (pc_enabled p) (pc_native p) (pc_tagged p) (pc_hairpin p) (pc_hairpin_unicast p)
    (pc_unicast_flood p) (pc_lacp p) (pc_force_sel p) (pc_force_unsel p) (pc_ext p) (pc_restricted p) []
    (pc_perm p) (pc_loop p) (pc_max_hosts p) (pc_opstatus p) (pc_count_miss p) (pc_output_only p) (pc_lldp p).

Definition port_nums (cfg : dconf) : list Z := map pc_num (d_ports cfg).
Definition vlan_vids (cfg : dconf) : list Z := map vc_vid (d_vlans cfg).

Section Changes.
  Variables (xp xv : list Z) (cfg cfg' : dconf).

  (** dp.py 1417-1437, one port: in [same_confs] *)
  Definition same_port (n : Z) : bool :=
    match find_port cfg n, find_port cfg' n with
    | Some p, Some p' => negb (memZ n xp) && if pconf_eq_dec (own_conf p) (own_conf p') then true else false
    | _, _ => false
    end.
  (** the same for a VLAN *)
  Definition same_vlan (vid : Z) : bool :=
    match find_vlan cfg vid, find_vlan cfg' vid with
    | Some v, Some v' => negb (memZ vid xv) && if vconf_eq_dec v v' then true else false
    | _, _ => false
    end.

  (** dp.py 1489-1503: VLANs that are gone, and VLANs added or changed *)
  Definition deleted_vids : list Z := filter (fun v => negb (memZ v (vlan_vids cfg'))) (vlan_vids cfg).
  Definition changed_vids0 : list Z := filter (fun v => negb (same_vlan v)) (vlan_vids cfg').
  (** dp.py 1558-1573 *)
  Definition deleted_ports : list Z := filter (fun n => negb (memZ n (port_nums cfg'))) (port_nums cfg).
  Definition added_ports : list Z := filter (fun n => negb (memZ n (port_nums cfg))) (port_nums cfg').
  Definition same_ports : list Z := filter same_port (port_nums cfg').
  (** dp.py 1595-1606: the changed ports, with the members of changed VLANs *)
  Definition changed_ports0 : list Z :=
    filter (fun n => (memZ n (port_nums cfg) && negb (same_port n))
                     || match find_port cfg' n with
                        | Some p' => existsb (fun v => memZ v changed_vids0) (port_vlans p')
                        | None => false
                        end) (port_nums cfg').
  (** dp.py 1592-1606: [all_ports_changed] *)
  Definition all_ports_changed : bool :=
    negb (nonempty same_ports)
    || (nonempty changed_vids0 && forallb (fun n => memZ n changed_ports0) (port_nums cfg')).
  (** dp.py 1624-1632 [_add_changed_vlans] *)
  Definition vlan_moved (vid n : Z) : bool :=
    match find_port cfg n, find_port cfg' n with
    | Some p, Some p' => xorb (memZ vid (port_vlans p)) (memZ vid (port_vlans p'))
    | _, _ => false
    end.
  Definition on_port (c : dconf) (vid n : Z) : bool :=
    match find_port c n with Some p => memZ vid (port_vlans p) | None => false end.
  (** dp.py 1634-1645, 1665: every VLAN that is rebuilt *)
  Definition changed_vids : list Z :=
    filter (fun v => memZ v changed_vids0 || existsb (vlan_moved v) changed_ports0
                     || existsb (on_port cfg v) deleted_ports || existsb (on_port cfg' v) added_ports)
           (vlan_vids cfg').
  (** dp.py 1646-1655: and the ports that are mirrored differently *)
  Definition mirror_changed (n : Z) : bool :=
    match find_port cfg n, find_port cfg' n with
    | Some p, Some p' => same_port n && if list_eq_dec Z.eq_dec (pc_mirror p) (pc_mirror p') then false else true
    | _, _ => false
    end.
  Definition changed_ports : list Z :=
    filter (fun n => memZ n changed_ports0 || mirror_changed n) (port_nums cfg').

  Definition ports_of (c : dconf) (ns : list Z) : list pconf := filter (fun p => memZ (pc_num p) ns) (d_ports c).

  (** valve.py 452-467 [del_vlans], valve_switch_standalone.py 542-548 [del_vlan];
      with the tables of [c] *)
  Definition del_vlan_ofmsgs (c : dconf) (vid : Z) : list ofmsg :=
    [FlowMod (tb_del (d_tflood c) FDelete 0 [vlan_item vid] OFPP_ANY);
     FlowMod (tb_del (d_tsrc c) FDelete LOW_PRIORITY [vlan_item vid] OFPP_ANY)].
  Definition reset_vlan (st : dstate) (vid : Z) : dstate :=
    set_learn st (with_cache (ds_learn st) vid (reset_caches (s_cache (ds_learn st) vid))).
  Definition del_vlans (c : dconf) (st : dstate) (vids : list Z) : dstate * list ofmsg :=
    (fold_left reset_vlan vids st, flat_map (del_vlan_ofmsgs c) vids).

  (** dp.py 334-343 and port.py 297-306 [clone_dyn_state], conf.py 174-176
      [merge_dyn]: what the new configuration's objects know.  [st0] is the state
      when the changes were computed, [st] the state when the new configuration
      takes over; a VLAN that is the same keeps its host cache (both objects share
      it). *)
  Definition carry_over (st0 st : dstate) : dstate :=
    let l := ds_learn st in
    let known n := memZ n (port_nums cfg) in
    mkDstate
      {| s_cache := fun v => if same_vlan v then s_cache l v else hc_init;
         s_upd := fun n => if known n then s_upd l n else None;
         s_ban := fun n => if same_port n then s_ban l n else None;
         s_expired := fun v => if same_vlan v then s_expired l v else None;
         s_cold := s_cold l |}
      (fun n => known n && ds_phys st n)
      (fun n => if same_port n then ds_actor st0 n else ANotConfigured)
      (fun n => if same_port n then ds_role st0 n else RNotConfigured)
      (fun n => if same_port n then ds_ltime st0 n else None)
      (ds_running st) (ds_up st).

  Inductive restart := RestartNone | RestartWarm | RestartCold.
  (** valve.py 1558-1571 (with the hairpin table there or not), 1610-1634 *)
  Definition restart_type : restart :=
    if negb (eqb (has_hairpin cfg) (has_hairpin cfg')) || all_ports_changed then RestartCold
    else if nonempty deleted_ports || nonempty changed_ports || nonempty added_ports
            || nonempty deleted_vids || nonempty changed_vids then RestartWarm
    else RestartNone.

  (** valve.py 1636-1680 *)
  Definition warm_reload (st : dstate) : option (dstate * list ofmsg) :=
    match ports_delete cfg false None st (ports_of cfg deleted_ports) with
    | None => None
    | Some (st1, m1) =>
        match ports_delete cfg false None st1 (ports_of cfg changed_ports) with
        | None => None
        | Some (st2, m2) =>
            let '(st3, m3) := del_vlans cfg st2 deleted_vids in
            let st4 := carry_over st st3 in
            let is_up n := memZ n (ds_up st4) in
            let '(st5, m5) := ports_add cfg' false st4 (ports_of cfg' (filter is_up added_ports)) in
            let '(st6, m6) := ports_add cfg' false st5 (ports_of cfg' (filter is_up changed_ports)) in
            let '(st7, m7) := del_vlans cfg' st6 changed_vids in
            Some (st7, m1 ++ m2 ++ m3 ++ m5 ++ m6 ++ m7 ++ add_vlans cfg' st7 true changed_vids)
        end
    end.

  (** valve.py 1682-1716 [reload_config].  [None] for the messages: the switch is
      made to reconnect.  A switch that is not connected is sent nothing. *)
  Definition reload_config (st : dstate) : option (dstate * option (list ofmsg)) :=
    match restart_type with
    | RestartCold => Some (carry_over st st, None)
    | RestartNone => Some (carry_over st st, Some [])
    | RestartWarm =>
        match warm_reload st with
        | None => None
        | Some (st', ms) => Some (st', Some (if ds_running st' then ms else []))
        end
    end.
End Changes.
