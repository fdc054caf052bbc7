(** * Host learning on one datapath

    Transcription of the learning decision of
    /repo/faucet/valve_switch_standalone.py (691-1131, 1377-1384) and its caller
    /repo/faucet/valve.py ([learn_host] 1111-1141, [_vlan_rcv_packet] 1448-1464,
    [state_expire] 1507-1533, [ports_add]/[ports_delete] 845-933, [del_vlan]
    454-462).

    Simplifications: a port is its number and its configuration is a function of
    it; times are integers; [hash(eth_dst)] is an arbitrary function; the
    OpenFlow messages produced are the symbolic [host_msg]s below, which
    [L2Model] turns into flow-mods.  Logging, notification and metrics are left
    out.  Routing ([router_rcv_packet]) is modelled elsewhere. *)

From Coq Require Import List Bool ZArith.
From Verif Require Import PyBase HostCacheSpec HostCacheModel.
Import ListNotations.
Open Scope Z_scope.

(** What the learning code asks the switch to do, one per flow-mod. *)
Inductive host_msg :=
| MDelHost (vid mac : Z)                        (** [delete_host_from_vlan] 742-752 *)
| MSrc (vid port mac hard idle : Z)             (** eth_src rule, 822-840 *)
| MDst (vid port mac idle : Z)                  (** eth_dst rule, 848-871 *)
| MDstNonExt (vid port mac idle : Z)            (** eth_dst rule for non-external frames, 873-884 *)
| MHairpin (vid port mac idle : Z)              (** hairpin rule, 890-900 *)
| MBanPort (port : Z)                           (** temporary drop of unknown sources, by port *)
| MBanVlan (vid : Z)                            (** the same, by VLAN *)
| MFilter (mac port : Z).                       (** drop a permanent host seen elsewhere, 913-919 *)

(** The part of the DP, port and VLAN configuration learning looks at. *)
Record lcfg := {
  c_timeout : Z;              (** dp.timeout *)
  c_guard : Z;                (** dp.cache_update_guard_time *)
  c_jitter : Z;               (** dp.learn_jitter *)
  c_idle_dst : bool;          (** dp.idle_dst *)
  c_externals : bool;         (** has_externals *)
  c_perm : Z -> bool;         (** port.permanent_learn *)
  c_loop : Z -> bool;         (** port.loop_protect *)
  c_lacp : Z -> Z;            (** port.lacp, 0 when unset *)
  c_pmax : Z -> Z;            (** port.max_hosts *)
  c_hairpin : Z -> bool;      (** port.hairpin or port.hairpin_unicast *)
  c_loop_ext : Z -> bool;     (** port.loop_protect_external *)
  c_pvlans : Z -> list Z;     (** VIDs of port.vlans() *)
  c_vmax : Z -> Z;            (** vlan.max_hosts *)
  c_hash : Z -> Z;            (** hash(eth_src) *)
}.

(** The dynamic state learning reads and writes. *)
Record lstate := {
  s_cache : Z -> hcache;          (** by VID: VLAN host caches *)
  s_upd : Z -> option Z;          (** port.dyn_update_time *)
  s_ban : Z -> option Z;          (** port.dyn_last_ban_time *)
  s_expired : Z -> option Z;      (** vlan.dyn_last_time_hosts_expired *)
  s_cold : option Z;              (** dp.dyn_last_coldstart_time *)
}.

Definition upd {A} (k : Z) (v : A) (f : Z -> A) : Z -> A := fun x => if x =? k then v else f x.

Definition with_cache (s : lstate) (vid : Z) (c : hcache) : lstate :=
  {| s_cache := upd vid c (s_cache s); s_upd := s_upd s; s_ban := s_ban s;
     s_expired := s_expired s; s_cold := s_cold s |}.

Definition with_ban (s : lstate) (b : Z -> option Z) : lstate :=
  {| s_cache := s_cache s; s_upd := s_upd s; s_ban := b;
     s_expired := s_expired s; s_cold := s_cold s |}.

Definition with_upd (s : lstate) (u : Z -> option Z) : lstate :=
  {| s_cache := s_cache s; s_upd := u; s_ban := s_ban s;
     s_expired := s_expired s; s_cold := s_cold s |}.

Definition lstate_init : lstate :=
  {| s_cache := fun _ => hc_init; s_upd := fun _ => None; s_ban := fun _ => None;
     s_expired := fun _ => None; s_cold := None |}.

Section Learn.
  Variable cfg : lcfg.

  (** port.py:519-527 [Port.hosts_count] (over all the port's VLANs) *)
  Definition port_hosts_count (s : lstate) (p : Z) : Z :=
    fold_right Z.add 0
      (map (fun vid => cached_hosts_count_on_port (s_cache s vid) p) (c_pvlans cfg p)).

  (** valve_switch_standalone.py:691-735 [ban_rules] *)
  Definition ban_rules (s : lstate) (vid p mac : Z) : list host_msg :=
    match cached_host (s_cache s vid) mac with
    | Some _ => []
    | None =>
        (if negb (c_pmax cfg p =? 0) && (port_hosts_count s p =? c_pmax cfg p)
         then [MBanPort p] else []) ++
        (if negb (c_vmax cfg vid =? 0) && (hosts_count (s_cache s vid) =? c_vmax cfg vid)
         then [MBanVlan vid] else [])
    end.

  (** valve_switch_standalone.py:765-776 [_jitter_learn_timeout]; Python's [%]
      has the sign of the divisor, as [Z.modulo] has. *)
  Definition jitter_learn_timeout (base p mac : Z) : Z :=
    if c_perm cfg p then 0
    else if base =? 0 then 0
    else
      let jitter := c_hash cfg mac mod c_jitter cfg in
      let min_learn_timeout := base - c_jitter cfg in
      Z.max (Z.abs (min_learn_timeout + jitter)) (c_guard cfg).

  (** valve_switch_standalone.py:778-796 [_learn_host_timeouts]:
      (src idle, src hard, dst idle) *)
  Definition learn_host_timeouts (p mac : Z) : Z * Z * Z :=
    let learn_timeout := jitter_learn_timeout (c_timeout cfg) p mac in
    (0, learn_timeout, if c_idle_dst cfg then learn_timeout + c_guard cfg else 0).

  (** valve_switch_standalone.py:1416-1429
      [ValveSwitchFlowRemovedManager._learn_host_timeouts] *)
  Definition learn_host_timeouts_removed (p mac : Z) : Z * Z * Z :=
    let learn_timeout := jitter_learn_timeout (c_timeout cfg) p mac in
    (learn_timeout, 0, learn_timeout + c_guard cfg).

  (** valve_switch_standalone.py:803-898 [learn_host_on_vlan_port_flows] *)
  Definition learn_flows (p vid mac : Z) (delete_existing refresh_rules : bool)
      (t : Z * Z * Z) : list host_msg :=
    let '(src_idle, src_hard, dst_idle) := t in
    (if delete_existing then [MDelHost vid mac] else []) ++
    [MSrc vid p mac src_hard src_idle] ++
    (if refresh_rules && negb (c_hairpin cfg p) then []
     else
       [MDst vid p mac dst_idle] ++
       (if c_externals cfg && negb (c_loop_ext cfg p) then [MDstNonExt vid p mac dst_idle] else []) ++
       (if c_hairpin cfg p then [MHairpin vid p mac dst_idle] else [])).

  (** What a learn check returns (the tuple of 900-1072); [ck_ban] is the
      assignment to [port.dyn_last_ban_time]. *)
  Record check := {
    ck_exit : bool;
    ck_msgs : list host_msg;
    ck_update : bool;
    ck_delete : bool;
    ck_refresh : bool;
    ck_ban : option Z;
  }.

  (** valve_switch_standalone.py:900-931 [_perm_learn_check] *)
  Definition perm_learn_check (e : option entry) (mac p : Z) (del refresh : bool) : check :=
    match e with
    | Some x =>
        if c_perm cfg (e_port x) then
          {| ck_exit := true;
             ck_msgs := if e_port x =? p then [] else [MFilter mac p];
             ck_update := false; ck_delete := del; ck_refresh := refresh; ck_ban := None |}
        else {| ck_exit := false; ck_msgs := []; ck_update := true;
                ck_delete := del; ck_refresh := refresh; ck_ban := None |}
    | None => {| ck_exit := false; ck_msgs := []; ck_update := true;
                 ck_delete := del; ck_refresh := refresh; ck_ban := None |}
    end.

  (** valve_switch_standalone.py:933-976 [_learn_cache_check] *)
  Definition learn_cache_check (s : lstate) (now : Z) (e : option entry) (p : Z)
      (del refresh : bool) : check :=
    match e with
    | None => {| ck_exit := false; ck_msgs := []; ck_update := true;
                 ck_delete := del; ck_refresh := refresh; ck_ban := None |}
    | Some x =>
        let same_lag := negb (c_lacp cfg p =? 0) && (c_lacp cfg p =? c_lacp cfg (e_port x)) in
        if (e_port x =? p) || same_lag then
          let valid := match s_upd s p with None => false | Some u => u <=? e_time x end in
          let guard := if same_lag then 2 else c_guard cfg in
          if (now - e_time x <? guard) && valid then
            {| ck_exit := true; ck_msgs := []; ck_update := false;
               ck_delete := del; ck_refresh := refresh; ck_ban := None |}
          else
            {| ck_exit := false; ck_msgs := []; ck_update := true;
               ck_delete := false; ck_refresh := if valid then true else refresh; ck_ban := None |}
        else {| ck_exit := false; ck_msgs := []; ck_update := true;
                ck_delete := del; ck_refresh := refresh; ck_ban := None |}
    end.

  (** valve_switch_standalone.py:978-1030 [_loop_protect_check] ([if
      port.dyn_last_ban_time] is false for the time 0) *)
  Definition loop_protect_check (s : lstate) (now : Z) (e : option entry) (p : Z)
      (del refresh : bool) : check :=
    let banned :=
      match s_ban s p with
      | Some b => negb (b =? 0) && (now - b <? c_guard cfg)
      | None => false
      end in
    let rapid :=
      match e with
      | Some x => negb (p =? e_port x) && (now - e_time x <? c_guard cfg)
      | None => false
      end in
    if c_loop cfg p && (banned || rapid) then
      {| ck_exit := true; ck_msgs := [MBanPort p]; ck_update := true;
         ck_delete := del; ck_refresh := refresh; ck_ban := Some now |}
    else {| ck_exit := false; ck_msgs := []; ck_update := true;
            ck_delete := del; ck_refresh := refresh; ck_ban := None |}.

  (** valve_switch_standalone.py:1032-1072 [_learn_check] *)
  Definition learn_check (vid mac p : Z) (del refresh : bool) : check :=
    {| ck_exit := true;
       ck_msgs := learn_flows p vid mac del refresh (learn_host_timeouts p mac);
       ck_update := true; ck_delete := del; ck_refresh := refresh; ck_ban := None |}.

  (** valve_switch_standalone.py:1091-1099: is there possibly a stale host to
      delete? *)
  Definition delete_default (s : lstate) (vid : Z) (e : option entry) : bool :=
    match e with
    | Some _ => true
    | None =>
        match s_cold s with
        | None => true
        | Some t =>
            if t =? 0 then true
            else match s_expired s vid with
                 | None => false
                 | Some x => negb (x <? t)
                 end
        end
    end.

  (** valve_switch_standalone.py:1074-1131 [learn_host_on_vlan_ports]: the
      loop over the four checks, stopping at the first that exits. *)
  Definition learn_host_on_vlan_ports (s : lstate) (now p vid mac : Z) : check :=
    let e := cached_host (s_cache s vid) mac in
    let k1 := perm_learn_check e mac p (delete_default s vid e) false in
    if ck_exit k1 then k1 else
    let k2 := learn_cache_check s now e p (ck_delete k1) (ck_refresh k1) in
    if ck_exit k2 then k2 else
    let k3 := loop_protect_check s now e p (ck_delete k2) (ck_refresh k2) in
    if ck_exit k3 then k3 else
    learn_check vid mac p (ck_delete k3) (ck_refresh k3).

  (** valve.py:1111-1141 [learn_host] with the standalone manager's
      [edge_learn_port] (674-684, the receiving port).  [None]: an exception. *)
  Definition learn_host (s : lstate) (now vid p mac : Z) : option (lstate * list host_msg) :=
    let k := learn_host_on_vlan_ports s now p vid mac in
    let s1 := match ck_ban k with
              | Some t => with_ban s (upd p (Some t) (s_ban s))
              | None => s
              end in
    if ck_update k then
      match add_cache_host mac p now (s_cache s1 vid) with
      | None => None
      | Some c => Some (with_cache s1 vid c, ck_msgs k)
      end
    else Some (s1, ck_msgs k).

  (** valve.py:1448-1464 [_vlan_rcv_packet] for a packet sent up by a flow
      (reason OFPR_ACTION): no learning if a limit is reached. *)
  Definition vlan_rcv_packet (s : lstate) (now vid p mac : Z) : option (lstate * list host_msg) :=
    match ban_rules s vid p mac with
    | [] => learn_host s now vid p mac
    | bans => Some (s, bans)
    end.

  (** valve.py:837-842: [clear_cache_hosts_on_port] on each VLAN of the port *)
  Fixpoint clear_vlans (s : lstate) (p : Z) (vids : list Z) : option lstate :=
    match vids with
    | [] => Some s
    | v :: r =>
        match clear_cache_hosts_on_port p (s_cache s v) with
        | None => None
        | Some c => clear_vlans (with_cache s v c) p r
        end
    end.

  (** valve_switch_standalone.py:754-763 [expire_hosts_from_vlan] *)
  Definition expire_hosts_from_vlan (s : lstate) (now vid : Z) : option (lstate * list entry) :=
    match expire_cache_hosts (c_perm cfg) now (c_timeout cfg) (s_cache s vid) with
    | None => None
    | Some (c, ex) =>
        let s1 := with_cache s vid c in
        Some ({| s_cache := s_cache s1; s_upd := s_upd s1; s_ban := s_ban s1;
                 s_expired := match ex with [] => s_expired s1 | _ => upd vid (Some now) (s_expired s1) end;
                 s_cold := s_cold s1 |}, ex)
    end.

  (** valve.py:1518-1527: the host part of [state_expire] for one VLAN *)
  Definition state_expire_vlan (s : lstate) (now vid : Z) : option (lstate * list host_msg) :=
    match expire_hosts_from_vlan s now vid with
    | None => None
    | Some (s1, ex) =>
        Some (s1, if c_idle_dst cfg then [] else map (fun e => MDelHost vid (e_mac e)) ex)
    end.

  (** What can happen to the learning state. *)
  Inductive levent :=
  | LPacket (now vid port mac : Z)   (** a frame from a host is sent to the controller *)
  | LExpire (now vid : Z)            (** the periodic expiry, VLAN by VLAN *)
  | LPortUp (now port : Z)           (** valve.py:531-541, 845-885 *)
  | LPortDown (now port : Z)         (** valve.py:897-933 (not keeping the cache) *)
  | LVlanReset (vid : Z)             (** valve.py:454-462 [del_vlan] *)
  | LColdStart (now : Z)             (** dp.py:347-349, valve.py:804-816 *)
  | LStackLearn (now vid port mac : Z)
      (** valve_switch_stack.py:546-561: a stacked neighbour learned a host
          and calls [learn_host] here directly, on the port towards it. *).

  Definition lstep (s : lstate) (ev : levent) : option (lstate * list host_msg) :=
    match ev with
    | LPacket now vid p mac => vlan_rcv_packet s now vid p mac
    | LExpire now vid => state_expire_vlan s now vid
    | LPortUp now p => Some (with_upd s (upd p (Some now) (s_upd s)), [])
    | LPortDown now p =>
        match clear_vlans (with_upd s (upd p (Some now) (s_upd s))) p (c_pvlans cfg p) with
        | None => None
        | Some s' => Some (s', [])
        end
    | LVlanReset vid => Some (with_cache s vid (reset_caches (s_cache s vid)), [])
    | LColdStart now =>
        Some ({| s_cache := fun v => reset_caches (s_cache s v); s_upd := s_upd s; s_ban := s_ban s;
                 s_expired := s_expired s; s_cold := Some now |}, [])
    | LStackLearn now vid p mac => learn_host s now vid p mac
    end.

  Fixpoint lrun (s : lstate) (evs : list levent) : option lstate :=
    match evs with
    | [] => Some s
    | ev :: r => match lstep s ev with None => None | Some (s', _) => lrun s' r end
    end.
End Learn.
