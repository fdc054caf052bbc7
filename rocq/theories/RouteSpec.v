(** * What routing must do

    The notions the routing theorems are stated with: the route table as a map,
    the histories of a router, what a FIB entry serves and where it sends packets.
    Nothing here uses how the route manager works. *)

From Coq Require Import ZArith List Bool Permutation.
From Verif Require Import PyBase OpenFlow TableModel ReorderModel IpModel IpSpec RouteModel.
Import ListNotations.
Open Scope Z_scope.

(** ** The route table *)

(** Additions and deletions of routes of one VLAN, oldest first. *)
Inductive rop := OAdd (dst : net) (gw : ip) | ODel (dst : net).

(** The gateway of [d]: that of the latest addition not followed by a deletion. *)
Fixpoint gateway_of (d : net) (ops : list rop) (before : option ip) : option ip :=
  match ops with
  | [] => before
  | OAdd d' g :: r => gateway_of d r (if net_eqb d d' then Some g else before)
  | ODel d' :: r => gateway_of d r (if net_eqb d d' then None else before)
  end.

(** The route of [d] in a RIB. *)
Definition route (r : rib) (d : net) (g : ip) : Prop := In (d, g) (r_routes r).
(** The gateway [g] is known to be at MAC [e]. *)
Definition resolved (r : rib) (g : ip) (e : Z) : Prop :=
  exists n, In (g, n) (r_neigh r) /\ nh_eth n = Some e.
(** [d] is among the destinations that are set up anew when [g] is heard of. *)
Definition filed (r : rib) (d : net) (g : ip) : Prop := exists l, In (g, l) (r_gws r) /\ In d l.
(** The gateways that the periodic resolver works on: those of routes, and hosts. *)
Definition watched_route (r : rib) (g : ip) : Prop := In g (r_route_gws r).
Definition watched_host (r : rib) (g : ip) : Prop := In g (r_host_gws r).

(** ** Valid configurations *)

Definition configured (c : rconf) (v : Z) : Prop := In v (map vl_id (rc_vlans c)).

Record route_cfg (c : rconf) : Prop := {
  rk_ver : rc_ver c = 4 \/ rc_ver c = 6;
  rk_ids : NoDup (map vl_id (rc_vlans c));
  rk_vids : forall v, configured c v -> 1 <= v <= 0xfff;
  rk_vips : forall v p, In v (rc_vlans c) -> In p (vl_vips v) -> good_vip p;
  rk_routers : forall r v, In r (rc_routers c) -> In v r -> configured c v;
  rk_global : 0 <= rc_global c <= 0xfff;
  rk_table : tb_id (rc_fib c) <> OFPTT_ALL;
  rk_lowest : rc_lowest c < 0x3000;
  rk_timeout : 0 < rc_timeout c
}.

(** Addresses and networks of the IP version at hand. *)
Definition my_ip (c : rconf) (a : ip) : Prop := good_ip a /\ ip_ver a = rc_ver c.
Definition my_net (c : rconf) (n : net) : Prop := good_net n /\ n_ver n = rc_ver c.

Record env_ok (e : renv) : Prop := {
  eo_jitter : forall g r, 0 <= r -> 0 <= re_jitter e g r <= r;
  eo_shuffle : forall l, Permutation (re_shuffle e l) l
}.

Definition event_ok (c : rconf) (ev : revent) : Prop :=
  match ev with
  | RAdd _ gw dst => my_ip c gw /\ my_net c dst
  | RDel _ dst => my_net c dst
  | RPacket _ p => my_ip c (rp_src p) /\ my_ip c (rp_dst p) /\ match rp_kind p with PRequest t | PAdvert t => my_ip c t | _ => True end
  | _ => True
  end.

(** The static routes of the configuration. *)
Record static_ok (c : rconf) (static : Z -> list (net * ip)) : Prop := {
  so_conf : forall v, ~ configured c v -> static v = [];
  so_good : forall v d g, In (d, g) (static v) -> my_net c d /\ my_ip c g
}.

(** ** Histories *)

(** The route manager, the switch, and whether the switch is connected. *)
Record rworld := mkRworld { rw_st : rst; rw_sw : switch; rw_up : bool }.

(** Everything that can happen to a router, latest event first; [P] says which
    events happen in which states.  While the switch is disconnected its messages
    are lost; a switch may connect in any state.  Flows with a timeout may vanish
    at any time. *)
Inductive rreach (c : rconf) (static : Z -> list (net * ip)) (P : rst -> revent -> Prop)
  : list revent -> rworld -> Prop :=
| rr_start : forall s0, rreach c static P [] (mkRworld (start static) s0 false)
| rr_event : forall evs w e ev s ms sh ub out,
    rreach c static P evs w ->
    env_ok e -> event_ok c ev -> P (rw_st w) ev -> ev <> RConnect ->
    route_step c e ev (rw_st w) = Some (s, ms) ->
    (forall l, Permutation (sh l) l) -> valve_flowreorder sh ub ms = Some out ->
    rreach c static P (ev :: evs)
      (mkRworld s (if rw_up w then apply_msgs out (rw_sw w) else rw_sw w) (rw_up w))
| rr_connect : forall evs w e s ms sh ub out s0,
    rreach c static P evs w ->
    route_step c e RConnect (rw_st w) = Some (s, ms) ->
    (forall l, Permutation (sh l) l) -> valve_flowreorder sh ub ms = Some out ->
    rreach c static P (RConnect :: evs) (mkRworld s (apply_msgs out s0) true)
| rr_disconnect : forall evs w, rreach c static P evs w ->
    rreach c static P evs (mkRworld (rw_st w) (rw_sw w) false)
| rr_timeout : forall evs w f l1 l2,
    rreach c static P evs w ->
    sw_flows (rw_sw w) = l1 ++ f :: l2 -> f_hard f <> 0 \/ f_idle f <> 0 ->
    rreach c static P evs
      (mkRworld (rw_st w) (mkSwitch (l1 ++ l2) (sw_groups (rw_sw w)) (sw_meters (rw_sw w))) (rw_up w)).

(** No restriction on events. *)
Definition anything (_ : rst) (_ : revent) : Prop := True.

(** [a] is on a subnet that VLAN [v] is connected to. *)
Definition on_link (c : rconf) (v : Z) (a : ip) : Prop :=
  exists x p, In x (rc_vlans c) /\ vl_id x = v /\ In p (vl_vips x) /\ belongs a (vip_net p).

(** Routes are not replaced: a route is only added while no VLAN has a route to
    the same destination through another gateway, and the route to a single host
    on a connected subnet is that host itself. *)
Definition no_replacement (c : rconf) (s : rst) (ev : revent) : Prop :=
  match ev with
  | RAdd _ gw dst =>
      (forall v g, route (s v) dst g -> g = gw) /\ (forall h v, dst = host_net h -> on_link c v h -> gw = h)
  | _ => True
  end.
(** The same for the routes of the configuration, whose gateways are on connected
    subnets. *)
Record static_unique (c : rconf) (static : Z -> list (net * ip)) : Prop := {
  su_one : forall v v' d g g', In (d, g) (static v) -> In (d, g') (static v') -> g = g';
  su_host : forall v v' h g, In (host_net h, g) (static v) -> on_link c v' h -> g = h;
  su_link : forall v d g, In (d, g) (static v) -> on_link c v g
}.

(** ** Which routes there should be *)

(** No VLAN is in two routers. *)
Definition one_router (c : rconf) : Prop :=
  forall r r' v, In r (rc_routers c) -> In r' (rc_routers c) -> In v r -> In v r' -> r = r'.

(** A route given to VLAN [u] through [gw] belongs to VLAN [v]: [gw] is on a subnet
    of [v], which is [u] itself or in the router of [u]. *)
Definition gateway_vlan (c : rconf) (u : Z) (gw : ip) (v : Z) : Prop :=
  on_link c v gw /\
  ((exists r, In r (rc_routers c) /\ In u r /\ In v r) \/ (v = u /\ forall r, In r (rc_routers c) -> ~ In u r)).

(** The event sets or removes the route of VLAN [v] to [d]. *)
Definition supersedes (c : rconf) (v : Z) (d : net) (ev : revent) : Prop :=
  (exists u gw, ev = RAdd u gw d /\ gateway_vlan c u gw v) \/ ev = RDel v d.

(** After events [evs] (latest first) VLAN [v] should route [d] through [g]: this is
    what the latest event about it said, or else the configuration. *)
Inductive wants (c : rconf) (static : Z -> list (net * ip)) (v : Z) (d : net) : list revent -> ip -> Prop :=
| wt_static : forall g, gateway_of d (map (fun q => OAdd (fst q) (snd q)) (static v)) None = Some g -> wants c static v d [] g
| wt_add : forall evs u g, gateway_vlan c u g v -> wants c static v d (RAdd u g d :: evs) g
| wt_before : forall evs ev g, wants c static v d evs g -> ~ supersedes c v d ev -> wants c static v d (ev :: evs) g.

(** ** Resolving next hops *)

(** The MAC of [g] was learned less than the neighbour timeout ago. *)
Definition known_lately (c : rconf) (now : Z) (r : rib) (g : ip) : Prop :=
  exists n e, In (g, n) (r_neigh r) /\ nh_eth n = Some e /\ now - nh_cache n < rc_timeout c.
(** The time of the next attempt for [g] has not passed. *)
Definition must_wait (now : Z) (r : rib) (g : ip) : Prop :=
  exists n t, In (g, n) (r_neigh r) /\ nh_next n = Some t /\ now <= t.
(** [g] was tried [k] times since it was last heard of. *)
Definition tries (r : rib) (g : ip) (k : Z) : Prop := exists n, In (g, n) (r_neigh r) /\ nh_retries n = k.

(** The time to wait after the [k]-th attempt in a row: doubling, with up to [k]
    of jitter, up to the configured maximum. *)
Definition waits (c : rconf) (k w : Z) : Prop := exists j, 0 <= j <= k /\ w = Z.min (2 ^ k + j) (rc_max_backoff c).

(** The event says something about [g]: a packet from, to or about it; a port
    going down or a connection makes the controller forget next hops. *)
Definition about (g : ip) (ev : revent) : Prop :=
  match ev with
  | RPacket _ p => rp_src p = g \/ rp_dst p = g \/ match rp_kind p with PRequest t | PAdvert t => t = g | _ => False end
  | RPortDown _ | RConnect => True
  | _ => False
  end.
(** The event takes place no later than [t]. *)
Definition by_then (t : Z) (ev : revent) : Prop :=
  match ev with RResolve now | RExpire now | RPacket now _ => now <= t | _ => True end.
(** A run of events, in order. *)
Inductive rrun (c : rconf) : rst -> list revent -> rst -> Prop :=
| rn_nil : forall s, rrun c s [] s
| rn_cons : forall s e ev s1 ms evs s2, env_ok e -> event_ok c ev -> route_step c e ev s = Some (s1, ms) ->
    rrun c s1 evs s2 -> rrun c s (ev :: evs) s2.

(** [m] asks for the MAC of [g]. *)
Definition request (e : renv) (v : Z) (g : ip) (m : ofmsg) : Prop :=
  (exists port, m = PacketOut [port] (re_unicast e v port g)) \/
  (exists q, In q (re_flood e v g) /\ m = PacketOut (fst q) (snd q)).

(** ** Packets and FIB entries *)

(** An IP packet in VLAN [u] to address [a], as it enters the FIB table. *)
Definition ip_packet (c : rconf) (u : Z) (a : ip) (p : packet) : Prop :=
  (exists pcp r, pk_tags p = (u, pcp) :: r) /\ pk_hdr p EthType = Some (if rc_ver c =? 4 then 0x0800 else 0x86dd) /\ pk_hdr p (if rc_ver c =? 4 then Ipv4Dst else Ipv6Dst) = Some (ip_val a).

(** Flow [f] is the FIB entry for destination [d] in VLAN [u]: it applies to the
    packets in [u] to addresses in [d] and no other packets. *)
Definition serves (c : rconf) (f : flow) (u : Z) (d : net) : Prop :=
  f_table f = tb_id (rc_fib c) /\ forall u' a p, 0 <= u' <= 0xfff -> my_ip c a -> ip_packet c u' a p ->
    (matches p (f_match f) = true <-> u' = u /\ belongs a d).

(** [m] deletes the FIB entry of the host [g]. *)
Definition forget_host (c : rconf) (g : ip) (m : ofmsg) : Prop :=
  exists w, m = FlowMod w /\ fm_cmd w = FDeleteStrict /\ exists u, serves c (flow_of w) u (host_net g).

(** A request for [g] in VLAN [v] has nowhere to go: the VLAN has no ports for it,
    or no subnet of the VLAN contains [g]. *)
Definition nowhere (c : rconf) (e : renv) (v : Z) (g : ip) : Prop := re_flood e v g = [] \/ ~ on_link c v g.
(** After an attempt the number of tries is up by one, and the next attempt has to
    wait ... *)
Definition backs_off (c : rconf) (now : Z) (r : rib) (g : ip) (k : Z) (r' : rib) : Prop :=
  exists w n', waits c (k + 1) w /\ In (g, n') (r_neigh r') /\ nh_retries n' = k + 1 /\ nh_next n' = Some (now + w).
(** ... or, for a host that was tried too often, the host is forgotten. *)
Definition backs_off_or_gone (c : rconf) (now : Z) (r : rib) (g : ip) (k : Z) (r' : rib) : Prop :=
  if rc_max_retries c <=? k then forall n, ~ In (g, n) (r_neigh r') else backs_off c now r g k r'.

(** The outcome of a resolution cycle of VLAN [v] over the next hops [W] that sent
    [ms] and tried [tr], in this order. *)
Record cycle (c : rconf) (e : renv) (now v : Z) (W : list ip) (r r' : rib) (ms : list ofmsg) (tr : list ip)
       (msg : ip -> ofmsg -> Prop) (excused : ip -> Z -> Prop) (after : Z -> rib -> ip -> Z -> rib -> Prop) : Prop := {
  cy_bound : 0 <= rc_max_hosts c -> Z.of_nat (length tr) <= rc_max_hosts c;
  cy_nodup : NoDup tr;
  cy_due : forall g, In g tr -> In g W /\ ~ known_lately c now r g /\ ~ must_wait now r g;
  cy_order : forall pre g post, tr = pre ++ g :: post -> forall g' k k', In g' pre -> tries r g' k -> tries r g k' -> k <= k';
  cy_fewest : forall g g' k k', In g tr -> tries r g k -> In g' W -> tries r g' k' -> k' < k ->
    ~ known_lately c now r g' -> ~ must_wait now r g' -> In g' tr \/ excused g' k';
  cy_msgs : forall m, In m ms -> exists g, In g tr /\ msg g m;
  cy_sent : forall g, In g tr -> exists m, In m ms /\ msg g m;
  cy_after : forall g k, In g tr -> tries r g k -> after now r g k r';
  cy_change : forall g k k', tries r g k -> tries r' g k' -> k' = k \/ backs_off c now r g k r';
  cy_rest : forall g, known_lately c now r g \/ must_wait now r g -> forall n, In (g, n) (r_neigh r) <-> In (g, n) (r_neigh r')
}.

(** [f] sends packets on to layer 2, in VLAN [v], from the router's MAC [mac] to
    the MAC [e], and leaves everything else alone. *)
Definition forwards (c : rconf) (f : flow) (v mac e : Z) : Prop :=
  forall groups live u a p, ip_packet c u a p ->
    exists p', exec_insts groups live (f_inst f) p = ([], p', Some (rc_out c)) /\ pk_in p' = pk_in p /\ pk_tags p' = match pk_tags p with
                   | (x, pcp) :: r => (match rc_routers c with [] => x | _ => v end, pcp) :: r
                   | [] => []
                   end /\ pk_hdr p' EthDst = Some e /\ pk_hdr p' EthSrc = Some mac /\ forall h, h <> EthDst -> h <> EthSrc -> pk_hdr p' h = pk_hdr p h.

(** [f] sends packets to the table that handles traffic for the router itself. *)
Definition to_router (c : rconf) (f : flow) : Prop := f_inst f = [Goto (rc_vip_table c)].
(** [f] drops packets. *)
Definition drops (f : flow) : Prop := f_inst f = [].

(** The VLANs whose packets are routed by the RIB of VLAN [v]: the global VLAN if
    there is one router and a global VLAN, and otherwise [v] and the VLANs that
    share a router with it. *)
Definition routed_from (c : rconf) (v u : Z) : Prop :=
  if negb (rc_global c =? 0) && (Z.of_nat (length (rc_routers c)) =? 1) then u = rc_global c
  else u = v \/ exists r, In r (rc_routers c) /\ In v r /\ In u r.

(** The subnets of different VLANs that are routed together do not overlap. *)
Definition subnets_apart (c : rconf) : Prop :=
  forall v v' u a, configured c v -> configured c v' -> routed_from c v u -> routed_from c v' u ->
    my_ip c a -> on_link c v a -> on_link c v' a -> v = v'.
