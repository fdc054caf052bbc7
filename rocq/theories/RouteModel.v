(** * Routing: /repo/faucet/valve_route.py, vlan.py and router.py

    One route manager, i.e. one IP version ([rc_ver]); the VIP tables and all
    other tables than the FIB are not modelled here.  Log messages, notifications
    and metrics are left out. *)

From Coq Require Import ZArith List Bool.
From Verif Require Import PyBase OpenFlow TableModel IpModel.
From Verif Require TrimModel.
Import ListNotations.
Open Scope Z_scope.

(** ** Configuration *)

(** vlan.py 40-130: what routing uses of a VLAN.  [vl_vips] is the frozenset
    [faucet_vips] in its iteration order (both IP versions); [vl_limit] is
    [proactive_arp_limit] or [proactive_nd_limit]; [vl_ports] are the ports whose
    [port.vlans()] include the VLAN. *)
Record vlan := mkVlan {
  vl_id : Z; vl_mac : Z; vl_vips : list vip; vl_targeted : bool; vl_limit : option Z; vl_ports : list Z
}.

(** valve_route.py 124-160 (__init__).  [rc_routers]: the routers in dictionary
    order, each the list of its VLAN ids; [rc_global]: the VID of the global VLAN
    (0: none). *)
Record rconf := mkRconf {
  rc_ver : Z;
  rc_vlans : list vlan;
  rc_routers : list (list Z);
  rc_global : Z;
  rc_fib : table; rc_out : Z; rc_vip_table : Z;
  rc_lowest : Z;
  rc_dec_ttl : bool; rc_proactive : bool;
  rc_timeout : Z;          (* neighbor_timeout *)
  rc_max_hosts : Z;        (* max_hosts_per_resolve_cycle *)
  rc_max_retries : Z;      (* max_host_fib_retry_count *)
  rc_max_backoff : Z       (* max_resolve_backoff_time *)
}.

Definition no_vlan (v : Z) : vlan := mkVlan v 0 [] false None [].
Definition get_vlan (c : rconf) (v : Z) : vlan :=
  match find (fun x => vl_id x =? v) (rc_vlans c) with Some x => x | None => no_vlan v end.

(** What the network, the random number generator and set iteration contribute to
    one event: the packets that flood a resolution request on a VLAN (none if no
    port is up), the packet sent to one port, [random.randint(0, r)] for the
    retry of a gateway, [random.shuffle], and the blackhole timeout. *)
Record renv := mkRenv {
  re_flood : Z -> ip -> list (list Z * Z);
  re_unicast : Z -> Z -> ip -> Z;
  re_jitter : ip -> Z -> Z;
  re_shuffle : list ip -> list ip;
  re_hole : ip -> Z
}.

(** ** Next hops: valve_route.py 42-89 *)

Record nexthop := mkNexthop {
  nh_eth : option Z; nh_port : option Z; nh_cache : Z; nh_retries : Z; nh_last : option Z; nh_next : option Z
}.

(** lines 54-62 *)
Definition new_nexthop (eth port : option Z) (now : Z) : nexthop :=
  mkNexthop eth port now 0 None (match eth with None => Some now | Some _ => None end).

(** lines 68-70 *)
Definition nh_dead (max : Z) (n : nexthop) : bool := max <=? nh_retries n.

(** lines 72-79; [jit] is random.randint(0, resolve_retries) *)
Definition next_retry (jit : Z -> Z) (now max : Z) (n : nexthop) : nexthop :=
  let r := nh_retries n + 1 in
  mkNexthop (nh_eth n) (nh_port n) (nh_cache n) r (Some now) (Some (now + Z.min (2 ^ r + jit r) max)).

(** lines 81-87 *)
Definition resolution_due (now max_age : Z) (n : nexthop) : bool :=
  if match nh_eth n with Some _ => now - nh_cache n <? max_age | None => false end then false
  else match nh_next n with None => true | Some t => t <? now end.

(** ** The RIB of a VLAN: vlan.py 183-187, 420-470 *)

Record rib := mkRib {
  r_routes : list (net * ip);      (* dyn_routes_by_ipv *)
  r_gws : list (ip * list net);    (* dyn_gws_by_ipv *)
  r_route_gws : list ip;           (* dyn_route_gws_by_ipv *)
  r_host_gws : list ip;            (* dyn_host_gws_by_ipv *)
  r_neigh : list (ip * nexthop);   (* dyn_neigh_cache_by_ipv *)
  r_todo_routes : list ip;         (* dyn_unresolved_route_ip_gws *)
  r_todo_hosts : list ip           (* dyn_unresolved_host_ip_gws *)
}.
Definition empty_rib : rib := mkRib [] [] [] [] [] [] [].

Definition set_neigh (n : list (ip * nexthop)) (r : rib) : rib :=
  mkRib (r_routes r) (r_gws r) (r_route_gws r) (r_host_gws r) n (r_todo_routes r) (r_todo_hosts r).

(** Python set operations *)
Definition set_add {A} (eqb : A -> A -> bool) (x : A) (l : list A) : list A :=
  if mem eqb x l then l else l ++ [x].
Definition set_remove {A} (eqb : A -> A -> bool) (x : A) (l : list A) : list A :=
  filter (fun y => negb (eqb x y)) l.

(** vlan.py 461-465 (ip_dsts_for_ip_gw) *)
Definition dsts_for_gw (r : rib) (gw : ip) : list net :=
  match dict_get ip_eqb gw (r_gws r) with Some l => l | None => [] end.

(** vlan.py 418-434 (is_host_fib_route) *)
Definition is_host_fib_route (r : rib) (h : ip) : bool :=
  match dsts_for_gw r h with
  | [d] => (n_len d =? width (n_ver d)) && (n_ver d =? ip_ver h) && (n_addr d =? ip_val h)
  | _ => false
  end.

(** vlan.py 436-443 (_update_gw_types) *)
Definition update_gw_types (gw : ip) (r : rib) : rib :=
  if is_host_fib_route r gw then
    mkRib (r_routes r) (r_gws r) (set_remove ip_eqb gw (r_route_gws r)) (set_add ip_eqb gw (r_host_gws r))
          (r_neigh r) (r_todo_routes r) (r_todo_hosts r)
  else
    mkRib (r_routes r) (r_gws r) (set_add ip_eqb gw (r_route_gws r)) (set_remove ip_eqb gw (r_host_gws r))
          (r_neigh r) (r_todo_routes r) (r_todo_hosts r).

(** vlan.py 445-450 (add_route) *)
Definition rib_add (dst : net) (gw : ip) (r : rib) : rib :=
  let gws := dict_put ip_eqb gw (set_add net_eqb dst (dsts_for_gw r gw)) (r_gws r) in
  update_gw_types gw
    (mkRib (dict_put net_eqb dst gw (r_routes r)) gws (r_route_gws r) (r_host_gws r)
           (r_neigh r) (r_todo_routes r) (r_todo_hosts r)).

(** vlan.py 452-459 (del_route); [None]: KeyError. *)
Definition rib_del (dst : net) (r : rib) : option rib :=
  match dict_get net_eqb dst (r_routes r) with
  | None => None
  | Some gw =>
      match dict_get ip_eqb gw (r_gws r) with
      | None => None
      | Some l =>
          if mem net_eqb dst l then
            let l' := set_remove net_eqb dst l in
            let gws := match l' with
                       | [] => dict_del ip_eqb gw (r_gws r)
                       | _ => dict_put ip_eqb gw l' (r_gws r)
                       end in
            Some (update_gw_types gw
              (mkRib (dict_del net_eqb dst (r_routes r)) gws (r_route_gws r) (r_host_gws r)
                     (r_neigh r) (r_todo_routes r) (r_todo_hosts r)))
          else None
      end
  end.

(** vlan.py 293-300 (reset_caches), the routing part *)
Definition reset_caches (r : rib) : rib :=
  mkRib (r_routes r) (r_gws r) (r_route_gws r) (r_host_gws r) [] [] [].

(** ** VIPs: vlan.py 666-689, router.py 111-128 *)

(** vlan.py 666-671 (vip_map) *)
Definition vlan_vip_map (v : vlan) (a : ip) : option vip :=
  find (fun p => ip_in_net a (vip_net p)) (vl_vips v).

(** vlan.py 673-677 (is_faucet_vip), for an address *)
Definition is_faucet_vip (v : vlan) (a : ip) : bool :=
  match vlan_vip_map v a with Some p => ip_eqb a (v_ip p) | None => false end.

(** vlan.py 666-677, for a network: ipaddress.IPv4Network.__contains__ returns
    False when given a network, so no VIP is ever found. *)
Definition net_in_net (_ _ : net) : bool := false.
Definition is_faucet_vip_net (v : vlan) (n : net) : bool :=
  match find (fun p => net_in_net n (vip_net p)) (vl_vips v) with Some _ => true | None => false end.

(** vlan.py 679-689 (ip_in_vip_subnet), given the VIP *)
Definition in_subnet (a : ip) (p : vip) : bool :=
  negb (ip_eqb a (mkIp (n_ver (vip_net p)) (n_addr (vip_net p))) || ip_eqb a (broadcast (vip_net p))).
Definition ip_in_vip_subnet (v : vlan) (a : ip) : bool :=
  match vlan_vip_map v a with Some p => in_subnet a p | None => false end.

(** router.py 119-128 (finalize): the trie of one IP version *)
Definition router_trie (ver : Z) (vs : list vlan) : trie (Z * vip) :=
  fold_left (fun t v => fold_left (fun t p =>
      if ip_ver (v_ip p) =? ver then trie_put (vip_net p) (vl_id v, p) t else t) (vl_vips v) t) vs [].

(** router.py 111-117 (vip_map) *)
Definition router_vip_map (vs : list vlan) (a : ip) : option (Z * vip) :=
  option_map snd (trie_get a (router_trie (ip_ver a) vs)).

(** ** The route manager *)

(** valve_route.py 364-370 (_router_for_vlan) *)
Definition router_for_vlan (c : rconf) (v : Z) : option (list Z) :=
  find (fun vs => mem Z.eqb v vs) (rc_routers c).

(** lines 387-389 (_global_routing) *)
Definition global_routing (c : rconf) : bool :=
  negb (rc_global c =? 0) && match rc_routers c with [_] => true | _ => false end.

(** lines 372-381 (_routed_vlans); a set *)
Definition routed_vlans (c : rconf) (v : Z) : list Z :=
  if global_routing c then [rc_global c]
  else fold_left (fun acc vs => if mem Z.eqb v vs then fold_left (fun a x => set_add Z.eqb x a) vs acc else acc)
                 (rc_routers c) [v].

(** lines 351-357 (_route_match, _route_priority), valve_of.py 842-845, 890-898;
    os_ken stores the masked value. *)
Definition nw_dst_field (ver : Z) : field := if ver =? 4 then Ipv4Dst else Ipv6Dst.
Definition ether_type (ver : Z) : Z := if ver =? 4 then 0x0800 else 0x86dd.
Definition route_match (c : rconf) (v : Z) (dst : net) : fmatch :=
  [exact VlanVid (TrimModel.vid_present v); exact EthType (ether_type (rc_ver c));
   masked (nw_dst_field (rc_ver c)) (n_addr dst) (netmask (n_ver dst) (n_len dst))].
Definition lpm_priority : Z := 0x3000.
Definition route_priority (dst : net) : Z := lpm_priority + n_len dst.

(** lines 335-349 (_nexthop_actions), valve_pipeline.py 51-57, 80-89 *)
Definition nexthop_inst (c : rconf) (v : Z) (eth : Z) : list instruction :=
  [Goto (rc_out c);
   Apply ((if rc_dec_ttl c then [DecTtl] else [])
          ++ (match rc_routers c with [] => [] | _ => [SetField VlanVid (TrimModel.vid_present v)] end)
          ++ [SetField EthSrc (vl_mac (get_vlan c v)); SetField EthDst eth])].

Definition fib_add (c : rconf) (u : Z) (dst : net) (inst : list instruction) (hard : Z) : ofmsg :=
  FlowMod (tb_write (rc_fib c) FAdd (route_priority dst) (route_match c u dst) inst hard 0).

(** lines 895-907 (_del_route_flows) *)
Definition del_route_flows (c : rconf) (v : Z) (dst : net) : list ofmsg :=
  map (fun u => FlowMod (tb_del (rc_fib c) FDeleteStrict (route_priority dst) (route_match c u dst) OFPP_ANY))
      (routed_vlans c v).

(** lines 507-533 (_add_resolved_route) *)
Definition add_resolved_route (c : rconf) (v : Z) (dst : net) (eth : Z) (is_updated : bool) : list ofmsg :=
  (if is_updated then del_route_flows c v dst else [])
  ++ map (fun u => fib_add c u dst (nexthop_inst c v eth) 0) (routed_vlans c v).

(** The state: a RIB for each VLAN. *)
Definition rst : Type := Z -> rib.
Definition upd (s : rst) (v : Z) (r : rib) : rst := fun x => if x =? v then r else s x.

(** lines 741-746 (_cached_nexthop_eth_dst) *)
Definition cached_eth (r : rib) (gw : ip) : option Z :=
  match dict_get ip_eqb gw (r_neigh r) with Some n => nh_eth n | None => None end.

(** lines 535-540 (_update_nexthop_cache) *)
Definition put_neigh (gw : ip) (n : nexthop) (r : rib) : rib := set_neigh (dict_put ip_eqb gw n (r_neigh r)) r.

(** lines 810-825 (router_vlan_for_ip_gw) *)
Definition router_vlan_for_gw (c : rconf) (v : Z) (gw : ip) : option Z :=
  match router_for_vlan c v with
  | Some vs => option_map fst (router_vip_map (map (get_vlan c) vs) gw)
  | None => match vlan_vip_map (get_vlan c v) gw with Some _ => Some v | None => None end
  end.

(** lines 827-865 (add_route) *)
Definition add_route (c : rconf) (s : rst) (v : Z) (gw : ip) (dst : net) : rst * list ofmsg :=
  match router_vlan_for_gw c v gw with
  | None => (s, [])
  | Some v' =>
      if is_faucet_vip_net (get_vlan c v') dst then (s, [])
      else
        match dict_get net_eqb dst (r_routes (s v')) with
        | Some g => if ip_eqb g gw then (s, [])
                    else (upd s v' (rib_add dst gw (s v')),
                          match cached_eth (s v') gw with
                          | Some e => add_resolved_route c v' dst e false
                          | None => []
                          end)
        | None => (upd s v' (rib_add dst gw (s v')),
                   match cached_eth (s v') gw with
                   | Some e => add_resolved_route c v' dst e false
                   | None => []
                   end)
        end
  end.

(** lines 909-931 (del_route); [None]: KeyError *)
Definition del_route (c : rconf) (s : rst) (v : Z) (dst : net) : option (rst * list ofmsg) :=
  if is_faucet_vip_net (get_vlan c v) dst then Some (s, [])
  else
    match dict_get net_eqb dst (r_routes (s v)) with
    | None => Some (s, [])
    | Some _ => match rib_del dst (s v) with
                | None => None
                | Some r => Some (upd s v r, del_route_flows c v dst)
                end
    end.

(** lines 867-893 (_add_host_fib_route, blackhole=True) : the drop flows *)
Definition blackhole_flows (c : rconf) (e : renv) (v : Z) (h : ip) : list ofmsg :=
  map (fun u => fib_add c u (host_net h) [] (re_hole e h)) (routed_vlans c v).
Definition add_host_fib_route (c : rconf) (e : renv) (s : rst) (v : Z) (h : ip) (blackhole : bool)
  : rst * list ofmsg :=
  let '(s', ms) := add_route c s v h (host_net h) in
  (s', (if blackhole then blackhole_flows c e v h else []) ++ ms).

(** lines 542-569 (_update_nexthop) *)
Definition update_nexthop (c : rconf) (s : rst) (now : Z) (v port eth : Z) (gw : ip) : rst * list ofmsg :=
  let ms :=
    match cached_eth (s v) gw with
    | Some e => if e =? eth then []
                else flat_map (fun d => add_resolved_route c v d eth true) (dsts_for_gw (s v) gw)
    | None => flat_map (fun d => add_resolved_route c v d eth false) (dsts_for_gw (s v) gw)
    end in
  (upd s v (put_neigh gw (new_nexthop (Some eth) (Some port) now) (s v)), ms).

(** lines 383-385 (_stateful_gw) *)
Definition stateful_gw (r : rib) (a : ip) : bool :=
  negb (is_link_local a) || match dsts_for_gw r a with [] => false | _ => true end.

(** *** Resolving *)

(** lines 571-602 (_vlan_unresolved_nexthops): the gateways that are due, fewest
    retries first, shuffled among equals; unknown ones get a cache entry. *)
Definition due (c : rconf) (now : Z) (r : rib) (gw : ip) : bool :=
  match dict_get ip_eqb gw (r_neigh r) with
  | None => true
  | Some n => resolution_due now (rc_timeout c) n
  end.
Definition retries_of (r : rib) (gw : ip) : Z :=
  match dict_get ip_eqb gw (r_neigh r) with Some n => nh_retries n | None => 0 end.
Definition note_unknown (now : Z) (gws : list ip) (r : rib) : rib :=
  fold_left (fun r gw => match dict_get ip_eqb gw (r_neigh r) with
                         | None => put_neigh gw (new_nexthop None None now) r
                         | Some _ => r
                         end) gws r.
Definition by_retries (r : rib) (gws : list ip) : list (Z * list ip) :=
  fold_left (fun d gw => let k := retries_of r gw in
                         dict_put Z.eqb k (match dict_get Z.eqb k d with Some l => l | None => [] end ++ [gw]) d)
            gws [].
Definition unresolved_nexthops (c : rconf) (e : renv) (now : Z) (gws : list ip) (r : rib) : rib * list ip :=
  let not_fresh := filter (due c now r) gws in
  let r' := note_unknown now not_fresh r in
  (r', flat_map (fun kv => re_shuffle e (snd kv))
         (py_sorted (fun a b => fst a <=? fst b) (by_retries r' not_fresh))).

(** lines 607-649 (_resolve_gateway_flows) *)
Definition resolve_gateway (c : rconf) (e : renv) (now v : Z) (gw : ip) (n : nexthop) (r : rib) : rib * list ofmsg :=
  match vlan_vip_map (get_vlan c v) gw with
  | None => (r, [])
  | Some p =>
      let r' := put_neigh gw (next_retry (re_jitter e gw) now (rc_max_backoff c) n) r in
      (r', if vl_targeted (get_vlan c v) && match nh_last n with None => true | Some _ => false end
           then match nh_port n with
                | Some port => [PacketOut [port] (re_unicast e v port gw)]
                | None => map (fun q => PacketOut (fst q) (snd q)) (re_flood e v gw)
                end
           else map (fun q => PacketOut (fst q) (snd q)) (re_flood e v gw))
  end.

(** lines 651-666 (_expire_gateway_flows): the flow deletions are dropped if the
    next hop had no port.  [None]: KeyError. *)
Definition expire_gateway (c : rconf) (s : rst) (v : Z) (gw : ip) (n : nexthop) : option (rst * list ofmsg) :=
  let s1 := upd s v (set_neigh (dict_del ip_eqb gw (r_neigh (s v))) (s v)) in
  match del_route c s1 v (host_net gw) with
  | None => None
  | Some (s2, ms) => Some (s2, match nh_port n with None => [] | Some _ => ms end)
  end.

(** lines 668-673 (_resolve_expire_gateway_flows) *)
Definition resolve_expire (c : rconf) (e : renv) (now : Z) (s : rst) (v : Z) (gw : ip) (n : nexthop)
  : option (rst * list ofmsg) :=
  if nh_dead (rc_max_retries c) n then expire_gateway c s v gw n
  else let '(r, ms) := resolve_gateway c e now v gw n (s v) in Some (upd s v r, ms).
Definition resolve_only (c : rconf) (e : renv) (now : Z) (s : rst) (v : Z) (gw : ip) (n : nexthop)
  : option (rst * list ofmsg) :=
  let '(r, ms) := resolve_gateway c e now v gw n (s v) in Some (upd s v r, ms).

(** lines 675-695 (_resolve_gateways_flows); the list of the gateways that used up
    an attempt is only there to be reasoned about. *)
Fixpoint resolve_loop (c : rconf) (now : Z) (h : rst -> Z -> ip -> nexthop -> option (rst * list ofmsg))
         (v : Z) (gws : list ip) (remaining : Z) (s : rst) : option (rst * list ofmsg * list ip) :=
  match gws with
  | [] => Some (s, [], [])
  | gw :: rest =>
      if remaining =? 0 then Some (s, [], [])
      else
        match dict_get ip_eqb gw (r_neigh (s v)) with
        | None => resolve_loop c now h v rest remaining s
        | Some n =>
            if resolution_due now (rc_timeout c) n then
              match h s v gw n with
              | None => None
              | Some (s1, ms) =>
                  match resolve_loop c now h v rest (match ms with [] => remaining | _ => remaining - 1 end) s1 with
                  | None => None
                  | Some (s2, ms2, tried) =>
                      Some (s2, ms ++ ms2, match ms with [] => tried | _ => gw :: tried end)
                  end
              end
            else resolve_loop c now h v rest remaining s
        end
  end.

(** lines 697-717 (resolve_gateways) *)
Definition set_todo_routes (l : list ip) (r : rib) : rib :=
  mkRib (r_routes r) (r_gws r) (r_route_gws r) (r_host_gws r) (r_neigh r) l (r_todo_hosts r).
Definition set_todo_hosts (l : list ip) (r : rib) : rib :=
  mkRib (r_routes r) (r_gws r) (r_route_gws r) (r_host_gws r) (r_neigh r) (r_todo_routes r) l.
Definition resolve_gateways (c : rconf) (e : renv) (now : Z) (all : bool) (v : Z) (s : rst)
  : option (rst * list ofmsg * list ip) :=
  let '(s1, gws) :=
    if all then let '(r, l) := unresolved_nexthops c e now (r_route_gws (s v)) (s v) in
                (upd s v (set_todo_routes l r), l)
    else match r_todo_routes (s v) with
         | [] => (s, [])
         | g :: t => (upd s v (set_todo_routes t (s v)), [g])
         end in
  resolve_loop c now (resolve_only c e now) v gws (rc_max_hosts c) s1.

(** lines 719-739 (resolve_expire_hosts) *)
Definition resolve_expire_hosts (c : rconf) (e : renv) (now : Z) (all : bool) (v : Z) (s : rst)
  : option (rst * list ofmsg * list ip) :=
  let '(s1, gws) :=
    if all then let '(r, l) := unresolved_nexthops c e now (r_host_gws (s v)) (s v) in
                (upd s v (set_todo_hosts l r), l)
    else match r_todo_hosts (s v) with
         | [] => (s, [])
         | g :: t => (upd s v (set_todo_hosts t (s v)), [g])
         end in
  resolve_loop c now (resolve_expire c e now) v gws (rc_max_hosts c) s1.

(** lines 304-325 (expire_port_nexthops) *)
Definition expire_list (c : rconf) (v : Z) (l : list (ip * nexthop)) (s : rst) : option (rst * list ofmsg) :=
  fold_left (fun acc q => match acc with
                          | None => None
                          | Some (s, ms) => match expire_gateway c s v (fst q) (snd q) with
                                            | None => None
                                            | Some (s', ms') => Some (s', ms ++ ms')
                                            end
                          end) l (Some (s, [])).
Definition on_port (port : Z) (q : ip * nexthop) : bool :=
  match nh_port (snd q) with Some p => p =? port | None => false end.
Definition expire_port_nexthops (c : rconf) (port : Z) (s : rst) : option (rst * list ofmsg) :=
  fold_left (fun acc v => match acc with
                          | None => None
                          | Some (s, ms) =>
                              match expire_list c (vl_id v) (filter (on_port port) (r_neigh (s (vl_id v)))) s with
                              | None => None
                              | Some (s', ms') => Some (s', ms ++ ms')
                              end
                          end) (filter (fun v => mem Z.eqb port (vl_ports v)) (rc_vlans c)) (Some (s, [])).

(** *** Packets *)

(** What the handlers look at in a packet (PacketMeta and its parsed protocols):
    the VLAN and port it came in on, its Ethernet source, whether it is addressed
    to the router's MAC or to a group address, its IP addresses, whether it is an
    IP packet (rather than ARP), complete, sent to the controller by a flow
    (reason ACTION) or because its TTL ran out, and its kind. *)
Inductive pkind := PRequest (target : ip) | PAdvert (target : ip) | PEcho | PSolicitRouter | PPlain.
Record rpkt := mkRpkt {
  rp_vlan : Z; rp_port : Z; rp_eth : Z; rp_to_router : bool; rp_group : bool;
  rp_src : ip; rp_dst : ip; rp_ip : bool; rp_complete : bool; rp_ttl : bool; rp_kind : pkind;
  rp_reply : Z (* the contents of the reply sent back, if any *)
}.

(** lines 269-289 (_resolve_vip_response) *)
Definition vip_response (c : rconf) (e : renv) (now : Z) (p : rpkt) (target : ip) (s : rst) : rst * list ofmsg :=
  let v := get_vlan c (rp_vlan p) in
  if is_faucet_vip v target && ip_in_vip_subnet v (rp_src p) then
    if stateful_gw (s (rp_vlan p)) (rp_src p) then
      let '(s1, m1) := add_host_fib_route c e s (rp_vlan p) (rp_src p) false in
      let '(s2, m2) := update_nexthop c s1 now (rp_vlan p) (rp_port p) (rp_eth p) (rp_src p) in
      (s2, m1 ++ m2 ++ [PacketOut [rp_port p] (rp_reply p)])
    else (s, [PacketOut [rp_port p] (rp_reply p)])
  else (s, []).

(** lines 291-306 (_gw_advert) *)
Definition gw_advert (c : rconf) (now : Z) (p : rpkt) (target : ip) (s : rst) : rst * list ofmsg :=
  if ip_in_vip_subnet (get_vlan c (rp_vlan p)) target && stateful_gw (s (rp_vlan p)) target
  then update_nexthop c s now (rp_vlan p) (rp_port p) (rp_eth p) target
  else (s, []).

(** lines 871-893 (add_host_fib_route_from_pkt) *)
Definition learn_from_pkt (c : rconf) (e : renv) (now : Z) (p : rpkt) (s : rst) : rst * list ofmsg :=
  if ip_in_vip_subnet (get_vlan c (rp_vlan p)) (rp_src p) && stateful_gw (s (rp_vlan p)) (rp_src p) && rp_ip p then
    let '(s1, m1) := add_host_fib_route c e s (rp_vlan p) (rp_src p) false in
    let '(s2, m2) := update_nexthop c s1 now (rp_vlan p) (rp_port p) (rp_eth p) (rp_src p) in
    (s2, m1 ++ m2)
  else (s, []).

(** lines 761-808 (_proactive_resolve_neighbor) *)
Definition proactive (c : rconf) (e : renv) (now : Z) (p : rpkt) (s : rst) : rst * list ofmsg :=
  if rc_proactive c then
    match (match router_for_vlan c (rp_vlan p) with
           | None => option_map (fun q => (rp_vlan p, q)) (vlan_vip_map (get_vlan c (rp_vlan p)) (rp_dst p))
           | Some vs => router_vip_map (map (get_vlan c) vs) (rp_dst p)
           end) with
    | None => (s, [])
    | Some (v, q) =>
        if in_subnet (rp_dst p) q && negb (ip_eqb (v_ip q) (rp_dst p)) && stateful_gw (s v) (rp_dst p)
           && match vl_limit (get_vlan c v) with
              | None => true
              | Some l => Z.of_nat (length (r_neigh (s v))) <? l
              end
        then
          let '(s1, m1) := learn_from_pkt c e now p s in
          let in_progress := mem ip_eqb (rp_dst p) (r_host_gws (s1 v)) in
          let '(s2, m2) := add_host_fib_route c e s1 v (rp_dst p) true in
          let n := new_nexthop None None now in
          let s3 := upd s2 v (put_neigh (rp_dst p) n (s2 v)) in
          if in_progress then (s3, m1 ++ m2)
          else let '(r, m3) := resolve_gateway c e now v (rp_dst p) n (s3 v) in
               (upd s3 v r, m1 ++ m2 ++ m3)
        else (s, [])
    end
  else (s, []).

(** lines 986-1105 (IPv4 control_plane_handler), 1262-1405 (IPv6): answers to
    packets for the router; otherwise proactive learning.  The replies' contents
    are [rp_reply]. *)
Definition echo (c : rconf) (e : renv) (now : Z) (p : rpkt) (s : rst) : rst * list ofmsg :=
  let v := get_vlan c (rp_vlan p) in
  if rp_to_router p && is_faucet_vip v (rp_dst p) && ip_in_vip_subnet v (rp_src p) then
    match cached_eth (s (rp_vlan p)) (rp_src p) with
    | None => let '(s1, ms) := learn_from_pkt c e now p s in (s1, PacketOut [rp_port p] (rp_reply p) :: ms)
    | Some _ => (s, [PacketOut [rp_port p] (rp_reply p)])
    end
  else (s, []).
Definition handler (c : rconf) (e : renv) (now : Z) (p : rpkt) (s : rst) : rst * list ofmsg :=
  match rp_kind p with
  | PRequest t => if (rc_ver c =? 4) && negb (rp_to_router p || rp_group p) then (s, [])
                  else vip_response c e now p t s
  | PAdvert t => if (rc_ver c =? 4) && negb (rp_to_router p) then (s, []) else gw_advert c now p t s
  | PEcho => echo c e now p s
  | PSolicitRouter => (s, match filter (fun q => is_link_local (v_ip q) && ip_in_net (rp_src p) (vip_net q))
                                       (vl_vips (get_vlan c (rp_vlan p))) with
                          | [] => []
                          | _ => [PacketOut [rp_port p] (rp_reply p)]
                          end)
  | PPlain => (s, [])
  end.
Definition control_plane (c : rconf) (e : renv) (now : Z) (p : rpkt) (s : rst) : rst * list ofmsg :=
  if rp_complete p then
    let '(s1, ms) := if rp_ip p && rp_ttl p then
                       (s, if ip_in_vip_subnet (get_vlan c (rp_vlan p)) (rp_src p)
                           then [PacketOut [rp_port p] (rp_reply p)] else [])
                     else if (rc_ver c =? 4) || ip_in_vip_subnet (get_vlan c (rp_vlan p)) (rp_src p)
                          then handler c e now p s else (s, []) in
    match ms with
    | _ :: _ => (s1, ms)
    | [] => if rp_ip p && negb (rp_ttl p) then proactive c e now p s1 else (s1, [])
    end
  else proactive c e now p s.

(** valve.py 1080-1097, 1413-1446 (router_rcv_packet); [None]: KeyError *)
Definition router_rcv_packet (c : rconf) (e : renv) (now : Z) (p : rpkt) (s : rst) : option (rst * list ofmsg) :=
  match vl_vips (get_vlan c (rp_vlan p)) with
  | [] => Some (s, [])
  | _ =>
      let '(s1, ms) := if rp_to_router p || rp_group p || rp_ttl p then control_plane c e now p s else (s, []) in
      match ms with
      | _ :: _ => Some (s1, ms)
      | [] =>
          if rp_ttl p then Some (s1, [])
          else
            let '(s2, m2) := learn_from_pkt c e now p s1 in
            match resolve_gateways c e now false (rp_vlan p) s2 with
            | None => None
            | Some (s3, m3, _) =>
                match resolve_expire_hosts c e now false (rp_vlan p) s3 with
                | None => None
                | Some (s4, m4, _) => Some (s4, m2 ++ m3 ++ m4)
                end
            end
      end
  end.

(** *** Start up: valve.py 395-410, 426-442, 800-820; valve_route.py 391-446,
    490-505, 1229-1259.  Only the messages for the FIB table. *)
Definition vip_flows (c : rconf) (v : vlan) (p : vip) : list ofmsg :=
  let u := if global_routing c then rc_global c else vl_id v in
  let to_vip := [Goto (rc_vip_table c)] in
  fib_add c u (host_net (v_ip p)) to_vip 0
  :: (if rc_proactive c && negb (is_link_local (v_ip p))
      then map (fun u => fib_add c u (vip_net p) to_vip 0)
               (if global_routing c then [rc_global c] else routed_vlans c (vl_id v))
      else [])
  ++ (if rc_ver c =? 6 then [fib_add c u (host_net (broadcast (vip_net p))) to_vip 0] else []).
Definition wipe_fib (c : rconf) : ofmsg :=
  FlowMod (tb_del (mkTable OFPTT_ALL 0 0) FDelete 0 [] OFPP_ANY).
Definition connect_flows (c : rconf) : list ofmsg :=
  wipe_fib c
  :: FlowMod (tb_drop (rc_fib c) (rc_lowest c) [] 0)
  :: flat_map (fun v => flat_map (vip_flows c v)
                 (filter (fun p => ip_ver (v_ip p) =? rc_ver c) (vl_vips v))) (rc_vlans c).

(** ** Events *)

Inductive revent :=
| RAdd (v : Z) (gw : ip) (dst : net)       (* valve.add_route *)
| RDel (v : Z) (dst : net)                 (* valve.del_route *)
| RResolve (now : Z)                       (* valve.resolve_gateways *)
| RExpire (now : Z)                        (* valve.state_expire: resolve_expire_hosts *)
| RPortDown (port : Z)                     (* valve._port_delete_flows_state *)
| RPacket (now : Z) (p : rpkt)             (* valve.router_rcv_packet *)
| RConnect.                                (* valve.datapath_connect *)

(** run a per-VLAN step over all VLANs, in configuration order *)
Definition each_vlan (f : Z -> rst -> option (rst * list ofmsg * list ip)) (vs : list vlan) (s : rst)
  : option (rst * list ofmsg) :=
  fold_left (fun acc v => match acc with
                          | None => None
                          | Some (s, ms) => match f (vl_id v) s with
                                            | None => None
                                            | Some (s', ms', _) => Some (s', ms ++ ms')
                                            end
                          end) vs (Some (s, [])).

Definition route_step (c : rconf) (e : renv) (ev : revent) (s : rst) : option (rst * list ofmsg) :=
  match ev with
  | RAdd v gw dst => Some (add_route c s v gw dst)
  | RDel v dst => del_route c s v dst
  | RResolve now => each_vlan (resolve_gateways c e now true) (rc_vlans c) s
  | RExpire now => each_vlan (resolve_expire_hosts c e now true) (rc_vlans c) s
  | RPortDown port => expire_port_nexthops c port s
  | RPacket now p => router_rcv_packet c e now p s
  | RConnect => Some (fun v => reset_caches (s v), connect_flows c)
  end.

(** The RIBs before the first event: vlan.py 259-286, the static routes of each
    VLAN in configuration order. *)
Definition static_rib (routes : list (net * ip)) : rib :=
  fold_left (fun r q => rib_add (fst q) (snd q) r) routes empty_rib.
Definition start (static : Z -> list (net * ip)) : rst := fun v => static_rib (static v).
