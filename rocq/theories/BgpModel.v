(** * BGP: routes learned from neighbours and routes advertised to them

    faucet_bgp.py, with valves_manager.py 294-325 (_apply_configs calls reset), dp.py
    1405-1441 and conf.py 174-176 (a VLAN whose configuration did not change keeps its
    routes, merge_dyn), vlan.py 259-286 (a new one has those configured).

    The BGP protocol library (Beka) is an arbitrary sequence of updates.  One IP version:
    speakers of the other are separate and use the other route manager.  The routes of a
    VLAN are those of RouteModel; flows and neighbours are left to it, so are the routes
    to single hosts that it learns from packets. *)

From Coq Require Import ZArith List Bool.
From Verif Require Import PyBase OpenFlow IpModel RouteModel.
Import ListNotations.
Open Scope Z_scope.

(** A datapath: its VLANs and routers, the configured routes of each VLAN, and the VLANs
    of its BGP routers (dp.py 1387-1393 (bgp_routers)). *)
Record bconf := mkBconf { bc_r : rconf; bc_static : Z -> list (net * ip); bc_bgp : list Z }.
(** lines 28-51 (BgpSpeakerKey): datapath and VLAN.  Python compares the hashes of their
    texts; here they are compared themselves. *)
Definition key := (Z * Z)%type.
Definition key_eqb (a b : key) : bool := (fst a =? fst b) && (snd a =? snd b).

(** lines 58-66.  [b_rst]: the routes, by datapath and VLAN; [b_speakers]: for each
    speaker what it was told to advertise (_dp_bgp_speakers); [b_rib]: _dp_bgp_rib. *)
Record bstate := mkBstate {
  b_valves : list (Z * bconf);
  b_rst : Z -> rst;
  b_speakers : list (key * list (net * ip));
  b_rib : list (key * list (net * ip)) }.
Definition bgp_start : bstate := mkBstate [] (fun _ _ => empty_rib) [] [].

Definition set_rst (s : bstate) (dp : Z) (r : rst) : bstate :=
  mkBstate (b_valves s) (fun x => if x =? dp then r else b_rst s x) (b_speakers s) (b_rib s).
Definition set_rib (s : bstate) (k : key) (r : list (net * ip)) : bstate :=
  mkBstate (b_valves s) (b_rst s) (b_speakers s) (dict_put key_eqb k r (b_rib s)).

(** lines 68-75 (_valve_vlan) *)
Definition valve_vlan (s : bstate) (k : key) : option bconf :=
  match dict_get Z.eqb (fst k) (b_valves s) with
  | Some c => if mem Z.eqb (snd k) (map vl_id (rc_vlans (bc_r c))) then Some c else None
  | None => None
  end.
Definition key_rib (s : bstate) (k : key) : list (net * ip) :=
  match dict_get key_eqb k (b_rib s) with Some r => r | None => [] end.

(** lines 95-139 (_bgp_route_handler); [None]: an exception.  An addition without a next
    hop uses a variable that is not set. *)
Definition route_handler (k : key) (prefix : net) (next_hop : option ip) (is_withdraw : bool) (s : bstate) : option bstate :=
  match valve_vlan s k with
  | None => Some s
  | Some c =>
    let skip := match next_hop with
                | Some g => is_faucet_vip (get_vlan (bc_r c) (snd k)) g
                            || match router_vlan_for_gw (bc_r c) (snd k) g with None => true | Some _ => false end
                | None => false
                end in
    if skip then Some s
    else if is_withdraw then
      let s1 := set_rib s k (dict_del net_eqb prefix (key_rib s k)) in
      match del_route (bc_r c) (b_rst s1 (fst k)) (snd k) prefix with
      | Some (r, _) => Some (set_rst s1 (fst k) r)
      | None => None
      end
    else
      match next_hop with
      | None => None
      | Some g =>
        let s1 := set_rib s k (dict_put net_eqb prefix g (key_rib s k)) in
        Some (set_rst s1 (fst k) (fst (add_route (bc_r c) (b_rst s1 (fst k)) (snd k) g prefix)))
      end
  end.

(** lines 142-153 (_vlan_prefixes_by_ipv).  The prefix of a VIP is passed with its host
    part; Beka sends only the bits of the prefix. *)
Definition prefixes (c : bconf) (r : rst) (v : Z) : list (net * ip) :=
  map (fun p => (vip_net p, v_ip p)) (filter (fun p => ip_ver (v_ip p) =? rc_ver (bc_r c)) (vl_vips (get_vlan (bc_r c) v)))
  ++ r_routes (r v).
(** lines 199-216 (_add_bgp_speaker); [old]: the speakers before, the result is added to
    [new].  A speaker that is there is kept as it is and its routes are added again. *)
Definition add_bgp_speaker (old : list (key * list (net * ip))) (dp : Z) (c : bconf)
    (acc : bstate * list (key * list (net * ip))) (v : Z) : bstate * list (key * list (net * ip)) :=
  let '(s, new) := acc in
  let k := (dp, v) in
  match dict_get key_eqb k old with
  | Some adv =>
    (set_rst s dp (fold_left (fun r q => fst (add_route (bc_r c) r v (snd q) (fst q))) (key_rib s k) (b_rst s dp)),
     dict_put key_eqb k adv new)
  | None => (s, dict_put key_eqb k (prefixes c (b_rst s dp) v) new)
  end.
(** lines 218-245 (_add_valve_bgp_speakers, reset); speakers that are no longer configured
    are kept too. *)
Definition reset (s : bstate) : bstate :=
  let old := b_speakers s in
  let '(s1, new) := fold_left (fun acc q => fold_left (add_bgp_speaker old (fst q) (snd q)) (bc_bgp (snd q)) acc)
                              (b_valves s) (s, []) in
  let all := fold_left (fun new q => match dict_get key_eqb (fst q) new with
                                     | Some _ => new
                                     | None => dict_put key_eqb (fst q) (snd q) new
                                     end) old new in
  mkBstate (b_valves s1) (b_rst s1) all (b_rib s1).
(** valves_manager.py 294-325: the new configuration takes over.  [kept dp v]: the VLAN
    was not changed. *)
Definition reload (new : list (Z * bconf)) (kept : Z -> Z -> bool) (s : bstate) : bstate :=
  reset (mkBstate new
           (fun dp v => if kept dp v then b_rst s dp v
                        else match dict_get Z.eqb dp new with
                             | Some c => static_rib (bc_static c v)
                             | None => empty_rib
                             end)
           (b_speakers s) (b_rib s)).

Inductive bevent :=
| BReload (new : list (Z * bconf)) (kept : Z -> Z -> bool)
| BUpdate (k : key) (prefix : net) (next_hop : option ip) (is_withdraw : bool)
| BDown (k : key).                (* lines 90-92 (_bgp_down_handler): only logged *)
Definition bgp_step (s : bstate) (ev : bevent) : option bstate :=
  match ev with
  | BReload new kept => Some (reload new kept s)
  | BUpdate k d g w => route_handler k d g w s
  | BDown _ => Some s
  end.
