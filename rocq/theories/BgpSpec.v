(** * What routes BGP neighbours should cause *)

From Coq Require Import ZArith List.
From Verif Require Import PyBase IpModel IpSpec RouteModel RouteSpec BgpModel.
Import ListNotations.
Open Scope Z_scope.

(** ** Histories *)

(** A reload: datapaths have distinct identifiers, and VLANs are kept only if they were
    there before and have the same configured routes. *)
Definition reload_ok (s : bstate) (new : list (Z * bconf)) (kept : Z -> Z -> bool) : Prop :=
  NoDup (map fst new) /\
  forall dp v, kept dp v = true ->
    exists c c', dict_get Z.eqb dp (b_valves s) = Some c /\ dict_get Z.eqb dp new = Some c' /\ bc_static c v = bc_static c' v.
(** The state after events, latest first; updates come from speakers that there are. *)
Inductive breach : list bevent -> bstate -> Prop :=
| br_start : breach [] bgp_start
| br_reload : forall evs s new kept s', breach evs s -> reload_ok s new kept ->
    bgp_step s (BReload new kept) = Some s' -> breach (BReload new kept :: evs) s'
| br_update : forall evs s k d g w s', breach evs s -> In k (map fst (b_speakers s)) ->
    bgp_step s (BUpdate k d g w) = Some s' -> breach (BUpdate k d g w :: evs) s'
| br_down : forall evs s k s', breach evs s -> bgp_step s (BDown k) = Some s' -> breach (BDown k :: evs) s'.

(** ** The routes there should be *)

(** The latest that a neighbour on [k] said about [d] is that it is reached through [g]. *)
Inductive announced (k : key) (d : net) : list bevent -> ip -> Prop :=
| an_now : forall evs g, announced k d (BUpdate k d (Some g) false :: evs) g
| an_before : forall evs ev g, announced k d evs g -> (forall h w, ev <> BUpdate k d h w) -> announced k d (ev :: evs) g.
(** The last configured route to [d] is through [g]. *)
Definition last_route (l : list (net * ip)) (d : net) (g : ip) : Prop :=
  exists l1 l2, l = l1 ++ (d, g) :: l2 /\ forall g', ~ In (d, g') l2.
(** Somebody said something about [d] on [k]. *)
Definition mentioned (k : key) (d : net) (evs : list bevent) : Prop := exists g w, In (BUpdate k d g w) evs.

(** ** Well-behaved histories *)

(** The datapath is in all configurations, with BGP on the VLAN. *)
Definition stays (k : key) (evs : list bevent) : Prop :=
  forall new kept, In (BReload new kept) evs ->
    exists c, dict_get Z.eqb (fst k) new = Some c /\ In (snd k) (bc_bgp c).
(** Configurations are valid. *)
Definition valid (evs : list bevent) : Prop :=
  forall new kept dp c, In (BReload new kept) evs -> dict_get Z.eqb dp new = Some c ->
    route_cfg (bc_r c) /\ one_router (bc_r c) /\ subnets_apart (bc_r c) /\
    forall v, In v (bc_bgp c) -> configured (bc_r c) v.
(** The next hops that neighbours name are always on a subnet of the VLAN, and not the
    router itself. *)
Definition local (evs : list bevent) : Prop :=
  forall k d g w new kept c, In (BUpdate k d (Some g) w) evs -> In (BReload new kept) evs ->
    dict_get Z.eqb (fst k) new = Some c -> configured (bc_r c) (snd k) ->
    my_ip (bc_r c) g /\ RouteSpec.on_link (bc_r c) (snd k) g /\
    forall p, In p (vl_vips (get_vlan (bc_r c) (snd k))) -> v_ip p <> g.
(** Additions name a next hop. *)
Definition complete (evs : list bevent) : Prop := forall k d, ~ In (BUpdate k d None false) evs.
(** No configuration has a route to [d] on the VLAN. *)
Definition not_static (k : key) (d : net) (evs : list bevent) : Prop :=
  forall new kept c g, In (BReload new kept) evs -> dict_get Z.eqb (fst k) new = Some c ->
    ~ In (d, g) (bc_static c (snd k)).

(** ** What neighbours should be told *)

(** No configuration had BGP on the VLAN of [k]. *)
Definition never (k : key) (evs : list bevent) : Prop :=
  forall new kept c, In (BReload new kept) evs -> dict_get Z.eqb (fst k) new = Some c -> ~ In (snd k) (bc_bgp c).
(** [c] was the datapath's configuration in the first that had BGP on the VLAN. *)
Inductive first_config (k : key) (c : bconf) : list bevent -> Prop :=
| fc_now : forall evs new kept, dict_get Z.eqb (fst k) new = Some c -> In (snd k) (bc_bgp c) -> never k evs ->
    first_config k c (BReload new kept :: evs)
| fc_before : forall evs ev, first_config k c evs -> first_config k c (ev :: evs).
(** [d] is to be offered through [g]: a subnet of the router on the VLAN through the
    router's address, or the destination of a configured route through its gateway. *)
Definition offered (c : bconf) (v : Z) (d : net) (g : ip) : Prop :=
  (exists p, In p (vl_vips (get_vlan (bc_r c) v)) /\ ip_ver (v_ip p) = rc_ver (bc_r c) /\ vip_net p = d /\ v_ip p = g) \/
  last_route (bc_static c v) d g.
