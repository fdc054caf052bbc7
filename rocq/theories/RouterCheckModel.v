(** * The configuration check of routers

    Models faucet/dp.py 1287-1308 (in resolve_routers): VLANs are told apart by
    their VID.  The rest of the function (names, global VLAN, BGP) is not here. *)
From Coq Require Import ZArith List Bool.
From Verif Require Import PyBase IpModel RouteModel.
Import ListNotations.
Open Scope Z_scope.

(** lines 1298-1301: the set of the VIPs of a router that are not link-local *)
Definition router_vips (vs : list vlan) : list vip :=
  fold_left (fun acc v =>
    fold_left (fun acc p => if is_link_local (v_ip p) then acc else set_add vip_eqb p acc) (vl_vips v) acc) vs [].

(** lines 1303-1309: some VIP's address is in the network of another VIP *)
Definition vips_overlap (l : list vip) : bool :=
  existsb (fun p => existsb (fun q => ip_in_net (v_ip p) (vip_net q)) (set_remove vip_eqb p l)) l.

(** lines 1292-1297: a router with one VLAN, which an earlier router has *)
Definition lone_taken (seen : list Z) (vs : list vlan) : bool :=
  match vs with [v] => mem Z.eqb (vl_id v) seen | _ => false end.

(** lines 1288-1309: true if no condition fails *)
Fixpoint check_routers (seen : list Z) (rs : list (list vlan)) : bool :=
  match rs with
  | [] => true
  | vs :: rest =>
      negb (lone_taken seen vs) && negb (vips_overlap (router_vips vs))
      && check_routers (fold_left (fun acc v => set_add Z.eqb (vl_id v) acc) vs seen) rest
  end.
