(** * Meters: /repo/faucet/meter.py, valve.py, valve_acl.py, dp.py *)

From Coq Require Import ZArith List Bool.
From Verif Require Import PyBase OpenFlow AclModel.
Import ListNotations.
Open Scope Z_scope.

(** The meters the ACLs of a datapath use (dp.py 1181-1186, 1262-1264: [dp.meters]
    after finalize_config), by name: the meter id and the rates of the bands
    (meter.py 23-56; the flags and the kinds of the bands are left out). *)
Definition meters_conf : Type := list (Z * (Z * list Z)).

(** The limits configured for a datapath: its meters, whether more meters are
    configured than the ACLs use (dp.py 1262, [all_meters]), packetin_pps and
    slowpath_pps ([None] for 0, the default). *)
Record limits := mkLimits {
  li_meters : meters_conf;
  li_unused : bool;
  li_packetin : option Z;
  li_slowpath : option Z
}.

(** ids of the OpenFlow 1.3 specification *)
Definition OFPM_SLOWPATH : Z := 0xfffffffd.
Definition OFPM_CONTROLLER : Z := 0xfffffffe.

(** valve_of.py 1000-1002 (meterdel).  The first argument is the datapath, which is
    replaced by the real one when the message is sent (valve.py, send_flows). *)
Definition meterdel (datapath : option Z) (meter_id : Z) : ofmsg := MeterMod MDelete meter_id [].
(** valve_of.py 1005-1029 (meteradd) *)
Definition meteradd (x : Z * (Z * list Z)) : ofmsg := MeterMod MAdd (fst (snd x)) (snd (snd x)).

(** valve.py 385 *)
Definition limited (c : limits) : bool :=
  match li_meters c, li_packetin c, li_slowpath c with [], None, None => li_unused c | _, _, _ => true end.

(** valve.py 382-390, 412-434 (_delete_all_valve_flows, _add_packetin_meter,
    _add_slowpath_meter, _add_default_flows): the messages for meters when a datapath
    connects; the other messages are those of AclModel.abatch. *)
Definition connect_meters (c : limits) : list ofmsg :=
  (if limited c then [meterdel None OFPM_ALL] else [])
  ++ opt_list (fun pps => [MeterMod MAdd OFPM_CONTROLLER [pps]]) (li_packetin c)
  ++ opt_list (fun pps => [MeterMod MAdd OFPM_SLOWPATH [pps]]) (li_slowpath c)
  ++ map meteradd (li_meters c).

Definition meter_eqb (a b : Z * list Z) : bool :=
  (fst a =? fst b) && if list_eq_dec Z.eq_dec (snd a) (snd b) then true else false.

(** dp.py 1400-1461, 1681-1700 (_get_conf_changes, _get_meter_config_changes) and
    valve.py 1639-1648: what is deleted and what is added; changed meters are both *)
Definition changed_meters (old new_ : meters_conf) : list Z :=
  flat_map (fun x => match dict_get Z.eqb (fst x) old with
                     | Some y => if meter_eqb y (snd x) then [] else [fst x]
                     | None => []
                     end) new_.
Definition deleted_meters (old new_ : meters_conf) : list Z :=
  filter (fun k => match dict_get Z.eqb k new_ with Some _ => false | None => true end) (map fst old)
  ++ changed_meters old new_.
Definition added_meters (old new_ : meters_conf) : list Z :=
  filter (fun k => match dict_get Z.eqb k old with Some _ => false | None => true end) (map fst new_)
  ++ changed_meters old new_.

(** valve_acl.py 855-867 (del_meters): the meter id is passed as the datapath, so
    every message deletes all meters *)
Definition del_meters (old : meters_conf) (ks : list Z) : list ofmsg :=
  flat_map (fun k => match dict_get Z.eqb k old with
                     | Some y => [meterdel (Some (fst y)) OFPM_ALL]
                     | None => []
                     end) ks.
(** valve_acl.py 845-853 (add_meters) *)
Definition add_meters (new_ : meters_conf) (ks : list Z) : list ofmsg :=
  flat_map (fun k => match dict_get Z.eqb k new_ with Some y => [meteradd (k, y)] | None => [] end) ks.
(** valve.py 1650-1657 *)
Definition reload_meters (old new_ : meters_conf) : list ofmsg :=
  del_meters old (deleted_meters old new_) ++ add_meters new_ (added_meters old new_).

(** What happens to the meters and the ACL tables.  [MConnect]: a datapath connects
    with these limits, VLANs and ports.  [MReload]: a warm reload, after which these
    are the meters that ACLs use, and which at most once changes the ACLs of a port, a
    port or VLANs (valve.py 1572-1680; packetin_pps and slowpath_pps only change with
    a restart).  [MAcl]: an event that has nothing to do with meters. *)
Inductive mevent :=
| MConnect (c : limits) (vlans : list avlan) (ports : list aport)
| MReload (meters : meters_conf) (e : option aevent)
| MAcl (e : aevent).

Definition mbatch (am : amanager) (lowest : Z) (old : meters_conf) (e : mevent) : list ofmsg :=
  match e with
  | MConnect c vs ps => connect_meters c ++ abatch am lowest (AConnect vs ps)
  | MReload new_ e => reload_meters old new_ ++ match e with Some e => abatch am lowest e | None => [] end
  | MAcl e => abatch am lowest e
  end.
