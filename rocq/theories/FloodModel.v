(** * Flood action lists: valve_of.py 630-682, 970-979, 1281-1321, vlan.py 498-598,
      valve_switch_standalone.py 192-318 *)

From Coq Require Import ZArith List Bool.
From Verif Require Import PyBase OpenFlow.
Import ListNotations.
Open Scope Z_scope.

(** The attributes of a port (port.py 77-300) that flooding looks at, as a
    snapshot.  [p_lacp] is the LAG id, 0 for none; [p_selected] and [p_actor_up]
    are is_port_selected() / is_actor_up(); [p_mirror] is the list of ports to
    mirror to (after dp.py 1015-1038); [p_dot1x_vlan] is the VID of
    dyn_dot1x_native_vlan. *)
Record port := mkPort {
  p_num : Z;
  p_hairpin : bool;
  p_unicast_flood : bool;
  p_lacp : Z;
  p_selected : bool;
  p_actor_up : bool;
  p_phys_up : bool;
  p_external : bool;
  p_restricted : bool;
  p_mirror : list Z;
  p_dot1x_vlan : option Z
}.

(** vlan.py: the VLAN's VID, its member ports and unicast_flood *)
Record vlan := mkVlan {
  v_vid : Z;
  v_tagged : list port;
  v_untagged : list port;
  v_dot1x : list port;
  v_unicast_flood : bool
}.

(** Ports are compared by number (Conf.__eq__ compares all attributes; numbers
    are unique on a switch). *)
Definition port_eqb (a b : port) : bool := p_num a =? p_num b.
Definition in_ports (q : port) (l : list port) : bool := existsb (port_eqb q) l.

(** vlan.py 498-500 *)
Definition get_ports (v : vlan) : list port := v_tagged v ++ v_untagged v ++ v_dot1x v.
(** vlan.py 502-505 *)
Definition restricted_ports (v : vlan) : list port := filter p_restricted (get_ports v).
(** vlan.py 517-527 *)
Definition external_ports (v : vlan) : list port := filter p_external (get_ports v).
Definition external_ports_up (v : vlan) : list port := filter p_phys_up (external_ports v).
(** vlan.py 529-543 *)
Definition has_lacp (q : port) : bool := negb (p_lacp q =? 0).
Definition lacp_ports (v : vlan) : list port := filter has_lacp (get_ports v).
Definition lacp_up_selected_ports (v : vlan) : list port :=
  filter (fun q => p_selected q && p_actor_up q) (lacp_ports v).

(** vlan.py 545-557: the members of LAG [l] (lags()[l], selected_up_lags()[l]) *)
Definition lag_members (v : vlan) (l : Z) : list port :=
  filter (fun q => p_lacp q =? l) (lacp_ports v).
Definition selected_lag_members (v : vlan) (l : Z) : list port :=
  filter (fun q => p_lacp q =? l) (lacp_up_selected_ports v).

(** list.remove(x) *)
Fixpoint remove_first (x : port) (l : list port) : list port :=
  match l with
  | [] => []
  | y :: r => if port_eqb x y then r else y :: remove_first x r
  end.

(** vlan.py 559-575 *)
Definition excluded_lag_ports (v : vlan) (in_port : option port) : list port :=
  (match in_port with
   | Some i => if has_lacp i then lag_members v (p_lacp i) else []
   | None => []
   end)
  ++ flat_map (fun l => match selected_lag_members v l with
                        | s :: _ => remove_first s (lag_members v l)
                        | [] => lag_members v l
                        end)
              (nodup Z.eq_dec (map p_lacp (lacp_ports v))).

(** vlan.py 577-585 *)
Definition exclude_native_if_dot1x (v : vlan) : list port :=
  filter (fun q => match p_dot1x_vlan q with
                   | None => false
                   | Some vid => negb (vid =? v_vid v)
                   end) (v_untagged v).

(** vlan.py 587-598 *)
Definition flood_ports (l : list port) (exclude_unicast : bool) : list port :=
  if exclude_unicast then filter p_unicast_flood l else l.
Definition tagged_flood_ports (v : vlan) (eu : bool) : list port := flood_ports (v_tagged v) eu.
Definition untagged_flood_ports (v : vlan) (eu : bool) : list port :=
  flood_ports (v_untagged v ++ v_dot1x v) eu.

(** dp.py 887-889 *)
Definition canonical_port_order (l : list port) : list port :=
  py_sorted (fun a b => p_num a <=? p_num b) l.

(** valve_of.py 644-653: a set of port numbers, in ascending order *)
Definition dedupe_outputs (l : list Z) : list Z := py_sorted Z.leb (nodup Z.eq_dec l).
Definition out (n : Z) : action := Output n 0.

Definition subset (a b : list Z) : bool := forallb (fun x => existsb (Z.eqb x) b) a.
Definition set_eqb (a b : list Z) : bool := subset a b && subset b a.

Definition is_in_port (in_port : option port) (q : port) : bool :=
  match in_port with Some i => port_eqb q i | None => false end.

(** valve_of.py 1281-1305, the port numbers appended for one port *)
Definition flood_one (in_port : option port) (exclude : list port) (q : port) : list Z :=
  if is_in_port in_port q
  then match in_port with
       | Some i => if p_hairpin i then [OFPP_IN_PORT] else []
       | None => []
       end
  else if in_ports q exclude then []
  else p_num q :: (match in_port with
                   | Some i => if set_eqb (p_mirror i) (p_mirror q) then [] else p_mirror q
                   | None => p_mirror q
                   end).
(** valve_of.py 1281-1305 *)
Definition flood_tagged_port_outputs (ports : list port) (in_port : option port) (exclude : list port)
  : list action := map out (dedupe_outputs (flat_map (flood_one in_port exclude) ports)).
(** valve_of.py 1308-1315 *)
Definition flood_untagged_port_outputs (ports : list port) (in_port : option port) (exclude : list port)
  : list action :=
  match flood_tagged_port_outputs ports in_port exclude with
  | [] => []
  | acts => PopVlan :: acts
  end.
(** valve_of.py 1318-1322 *)
Definition flood_port_outputs (tagged untagged : list port) (in_port : option port) (exclude : list port)
  : list action :=
  flood_tagged_port_outputs tagged in_port exclude ++ flood_untagged_port_outputs untagged in_port exclude.

(** valve_switch_standalone.py 192-219: ports not flooded to *)
Definition flood_exclude (v : vlan) (in_port : option port)
           (exclude_all_external exclude_restricted : bool) : list port :=
  excluded_lag_ports v in_port ++ exclude_native_if_dot1x v
  ++ (let ext := canonical_port_order (external_ports_up v) in
      if exclude_all_external || (match in_port with Some i => p_external i | None => false end)
      then ext else tl ext)
  ++ (if exclude_restricted then restricted_ports v else []).
Definition flood_local_rule_actions (v : vlan) (exclude_unicast : bool) (in_port : option port)
           (exclude_all_external exclude_restricted : bool) : list action :=
  flood_port_outputs (tagged_flood_ports v exclude_unicast) (untagged_flood_ports v exclude_unicast)
    in_port (flood_exclude v in_port exclude_all_external exclude_restricted).

(** valve_of.py 64-66; valve_table.py 80-84 *)
Definition PCP_EXT_PORT_FLAG : Z := 2.
Definition set_external_forwarding_requested : action := SetField VlanPcp PCP_EXT_PORT_FLAG.

Definition nonempty {A} (l : list A) : bool := match l with [] => false | _ => true end.

(** valve_switch_standalone.py 221-243 *)
Definition flood_rule_actions (v : vlan) (exclude_unicast : bool) (in_port : option port)
           (exclude_all_external exclude_restricted : bool) : list action :=
  (if nonempty (external_ports v) && nonempty (tagged_flood_ports v exclude_unicast)
   then [set_external_forwarding_requested] else [])
  ++ flood_local_rule_actions v exclude_unicast in_port exclude_all_external exclude_restricted.

(** valve_switch_standalone.py 260-284: the actions of the VLAN-wide rule (the
    ingress port is not excluded: the switch itself does not output to it, and
    restricted ports are always excluded) *)
Definition flood_acts_for_vlan (v : vlan) (exclude_unicast : bool) : list action :=
  flood_rule_actions v exclude_unicast None false true.

(** valve_of.py 656-682 *)
Definition action_eqb (a b : action) : bool := if action_eq_dec a b then true else false.
Fixpoint dedupe_acts (acts : list action) (ports_seen : list Z) (acts_seen : list action) : list action :=
  match acts with
  | [] => []
  | Output n k :: r =>
      if existsb (Z.eqb n) ports_seen then dedupe_acts r ports_seen acts_seen
      else Output n k :: dedupe_acts r (n :: ports_seen) acts_seen
  | a :: r =>
      if existsb (action_eqb a) acts_seen then dedupe_acts r ports_seen acts_seen
      else a :: dedupe_acts r ports_seen (a :: acts_seen)
  end.
Definition output_ports (acts : list action) : list Z :=
  flat_map (fun a => match a with Output n _ => [n] | _ => [] end) acts.
Definition non_output_actions (acts : list action) : list action :=
  filter (fun a => negb (is_output a) && negb (action_eqb a PopVlan)) acts.

(** valve_switch_standalone.py 286-318: the actions for frames entering on
    [q]; empty if the port is down or there is nothing to output to. *)
Definition flood_acts_for_port (v : vlan) (exclude_unicast : bool) (q : port)
           (exclude_all_external exclude_restricted : bool) : list action :=
  if p_phys_up q then
    let acts := dedupe_acts (flood_rule_actions v exclude_unicast (Some q) exclude_all_external
                               (exclude_restricted && p_restricted q)) [] [] in
    if nonempty (output_ports acts) then acts else []
  else [].

(** valve_of.py 970-979 *)
Fixpoint flood_buckets (acts non_outputs : list action) : list bucket :=
  match acts with
  | [] => []
  | Output n k :: r => mkBucket OFPP_ANY (non_outputs ++ [Output n k]) :: flood_buckets r non_outputs
  | a :: r => flood_buckets r (non_outputs ++ [a])
  end.
