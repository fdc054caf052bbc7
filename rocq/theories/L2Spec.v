(** * A switch under a standalone controller: histories, frames and what may leave *)
From Coq Require Import ZArith List Bool Permutation.
From Verif Require Import OpenFlow ReorderModel TableModel FloodModel FloodSpec FloodRulesModel LearnModel L2Model.
Import ListNotations.
Open Scope Z_scope.

(** ** What configuration checking guarantees *)

(** Port and VLAN numbers are in range and unique, a port's VLANs exist and are
    listed once, mirror destinations are real ports that carry no VLAN (dp.py
    1015-1038, port.py 321-380), the pipeline's tables are distinct, one cookie is
    used, and the configurable priorities keep their default order around the
    fixed ones (valve_manager_base.py 13-18). *)
Record valid_cfg (cfg : dconf) : Prop := {
  vc_nums : NoDup (map pc_num (d_ports cfg));
  vc_range : forall p, In p (d_ports cfg) -> 0 < pc_num p < OFPP_MAX;
  vc_vids : NoDup (map vc_vid (d_vlans cfg));
  vc_vrange : forall v, In v (d_vlans cfg) -> 0 < vc_vid v < 4096;
  vc_member : forall p vid, In p (d_ports cfg) -> In vid (port_vlans p) -> In vid (map vc_vid (d_vlans cfg));
  vc_once : forall p, In p (d_ports cfg) -> NoDup (port_vlans p);
  vc_mirrors : forall p n, In p (d_ports cfg) -> In n (pc_mirror p) ->
      0 < n < OFPP_MAX /\ forall q, In q (d_ports cfg) -> pc_num q = n -> port_vlans q = [];
  vc_tables : NoDup (map tb_id [d_tvlan cfg; d_tsrc cfg; d_thp cfg; d_tdst cfg; d_tflood cfg]);
  vc_all : forall t, In t [d_tvlan cfg; d_tsrc cfg; d_thp cfg; d_tdst cfg; d_tflood cfg] -> tb_id t <> OFPTT_ALL;
  vc_cookie : forall t, In t [d_tvlan cfg; d_tsrc cfg; d_thp cfg; d_tdst cfg; d_tflood cfg] ->
      tb_cookie t = tb_cookie (d_tvlan cfg);
  vc_prios : 0 <= d_lowest cfg < LOW_PRIORITY /\ LOW_PRIORITY < d_high cfg < d_highest cfg
}.

(** ** Vocabulary *)

Definition tagged_member (cfg : dconf) (v n : Z) : Prop :=
  exists p, In p (d_ports cfg) /\ pc_num p = n /\ In v (pc_tagged p).
Definition untagged_member (cfg : dconf) (v n : Z) : Prop :=
  exists p, In p (d_ports cfg) /\ pc_num p = n /\ pc_native p = Some v.
Definition member (cfg : dconf) (v n : Z) : Prop := tagged_member cfg v n \/ untagged_member cfg v n.

(** A frame as it arrives: from a real port, with 12-bit VIDs. *)
Definition frame_ok (pk : packet) : Prop :=
  0 < pk_in pk < OFPP_MAX /\ forall vid pcp r, pk_tags pk = (vid, pcp) :: r -> 0 <= vid < 4096.

(** [pk] belongs to VLAN [v]: untagged on a port whose native VLAN is [v], or
    tagged [v] on a port that carries [v] tagged. *)
Definition belongs (cfg : dconf) (pk : packet) (v : Z) : Prop :=
  match pk_tags pk with
  | [] => untagged_member cfg v (pk_in pk)
  | (vid, _) :: _ => vid = v /\ tagged_member cfg v (pk_in pk)
  end.
(** the frame without its VLAN tag *)
Definition payload_tags (pk : packet) : list (Z * Z) := tl (pk_tags pk).

(** Frame [q] leaving on port [n] is frame [pk] as VLAN [v] delivers it there. *)
Definition delivered (cfg : dconf) (pk : packet) (v n : Z) (q : packet) : Prop :=
  pk_hdr q = pk_hdr pk /\
  ((tagged_member cfg v n /\ exists pcp, pk_tags q = (v, pcp) :: payload_tags pk) \/
   (untagged_member cfg v n /\ pk_tags q = payload_tags pk)).
(** Port [n] mirrors a port that [pk] entered on, or that its VLAN delivers to. *)
Definition mirrored (cfg : dconf) (pk : packet) (n : Z) : Prop :=
  exists p, In p (d_ports cfg) /\ In n (pc_mirror p) /\
    (pc_num p = pk_in pk \/ exists v, belongs cfg pk v /\ In v (port_vlans p)).
(** What may leave the switch when [pk] enters it: [pk] itself, on a member of its
    VLAN, tagged or not as that member is configured; copies to mirrors and to the
    controller. *)
Definition may_leave (cfg : dconf) (pk : packet) (e : emission) : Prop :=
  (exists v, belongs cfg pk v /\ delivered cfg pk v (fst e) (snd e)) \/
  (mirrored cfg pk (fst e) /\ pk_hdr (snd e) = pk_hdr pk) \/
  fst e = OFPP_CONTROLLER.

(** A slow-protocol (LACP) or LLDP frame carrying the tag of a VLAN its port does
    not carry, on a port configured for that protocol. *)
Definition foreign_control (cfg : dconf) (pk : packet) : Prop :=
  exists p vid pcp r, In p (d_ports cfg) /\ pc_num p = pk_in pk /\ pk_tags pk = (vid, pcp) :: r /\
    ~ In vid (pc_tagged p) /\
    ((pc_lacp p <> 0 /\ pk_hdr pk EthType = Some 0x8809) \/
     (pc_lldp p = true /\ pk_hdr pk EthType = Some 0x88cc)).

(** ** Histories *)

(** The controller, the switch and the packet-ins the switch has sent. *)
Record world := mkWorld { w_ctl : dstate; w_sw : switch; w_pins : list packet }.

(** A packet-in event is about a frame that the switch sent. *)
Definition sent_by_switch (w : world) (ev : cevent) : Prop :=
  match ev with
  | CPacketIn _ n vid mac =>
      exists q pcp r, In q (w_pins w) /\ pk_in q = n /\ pk_tags q = (vid, pcp) :: r /\ pk_hdr q EthSrc = Some mac
  | CConnect _ _ => False
  | _ => True
  end.
Definition to_controller (es : list emission) : list packet :=
  map snd (filter (fun e => fst e =? OFPP_CONTROLLER) es).

(** Everything that can happen while the controller runs with configuration
    [cfg], with the controller's events, latest first.  [F] restricts the frames
    hosts send.  A switch may connect in any state (it may have been replaced).
    Each batch of messages is reordered and sent; packet-ins may be processed
    late, and more than once; flows with a timeout may vanish at any time. *)
Inductive reach (cfg : dconf) (F : packet -> Prop) : list cevent -> world -> Prop :=
| reach_first : forall now ups sh ub out s0,
    (forall l, Permutation (sh l) l) ->
    valve_flowreorder sh ub (snd (datapath_connect cfg dstate_init now ups)) = Some out ->
    reach cfg F [CConnect now ups]
      (mkWorld (fst (datapath_connect cfg dstate_init now ups)) (apply_msgs out s0) [])
| reach_connect : forall evs w now ups sh ub out s0,
    reach cfg F evs w ->
    (forall l, Permutation (sh l) l) ->
    valve_flowreorder sh ub (snd (datapath_connect cfg (w_ctl w) now ups)) = Some out ->
    reach cfg F (CConnect now ups :: evs)
      (mkWorld (fst (datapath_connect cfg (w_ctl w) now ups)) (apply_msgs out s0) (w_pins w))
| reach_event : forall evs w ev st ms sh ub out,
    reach cfg F evs w ->
    sent_by_switch w ev ->
    cstep cfg (w_ctl w) ev = Some (st, ms) ->
    (forall l, Permutation (sh l) l) ->
    valve_flowreorder sh ub ms = Some out ->
    reach cfg F (ev :: evs) (mkWorld st (apply_msgs out (w_sw w)) (w_pins w))
| reach_frame : forall evs w live pk es,
    reach cfg F evs w ->
    frame_ok pk -> F pk ->
    walk (w_sw w) live (tb_id (d_tvlan cfg)) pk es ->
    reach cfg F evs (mkWorld (w_ctl w) (w_sw w) (to_controller es ++ w_pins w))
| reach_timeout : forall evs w f l1 l2,
    reach cfg F evs w ->
    sw_flows (w_sw w) = l1 ++ f :: l2 -> f_hard f <> 0 \/ f_idle f <> 0 ->
    reach cfg F evs
      (mkWorld (w_ctl w) (mkSwitch (l1 ++ l2) (sw_groups (w_sw w)) (sw_meters (w_sw w))) (w_pins w)).
