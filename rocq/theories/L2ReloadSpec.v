(** * Histories in which the configuration is reloaded *)
From Coq Require Import ZArith List Bool Permutation.
From Verif Require Import OpenFlow ReorderModel TableModel FloodModel FloodSpec FloodRulesModel LearnModel L2Model L2Spec L2ReloadModel.
Import ListNotations.
Open Scope Z_scope.

(** The changes of configuration, from [cfg] to [cfg'], under which a reload that
    does not restart the switch keeps VLANs apart.  [xp] and [xv] are the ports
    and VLANs of which settings outside the model change.
    - Group tables are not used for flooding.
    - The switch has external ports before and after, or neither.
    - LAG ports do not change, nor do their VLANs.
    - Hairpin ports do not change.
    - A port that stays on a VLAN stays on it tagged, or untagged, as before, and
      keeps its mirrors.
    The findings beside the theorem show what goes wrong otherwise, except for
    group tables, which are left out. *)
Record gentle (xp xv : list Z) (cfg cfg' : dconf) : Prop := {
  gt_mode : d_mode cfg <> Grouped;
  gt_ext : has_externals cfg' = has_externals cfg;
  gt_lag : forall p, In p (d_ports cfg) -> pc_lacp p <> 0 ->
      In p (d_ports cfg') /\ ~ In (pc_num p) xp /\
      forall vid, In vid (port_vlans p) -> ~ In vid xv /\ find_vlan cfg' vid = find_vlan cfg vid;
  gt_hairpin : forall p, In p (d_ports cfg) -> hairpinning p = true -> In p (d_ports cfg');
  gt_tagging : forall p p' vid, In p (d_ports cfg) -> In p' (d_ports cfg') -> pc_num p' = pc_num p ->
      In vid (port_vlans p) -> In vid (port_vlans p') -> (pc_native p = Some vid <-> pc_native p' = Some vid);
  gt_mirror : forall p p', In p (d_ports cfg) -> In p' (d_ports cfg') -> pc_num p' = pc_num p ->
      incl (pc_mirror p) (pc_mirror p')
}.

(** Everything that can happen to a switch and its controller while the
    configuration is reloaded from time to time; the last configuration argument
    is the one in force.  As [reach] (L2Spec.v) for what happens under one
    configuration, and
    - [rr_start]: the switch connects, when the controller starts or because a
      reload needs a restart: whatever was known before, under any configuration;
    - [rr_reload]: a reload that does not need one, of a change that [G] allows.
      With [late], packet-ins from before the reload may still be handled after
      it; without, they are lost or have been handled.
    A reload while the switch is away is followed by [rr_start]. *)
Section Histories.
Variables (G : list Z -> list Z -> dconf -> dconf -> Prop) (late : bool).
Inductive rreach : dconf -> world -> Prop :=
| rr_start : forall cfg st now ups sh ub out s0,
    valid_cfg cfg ->
    (forall l, Permutation (sh l) l) ->
    valve_flowreorder sh ub (snd (datapath_connect cfg st now ups)) = Some out ->
    rreach cfg (mkWorld (fst (datapath_connect cfg st now ups)) (apply_msgs out s0) [])
| rr_reload : forall cfg w ps vs xp xv st ms sh ub out,
    rreach cfg w ->
    valid_cfg (reconf cfg ps vs) -> G xp xv cfg (reconf cfg ps vs) ->
    ds_running (w_ctl w) = true ->
    reload_config xp xv cfg (reconf cfg ps vs) (w_ctl w) = Some (st, Some ms) ->
    (forall l, Permutation (sh l) l) ->
    valve_flowreorder sh ub ms = Some out ->
    rreach (reconf cfg ps vs) (mkWorld st (apply_msgs out (w_sw w)) (if late then w_pins w else []))
| rr_connect : forall cfg w now ups sh ub out s0,
    rreach cfg w ->
    (forall l, Permutation (sh l) l) ->
    valve_flowreorder sh ub (snd (datapath_connect cfg (w_ctl w) now ups)) = Some out ->
    rreach cfg (mkWorld (fst (datapath_connect cfg (w_ctl w) now ups)) (apply_msgs out s0) (w_pins w))
| rr_event : forall cfg w ev st ms sh ub out,
    rreach cfg w ->
    sent_by_switch w ev ->
    cstep cfg (w_ctl w) ev = Some (st, ms) ->
    (forall l, Permutation (sh l) l) ->
    valve_flowreorder sh ub ms = Some out ->
    rreach cfg (mkWorld st (apply_msgs out (w_sw w)) (w_pins w))
| rr_frame : forall cfg w live pk es,
    rreach cfg w ->
    frame_ok pk -> ~ foreign_control cfg pk ->
    walk (w_sw w) live (tb_id (d_tvlan cfg)) pk es ->
    rreach cfg (mkWorld (w_ctl w) (w_sw w) (to_controller es ++ w_pins w))
| rr_timeout : forall cfg w f l1 l2,
    rreach cfg w ->
    sw_flows (w_sw w) = l1 ++ f :: l2 -> f_hard f <> 0 \/ f_idle f <> 0 ->
    rreach cfg
      (mkWorld (w_ctl w) (mkSwitch (l1 ++ l2) (sw_groups (w_sw w)) (sw_meters (w_sw w))) (w_pins w)).
End Histories.
