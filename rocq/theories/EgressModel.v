(** * The egress pipeline: valve_pipeline.py, faucet_metadata.py *)

From Coq Require Import ZArith List Bool.
From Verif Require Import OpenFlow TrimModel TableModel.
Import ListNotations.
Open Scope Z_scope.

(** faucet_metadata.py 5-14 *)
Definition PORT_METADATA_MASK : Z := 0xFFF.
Definition VLAN_METADATA_MASK : Z := 0xFFF000.
Definition EGRESS_METADATA_MASK : Z := Z.lor PORT_METADATA_MASK VLAN_METADATA_MASK.
Definition egress_metadata (port_num vid : Z) : Z := Z.lor (Z.shiftl vid 12) (Z.land port_num PORT_METADATA_MASK).

(** What the pipeline reads of a port: port.py 91-95, 533-538; [ep_mirror]: the ports
    that get a copy (dp.py 1017-1037). *)
Record eport := mkEport { ep_num : Z; ep_tagged : list Z; ep_native : option Z; ep_mirror : list Z }.
(** valve_pipeline.py 37-50: the tables; [ec_acl]: the egress ACL table, if there is one;
    [ec_flood]: where packets go that the egress table has no rule for. *)
Record econf := mkEconf { ec_egress : table; ec_acl : option table; ec_flood : Z }.

(** valve_manager_base.py 13-17; dp.py's low and high priorities are these *)
Definition MISS_PRIORITY : Z := 0.
Definition HIGH_PRIORITY : Z := 0x4000.

Section Egress.
Variable c : econf.

(** valve_pipeline.py 107-147 (output), with an egress table; valve_of.py 503-515 *)
Definition output (p : eport) (vid : Z) : list instruction :=
  [WriteMetadata (egress_metadata (ep_num p) vid) EGRESS_METADATA_MASK;
   Goto (tb_id (match ec_acl c with Some t => t | None => ec_egress c end))].

(** valve_pipeline.py 164-178 (_add_egress_table_rule) *)
Definition egress_match (num vid : Z) : fmatch :=
  [masked Metadata (egress_metadata num vid) EGRESS_METADATA_MASK; vlan_item vid].
Definition egress_actions (p : eport) (pop : bool) : list action :=
  map (fun m => Output m 0) (ep_mirror p) ++ (if pop then [PopVlan] else []) ++ [Output (ep_num p) 0].
Definition egress_rule (p : eport) (vid : Z) (pop : bool) : ofmsg :=
  FlowMod (tb_add (ec_egress c) HIGH_PRIORITY (egress_match (ep_num p) vid) [Apply (egress_actions p pop)]).
(** valve_pipeline.py 180-188 (add_port) *)
Definition eg_add (p : eport) : list ofmsg :=
  map (fun v => egress_rule p v false) (ep_tagged p) ++
  match ep_native p with Some v => [egress_rule p v true] | None => [] end.
(** valve_pipeline.py 190-201 (del_port) *)
Definition eg_del (num : Z) : list ofmsg :=
  [FlowMod (tb_del (ec_egress c) FDelete 0 [masked Metadata (Z.land num PORT_METADATA_MASK) PORT_METADATA_MASK] OFPP_ANY)].

(** valve.py 395-410 (_add_default_drop_flows), the egress table; faucet_pipeline.py
    192-201 *)
Definition eg_default : list ofmsg := [FlowMod (tb_add (ec_egress c) MISS_PRIORITY [] [Goto (ec_flood c)])].

(** valve.py 845-885 (ports_add) and 897-933 (ports_delete), the egress table's part:
    a port is added or deleted; the datapath connects anew: valve.py 375-390 deletes all
    flows. *)
Inductive xevent := XAdd (p : eport) | XDel (num : Z) | XConnect.
Definition xstep (s : switch) (e : xevent) : switch :=
  match e with
  | XAdd p => apply_msgs (eg_add p) s
  | XDel n => apply_msgs (eg_del n) s
  | XConnect => apply_msgs eg_default empty_switch
  end.
Definition xrun (evs : list xevent) : switch := fold_left xstep evs (apply_msgs eg_default empty_switch).
End Egress.
