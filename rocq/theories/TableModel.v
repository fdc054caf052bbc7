(** * Building flow mods for a table: valve_table.py 228-300, valve_of.py 847-933 *)

From Coq Require Import ZArith List Bool.
From Verif Require Import OpenFlow TrimModel.
Import ListNotations.
Open Scope Z_scope.

(** valve_table.py 22-55: what a flow mod takes from its table.  [tb_flags] is
    OFPFF_SEND_FLOW_REM (1) if notify_flow_removed, else 0. *)
Record table := mkTable { tb_id : Z; tb_cookie : Z; tb_flags : Z }.

(** valve_table.py 201-226 (_trim_inst).  The assertion on set_fields concerns the
    pipeline layout and is not modelled here ([None] is never returned). *)
Definition trim (inst : list instruction) : list instruction :=
  match trim_inst None inst with Some i => i | None => inst end.

(** valve_table.py 228-270 (flowmod), for an add or modify *)
Definition tb_write (t : table) (cmd : fcmd) (prio : Z) (m : fmatch) (inst : list instruction)
           (hard idle : Z) : flowmod :=
  mkFlowMod cmd (tb_id t) prio m (tb_cookie t) 0 0 (trim inst) hard idle (tb_flags t).
Definition tb_add (t : table) (prio : Z) (m : fmatch) (inst : list instruction) : flowmod :=
  tb_write t FAdd prio m inst 0 0.
(** valve_table.py 272-284 (flowdel) *)
Definition tb_del (t : table) (cmd : fcmd) (prio : Z) (m : fmatch) (out_port : Z) : flowmod :=
  mkFlowMod cmd (tb_id t) prio m (tb_cookie t) out_port OFPG_ANY [] 0 0 (tb_flags t).
(** valve_table.py 286-290 (flowdrop) *)
Definition tb_drop (t : table) (prio : Z) (m : fmatch) (hard : Z) : flowmod :=
  tb_write t FAdd prio m [] hard 0.
(** valve_table.py 292-300 (flowcontroller) *)
Definition tb_controller (t : table) (prio : Z) (m : fmatch) (inst : list instruction) (max_len : Z) : flowmod :=
  tb_write t FAdd prio m (Apply [Output OFPP_CONTROLLER max_len] :: inst) 0 0.

(** valve_of.py 847-880 (build_match_dict), the VLAN item; [OFPVID_NONE] is the
    VID of NullVLAN.  (A VLAN with VID 0x1000, any tag, only occurs in ACLs.) *)
Definition vlan_item (vid : Z) : match_item :=
  if vid =? OFPVID_NONE then exact VlanVid OFPVID_NONE else exact VlanVid (vid_present vid).
