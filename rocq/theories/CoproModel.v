(** * Coprocessor ports

    valve_coprocessor.py (CoprocessorManager), faucet_pipeline.py 121-128 (the copro table),
    valve.py 845-885 (add_port is called as a port comes up): a coprocessor is a device on a port
    that sends frames out of other ports by tagging them with a VLAN ID that stands for the port.

    The messages of other managers are any messages (CoproSpec.elsewhere says which).
    Simplified: port numbers are small; the code would truncate a VLAN ID of more than 16 bits. *)

From Coq Require Import ZArith List Bool.
From Verif Require Import OpenFlow.
Import ListNotations.
Open Scope Z_scope.

(** The ports (port.py: number and, of coprocessor ports, coprocessor.vlan_vid_base), the tables'
    numbers and the priorities *)
Record copconf := mkCopconf {
  co_ports : list (Z * option Z);
  co_vlan : Z; co_copro : Z; co_src : Z; co_dst : Z; co_output : Z;
  co_cookie : Z;
  co_lowest : Z; co_low : Z; co_high : Z }.

(** valve_table.py 171-225: a flow is added *)
Definition cop_add (cfg : copconf) (table prio : Z) (m : fmatch) (inst : list instruction) : ofmsg :=
  FlowMod (mkFlowMod FAdd table prio m (co_cookie cfg) OFPP_ANY OFPG_ANY inst 0 0 0).

(** valve_of.py 530-538 *)
Definition cop_vid (vid : Z) : Z := Z.lor vid OFPVID_PRESENT.

(** valve.py 395-411 (_add_default_drop_flows), faucet_pipeline.py 126 (miss_goto): what
    does not match goes on to be forwarded *)
Definition cop_default (cfg : copconf) : ofmsg :=
  cop_add cfg (co_copro cfg) (co_lowest cfg) [] [Goto (co_dst cfg)].

(** valve_coprocessor.py 51-57 *)
Definition cop_divert (cfg : copconf) (n : Z) : ofmsg :=
  cop_add cfg (co_vlan cfg) (co_low cfg) [exact InPort n] [Goto (co_copro cfg)].
(** valve_coprocessor.py 58-64: frames diverted do not come to this table *)
Definition cop_src (cfg : copconf) (n : Z) : ofmsg :=
  cop_add cfg (co_src cfg) (co_high cfg) [exact InPort n] [Goto (co_output cfg)].
(** valve_coprocessor.py 67-79 *)
Definition cop_inject (cfg : copconf) (base n : Z) : ofmsg :=
  cop_add cfg (co_copro cfg) (co_high cfg) [exact VlanVid (cop_vid (base + n))] [Apply [PopVlan; Output n 0]].

(** valve_coprocessor.py 47-80 *)
Definition cop_add_port (cfg : copconf) (p : Z * option Z) : list ofmsg :=
  match snd p with
  | Some base => cop_divert cfg (fst p) :: cop_src cfg (fst p)
                 :: map (fun q => cop_inject cfg base (fst q)) (co_ports cfg)
  | None => []
  end.

(** What happens after the tables were set up: a port comes up, or anything is sent by others.
    Ports going down change nothing here (valve_manager_base.py 40-42). *)
Inductive copevent := CopUp (n : Z) | CopOther (m : ofmsg).
Definition cop_step (cfg : copconf) (s : switch) (e : copevent) : switch :=
  match e with
  | CopUp n => match find (fun p => fst p =? n) (co_ports cfg) with
               | Some p => apply_msgs (cop_add_port cfg p) s
               | None => s
               end
  | CopOther m => apply_msg m s
  end.
Definition cop_run (cfg : copconf) (s : switch) (es : list copevent) : switch :=
  fold_left (cop_step cfg) es (apply_msg (cop_default cfg) s).
