(** * Learned hosts and the rules that deliver to them *)
From Coq Require Import ZArith List Bool.
From Verif Require Import OpenFlow TableModel FloodModel FloodSpec HostCacheModel LearnModel L2Model L2Spec.
Import ListNotations.
Open Scope Z_scope.

(** When an event happened. *)
Definition ev_time (ev : cevent) : Z :=
  match ev with
  | CConnect t _ | CDisconnect t | CPortStatus t _ _ _ _ | CPacketIn t _ _ _ | CLacp t _ _ | CExpire t => t
  end.
(** Each event of the history (latest first) comes after the ones before it. *)
Fixpoint in_order (R : Z -> Z -> Prop) (evs : list cevent) : Prop :=
  match evs with
  | [] => True
  | ev :: r => (forall e, In e r -> R (ev_time e) (ev_time ev)) /\ in_order R r
  end.

(** Host [mac] of VLAN [v] is learned on port [n], where it was last heard of at
    [t]. *)
Definition learned (w : world) (v mac n t : Z) : Prop :=
  exists e, cached_host (s_cache (ds_learn (w_ctl w)) v) mac = Some e /\ e_port e = n /\ e_time e = t.

(** [n] and [m] are the same port, or members of one LAG. *)
Definition together (cfg : dconf) (n m : Z) : Prop :=
  n = m \/ exists p q, In p (d_ports cfg) /\ In q (d_ports cfg) /\ pc_num p = n /\ pc_num q = m /\
    pc_lacp p <> 0 /\ pc_lacp p = pc_lacp q.

(** No port uses loop protection. *)
Definition no_loop_protection (cfg : dconf) : Prop := forall p, In p (d_ports cfg) -> pc_loop p = false.

(** [pk] comes in on a port marked as external. *)
Definition from_external (cfg : dconf) (pk : packet) : bool :=
  existsb (fun p => (pc_num p =? pk_in pk) && pc_ext p) (d_ports cfg).
(** The destination table has a rule for host [mac] of VLAN [v] (on a datapath with
    external ports, one for frames like [pk]). *)
Definition rule_installed (cfg : dconf) (s : switch) (v mac : Z) (pk : packet) : Prop :=
  exists f, In f (sw_flows s) /\ f_table f = tb_id (d_tdst cfg) /\
    f_match f = exact EthDst mac :: vlan_item v ::
      (if has_externals cfg then [exact VlanPcp (if from_external cfg pk then 0 else PCP_EXT_PORT_FLAG)] else []).

(** Every rule of table [t] that applies to [pk] sends it on to another table. *)
Definition lets_through (s : switch) (t : Z) (pk : packet) : Prop :=
  (exists f, hit (sw_flows s) t pk f) /\
  forall f, hit (sw_flows s) t pk f ->
    forall live, exists es pk' nx, exec_insts (group_lookup s) live (f_inst f) pk = (es, pk', Some nx).
(** [pk] as VLAN [v] carries it. *)
Definition carried (pk : packet) (v pcp : Z) : packet := mkPacket (pk_in pk) ((v, pcp) :: tl (pk_tags pk)) (pk_hdr pk).
