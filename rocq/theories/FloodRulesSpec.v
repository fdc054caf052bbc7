(** * Histories of a flood table, and the frames it sees *)
From Coq Require Import ZArith List Bool Permutation.
From Verif Require Import OpenFlow ReorderModel TableModel FloodModel FloodSpec FloodRulesModel.
Import ListNotations.
Open Scope Z_scope.

Definition valid_vlan (v : vlan) : Prop := wf_vlan v /\ 0 < v_vid v < 4096.

(** The flood tables that can arise: a cold start programs some VLANs, then any
    number of batches add, update, delete and re-add VLANs, each VLAN as it is
    configured and as its ports are at that moment. *)
Inductive reachable (ft : table) (md : mode) (restricted : bool) : switch -> Prop :=
| reach_cold : forall sh ub vs out,
    (forall l, Permutation (sh l) l) -> (forall v, In v vs -> valid_vlan v) -> NoDup (map v_vid vs) ->
    valve_flowreorder sh ub (cold_msgs ft md restricted vs) = Some out ->
    reachable ft md restricted (apply_msgs out empty_switch)
| reach_batch : forall s sh ub ops out,
    reachable ft md restricted s ->
    (forall l, Permutation (sh l) l) -> (forall o, In o ops -> valid_vlan (op_vlan o)) ->
    valve_flowreorder sh ub (flat_map (op_msgs ft md restricted) ops) = Some out ->
    reachable ft md restricted (apply_msgs out s).

(** The frame's destination MAC address and ethertype *)
Definition has_dst (p : packet) (x : Z) : Prop := pk_hdr p EthDst = Some x /\ 0 <= x < 2 ^ 48.
(** Broadcast, IPv4 and IPv6 multicast and the bridge group: flooded whatever the
    unicast flooding settings are; anything else is unknown unicast. *)
Definition group_dst (x : Z) : bool :=
  (x =? 0xffffffffffff) || (x / 2 ^ 24 =? 0x01005e) || (x / 2 ^ 24 =? 0x0180c2) || (x / 2 ^ 32 =? 0x3333).
(** ARP requests and IPv6 neighbour/router discovery: what restricted ports may
    exchange. *)
Definition arp_nd (x : Z) (ty : option Z) : bool :=
  match ty with
  | Some 0x806 => x =? 0xffffffffffff
  | Some 0x86dd => (x / 2 ^ 24 =? 0x3333ff) || (x =? 0x333300000001) || (x =? 0x333300000002)
  | _ => false
  end.

(** Link-local protocol destinations (CDP/VTP, Cisco PVST, 802.1 bridge group) *)
Definition reserved_dst (p : packet) : Prop :=
  exists x, has_dst p x /\
    (x = 0x01000ccccccc \/ x = 0x01000ccccccd \/ 0x0180c2000000 <= x <= 0x0180c200000f).

(** There is somewhere to flood to. *)
Definition floodable (v : vlan) (unicast no_external no_restricted : bool) (i : port) : Prop :=
  (exists q, eligible v unicast no_external no_restricted (Some i) q) \/ p_hairpin i = true.

(** The table was programmed for VLAN [v] by the last batch: [v] is one of the
    VLANs of a cold start, or was added or re-added (each VLAN once) on top of any
    history.  [fresh]: rules of an earlier configuration of [v] are gone. *)
Inductive just_programmed (ft : table) (md : mode) (restricted : bool) (v : vlan) : bool -> switch -> Prop :=
| jp_cold : forall sh ub vs out,
    (forall l, Permutation (sh l) l) -> (forall w, In w vs -> valid_vlan w) -> NoDup (map v_vid vs) -> In v vs ->
    valve_flowreorder sh ub (cold_msgs ft md restricted vs) = Some out ->
    just_programmed ft md restricted v true (apply_msgs out empty_switch)
| jp_add : forall s sh ub ops out,
    reachable ft md restricted s ->
    (forall l, Permutation (sh l) l) -> (forall o, In o ops -> valid_vlan (op_vlan o)) ->
    NoDup (map (fun o => v_vid (op_vlan o)) ops) -> In (OpAdd v) ops ->
    valve_flowreorder sh ub (flat_map (op_msgs ft md restricted) ops) = Some out ->
    just_programmed ft md restricted v false (apply_msgs out s)
| jp_readd : forall s sh ub ops out,
    reachable ft md restricted s ->
    (forall l, Permutation (sh l) l) -> (forall o, In o ops -> valid_vlan (op_vlan o)) ->
    NoDup (map (fun o => v_vid (op_vlan o)) ops) -> In (OpReadd v) ops ->
    valve_flowreorder sh ub (flat_map (op_msgs ft md restricted) ops) = Some out ->
    just_programmed ft md restricted v true (apply_msgs out s).
