(** * Filters on stack ports: specification *)
From Coq Require Import List Bool ZArith.
From Verif Require Import OpenFlow VipSpec PruneModel.
Import ListNotations.
Open Scope Z_scope.

(** Floods come in on: the port chosen towards the root, and the ports away from it that
    are not redundant. *)
Definition floods_come_in (st : prstate) (p : Z) : Prop :=
  (In p (st_towards st) /\ st_chosen st = Some p) \/
  (~ In p (st_towards st) /\ In p (st_away st) /\ ~ In p (st_redundant st)).

(** The packet came in on stack port [p], in VLAN [vid]. *)
Definition came_in (cfg : prconf) (pk : packet) (vid p : Z) : Prop :=
  In p (pr_ports cfg) /\ pk_in pk = p /\ exists pcp r, pk_tags pk = (vid, pcp) :: r.

(** It is sent to one of the groups that are flooded as such: the bridges' (01:80:c2), the
    IPv4 (01:00:5e) and IPv6 (33:33) multicast groups, or to everybody. *)
Definition to_group (pk : packet) : Prop :=
  exists x, pk_hdr pk EthDst = Some x /\
    (x / 2 ^ 24 = 0x0180c2 \/ x / 2 ^ 24 = 0x01005e \/ x / 2 ^ 32 = 0x3333 \/ x = 0xffffffffffff) /\ 0 <= x < 2 ^ 48.

(** [st] is what was so when the rules of VLAN [vid] were last made. *)
Definition last_state (h : list pr_event) (vid : Z) (st : prstate) : Prop :=
  exists h1 u h2, h = h1 ++ (vid, u, st) :: h2 /\ forall e, In e h2 -> fst (fst e) <> vid.

(** VLAN IDs are such. *)
Definition wf_hist (h : list pr_event) : Prop := forall e, In e h -> 0 <= fst (fst e) < 4096.

(** To begin with, none of these rules are there, and no other rule for the packet comes
    before them. *)
Definition begins (cfg : prconf) (s : switch) (pk : packet) : Prop :=
  pr_class cfg <> OFPTT_ALL /\
  forall f, In f (sw_flows s) -> f_table f = pr_class cfg ->
    f_prio f <> 0x4100 /\ f_prio f <> 0x40ff /\ (matches pk (f_match f) = true -> f_prio f < 0x4100).

(** With reflection, broadcasts from the direction of the root are only flooded: by
    switches at the edge all, by others those from ports towards the root. *)
Definition only_flooded (cfg : prconf) (st : prstate) (p : Z) : Prop :=
  pr_reflection cfg = true /\ st_root st = false /\ (st_edge st = true \/ In p (st_towards st)).

(** Ethernet addresses and VLAN IDs of packets are such. *)
Definition wf_frame (pk : packet) : Prop :=
  (forall x, pk_hdr pk EthDst = Some x -> 0 <= x < 2 ^ 48) /\
  forall v pcp r, pk_tags pk = (v, pcp) :: r -> 0 <= v < 4096.

(** In the classification table, the rules that may decide are those that would have to
    begin with. *)
Definition as_before (cfg : prconf) (h : list pr_event) (s : switch) (pk : packet) : Prop :=
  forall f, hit (sw_flows (pr_run cfg h s)) (pr_class cfg) pk f <-> hit (sw_flows s) (pr_class cfg) pk f.
