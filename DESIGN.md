# Formal model of faucetsdn/faucet in Rocq (Coq 8.16.1)

The model is written by hand from the text of `/repo` (Python).  Nothing in
`/repo` is executed.  Every model definition cites the file and lines it
models and says where it simplifies.

## Layout

`rocq/theories/` contains, for each area `X`:

* `XModel.v` – definitions only (the Gallina transcription of the code),
* `XSpec.v` – a small independent specification (what the English says), which
  does not use the model's helpers,
* `XProofs.v` and other `X...Proofs.v` – lemmas,
* `XProps.v` – the property theorems, each with `Print Assumptions` and a
  concrete `Example` that meets its hypotheses.

A theorem is named after the property it belongs to.  A name ending in
`_refuted` is a counterexample: a concrete configuration and history for which
a stronger claim is false of the code (a finding).  A name ending in
`_partial` proves part of the property's statement.

`tools/claims.txt` is the source of `MANIFEST.json` (`tools/mkmanifest.py`).
`seeded/LOG.jsonl` logs the wrong programs the theorems were tested against.

## Trusted base

* Coq's kernel (8.16.1) and its standard library (lists, integers, rationals,
  strings, `lia`, `lra` on rationals).
* `Print Assumptions` answers "Closed under the global context" for every
  property theorem: none depends on an axiom.  A whole-library check with
  `coqchk -o` lists the seven axioms `Coq.ssr.ssrunder.Under_rel.*`, which
  belong to a module of the standard library that a tactic library loads; no
  theorem here uses them.
* The transcription of the Python text into Gallina, reviewable definition by
  definition through the citations.
* `OpenFlow.v`: the specification of the OpenFlow 1.3 switch that receives the
  messages (flow table add, modify, delete, lookup, action execution, groups),
  which is not in `/repo`.

### Conventions

* Python `dict` → association list with unique keys kept in insertion order
  (or a function when order is irrelevant); `sorted` → stable insertion sort;
  `set` → list, with statements insensitive to order, or any permutation.
* Python exceptions and failed asserts are explicit (`option`, or an error
  constructor).
* Integers are `Z`/`N`/`nat`; times are integers; floating point fractions are
  rationals.
* MAC and IP addresses are numbers; names are numbers; strings are strings
  only where the code takes them apart.
* Randomness, clock, hash functions and external libraries (YAML, Chewie, the
  BGP speaker) are parameters or arbitrary events, universally quantified in
  the theorems (never axioms).

### Assumptions of the model, by area

* OpenFlow and batches: matches are compared structurally; `str(msg)` is
  injective; a batch is applied in order and completely; deleting a group
  deletes the flows that use it; meters never drop.  The assertion in
  `valve_table.py` that only declared fields are set is not modelled in
  `trim` (table features are C65).
* Flooding and L2: ports are told apart by number; a VLAN lists each member
  once; the order in which Python iterates over a set of ports is configuration
  order; `port_desc_stats_reply_handler` only makes up port status events;
  `permanent_learn` is constant.  The L2 model is one datapath outside a stack,
  without ACLs, routing, 802.1X, coprocessor ports or egress pipeline (each of
  which has its own model).
* Reloads of a standalone datapath: datapath settings stay the same (a change
  there restarts the switch); ports name their VLANs by VID, where the code
  compares the names in the configuration; settings outside the L2 model may
  change arbitrarily; a reload while the switch is away is followed by a fresh
  connection.
* Routing: one IP version at a time; the FIB table only (VIP tables are not
  modelled); PyTricia is a longest-prefix dictionary; packet-ins come with
  reason ACTION unless their TTL ran out.
* Router check: VLANs are told apart by VID.
* Includes: paths are resolved independently of file contents; the two reads of
  a file happen at the same time; Python's recursion limit is not modelled;
  writing the file on revert works; SHA256 has no collisions.
* Configuration comparison: hashes have no collisions; dictionary keys can be
  ordered; values are booleans, integers, texts, addresses, lists, sets and
  dictionaries.
* Stacks: edge names are injective; links deliver to the configured far end; no
  mirroring, hairpin or external ports on stack ports in the flood model.
  Frames between two external ports are by design never switched.
* Stack root: on a reload every datapath is told the root; datapaths without
  stacking are left out.
* Stack links: positive send intervals; ADMIN_DOWN is never set; a reload while
  links are up is not modelled.
* ACLs: match values are given encoded; the Ethernet type of pushed tags and
  the recirculation of connection tracking are not modelled; only the ACL
  manager's messages are in the batches; the sharing of memoised instructions
  is treated separately (`SharedTrimProofs.v`).
* Tunnels: `exit_instructions` is a list; all switches have the same tunnel
  configuration (C66 says when they do); a reload is a fresh start; a KeyError
  ends the run.
* Manager: a running valve has a connected switch; hardware is supported;
  datapath ids are distinct.
* Pipeline: filler tables of the table features message are in order of id.
* Port ranges: `\d` matches ASCII digits; names are numbers no port has.
* Tunnel VLANs: destinations are given resolved; ACLs may be resolved in any
  order.
* Beacons: a shuffle is any permutation; LACP packets sent at the same time are
  left out.
* LLDP contents: names are their UTF-8 bytes; the wire format is that of IEEE
  802.1AB as the packet library reads it (a packet cut short is not LLDP);
  frames without a VLAN tag.
* Router's answers: packets are given parsed, with the fields that matter; an
  IPv6 packet whose ICMPv6 type does not go with its contents is `OtherIcmp6`;
  the bytes quoted in a time exceeded message are left out.
* BGP: one IP version at a time; a VLAN is kept by a reload only if its
  configured routes are the same; a neighbour's updates come one at a time and
  only from speakers that were started; flows and next hop resolution are left
  to the routing model.
* Gauge: watchers are told apart by a name; the registry of connected datapaths
  forgets the old connection of a datapath that connects again and ignores its
  loss; threads do not die by themselves.
* Events: green threads switch only while they wait for the queue or the socket;
  an event's encoding never fails; a client that closes its socket makes the next
  write fail.
* Egress pipeline: the egress table by itself, without egress ACLs.  LAG ports
  that go down keep their rules in it (`lacp_update` does not call `del_port` of the
  pipeline), which is not modelled: their hosts' rules in eth_dst are gone by then.
* Learning in stacks: one VLAN and a topology that does not change; which frames are
  reported to the controller, and the decision whether to update the cache
  (`learn_host_on_vlan_ports`, modelled in LearnModel) apart from discarding what
  the root reflects, are free in every event; FAUCET's own addresses and the inter-VLAN flows of route
  learning are left out.
* External ports in stacks: one VLAN, floods of one frame; ports are up or down
  throughout it; LAGs, mirrors, hairpins and restricted broadcast are left out
  (FloodModel has them for one switch).
* Meters: which meters are used by ACLs (dp.py 1181-1186) and the comparison of
  meters by their configuration are inputs; the bands are lists of rates; what a
  meter does to packets is not modelled.
* References: texts are numbers (0 is the empty text); match fields and actions
  without references are opaque; ACLs named for 802.1X, BGP VLANs of routers, stack
  references (see Stack), and the VLANs made for tunnels are left out.
* Table declarations: the tables of layer 2, of egress and of ACLs; routing tables
  (FIB, VIP), coprocessor tables, ACLs of tunnels and of 802.1X are left out; table
  sizes are C32's subject.
* LAGs over several switches: nomination and the roles of ports; the rules sent for
  a port's role are those of one switch (L2Model); LACP packets sent are left out.
* Port descriptions on connecting (PortDescModel): the status messages made up of
  them; the rules these send are left out, as connecting then clears the tables.
* Coprocessor ports (CoproModel): their rules beside arbitrary messages of other
  managers that leave the coprocessor table and low-priority rules of whole
  coprocessor ports alone; VLAN IDs of more than 16 bits are left out.
* Learning with idle timeouts (IdleModel): the handler of flow-removed messages and the
  rules of hosts by table and match; messages are handled as the rule goes (none is
  in flight), and ports with LACP do not go up or down.
* LACP frames (LacpPduModel): the fields of frames and when they are sent; roles may be
  any (their choice is in NomModel), and the encoding of the fields is ryu's.
* What the router sends of its own accord (AskModel): the fields of requests and
  advertisements and the ports they go to; lifetimes and flags of advertisements, and
  the order of ports, are left out.
* The rules for the router (VipModel): those in the classification and VIP tables, after
  all VLANs were added; deletion of VLANs and global_vlan are left out.
* Packet-in messages (PktInModel): the checks and the Ethernet and VLAN headers, on bytes.
  The packet library is not in the repository; how it parses these two headers is
  described at the head of PktInModel.v and trusted.
* Filters of stack ports (PruneModel): those in the classification table; the choice of
  ports (towards the root, away, redundant) is an input here, and modelled in StackModel.
* Settings of a switch (SettingsModel): the tables of defaults and types of dp.py are
  transcribed; netaddr.valid_mac is a parameter; the stack section and texts are left out.
* 802.1X: the authenticator (Chewie) is an arbitrary sequence of events;
  dynamically assigned VLANs are left out; only enabled ports with
  `opstatus_reconf`; no reload; other ports' ACLs have no failover groups; no
  port has both `dot1x_mab` and `dot1x_acl`.

### Parts of the code that are not modelled

Prometheus metrics and their names, logging, the encoding of events, what
Gauge's watchers write (`gauge_prom.py`, `watcher.py`) and how its configuration
is parsed, `fctl.py`, `__main__.py`, the web server
(`prom_client.py`), the Ryu/OS-Ken application glue apart from the handlers in
`ManagerModel.v`, the BGP protocol library (its callbacks are arbitrary updates), packet
parsing and building in `valve_packet.py` apart from the sanity checks,
address helpers, LLDP and the sizes of what the router answers, the coprocessor's own rules (only their place in the
pipeline), multicast and NFV host steering, and acceptance of configuration
values (types and defaults) apart from the checks named in the properties.

## Per property

How each is proved, its status, and the findings beside it.  (Generated by `tools/mkdesign.py`.)

* **C01 Reordering a batch keeps its effect** (proved). Modelled: ReorderModel: `valve_of.py` 1074-1278. Proof: commutation of messages with disjoint slots, induction over the batch. Proved for every batch satisfying clean_batch (the restriction in the statement); the refuted theorems show each restriction is needed. Findings: `C01_add_then_modify_refuted`, `C01_group_redefinition_refuted`, `C01_cookie_slot_refuted`.
* **C02 A reordered batch is sent in a safe order and invents nothing** (proved). Modelled: ReorderModel. Proof: permutation and sublist lemmas on the sorted pieces. All batches; the reorderer can raise TypeError on batches the current code does not build. Findings: `C02_reorder_raises_refuted`.
* **C03 A requested delete is never lost** (partial). Modelled: ReorderModel. Proof: every delete kept unless an add has its key. The full statement is false: a wildcard delete with the key of an add is dropped. Proved for clean batches. Findings: `C03_delete_lost_refuted`.
* **C04 Trimming actions never changes what is transmitted** (proved). Modelled: TrimModel: `valve_table.py` 178-226. Proof: induction over the action list with the state of the packet. For flows with at most one apply-actions instruction, as OpenFlow requires. Sharing of memoised instruction objects between flows breaks the claim (refuted). Findings: `C04_shared_trim_refuted`.
* **C05 VLAN VID encoding round-trips** (proved). Modelled: TrimModel: `valve_of.py` VID helpers. Proof: bit arithmetic. VIDs 0..4095.
* **C06 Flooded frames are not reflected** (proved). Modelled: FloodModel: flood action lists. Proof: list induction over VLAN members. For every VLAN with well-formed membership; action lists of both kinds of flood rule.
* **C07 A flood reaches a LAG through at most one member and never its own LAG** (partial). Modelled: FloodModel, FloodRulesModel. Proof: same, with LAG membership. Proved of every action list, and of the installed table for ports that have somewhere to flood to. False in general: a LAG member with nowhere to flood to gets no rule of its own (or keeps a stale one). Findings: `C07_flood_into_own_lag_refuted`, `C07_stale_rule_to_down_lag_refuted`.
* **C08 A flood reaches exactly the eligible members with the right tagging** (partial). Modelled: FloodModel, FloodRulesModel. Proof: characterisation of the outputs as a set; slot lemmas for the installed table. Proved of action lists and of the installed table right after a VLAN is (re)programmed, on top of any history. Refreshes with strict modify (after a port goes down) can lose floods (refuted theorems). Findings: `C08_group_refresh_refuted`, `C08_restricted_refresh_refuted`.
* **C09 VLAN isolation for every history** (partial). Modelled: L2Model: one datapath, all events, packet walk. Proof: invariant on the flow table over all event histories, then the packet walk. Proved for every history in which hosts send no LACP or LLDP frames tagged with a VLAN their port does not carry; without that restriction it is false (VLAN hopping through the punt rules, refuted theorem). One datapath without stacking, ACLs or routing. Findings: `C09_isolation_with_foreign_control_refuted`.
* **C10 Frames to a learned host leave on its port only** (proved). Modelled: L2Model. Proof: invariant relating cache and rules over all histories. Invariant over all histories of the standalone L2 model. Refuted beside it: with loop protection the cache moves while the rules stay; in a LAG the rule may name another member than the cache does. Findings: `C10_with_loop_protection_refuted`, `C10_exact_port_of_lag_refuted`.
* **C11 Frames from a down or unconfigured port are dropped** (partial). Modelled: L2Model. Proof: invariant over all histories. Every history of a standalone datapath. False in three cases, each refuted: a LAG port that goes down keeps punting LACP/LLDP to the controller; a port added with its link down, or reported blocked, is treated as up. Outside them proved. Findings: `C11_down_lag_port_punts_refuted`, `C11_added_down_forwards_refuted`, `C11_blocked_forwards_refuted`.
* **C12 The host cache and its per-port index always agree** (proved). Modelled: HostCacheModel: `vlan.py` host cache. Proof: invariant over operations; refinement to an abstract host table. For every sequence of cache operations the index agrees with the map (no clock assumption); with a non-decreasing clock the cache is exactly the abstract host table.
* **C13 The VLAN host limit is never exceeded** (partial). Modelled: LearnModel: learning decision. Proof: invariant over histories. Proved for every history of one datapath. False in a stack: learning on behalf of a neighbour skips the limit (C13_stack_limit_refuted). Findings: `C13_stack_limit_refuted`.
* **C14 The port host limit is never exceeded** (partial). Modelled: LearnModel. Proof: invariant over histories. Holds while no host moves onto the port. Finding: one move onto a full port disables the limit for good (C14_move_disables_limit_refuted). Findings: `C14_move_disables_limit_refuted`.
* **C15 Permanently learned hosts never move or expire** (proved). Modelled: LearnModel. Proof: preservation by every operation. Every history that does not flush the port or VLAN; the whole cache entry is unchanged.
* **C16 Host expiry misses nothing and expires nothing early** (proved). Modelled: HostCacheModel. Proof: refinement with time. Every history with a non-decreasing clock; C16_clock_step_refuted shows the clock hypothesis is needed. Findings: `C16_clock_step_refuted`.
* **C17 A learned source rule always ages out before its destination rule** (partial). Modelled: LearnModel, L2Model. Proof: arithmetic on the timeouts, and on every rule a learning installs. The timeouts of rules installed together are ordered and bounded as claimed. Findings: not on permanent ports; the idle timeout can exceed OpenFlow's 16 bits; and refreshes reinstall only the source rule, so a talking host can lose its destination rule for good. Findings: `C17_permanent_dst_expires_refuted`, `C17_timeout_field_refuted`, `C17_talker_loses_dst_rule_refuted`.
* **C18 Loop protection stops learning on the looping port** (partial). Modelled: LearnModel. Proof: case analysis of the decision. During the ban no rule is installed on the looping port, whatever happens. Finding: the banned packet does move the host in the cache. Findings: `C18_ban_moves_host_refuted`.
* **C19 LACP actor state follows the protocol** (proved). Modelled: L2Model (LACP). Proof: characterisation of the state by the trace of events. Every history in which disconnections are noticed and link reports are unambiguous; the actor state is characterised exactly by the events.
* **C20 Only selected and up LAG ports forward** (proved). Modelled: L2Model. Proof: invariant over histories. The blocking direction holds for every history; the accepting direction needs disconnections to be noticed (clean).
* **C21 Packet-in rate limit** (partial). Modelled: PacketModel. Proof: induction over the arrivals. The exact rate, the counter and the absence of drops below the limit are proved for every arrival sequence; that the limit bounds the number processed is false (C21_limit_refuted): only every limit-th packet is ignored. Findings: `C21_limit_refuted`.
* **C22 ACLs are first match, across several ACLs** (proved). Modelled: AclModel. Proof: invariant over histories of the ACL manager, then the lookup by priority. Over all histories of the ACL manager's events on a switch, whatever it held before. The assumptions in the statement are needed: C22_acl_removed_refuted (a reload that removes a port's ACLs leaves them in force), C22_catch_all_reload_refuted, C22_shared_failover_refuted, C22_exact_match_refuted, C22_old_name_refuted, C22_priority_offset_refuted. Findings: `C22_acl_removed_refuted`, `C22_catch_all_reload_refuted`, `C22_shared_failover_refuted`, `C22_exact_match_refuted`, `C22_old_name_refuted`, `C22_priority_offset_refuted`.
* **C23 ACL rule effect** (proved). Modelled: AclModel. Proof: execution of built instructions compared with the meaning of the rule. Tunnels and connection tracking are outside. C23_shared_actions_refuted: instructions are memoised and trimmed in place, so an allow rule can lose a rewrite to a deny rule with equal actions; C23_shared_actions shows it is harmless otherwise. C23_ct_lost_refuted: a rule with an output that does not allow loses its connection tracking action. Findings: `C23_shared_actions_refuted`, `C23_ct_lost_refuted`.
* **C24 Routing is longest-prefix match** (proved). Modelled: RouteModel, IpModel. Proof: invariant on the FIB; lookup by priority is longest prefix. Every reachable FIB and every IP packet; one IP version at a time.
* **C25 Nexthop retry backoff is bounded and monotone** (proved). Modelled: RouteModel. Proof: arithmetic. Finding: packets to the host reset its backoff (C25_reset_refuted). Findings: `C25_reset_refuted`.
* **C26 Neighbour resolution per cycle is bounded and starves nobody** (proved). Modelled: RouteModel. Proof: induction over the resolution loop; potential argument for progress. Findings: a negative limit is no limit, and attempts that send nothing are not counted (C26_negative_limit_refuted, C26_silent_attempts_refuted). Findings: `C26_negative_limit_refuted`, `C26_silent_attempts_refuted`.
* **C27 The route table reflects exactly the routes added and not deleted** (proved). Modelled: RouteModel. Proof: invariant over histories. Single hosts on connected subnets, which are learned from packets, are excepted from the first theorem; VLANs in one router each and subnets that do not overlap, as the configuration check ensures (C37).
* **C28 All switches agree on one shortest-path tree** (proved). Modelled: StackModel. Proof: induction on distance. For stacks whose switches agree on nodes, root and up links (StackSpec.agreed).
* **C29 Broadcast in a stack is loop-free and delivered exactly once** (proved). Modelled: StackModel. Proof: invariant on packets in flight; counting. Floods as packets in flight handled in any order. The refutations show what happens outside the stated conditions: a switch stacked to itself, and switches cut off from the root. Findings: `C29_self_link_refuted`, `C29_cut_off_refuted`, `C29_cut_off_plain_refuted`.
* **C30 Root nomination is deterministic, healthy-first, sticky and told to all** (proved). Modelled: StackRootModel. Proof: over all histories of the manager. Over all histories of the manager model. Beside it: C30_priority_refuted (a switch without LACP ports ranks as if none were up, so priority does not decide between fully working switches) and C30_somebody_refuted (no root is chosen if no candidate is in contact). Fractions are rationals. Findings: `C30_priority_refuted`, `C30_somebody_refuted`.
* **C31 Stack health thresholds** (proved). Modelled: StackRootModel. Proof: arithmetic and histories. C31_more_ports_refuted: a configured minimum above 1 is accepted and makes a first port that is up turn the switch unhealthy. Findings: `C31_more_ports_refuted`.
* **C32 The pipeline always moves forward** (proved). Modelled: PipelineModel. Proof: case analysis over all subsets of features. C32_same_table_refuted: with fixed numbers the coprocessor and VLAN ACL tables coincide. C32_undeclared_refuted: hairpin ports with an egress pipeline use a goto the switch was not told about. Findings: `C32_same_table_refuted`, `C32_undeclared_refuted`.
* **C33 Computed table sizes respect their bounds** (proved). Modelled: PipelineModel. Proof: arithmetic on rationals. Floating point taken as rational numbers. C33_need_refuted, C33_minimum_refuted: sizes may be less than needed, or than the minimum, because of the maximum. Findings: `C33_need_refuted`, `C33_minimum_refuted`.
* **C34 Config changes are classified completely** (proved). Modelled: ConfModel. Proof: set partition. Comparison of objects made of booleans, integers, texts, addresses, lists and dictionaries; the partition holds for any values.
* **C35 A reload that changes nothing touches nothing; changes to options are noticed** (proved). Modelled: ConfModel. Proof: induction over configuration values. Hashes are assumed free of collisions. What is not noticed is under C57. Findings: `C35_fraction_refuted`, `C35_acl_out_refuted`, `C35_leave_stack_refuted`, `C35_link_down_refuted`, `C35_no_ports_refuted`.
* **C36 Automatically chosen VLAN ids never collide** (proved). Modelled: TunnelIdModel. Proof: invariant over the resolution of ACLs. C36_given_collides_refuted: an id given for a tunnel may be one chosen for another tunnel before. Findings: `C36_given_collides_refuted`.
* **C37 Accepted router configurations have disjoint subnets** (proved). Modelled: RouterCheckModel. Proof: induction over pairs of VLANs. Findings: the same VIP may be given to two VLANs (C37_vip_sharing_refuted), and a VLAN may be in two routers (C37_vlan_in_two_routers_refuted). Findings: `C37_vip_sharing_refuted`, `C37_vlan_in_two_routers_refuted`.
* **C38 Port ranges configure exactly the ports they name** (proved). Modelled: RangeModel. Proof: parsing of character lists. C38_extra_port_refuted: 1-2,11-20 also configures port 10. C38_same_number_refuted: of two ports with the same number one is silently dropped. Findings: `C38_extra_port_refuted`, `C38_same_number_refuted`.
* **C39 Config include is transactional, loop-free and terminates** (proved). Modelled: IncludeModel. Proof: termination on the visited set; rollback. Findings: C39_diamond_refuted (two includes of a common file taken for a loop), C39_contents_left_refuted, C39_optional_cycle_refuted, C39_not_a_dictionary_refuted. Findings: `C39_contents_left_refuted`, `C39_diamond_refuted`, `C39_optional_cycle_refuted`, `C39_not_a_dictionary_refuted`.
* **C40 Configuration change detection has no misses** (partial). Modelled: IncludeModel. Proof: comparison of hashes over the loaded set. Proved in full without optional includes and, with them, unless a file is both loaded and left out or left out although it exists: then a removal can go unnoticed and a reload is requested although nothing changed. A file that became unreadable raises. Findings: `C40_false_alarm_refuted`, `C40_removed_refuted`, `C40_unreadable_refuted`.
* **C41 LLDP beacons are bounded per cycle and reach every port** (proved). Modelled: BeaconModel. Proof: induction over cycles; a fairness argument. Shuffles are any permutation. C41_starved_refuted: with more ports than the number one may wait for ever. C41_every_cycle_refuted: ports miss every other cycle if cycles come exactly at the interval. Findings: `C41_starved_refuted`, `C41_every_cycle_refuted`.
* **C42 Port status events are tracked exactly** (proved). Modelled: L2Model (port status), PortDescModel (port descriptions on connecting). Proof: characterisation by the trace; for descriptions, the invariant that ports believed up are in the set compared with. That frames are let in exactly then is proved where disconnections are noticed (the rules of L2Model; descriptions are in PortDescModel). Beside it: the separate set dyn_up_port_nos keeps deleted and unconfigured ports. C11's findings show what ambiguous reports do. Findings: `C42_up_set_refuted`, `C42_up_set_reply_refuted`.
* **C43 Finalized configuration is immutable** (proved). Modelled: ConfModel. Proof: induction over assignments. The finalized mark is itself a dynamic attribute that any code can clear (C43_mark_refuted). Findings: `C43_mark_refuted`.
* **C44 Each 802.1X port has its own proxy address** (proved). Modelled: PacketModel. Proof: injectivity of the encoding. For every switch index and port. C44_stale_attribution_refuted: entries of earlier configurations are never removed. Findings: `C44_stale_attribution_refuted`.
* **C45 Only authenticated hosts pass an 802.1X port** (proved). Modelled: Dot1xModel. Proof: invariant over histories of the port ACL table. Port ACL table over all histories; C45_acted_on: no event raises an exception on datapaths without dot1x_acl. The VLANs logins may name change other tables and are not modelled. Ports with dot1x_acl: C67. Findings: `C45_new_acl_replaces_old_refuted`, `C45_dot1x_acl_eapol_refuted`, `C45_dot1x_acl_others_refuted`, `C45_dot1x_acl_ambiguous_refuted`, `C45_login_acted_on_refuted`.
* **C46 Only unfragmented, well-formed IPv4 packets are parsed** (partial). Modelled: PacketModel. Proof: byte arithmetic. The exact set of accepted headers is proved; fragments at an offset that is a multiple of 4096 units are accepted (C46_fragment_refuted). Findings: `C46_fragment_refuted`, `C46_short_packet_raises_refuted`.
* **C47 LACP port ids are unique** (partial). Modelled: PacketModel. Proof: arithmetic. Unique for automatic ids of ports 1..100; false beyond (C47_port_101_refuted) and with explicit ids (C47_explicit_id_refuted). Findings: `C47_port_101_refuted`, `C47_explicit_id_refuted`.
* **C48 Tunnelled frames leave as they entered** (proved). Modelled: TunnelModel, StackModel, AclModel. Proof: invariant over histories on every switch, then induction along the path. End to end over networks of switches after any history. The refuted theorems show what goes wrong outside the stated scope: a rule with two tunnels one of whose destinations is unreachable (KeyError, no tunnel set up), two tunnels to one destination (one's settings apply to both), a bi-directional tunnel with two sources (no way back to one of them), a tunnel in the second ACL of a port (its rule replaces or outranks rules of the first ACL). Findings: `C48_two_tunnels_refuted`, `C48_shared_destination_refuted`, `C48_two_sources_refuted`, `C48_second_acl_refuted`.
* **C49 A service run sends every switch one batch, which is current** (proved). Modelled: ManagerModel. Proof: induction over the handlers. C49_lost_refuted: the stronger claim that every message produced is sent is false; only the last handler's messages for a switch are kept. Findings: `C49_lost_refuted`.
* **C50 Longest-match VIP lookup** (proved). Modelled: RouteModel, IpModel. Proof: longest prefix lookup. Finding: with overlapping subnets a VLAN does not return the longest (C50_vlan_longest_refuted). Findings: `C50_vlan_longest_refuted`.
* **C51 Link-local protocol frames are never flooded** (proved). Modelled: FloodRulesModel. Proof: invariant over histories. All histories, flood modes without group tables.
* **C52 The VLAN id carried in a router MAC address survives** (proved). Modelled: PacketModel. Proof: hex encoding round trip.
* **C53 Flood rule priority follows the mask length** (proved). Modelled: FloodRulesModel. Proof: arithmetic on masks.
* **C54 The FIB follows the routes** (partial). Modelled: RouteModel. Proof: invariant over histories. Completeness is proved as stated; soundness excepts entries for single hosts on connected subnets, which may stay after the host's route expired (C54_host_entry_refuted). Further findings: C54_live_host_refuted, C54_vip_hijack_refuted. Findings: `C54_host_entry_refuted`, `C54_live_host_refuted`, `C54_vip_hijack_refuted`.
* **C55 Replaced and deleted routes have no effect** (partial). Modelled: RouteModel. Proof: invariant over histories. Filing is exact while routes are not replaced; the rest is false: a replaced and deleted route comes back when its first gateway is heard of, and a gateway without routes is still resolved. Findings: `C55_old_gateway_refuted`, `C55_unused_gateway_refuted`.
* **C56 Automatic revert restores the last good configuration** (partial). Modelled: IncludeModel. Proof: by the two reads. Proved unless an optional include that was missing from the good configuration has been created: the revert leaves it. Findings: `C56_created_include_refuted`.
* **C57 No effective change goes unnoticed by a reload** (partial). Modelled: ConfModel. Proof: with C35. Holds as far as C35 says; the full claim is refuted: numbers with a fraction compare as equal, the content of outgoing ACLs is not compared, leaving the stack raises, with a stack link down an unchanged file restarts the stack ports, and a switch without ports always starts over.
* **C58 Unicast next hops in a stack reach the destination switch** (partial). Modelled: StackModel. Proof: induction on distance. Shortest-path next hops proved when carrier and stacking state of stack ports coincide; refuted otherwise (a link with carrier but down for stacking is used). Findings: `C58_carrier_refuted`.
* **C59 Unknown unicast flooded in a stack is delivered once** (partial). Modelled: StackModel. Proof: as C29. Proved without parallel links; with parallel links delivered more than once. Findings: `C59_parallel_refuted`.
* **C60 The state of a stack port says what is heard there** (proved). Modelled: StackLinkModel. Proof: characterisation by the trace. ADMIN_DOWN is never set and not modelled; intervals positive integers.
* **C61 The stack topology follows the links and is the same everywhere** (proved). Modelled: StackLinkModel. Proof: invariant over histories. C61_one_end_refuted: with a link up at one end only, whether it is in the topology depends on the order of events. Reloading configuration is not part of the histories. Findings: `C61_one_end_refuted`.
* **C62 Stack configuration is accepted exactly when links have two ends and reach the root** (proved). Modelled: StackModel. Proof: equivalence of the check with connectivity. Edge names injective.
* **C63 The managed datapaths are those of the last accepted configuration** (proved). Modelled: ManagerModel. Proof: induction over configurations. Hardware of all datapaths supported, datapath ids distinct (checked by the parser). Whether a restart is cold is C46's subject.
* **C64 The metric of applied configuration counts the datapaths that were sent it** (proved). Modelled: ManagerModel. Proof: invariant over histories. C64_disconnected_refuted: datapaths that disconnected still count. Findings: `C64_disconnected_refuted`.
* **C65 Table features describe exactly the pipeline** (proved). Modelled: PipelineModel. Proof: case analysis of the layout. Hardware with fixed table numbers does not use table features.
* **C66 Datapaths agree on the VLANs of tunnels** (partial). Modelled: TunnelIdModel. Proof: invariant over two resolutions side by side. Proved if no ACL leaves more than one VLAN to be chosen and reserved VLANs and ids given for tunnels are not just above the ordinary VLANs. False otherwise: C66_disagree_refuted has one VLAN used for different tunnels by two datapaths. Findings: `C66_disagree_refuted`.
* **C67 802.1X ACLs apply to the host they were assigned to** (partial). Modelled: Dot1xModel. Proof: histories. False as stated, with witnesses: rules of a previously assigned ACL stay; noauth_acl is deleted non-strictly, taking the EAPOL redirect and other hosts' rules with it; after a logoff noauth and auth rules overlap at one priority; ACLs with failover groups, meters or no rules raise an exception. C45_assigned_acl is the true part: while all open logins of a host name the same ACL.
* **C68 A learned host stays switched, not flooded** (partial). Modelled: L2Model. Proof: invariant over histories with time. Proved for idle_dst off, ports outside LAGs, no loop protection, no foreign control frames, distinct event times. Refuted with idle_dst (the default): a refresh restores only the source rule after the destination rule idled out; refuted for LAG members after LACP went down and up; a permanently learned host is not switched again after its port flaps. Findings: `C68_with_idle_dst_refuted`, `C68_permanent_host_after_flap_refuted`, `C68_lag_host_after_lacp_refuted`.
* **C69 Updating tunnels leaves other rules alone** (proved). Modelled: TunnelModel, AclModel, ReorderModel. Proof: slots of the messages of an update. For updates sent on their own. C69_cookie_refuted: a tunnel rule with a cookie deletes the more specific rules of its port at the next update of the tunnels, so that denied frames are tunnelled. Findings: `C69_cookie_refuted`.
* **C70 VLANs stay apart when the configuration is reloaded without a restart** (proved). Modelled: L2ReloadModel: what a reload sends, on top of L2Model. Proof: invariant on every rule of the switch, carried from one configuration to the next by what the reload deletes and rebuilds; then the packet walk. Over all histories with any number of reloads. The refuted theorems give a breach for each condition on the change, except the ones on group tables and external ports, which the proof asks for: taking a VLAN from a LAG port, a late packet-in, a port that changes between tagged and untagged while down, a mirror removed while the mirrored port is down, a hairpin port that changes. Findings: `C70_lag_port_refuted`, `C70_late_packet_in_refuted`, `C70_tagging_refuted`, `C70_mirror_refuted`, `C70_hairpin_refuted`.
* **C71 Stack ports recognise each other's LLDP beacons** (proved). Modelled: LldpModel: beacon as TLVs of bytes, the wire format, parsing, the cabling check. Proof: decimal and TLV round trips by induction; what comes first among the TLVs. The refuted theorems show what each condition is for: a system_name configured for beacons, a configured TLV with FAUCET's OUI, a description of 64 characters, or the identifier zero (which configuration allows) keep a correctly cabled stack link from coming up. Findings: `C71_system_name_refuted`, `C71_org_tlv_refuted`, `C71_description_refuted`, `C71_dp_id_zero_refuted`.
* **C72 No LLDP frame raises an exception in the controller** (partial). Modelled: LldpModel: lldp_handler with exceptions as a value. Proof: cases; refuted by a frame. False: a frame of 40 bytes from any host on a port that receives LLDP raises it, with a TLV of FAUCET's OUI that reports an unknown state, or any state along with a port id that is not a number. The partial theorem and C72_exception_otherwise together say exactly which frames do. Findings: `C72_host_frame_refuted`, `C72_org_tlv_refuted`.
* **C73 The router answers only for its own addresses and only to connected hosts** (proved). Modelled: ReplyModel: the control plane handlers for both IP versions, the VIP lookups, how much of a packet is parsed. Proof: cases over the handlers; VIP lookup against membership in the subnet. What is in the packets is modelled down to the fields that matter to the receiver (addresses, tag, identifier, data), not their encoding.
* **C74 Connected hosts can find the router and ping it** (proved). Modelled: ReplyModel, as C73. Proof: the first VIP found is the only one when subnets are disjoint; refuted by VLANs. The refuted theorems are what the conditions are for: of two addresses in one subnet the second is dead; a /31 never works; probes for duplicate addresses are not answered; an IPv6 ping of 89 to 128 bytes is answered with its data cut short; the host with the last address of an IPv6 subnet gets no answers. Findings: `C74_second_vip_refuted`, `C74_point_to_point_refuted`, `C74_probe_refuted`, `C74_ping6_cut_refuted`, `C74_last_address_refuted`.
* **C75 Routes follow what BGP neighbours say** (proved). Modelled: BgpModel: the BGP route handler, speakers and their routes across reloads, over the routes of RouteModel. Proof: invariant over histories: the routes of a VLAN are those announced over those configured; refuted by histories. The refuted theorems are what the conditions are for: a route with its next hop on another VLAN of the router stays when withdrawn; a withdrawal removes a configured route to the same prefix; neighbours of a VLAN whose BGP was taken out of the configuration still change routes; the routes of a neighbour that goes down stay; an announcement without a next hop raises. Findings: `C75_withdrawn_stays_refuted`, `C75_static_lost_refuted`, `C75_deconfigured_refuted`, `C75_down_refuted`, `C75_no_next_hop_refuted`.
* **C76 BGP neighbours are told the subnets and static routes of the VLAN** (proved). Modelled: BgpModel, as C75. Proof: invariant over histories: VLANs without a speaker have their configured routes, which a new speaker reads. The refuted theorem: what is offered is never updated when the configuration changes. Findings: `C76_reload_refuted`.
* **C77 Gauge polls each connected datapath once and gives the replies to all its watchers** (proved). Modelled: GaugeModel: watcher objects, their threads, starting and stopping, reloads, the registry and its queue. Proof: threads and objects agree; invariant over histories: what was handled plus the queue is the registry. The registry of connected datapaths is OS-Ken's; its notifications are queued and handled in order at any later time.
* **C78 Clients of the event socket get events once and in order, and losses show** (proved). Modelled: EventModel: the queue of 120, the lock, the serving thread. Proof: invariant over histories: the queue is the latest events in a row, all before it are received, in flight, cut off or overtaken. Beside it: the event written to a client that has left is lost however few events there are, and until then another client is turned away (C78_lost_refuted, C78_reconnect_refuted). Findings: `C78_lost_refuted`, `C78_reconnect_refuted`.
* **C79 With an egress pipeline a frame leaves at the port it is for** (proved). Modelled: EgressModel: metadata, the rules of the egress table over port events. Proof: invariant: the table holds the miss rule and exactly the rules of the ports that are up. Port numbers from 4096 on collide (C79_large_port_refuted: a frame for port 1 leaves at port 4097); frames to stack ports are flooded (C79_stack_port_refuted). Findings: `C79_large_port_refuted`, `C79_stack_port_refuted`.
* **C80 The switches of a stack learn a host towards the switch it is at** (proved). Modelled: StackLearnModel: host caches of all switches over packet-ins and expiries, on StackModel. Proof: invariant: every entry is right; then C58 along the learned ports. One VLAN, fixed topology; whether the cache is updated at all (guard times, limits) is free in each event. For shortest-path learning, following needs carrier and stacking state of stack ports to coincide (C58). Findings: `C80_disconnected_refuted`.
* **C81 A host that moves to another switch of a stack is found there** (partial). Modelled: StackLearnModel. Proof: invariants before and after the old switch is corrected. Proved if the old switch hears the host from the stack (or forgets it) before a frame of the host comes back to the new switch through the stack or, with reflection, within two seconds (while the new switch discards what comes back), and for an ordinary (not external) new port. False otherwise: a frame flooded three seconds later is reflected by the root to the new switch, which then takes the host to be at the old one, and all switches agree on the old place (C81_reflected_refuted); other switches believe one or the other by set order (C81_order_refuted). Findings: `C81_reflected_refuted`, `C81_order_refuted`.
* **C82 Networks connected to a stack at several places do not cause loops or duplicates** (proved). Modelled: ExtModel: flood rules of every switch with the flag in the PCP field, on StackModel. Proof: simulation by the floods of StackModel (C28), then which ports each visit serves. At least one other switch still connected (alone: C83_alone_refuted). Without the groups mode: no two parallel links (as C28, C57).
* **C83 Whatever the placement of external ports, external frames stay in and host frames get out once** (partial). Modelled: ExtModel. Proof: as C82; refutations by computed floods. Proved: exactly which ports are given the frame, for every placement. From this the claim is false if the root has no external ports (frames return to the external network, or leave twice), if the root's are all down, without reflection for hosts at candidates for root with external ports, or with external ports at a switch that is no candidate, and for a root that is alone. Findings: `C83_returns_refuted`, `C83_two_ways_refuted`, `C83_root_down_refuted`, `C83_candidate_refuted`, `C83_small_two_ways_refuted`, `C83_alone_refuted`.
* **C84 The switch has the configured meters, and ACL rules are limited by theirs** (partial). Modelled: MeterModel: meter messages of connections and reloads, beside AclModel; the switch removes the entries that use a deleted meter. Proof: simulation by the ACL histories without meters, and an invariant on the meters; refutations by computed histories. Proved for histories in which no reload drops or changes a meter and meters have different ids; false otherwise: a reload that drops or changes one meter deletes all meters (the meter id is passed as the datapath) and with them the rules that use them. Findings: `C84_deleted_refuted`, `C84_changed_refuted`, `C84_packetin_refuted`, `C84_same_id_refuted`.
* **C85 References in a configuration become what they name, or it is rejected** (proved). Modelled: RefModel: resolution of port, ACL, meter, tunnel and VLAN references when a configuration is finalized. Proof: induction over ports, rules and uses, with the invariant that an ACL is resolved once, first for VLANs; refutations by computed configurations. Findings: a port listed twice is mirrored twice; of ports with one name the first is taken without an error; the check that tunnels do not end at stack ports never rejects. Findings: `C85_mirror_twice_refuted`, `C85_same_name_refuted`, `C85_tunnel_stack_refuted`.
* **C86 A router joins the VLANs it lists** (partial). Modelled: RefModel: resolution of port, ACL, meter, tunnel and VLAN references when a configuration is finalized. Proof: induction over ports, rules and uses, with the invariant that an ACL is resolved once, first for VLANs; refutations by computed configurations. False: an unknown VLAN in a router is left out silently unless no datapath has any VLAN of that router, and a VLAN key that is a number but another VLAN's VID means one VLAN on ports and another in routers. Proved: the VLANs a router gets, agreement for regular keys, rejection of routers without any VLAN. Findings: `C86_unknown_refuted`, `C86_key_refuted`.
* **C87 Every rule fits the table it is sent to** (proved). Modelled: FitModel: what each table declares (match types, set fields, exact match), the checks made of every rule; with L2Model, L2ReloadModel, EgressModel for the rules. Proof: every message of every step shown to fit by cases over the rules, without an invariant on the state; fitting shown to imply the checks, and the converse for matches and next tables. Findings: with use_classification the first rules never fit (the classification table declares no match), so a switch cannot connect; a configured highest_priority of 0 makes rules that fail the check; fields set by rules that go on to another table are not checked. Findings: `C87_classification_refuted`, `C87_priority_refuted`, `C87_sets_unchecked_refuted`.
* **C88 Rules of ACLs fit the tables made for ACLs** (proved). Modelled: FitModel: the trial build of ACLs and the tables made from it; with AclModel for the rules. Proof: the fields and masks of a rule depend only on the kind of place; noting fields keeps what is noted (induction over rules, uses and ACLs); refutations by computed configurations. The conditions are needed: an ACL used by a VLAN and a port, an exact-match ACL on one port beside a port without ACLs, and too many rules each make a rule that fails the check when the switch connects, in an accepted configuration. ACLs of tunnels and 802.1X are not modelled here. Findings: `C88_shared_refuted`, `C88_exact_refuted`, `C88_many_refuted`.
* **C89 A LAG over several switches of a stack settles on one of them** (proved). Modelled: NomModel: nomination over all switches, roles of ports, LACP updates from packets, expiry, ports and datapaths going up and down, elections. Proof: nomination characterised by counting (dictionary folds, stable sort); a step either loses LACP or is a packet; induction over the quiet period with the role of each port that has heard as invariant. Another switch must be connected (see C90). Beside it: before the ports have heard again, two switches may forward at once, and a switch keeps forwarding when another becomes root. Findings: `C89_meanwhile_refuted`, `C89_election_refuted`.
* **C90 A LAG with a port up is used** (partial). Modelled: NomModel. Proof: from C89 where a switch is chosen; refutations by computed histories. Proved where one switch has more ports up than all others or the root is among those with most, and another switch is connected. False otherwise: where switches other than the root tie, a list of datapath IDs is nominated and no switch is used; where only one switch is connected, none is nominated and its ports of the LAG do not forward. Findings: `C90_tie_refuted`, `C90_alone_refuted`.
* **C91 Coprocessors send frames out of the ports they name** (proved). Modelled: CoproModel: the rules of coprocessor ports among any messages of other managers. Proof: invariant over messages (what the coprocessor table holds, who may lead there), then the walk of a frame. Beside it: the conditions on VLAN IDs are not checked of configurations, and without them frames of other VLANs are sent out, or out of the wrong port; a port added by a warm reload is not reachable for coprocessors that were up. Findings: `C91_beyond_vids_refuted`, `C91_overlap_refuted`, `C91_reload_refuted`.
* **C92 With idle timeouts the controller knows the hosts the switch lets pass** (proved). Modelled: IdleModel: ValveSwitchFlowRemovedManager on the learning checks of LearnModel, with the rules of hosts at the switch. Proof: invariant over events: known hosts and source rules agree, destination rules lead to known ports. Beside it: once the rule that sends to a host goes unused, it does not come back while the host stays and keeps sending (the code means to reinstall it), nor ever for a permanent host; a host heard while its port is banned is known for good; in a LAG the switch may let pass a host that is not known; a hairpin rule stays where the host was. Findings: `C92_talking_host_stays_reachable_refuted`, `C92_permanent_host_stays_reachable_refuted`, `C92_banned_host_forgotten_refuted`, `C92_knows_what_passes_lag_refuted`, `C92_hairpin_rule_follows_host_refuted`.
* **C93 LACP frames say what they should, to whom, and often enough** (proved). Modelled: LacpPduModel: lacp_req_reply, lacp_handler, lacp_advertise, lacp_reqreply with all fields, get_lacp_flags. Proof: invariant over histories: what is kept of each port is what the events say; the last packet kept was answered at the time kept. Answers are promised on ports without lacp_passthrough. Beside it: the answer is made before the packet is acted on, so a partner is told the port is not in sync while it is selected; an answer held back for a passthrough peer counts as given; a passthrough peer that is no port makes every LACP packet fail; IDs of ports beyond 100 meet those of the next switch. Findings: `C93_role_told_refuted`, `C93_fresh_passthrough_refuted`, `C93_missing_peer_refuted`, `C93_port_ids_refuted`.
* **C94 The router asks for gateways and advertises itself on the right ports with the right frames** (proved). Modelled: AskModel: _resolve_gateway_flows, advertise, flood_pkt, pkt_out_port and the packets they build, on FloodModel. Proof: membership in the list of packet-outs, with the LAG lemmas of FloodProofs; arithmetic on bytes for group addresses. Beside it: ports that 802.1X has put into another VLAN still get what the router sends to their native VLAN, and all ports with loop_protect_external get it, where floods spare them. Findings: `C94_dot1x_refuted`, `C94_external_refuted`.
* **C95 What is meant for the router reaches it, and other packets pass by** (proved). Modelled: VipModel: add_vlan of the route managers, their rules in the classification and VIP tables, as messages applied to the switch of OpenFlow. Proof: which slots are filled after a list of additions; the rules that match a packet as an inductive list of cases, compared by priority. Beside it: without proactive learning the router's IPv4 addresses cannot be pinged and it does not hear unicast neighbour solicitations; ARP on one VLAN for the router's address on another is not forwarded. Findings: `C95_ping_refuted`, `C95_probe_refuted`, `C95_other_vlan_refuted`.
* **C96 Only packets that were asked for are looked at, in the VLAN of their tag** (proved). Modelled: PktInModel: parse_pkt_meta and parse_packet_in_pkt on bytes. Proof: parsing undoes the wire format of the specification; case analysis of the checks. The exact rule is proved of frames whose tag is not VLAN ID 0. Beside it: without a global VLAN a frame tagged with VLAN ID 0 is taken to be in the VLAN that the last two bytes of its destination say; a tag and type of zeros raises an exception that is not caught (given how the packet library parses). Findings: `C96_priority_tag_refuted`, `C96_null_tag_refuted`.
* **C97 Floods come in only over the chosen stack ports, however the stack has changed** (proved). Modelled: PruneModel: filters of stack ports, on the switch model, over histories. Proof: induction over the messages of a refresh and over the history: the rules are those wanted by the last state of each VLAN. Of the classification table, if no other rule for the packet has a higher priority. Beside it: packets to multicast groups outside the four prefixes (such as precision time's) count as unicast and are not dropped on pruned ports. Findings: `C97_other_groups_refuted`.
* **C98 A switch's settings are accepted exactly if they are sound, and then are as given** (proved). Modelled: SettingsModel: types, defaults and checks of a switch, on nested YAML values. Proof: each check is equivalent to its line of the specification; case analysis of the outcome. Without the section on stacks. Beside it: a null beacon interval raises an exception that is not caught; negative times are accepted (jitter, guard time, ARP and ND timeouts), as is a yes or no for a number. Findings: `C98_null_interval_refuted`, `C98_negative_refuted`.
