{
 "C01": {
  "model": "ReorderModel: `valve_of.py` 1074-1278",
  "proof": "commutation of messages with disjoint slots, induction over the batch"
 },
 "C02": {
  "model": "ReorderModel",
  "proof": "permutation and sublist lemmas on the sorted pieces"
 },
 "C03": {
  "model": "ReorderModel",
  "proof": "every delete kept unless an add has its key"
 },
 "C04": {
  "model": "TrimModel: `valve_table.py` 178-226",
  "proof": "induction over the action list with the state of the packet"
 },
 "C05": {
  "model": "TrimModel: `valve_of.py` VID helpers",
  "proof": "bit arithmetic"
 },
 "C06": {
  "model": "FloodModel: flood action lists",
  "proof": "list induction over VLAN members"
 },
 "C07": {
  "model": "FloodModel, FloodRulesModel",
  "proof": "same, with LAG membership"
 },
 "C08": {
  "model": "FloodModel, FloodRulesModel",
  "proof": "characterisation of the outputs as a set; slot lemmas for the installed table"
 },
 "C09": {
  "model": "L2Model: one datapath, all events, packet walk",
  "proof": "invariant on the flow table over all event histories, then the packet walk"
 },
 "C10": {
  "model": "L2Model",
  "proof": "invariant relating cache and rules over all histories"
 },
 "C11": {
  "model": "L2Model",
  "proof": "invariant over all histories"
 },
 "C12": {
  "model": "HostCacheModel: `vlan.py` host cache",
  "proof": "invariant over operations; refinement to an abstract host table"
 },
 "C13": {
  "model": "LearnModel: learning decision",
  "proof": "invariant over histories"
 },
 "C14": {
  "model": "LearnModel",
  "proof": "invariant over histories"
 },
 "C15": {
  "model": "LearnModel",
  "proof": "preservation by every operation"
 },
 "C16": {
  "model": "HostCacheModel",
  "proof": "refinement with time"
 },
 "C17": {
  "model": "LearnModel, L2Model",
  "proof": "arithmetic on the timeouts, and on every rule a learning installs"
 },
 "C18": {
  "model": "LearnModel",
  "proof": "case analysis of the decision"
 },
 "C19": {
  "model": "L2Model (LACP)",
  "proof": "characterisation of the state by the trace of events"
 },
 "C20": {
  "model": "L2Model",
  "proof": "invariant over histories"
 },
 "C21": {
  "model": "PacketModel",
  "proof": "induction over the arrivals"
 },
 "C22": {
  "model": "AclModel",
  "proof": "invariant over histories of the ACL manager, then the lookup by priority"
 },
 "C23": {
  "model": "AclModel",
  "proof": "execution of built instructions compared with the meaning of the rule"
 },
 "C24": {
  "model": "RouteModel, IpModel",
  "proof": "invariant on the FIB; lookup by priority is longest prefix"
 },
 "C25": {
  "model": "RouteModel",
  "proof": "arithmetic"
 },
 "C26": {
  "model": "RouteModel",
  "proof": "induction over the resolution loop; potential argument for progress"
 },
 "C27": {
  "model": "RouteModel",
  "proof": "invariant over histories"
 },
 "C28": {
  "model": "StackModel",
  "proof": "induction on distance"
 },
 "C29": {
  "model": "StackModel",
  "proof": "invariant on packets in flight; counting"
 },
 "C30": {
  "model": "StackRootModel",
  "proof": "over all histories of the manager"
 },
 "C31": {
  "model": "StackRootModel",
  "proof": "arithmetic and histories"
 },
 "C32": {
  "model": "PipelineModel",
  "proof": "case analysis over all subsets of features"
 },
 "C33": {
  "model": "PipelineModel",
  "proof": "arithmetic on rationals"
 },
 "C34": {
  "model": "ConfModel",
  "proof": "set partition"
 },
 "C35": {
  "model": "ConfModel",
  "proof": "induction over configuration values"
 },
 "C36": {
  "model": "TunnelIdModel",
  "proof": "invariant over the resolution of ACLs"
 },
 "C37": {
  "model": "RouterCheckModel",
  "proof": "induction over pairs of VLANs"
 },
 "C38": {
  "model": "RangeModel",
  "proof": "parsing of character lists"
 },
 "C39": {
  "model": "IncludeModel",
  "proof": "termination on the visited set; rollback"
 },
 "C40": {
  "model": "IncludeModel",
  "proof": "comparison of hashes over the loaded set"
 },
 "C41": {
  "model": "BeaconModel",
  "proof": "induction over cycles; a fairness argument"
 },
 "C42": {
  "model": "L2Model (port status), PortDescModel (port descriptions on connecting)",
  "proof": "characterisation by the trace; for descriptions, the invariant that ports believed up are in the set compared with"
 },
 "C43": {
  "model": "ConfModel",
  "proof": "induction over assignments"
 },
 "C44": {
  "model": "PacketModel",
  "proof": "injectivity of the encoding"
 },
 "C45": {
  "model": "Dot1xModel",
  "proof": "invariant over histories of the port ACL table"
 },
 "C46": {
  "model": "PacketModel",
  "proof": "byte arithmetic"
 },
 "C47": {
  "model": "PacketModel",
  "proof": "arithmetic"
 },
 "C48": {
  "model": "TunnelModel, StackModel, AclModel",
  "proof": "invariant over histories on every switch, then induction along the path"
 },
 "C49": {
  "model": "ManagerModel",
  "proof": "induction over the handlers"
 },
 "C50": {
  "model": "RouteModel, IpModel",
  "proof": "longest prefix lookup"
 },
 "C51": {
  "model": "FloodRulesModel",
  "proof": "invariant over histories"
 },
 "C52": {
  "model": "PacketModel",
  "proof": "hex encoding round trip"
 },
 "C53": {
  "model": "FloodRulesModel",
  "proof": "arithmetic on masks"
 },
 "C54": {
  "model": "RouteModel",
  "proof": "invariant over histories"
 },
 "C55": {
  "model": "RouteModel",
  "proof": "invariant over histories"
 },
 "C56": {
  "model": "IncludeModel",
  "proof": "by the two reads"
 },
 "C57": {
  "model": "ConfModel",
  "proof": "with C35"
 },
 "C58": {
  "model": "StackModel",
  "proof": "induction on distance"
 },
 "C59": {
  "model": "StackModel",
  "proof": "as C29"
 },
 "C60": {
  "model": "StackLinkModel",
  "proof": "characterisation by the trace"
 },
 "C61": {
  "model": "StackLinkModel",
  "proof": "invariant over histories"
 },
 "C62": {
  "model": "StackModel",
  "proof": "equivalence of the check with connectivity"
 },
 "C63": {
  "model": "ManagerModel",
  "proof": "induction over configurations"
 },
 "C64": {
  "model": "ManagerModel",
  "proof": "invariant over histories"
 },
 "C65": {
  "model": "PipelineModel",
  "proof": "case analysis of the layout"
 },
 "C66": {
  "model": "TunnelIdModel",
  "proof": "invariant over two resolutions side by side"
 },
 "C67": {
  "model": "Dot1xModel",
  "proof": "histories"
 },
 "C68": {
  "model": "L2Model",
  "proof": "invariant over histories with time"
 },
 "C69": {
  "model": "TunnelModel, AclModel, ReorderModel",
  "proof": "slots of the messages of an update"
 },
 "C70": {
  "model": "L2ReloadModel: what a reload sends, on top of L2Model",
  "proof": "invariant on every rule of the switch, carried from one configuration to the next by what the reload deletes and rebuilds; then the packet walk"
 },
 "C71": {
  "model": "LldpModel: beacon as TLVs of bytes, the wire format, parsing, the cabling check",
  "proof": "decimal and TLV round trips by induction; what comes first among the TLVs"
 },
 "C72": {
  "model": "LldpModel: lldp_handler with exceptions as a value",
  "proof": "cases; refuted by a frame"
 },
 "C73": {
  "model": "ReplyModel: the control plane handlers for both IP versions, the VIP lookups, how much of a packet is parsed",
  "proof": "cases over the handlers; VIP lookup against membership in the subnet"
 },
 "C74": {
  "model": "ReplyModel, as C73",
  "proof": "the first VIP found is the only one when subnets are disjoint; refuted by VLANs"
 },
 "C75": {
  "model": "BgpModel: the BGP route handler, speakers and their routes across reloads, over the routes of RouteModel",
  "proof": "invariant over histories: the routes of a VLAN are those announced over those configured; refuted by histories"
 },
 "C76": {
  "model": "BgpModel, as C75",
  "proof": "invariant over histories: VLANs without a speaker have their configured routes, which a new speaker reads"
 },
 "C77": {
  "model": "GaugeModel: watcher objects, their threads, starting and stopping, reloads, the registry and its queue",
  "proof": "threads and objects agree; invariant over histories: what was handled plus the queue is the registry"
 },
 "C78": {
  "model": "EventModel: the queue of 120, the lock, the serving thread",
  "proof": "invariant over histories: the queue is the latest events in a row, all before it are received, in flight, cut off or overtaken"
 },
 "C79": {
  "model": "EgressModel: metadata, the rules of the egress table over port events",
  "proof": "invariant: the table holds the miss rule and exactly the rules of the ports that are up"
 },
 "C80": {
  "model": "StackLearnModel: host caches of all switches over packet-ins and expiries, on StackModel",
  "proof": "invariant: every entry is right; then C58 along the learned ports"
 },
 "C81": {
  "model": "StackLearnModel",
  "proof": "invariants before and after the old switch is corrected"
 },
 "C82": {
  "model": "ExtModel: flood rules of every switch with the flag in the PCP field, on StackModel",
  "proof": "simulation by the floods of StackModel (C28), then which ports each visit serves"
 },
 "C83": {
  "model": "ExtModel",
  "proof": "as C82; refutations by computed floods"
 },
 "C84": {
  "model": "MeterModel: meter messages of connections and reloads, beside AclModel; the switch removes the entries that use a deleted meter",
  "proof": "simulation by the ACL histories without meters, and an invariant on the meters; refutations by computed histories"
 },
 "C85": {
  "model": "RefModel: resolution of port, ACL, meter, tunnel and VLAN references when a configuration is finalized",
  "proof": "induction over ports, rules and uses, with the invariant that an ACL is resolved once, first for VLANs; refutations by computed configurations"
 },
 "C86": {
  "model": "RefModel: resolution of port, ACL, meter, tunnel and VLAN references when a configuration is finalized",
  "proof": "induction over ports, rules and uses, with the invariant that an ACL is resolved once, first for VLANs; refutations by computed configurations"
 },
 "C87": {
  "model": "FitModel: what each table declares (match types, set fields, exact match), the checks made of every rule; with L2Model, L2ReloadModel, EgressModel for the rules",
  "proof": "every message of every step shown to fit by cases over the rules, without an invariant on the state; fitting shown to imply the checks, and the converse for matches and next tables"
 },
 "C88": {
  "model": "FitModel: the trial build of ACLs and the tables made from it; with AclModel for the rules",
  "proof": "the fields and masks of a rule depend only on the kind of place; noting fields keeps what is noted (induction over rules, uses and ACLs); refutations by computed configurations"
 },
 "C89": {
  "model": "NomModel: nomination over all switches, roles of ports, LACP updates from packets, expiry, ports and datapaths going up and down, elections",
  "proof": "nomination characterised by counting (dictionary folds, stable sort); a step either loses LACP or is a packet; induction over the quiet period with the role of each port that has heard as invariant"
 },
 "C90": {
  "model": "NomModel",
  "proof": "from C89 where a switch is chosen; refutations by computed histories"
 },
 "C91": {
  "model": "CoproModel: the rules of coprocessor ports among any messages of other managers",
  "proof": "invariant over messages (what the coprocessor table holds, who may lead there), then the walk of a frame"
 },
 "C92": {
  "model": "IdleModel: ValveSwitchFlowRemovedManager on the learning checks of LearnModel, with the rules of hosts at the switch",
  "proof": "invariant over events: known hosts and source rules agree, destination rules lead to known ports"
 },
 "C93": {
  "model": "LacpPduModel: lacp_req_reply, lacp_handler, lacp_advertise, lacp_reqreply with all fields, get_lacp_flags",
  "proof": "invariant over histories: what is kept of each port is what the events say; the last packet kept was answered at the time kept"
 },
 "C94": {
  "model": "AskModel: _resolve_gateway_flows, advertise, flood_pkt, pkt_out_port and the packets they build, on FloodModel",
  "proof": "membership in the list of packet-outs, with the LAG lemmas of FloodProofs; arithmetic on bytes for group addresses"
 },
 "C95": {
  "model": "VipModel: add_vlan of the route managers, their rules in the classification and VIP tables, as messages applied to the switch of OpenFlow",
  "proof": "which slots are filled after a list of additions; the rules that match a packet as an inductive list of cases, compared by priority"
 },
 "C96": {
  "model": "PktInModel: parse_pkt_meta and parse_packet_in_pkt on bytes",
  "proof": "parsing undoes the wire format of the specification; case analysis of the checks"
 },
 "C97": {
  "model": "PruneModel: filters of stack ports, on the switch model, over histories",
  "proof": "induction over the messages of a refresh and over the history: the rules are those wanted by the last state of each VLAN"
 },
 "C98": {
  "model": "SettingsModel: types, defaults and checks of a switch, on nested YAML values",
  "proof": "each check is equivalent to its line of the specification; case analysis of the outcome"
 }
}