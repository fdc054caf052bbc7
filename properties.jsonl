{"id": "C01", "title": "Reordering a batch keeps its effect", "statement": "Sending the batch returned by the flow reorderer leaves every switch with the same flow table as applying all the deletes of the original batch followed by all its adds in their original order, for batches in which no wildcard (non-strict) delete carries exactly the same match, cookie, priority and table as an add, and adds to the same flow slot carry the same cookie.", "quantifier": "every batch of flow messages (any length, any mix of adds, strict deletes, wildcard deletes, global deletes) and every initial flow table", "why_tests_cant": "the batch length, ordering and overlap pattern are unbounded; tests only run the batches produced by fixed configurations", "anchors": ["faucet/valve_of.py: valve_flowreorder, dedupe_ofmsgs, dedupe_overlaps_ofmsgs, remove_overlap_ofmsgs, sort_flows"]}
{"id": "C02", "title": "A reordered batch is sent in a safe order and invents nothing", "statement": "In the reordered batch every delete precedes every group/meter add, which precede every flow add, which precede every packet-out; flow adds are sent highest table first and, within a table, highest priority first; a barrier directly follows each non-empty group of configuration, delete, feature, group and meter messages; every non-barrier message sent was in the input, and every flow slot written in the input is written in the output by its last writer.", "quantifier": "every batch of OpenFlow messages", "why_tests_cant": "ordering must hold for all interleavings of message kinds, not the ones in fixtures", "anchors": ["faucet/valve_of.py: valve_flowreorder, _OFMSG_ORDER, _partition_ofmsgs, _msg_kind"]}
{"id": "C03", "title": "A requested delete is never lost", "statement": "After sending the reordered batch no flow that was in the table before and is covered by a delete in the batch survives, unless the batch itself re-adds it.", "quantifier": "every batch and every initial flow table", "why_tests_cant": "needs all overlap patterns between deletes and adds", "anchors": ["faucet/valve_of.py: remove_overlap_ofmsgs, valve_flowreorder"]}
{"id": "C04", "title": "Trimming actions never changes what is transmitted", "statement": "Dropping trailing non-output actions and empty action lists from a flow's instructions does not change the sequence of (port, packet) transmissions, nor the packet handed to the next table, for any packet.", "quantifier": "every instruction list, every action list and every packet", "why_tests_cant": "the action lists are built by many callers; the equivalence is over all lists and packets", "anchors": ["faucet/valve_table.py: ValveTable._trim_actions, ValveTable._trim_inst"]}
{"id": "C05", "title": "VLAN VID encoding round-trips", "statement": "Encoding a VID as present and decoding it returns the same VID; the encodings of two VIDs are equal only if the VIDs are; and an encoded VID is never equal to a plain VID.", "quantifier": "every VID in the 12-bit range", "why_tests_cant": "a law over the whole domain", "anchors": ["faucet/valve_of.py: vid_present, devid_present"]}
{"id": "C06", "title": "Flooded frames are not reflected", "statement": "The flood action list built for a VLAN never outputs a frame on the port it arrived on unless that port is configured for hairpin, in which case it is sent back exactly once.", "quantifier": "every VLAN membership, every subset of ports up, every LAG state and every in-port", "why_tests_cant": "membership sets and dynamic states are unbounded", "anchors": ["faucet/valve_of.py: flood_tagged_port_outputs, flood_untagged_port_outputs, flood_port_outputs", "faucet/valve_switch_standalone.py: _build_flood_local_rule_actions"]}
{"id": "C07", "title": "A flood reaches a LAG through at most one member and never its own LAG", "statement": "For each link aggregate, a flooded frame is sent to at most one member port, that member is selected and up, and none if the frame arrived on a member of the same aggregate.", "quantifier": "every VLAN, every set of LAGs and every combination of member states", "why_tests_cant": "quantifies over all LAG membership and state combinations", "anchors": ["faucet/vlan.py: VLAN.excluded_lag_ports, VLAN.flood_ports, VLAN.selected_up_lags", "faucet/valve_switch_standalone.py: _build_flood_local_rule_actions"]}
{"id": "C08", "title": "A flood reaches exactly the eligible members with the right tagging", "statement": "Apart from the in-port, excluded LAG members, loop-protected external ports and restricted ports, a flooded frame is sent exactly once to each tagged member with its VLAN tag and exactly once to each untagged member without it, and to no other (non-mirror) port; unknown unicast only where unicast flooding is enabled. This holds of the flood table installed after any history of VLAN additions, refreshes and deletions, whenever the VLAN has just been (re)programmed.", "quantifier": "every VLAN membership, port state and in-port", "why_tests_cant": "needs all membership combinations", "anchors": ["faucet/valve_of.py: flood_port_outputs, dedupe_output_port_acts", "faucet/vlan.py: VLAN.flood_ports"]}
{"id": "C09", "title": "VLAN isolation for every history", "statement": "After any history of cold starts, port up/down events, host learning, host expiry and VLAN refreshes, a frame processed by the installed flow tables is only ever transmitted on ports that are members of the VLAN it was classified into, tagged on tagged members and untagged on untagged ones.", "quantifier": "every configuration of ports and VLANs, every event history and every frame", "why_tests_cant": "histories and frames are unbounded; unit tests check a handful of frames", "anchors": ["faucet/valve.py: datapath_connect, ports_add, ports_delete, learn_host", "faucet/valve_switch_standalone.py: add_port, del_port, add_vlan, learn_host_on_vlan_port_flows"]}
{"id": "C10", "title": "Frames to a learned host leave on its port only", "statement": "On a datapath without loop protection, after any history in which no host sends LACP or LLDP frames tagged with a VLAN its port does not carry: if a host is currently learned on a port of a VLAN and its destination rule is installed, every frame of that VLAN to that host's address which leaves the switch leaves on that port (or another member of the same LAG), tagged as that port is configured, apart from copies to configured mirror ports and to the controller; and a frame that the VLAN and source tables let through does leave there, unless it came in on that very port.", "quantifier": "all configurations without loop protection, all histories of connections, disconnections, port status changes, packet arrivals, host moves, LACP messages, expiries and flow timeouts (in time order), all frames", "why_tests_cant": "Whether the rule that a frame meets points where the host is learned depends on the whole history of moves, expiries, timeouts and port changes that wrote and deleted rules.", "anchors": ["faucet/valve_switch_standalone.py: learn_host_on_vlan_ports, learn_host_on_vlan_port_flows, delete_host_from_vlan, expire_hosts_from_vlan", "faucet/valve.py: learn_host, state_expire, ports_delete", "faucet/vlan.py: add_cache_host"]}
{"id": "C11", "title": "Frames from a down or unconfigured port are dropped", "statement": "After any history, a frame entering on a port that is not configured, or whose last event was port-down, is not transmitted anywhere nor sent to the controller.", "quantifier": "every configuration, history and frame", "why_tests_cant": "unbounded histories", "anchors": ["faucet/valve_switch_standalone.py: del_port, add_port, initialise_tables", "faucet/valve.py: ports_delete"]}
{"id": "C12", "title": "The host cache and its per-port index always agree", "statement": "After any sequence of learn, move, expire and port-flush operations, each MAC in a VLAN is cached on exactly one port, and a port's cached hosts are exactly the MACs cached on that port.", "quantifier": "every sequence of cache operations", "why_tests_cant": "an invariant over unbounded histories", "anchors": ["faucet/vlan.py: add_cache_host, expire_cache_host, clear_cache_hosts_on_port, expire_cache_hosts, cached_hosts_on_port"]}
{"id": "C13", "title": "The VLAN host limit is never exceeded", "statement": "If a VLAN has a host limit, then after any sequence of received packets and expiries the number of hosts learned on the VLAN never exceeds the limit; an unknown host on a VLAN and port with room is learned.", "quantifier": "every limit, every packet history", "why_tests_cant": "unbounded packet histories", "anchors": ["faucet/valve_switch_standalone.py: ban_rules, learn_host_on_vlan_ports", "faucet/vlan.py: hosts_count, add_cache_host"]}
{"id": "C14", "title": "The port host limit is never exceeded", "statement": "If a port has a host limit, then after any sequence of received packets the number of hosts learned on the port never exceeds the limit.", "quantifier": "every limit, every packet history including host moves", "why_tests_cant": "unbounded packet histories", "anchors": ["faucet/valve_switch_standalone.py: ban_rules, learn_host_on_vlan_ports"]}
{"id": "C15", "title": "Permanently learned hosts never move or expire", "statement": "Once a host is learned on a port with permanent learning, no later packet on another port and no timeout changes the port on which the host is cached; frames of that host arriving on another port get a drop rule there and nothing else.", "quantifier": "every packet and timer history that does not flush the port", "why_tests_cant": "unbounded histories", "anchors": ["faucet/valve_switch_standalone.py: _perm_learn_check", "faucet/vlan.py: expire_cache_hosts"]}
{"id": "C16", "title": "Host expiry misses nothing and expires nothing early", "statement": "With a clock that never goes backwards, an expiry pass removes every host not seen within the timeout on a non-permanent port and no host seen within it, even though most passes are skipped by the cached earliest-expiry time.", "quantifier": "every history of learns and expiry passes with a monotone clock", "why_tests_cant": "the skip optimisation is only correct for all interleavings", "anchors": ["faucet/vlan.py: VLAN.expire_cache_hosts, add_cache_host"]}
{"id": "C17", "title": "A learned source rule always ages out before its destination rule", "statement": "For every non-permanent port the hard timeout of the source flow is strictly less than the idle timeout of the destination flow, is at least the configured guard time away from it, and the jitter never makes a timeout shorter than the guard or longer than the configured timeout plus jitter.", "quantifier": "every learn timeout, guard time, jitter and random draw accepted by the configuration check", "why_tests_cant": "random jitter; tests see a few draws", "anchors": ["faucet/valve_switch_standalone.py: _jitter_learn_timeout, _learn_host_timeouts", "faucet/dp.py: check_config"]}
{"id": "C18", "title": "Loop protection stops learning on the looping port", "statement": "With loop protection, a host recently learned on one port that is seen on another within the protection window does not move, and the flows for it are not reinstalled until the window ends.", "quantifier": "every cache state, port configuration and time", "why_tests_cant": "depends on every combination of port flags and timestamps", "anchors": ["faucet/valve_switch_standalone.py: _loop_protect_check, _learn_cache_check, _learn_check"]}
{"id": "C19", "title": "LACP actor state follows the protocol", "statement": "For any sequence of LACPDUs, expiry runs, connections and link reports, the actor state of an enabled LAG port is UP exactly while its link is up and the last LACPDU received since it came up was in sync and no expiry run has found it older than lacp_timeout; NOSYNC exactly while that last LACPDU was out of sync; INIT while the link is up and neither holds; NONE while the link is down.", "quantifier": "every event sequence", "why_tests_cant": "unbounded event histories", "anchors": ["faucet/port.py: lacp_actor_update, lacp_port_update", "faucet/valve.py: lacp_update, _lacp_state_expire"]}
{"id": "C20", "title": "Only selected and up LAG ports forward", "statement": "After any event sequence the switch accepts frames from a LAG port exactly when the port is selected and its actor is up, that is, exactly while the partner is in sync and the port is not configured unselected; otherwise at most LACP and LLDP frames reach the controller.", "quantifier": "every event sequence", "why_tests_cant": "unbounded histories", "anchors": ["faucet/valve.py: lacp_update", "faucet/valve_switch_standalone.py: lacp_update_port_selection_state, enable_forwarding, disable_forwarding"]}
{"id": "C21", "title": "Packet-in rate limit", "statement": "In any one second (as seen by the integer clock) at most the configured number of packets is processed, the counter of ignored packets is exact, and when the rate is not exceeded none is ignored.", "quantifier": "every arrival sequence and every limit", "why_tests_cant": "unbounded arrival sequences", "anchors": ["faucet/valve.py: rate_limit_packet_ins"]}
{"id": "C22", "title": "ACLs are first match, across several ACLs", "statement": "Whatever happened since the datapath connected (ports and VLANs coming and going, reloads that change ACLs), a packet from a port, in a VLAN or to a VLAN with ACLs is dealt with as the first rule says, in the order of the ACLs and of their rules, whose match covers the packet; the remaining rules have no influence, a packet no rule covers is dropped, and without ACLs packets go on. Assumed: ACLs that are not exact-match, fewer rules than priorities, each failover group used at one place, and a reload that leaves the port some ACL whose first rule matches more than the port.", "quantifier": "every list of ACLs, every history of port, VLAN and reload events, every prior switch state, every packet", "why_tests_cant": "all rule overlaps and packets", "anchors": ["faucet/valve_acl.py: build_acl_ofmsgs, build_rule_ofmsgs, ValveAclManager.add_port"]}
{"id": "C23", "title": "ACL rule effect", "statement": "A rule that denies, or says nothing about allowing and does not mirror, transmits nothing except to the ports its output names; a rule that allows hands the packet, with the rule's rewrites only, to the next table (or directly to L2 switching if it forces the port VLAN); and a packet that matches no rule is dropped.", "quantifier": "every rule without tunnel and connection tracking, every history of events, every packet", "why_tests_cant": "combination of allow/mirror/output/meter options", "anchors": ["faucet/valve_acl.py: build_acl_entry, build_output_actions"]}
{"id": "C24", "title": "Routing is longest-prefix match", "statement": "For every set of installed routes of an IP family, a packet is handled by the route with the longest prefix that contains its destination.", "quantifier": "every set of routes (all prefixes) and every destination", "why_tests_cant": "all prefixes and addresses", "anchors": ["faucet/valve_route.py: _route_priority, _route_match, _add_resolved_route"]}
{"id": "C25", "title": "Nexthop retry backoff is bounded and monotone", "statement": "Between two resolution attempts of the same unresolved nexthop the wait is never more than the configured maximum, and grows with the number of attempts; until the wait is over the nexthop is not tried again, whatever else happens, unless a packet from, to or about it arrives, a port goes down or the switch reconnects.", "quantifier": "every history before the attempt, every retry count and time, every run of events after it", "why_tests_cant": "unbounded retry counts", "anchors": ["faucet/valve_route.py: NextHop.next_retry, NextHop.resolution_due"]}
{"id": "C26", "title": "Neighbour resolution per cycle is bounded and starves nobody", "statement": "In each resolution cycle at most the configured number of nexthops is sent requests for, those with fewest retries first, none that was heard of lately or whose waiting time is not over, and no due nexthop is passed over for one that was tried more often unless requests for it have nowhere to go.", "quantifier": "every set of nexthops and every history of attempts", "why_tests_cant": "unbounded sets and histories", "anchors": ["faucet/valve_route.py: _vlan_unresolved_nexthops, _resolve_gateways_flows"]}
{"id": "C27", "title": "The route table reflects exactly the routes added and not deleted", "statement": "After any history of route additions, replacements, deletions and other events, each destination outside the connected subnets has the gateway of its last addition (or of the configuration) unless it was deleted since; each route is filed under its gateway; the gateway is looked after by exactly one of the two resolvers; and no event fails.", "quantifier": "every history of route operations, packets, timers, port changes and reconnections", "why_tests_cant": "unbounded histories", "anchors": ["faucet/vlan.py: add_route, del_route", "faucet/valve_route.py: add_route, del_route, _update_nexthop"]}
{"id": "C28", "title": "All switches agree on one shortest-path tree", "statement": "For every connected topology and root, following each switch's chosen next hop towards the root reaches the root in exactly the shortest-path distance, without loops, and the path any switch computes for another agrees with the path that switch computes for itself.", "quantifier": "every topology and root", "why_tests_cant": "all graphs", "anchors": ["faucet/stack.py: shortest_path, shortest_path_port, longest_path_to_root_len", "faucet/valve_stack.py: reset_peer_distances"]}
{"id": "C29", "title": "Broadcast in a stack is loop-free and delivered exactly once", "statement": "For every stack topology in which all switches agree on link state and no switch is stacked to itself, a packet to a group address entering at any switch connected to the root is handed to the hosts of every switch connected to it exactly once and then stops, with and without reflection by the root and in whatever order the copies travel.", "quantifier": "every topology, every entry switch, every order in which copies are forwarded", "why_tests_cant": "all graphs; integration tests use rings and lines of up to a few switches", "anchors": ["faucet/valve_switch_stack.py: _build_flood_rule_actions, _flood_actions", "faucet/valve_stack.py: reset_peer_distances, is_pruned_port"]}
{"id": "C30", "title": "Root nomination is deterministic, healthy-first, sticky and told to all", "statement": "Whenever the root of a stack is looked at, after any history: a current root that is healthy stays root; else the first healthy candidate becomes root (most stack ports up, then most LACP ports up, then lowest priority, then lowest identifier); if none is healthy, a current root that is in contact stays, else the first candidate in contact; if none is in contact nothing changes. The order in which switches are listed makes no difference, all switches are told the same root, once there is a root there always is one, and the first configuration makes the candidate with the lowest priority, then identifier, root.", "quantifier": "every list of switches, health state and history of port changes, connections, configuration loads and looks at the root", "why_tests_cant": "all permutations and states", "anchors": ["faucet/stack.py: nominate_stack_root", "faucet/valve_stack.py: nominate_stack_root"]}
{"id": "C31", "title": "Stack health thresholds", "statement": "A stack root candidate is healthy exactly when it was recently in contact and the fraction of its stack and LACP ports that are up reaches the configured minima; the time it was last in contact is that of the last event at which the controller saw it; a port that comes up, or another up port when the minima are at most 1, never turns a healthy switch unhealthy.", "quantifier": "every port population, threshold, time and history", "why_tests_cant": "all counts and thresholds", "anchors": ["faucet/stack.py: live_timeout_healthy, stack_port_healthy, lacp_port_healthy, update_health", "faucet/valves_manager.py: update_dp_live_time"]}
{"id": "C32", "title": "The pipeline always moves forward", "statement": "For every set of enabled features, every table that the code or a table miss sends packets on to is in use and has a strictly higher table number, so every packet leaves the pipeline after meeting each table at most once; table numbers are consecutive from zero (on hardware with fixed table numbers distinct, unless both coprocessor ports and VLAN ACLs are configured).", "quantifier": "every feature subset, every switch whose flows keep to the pipeline and every packet", "why_tests_cant": "exponentially many subsets", "anchors": ["faucet/faucet_pipeline.py: FAUCET_PIPELINE", "faucet/dp.py: _configure_tables, output_table, classification_table", "faucet/valve_pipeline.py: output, select_packets, accept_to_*", "faucet/valve.py: _add_default_drop_flows"]}
{"id": "C33", "title": "Computed table sizes respect their bounds", "statement": "A table is given the size configured for it, if any; otherwise the least multiple of the configured minimum that exceeds the number of flows it needs for the VLANs and ports configured, limited to the configured maximum unless it is an exact match table. Sizes never shrink when VLANs or ports are added.", "quantifier": "every number of ports and VLANs, every scale factor and bound", "why_tests_cant": "all counts", "anchors": ["faucet/dp.py: _configure_tables"]}
{"id": "C34", "title": "Config changes are classified completely", "statement": "Comparing two configurations classifies every item of the old and new configuration as exactly one of deleted, added, changed or same; applying deletions, changes and additions to the old set yields the new set.", "quantifier": "every pair of configurations", "why_tests_cant": "all pairs", "anchors": ["faucet/dp.py: _get_conf_changes"]}
{"id": "C35", "title": "A reload that changes nothing touches nothing; changes to options are noticed", "statement": "If nothing in the effective configuration of a switch with ports changed, a reload restarts nothing. A change to an option (of a boolean, integer, text, address, list or dictionary value) of a port, or of what it mirrors to, restarts that port; a change to the ACLs applied to incoming packets of a port or VLAN, or to their content, restarts at least their ACLs or the VLAN with all its ports; a changed VLAN restarts with all its ports; VLANs a port joins or leaves restart; a change of a datapath option, router or stack root starts everything over. The comparison does not raise unless the switch leaves the stack.", "quantifier": "every pair of configurations of a switch", "why_tests_cant": "all pairs of configurations", "anchors": ["faucet/dp.py: get_config_changes, _get_port_config_changes, _get_vlan_config_changes, _acl_ref_changes", "faucet/conf.py: conf_hash, ignore_subconf"]}
{"id": "C36", "title": "Automatically chosen VLAN ids never collide", "statement": "The VLAN id chosen automatically for a tunnel is used by no configured VLAN and no tunnel resolved before, is valid, and is the smallest such id from the highest ordinary VLAN plus the number of tunnels in ACLs named up to its own. Two automatically chosen ids are never the same; tunnels with an id have it, which is no ordinary VLAN's, and other tunnels of an ACL to the same destination share one.", "quantifier": "every set of VLANs and ACLs and every order in which ACLs are resolved", "why_tests_cant": "all sets and orders", "anchors": ["faucet/dp.py: first_unused_vlan_id, get_tunnel_vlan, resolve_tunnel_objects, resolve_acls", "faucet/acl.py: resolve_ports, get_num_tunnels"]}
{"id": "C37", "title": "Accepted router configurations have disjoint subnets", "statement": "If the configuration check accepts a router then any two different non-link-local virtual IPs of it have disjoint subnets.", "quantifier": "every set of VIPs (addresses and prefix lengths)", "why_tests_cant": "all pairs of prefixes", "anchors": ["faucet/dp.py: resolve_routers (check of overlapping VIPs)"]}
{"id": "C38", "title": "Port ranges configure exactly the ports they name", "statement": "A key of interface ranges that is a list of numbers and start-end ranges is refused if a range does not go up or no port is named, and otherwise covers every port it names, and exactly those if the text of no range is part of another's. A configuration is accepted exactly when all keys are and no port is in two of them; then every port in a key has the attributes configured for it individually, and those of its range (except the number) that are not, and ports in no key are left as configured.", "quantifier": "every list of keys with any numbers, separators and attributes", "why_tests_cant": "all strings", "anchors": ["faucet/config_parser.py: _parse_port_ranges, _map_port_num_to_port, _dp_add_ports"]}
{"id": "C39", "title": "Config include is transactional, loop-free and terminates", "statement": "Loading a configuration file either yields exactly the contents of the file and of its includes, read in the order they are named with later values overriding, or adds nothing; a file that includes itself through mandatory includes is rejected rather than looped on; loading always ends; and every file loaded and every optional include left out is recorded for change detection.", "quantifier": "every include graph (including cycles) and file contents", "why_tests_cant": "all graphs", "anchors": ["faucet/config_parser_util.py: dp_include"]}
{"id": "C40", "title": "Configuration change detection has no misses", "statement": "After a configuration was loaded, a reload is requested whenever the content or existence of any file that made it up, or of an optional include that was missing, differs from when it was loaded; as long as none is requested, loading again would give the same configuration; none is requested while nothing changed; after a rejected configuration every request loads again.", "quantifier": "every set of files and contents", "why_tests_cant": "all sets of files", "anchors": ["faucet/config_parser_util.py: config_changed", "faucet/valves_manager.py: ConfigWatcher, request_reload_configs"]}
{"id": "C41", "title": "LLDP beacons are bounded per cycle and reach every port", "statement": "Calls that send beacons are at least the send interval apart. Each sends at most one beacon per port, only on running ports, at most the configured number on ports that are not stack ports, and there only if their last beacon is older than the interval; it leaves out no running stack port, and others that are due only if the number is reached. Whatever the calls, every running stack port has a beacon within the send interval plus the advertise interval, and every other running port within that plus the send interval, if those ports are no more than the configured number.", "quantifier": "every set of ports, intervals, random shuffles and history of calls", "why_tests_cant": "unbounded histories", "anchors": ["faucet/dp.py: lldp_beacon_send_ports", "faucet/valve.py: fast_advertise, _send_lldp_beacon_on_port"]}
{"id": "C42", "title": "Port status events are tracked exactly", "statement": "While a switch is connected, a configured port whose status is followed is treated as up exactly when the switch last said it was up, in the description of its ports made on connecting or in a status message since, whether or not the controller noticed each disconnection. This holds as long as a port is reported added only when its link is up, and blocked only when its link is down. However often a link flaps, frames are let in on a port exactly while it was last said to be up.", "quantifier": "every configuration, every history of connections with any port descriptions, disconnections, status messages, packets and expiry, every order in which changes in a description are handled", "why_tests_cant": "unbounded histories; the belief is kept in two places that are changed by different messages", "anchors": ["faucet/valve.py: port_desc_stats_reply_handler, port_status_handler, ports_add, ports_delete, _cold_start_ports_and_vlans", "faucet/faucet.py: port_desc_stats_reply_handler, _datapath_connect"]}
{"id": "C43", "title": "Finalized configuration is immutable", "statement": "Once a configuration object is finalized no assignment, merge of dynamic state or further finalization changes an attribute that is neither dynamic nor declared mutable, as long as nobody clears the finalized mark; such assignments are rejected and others take effect on their attribute alone.", "quantifier": "every sequence of assignments", "why_tests_cant": "all sequences", "anchors": ["faucet/conf.py: Conf.__setattr__, finalize"]}
{"id": "C44", "title": "Each 802.1X port has its own proxy address", "statement": "The proxy MAC addresses used to identify 802.1X ports are different for different (switch, port) pairs, so an authentication result is always attributed to the port it came from.", "quantifier": "every switch index and port number", "why_tests_cant": "the whole domain", "anchors": ["faucet/faucet_dot1x.py: get_mac_str, set_mac_str, _get_valve_and_port"]}
{"id": "C45", "title": "Only authenticated hosts pass an 802.1X port", "statement": "On an 802.1X port without dot1x_acl, after any sequence of connects, port up and down events, logins, logoffs and failures: frames other than EAPOL pass to the switch exactly when their source address is currently authenticated on that port (a login not ended by a logoff, a failure, the port going down or a reconnect); if the login named an ACL on a port with dynamic ACLs, they are dealt with by that ACL; EAPOL frames go to the authenticator only, and its frames only to the port they are for; with MAC authentication bypass, DHCP requests of unauthenticated hosts go to the authenticator.", "quantifier": "every configuration meeting the checks, every event sequence, every order in which batches are shuffled, every frame", "why_tests_cant": "unbounded histories of several hosts and ports whose entries share one table; the outcome depends on priorities and on which deletes cover which entries", "anchors": ["faucet/faucet_dot1x.py: auth_handler, logoff_handler, failure_handler, port_up, port_down, nfv_sw_port_up", "faucet/valve_acl.py: add_authed_mac, del_authed_mac, add_port_acl, del_port_acl, create_dot1x_flow_pair, create_mab_flow", "faucet/valve.py: Dot1xManager, ports_add, ports_delete"]}
{"id": "C46", "title": "Only unfragmented, well-formed IPv4 packets are parsed", "statement": "The IPv4 sanity check accepts a header only if it is at least 20 bytes long, is not a fragment and carries ICMP, UDP or TCP.", "quantifier": "every header", "why_tests_cant": "2^160 headers", "anchors": ["faucet/valve_packet.py: ipv4_parseable"]}
{"id": "C47", "title": "LACP port ids are unique", "statement": "Different ports of the stack have different LACP port identifiers.", "quantifier": "every number of switches and ports", "why_tests_cant": "all port numbers", "anchors": ["faucet/dp.py: finalize_config (lacp_port_id)"]}
{"id": "C48", "title": "Tunnelled frames leave as they entered", "statement": "Once the switches agree about the stack and have updated their tunnels, after any history: a frame that a rule with a tunnel decides at a source of the tunnel is sent once into the tunnel with exactly one extra VLAN tag (what else the rule does with the frame happens without that tag); every switch on the way sends it on unchanged, out of one port, along a shortest way of links that are up; at the destination it loses the tag (unless encapsulation is to be maintained), the exit instructions are carried out, and it leaves through the destination's port or is switched as usual. A frame sent back into a bi-directional tunnel with one source reaches that source in the same way. Tunnels here: the rule has one tunnel and no other output, no other tunnel has the same id, and a source port has one ACL (the first of its rules that covers the frame decides).", "quantifier": "every stack topology, history of updates and other messages, source, destination, exit instructions (without failover groups), rule position and frame", "why_tests_cant": "all topologies, histories and frames", "anchors": ["faucet/acl.py: update_source_tunnel_rules, update_reverse_tunnel_rules, get_tunnel_rules", "faucet/valve_acl.py: build_tunnel_ofmsgs, build_tunnel_acl_rule_ofmsgs, build_tunnel_rules_ofmsgs, build_reverse_tunnel_rules_ofmsgs", "faucet/valve_stack.py: tunnel_outport, acl_update_tunnel, add_tunnel_acls"]}
{"id": "C49", "title": "A service run sends every switch one batch, which is current", "statement": "In a periodic service run every switch is sent at most one batch, which is what the last handler with messages for it produced; a switch that only one handler produced messages for is sent all of them; and when handlers that change the shared state produce everything that depends on it for all running switches (as the stack link check does), every running switch ends up with what the final state demands.", "quantifier": "every list of switches, every handler and every state", "why_tests_cant": "all schedules of cross-switch messages", "anchors": ["faucet/valves_manager.py: valve_flow_services, _other_running_valves"]}
{"id": "C50", "title": "Longest-match VIP lookup", "statement": "The virtual IP a router returns for an address is one with the longest subnet of the router containing the address; a VLAN returns one whose subnet contains the address, the longest if its subnets do not overlap; none is returned only if no subnet contains the address.", "quantifier": "every set of VIPs and addresses", "why_tests_cant": "all addresses", "anchors": ["faucet/router.py: vip_map", "faucet/vlan.py: vip_map"]}
{"id": "C51", "title": "Link-local protocol frames are never flooded", "statement": "After any history of flood table programming, a frame whose destination is one of the reserved bridge addresses 01:80:c2:00:00:00-0f or the Cisco CDP/PVST addresses leaves the flood table without being sent anywhere.", "quantifier": "every flood mode without group tables, every history of VLAN adds, refreshes, deletes and reloads, and every frame", "why_tests_cant": "histories are unbounded and the guarantee depends on no later delete or higher-priority rule ever uncovering the drop", "anchors": ["faucet/valve_switch_standalone.py: initialise_tables, _build_mask_flood_rules, FLOOD_DSTS"]}
{"id": "C52", "title": "The VLAN id carried in a router MAC address survives", "statement": "With global routing, the VLAN id written into the destination MAC of a packet sent to the controller is read back unchanged, for every VLAN id and router address, and different VLAN ids give different addresses.", "quantifier": "every MAC string and every VLAN id", "why_tests_cant": "the encoding uses unpadded hexadecimal text, so correctness for all values is a round-trip law, not a set of examples", "anchors": ["faucet/valve_packet.py: int_in_mac, int_from_mac", "faucet/valve.py: parse_rcv_packet", "faucet/valve_route.py: _add_faucet_fib_to_vip"]}
{"id": "C53", "title": "Flood rule priority follows the mask length", "statement": "The number of bits counted in a destination MAC mask is the length of the prefix mask, and zero for anything else; an address is unicast exactly when the group bit of its first byte is clear.", "quantifier": "every 48 bit mask and address", "why_tests_cant": "2^48 masks and addresses", "anchors": ["faucet/valve_packet.py: mac_mask_bits, mac_byte_mask, mac_addr_is_unicast"]}
{"id": "C54", "title": "The FIB follows the routes", "statement": "While routes are not replaced, every forwarding entry of the FIB leads to the current MAC of the current gateway of a route for its destination, and every route whose gateway is resolved is in force: packets to its destination from any VLAN routed together go to the gateway's MAC in the gateway's VLAN.", "quantifier": "every history of route operations, packets, timers, port changes, disconnections and reconnections, every packet", "why_tests_cant": "unbounded histories and all destinations", "anchors": ["faucet/valve_route.py: add_route, del_route, _update_nexthop, _add_host_fib_route, _expire_gateway_flows"]}
{"id": "C55", "title": "Replaced and deleted routes have no effect", "statement": "Each route is filed under its current gateway only, so that a replaced or deleted route never comes back into force, and a gateway is resolved only while some route uses it.", "quantifier": "every history of route operations and packets", "why_tests_cant": "unbounded histories", "anchors": ["faucet/vlan.py: add_route, del_route, _update_gw_types", "faucet/valve_route.py: _update_nexthop"]}
{"id": "C56", "title": "Automatic revert restores the last good configuration", "statement": "With automatic revert on, when a changed configuration is rejected, the files are put back so that the next reload request brings the last good configuration into force again, whatever happened to the files that made it up.", "quantifier": "every last good configuration, every set of later files, every acceptance test", "why_tests_cant": "all files, include graphs and changes between two loads", "anchors": ["faucet/valves_manager.py: ValvesManager.parse_configs, revert_config", "faucet/config_parser.py: dp_parser", "faucet/config_parser_util.py: dp_include"]}
{"id": "C57", "title": "No effective change goes unnoticed by a reload", "statement": "Any change to a value in the configuration that is in use, whatever its type and wherever it is referenced, is noticed by a reload, a reload with the very same file restarts nothing whatever the state of the switch, and no reload raises.", "quantifier": "every pair of configurations and state of the stack", "why_tests_cant": "all pairs of configurations", "anchors": ["faucet/conf.py: _str_conf", "faucet/dp.py: _acl_ref_changes, _get_port_config_changes", "faucet/stack.py: hash"]}
{"id": "C58", "title": "Unicast next hops in a stack reach the destination switch", "statement": "Following the port each switch of a stack uses towards a given switch reaches that switch, passing none twice: along the tree (edge learning from the root) in at most the distances of both switches to the root together, otherwise in exactly the distance between the two.", "quantifier": "every topology, every pair of switches", "why_tests_cant": "all graphs and all pairs, including parallel links of which some are down", "anchors": ["faucet/valve_stack.py: relative_port_towards, default_port_towards", "faucet/stack.py: shortest_path_port, peer_up_ports"]}
{"id": "C59", "title": "Unknown unicast flooded in a stack is delivered once", "statement": "In every stack in which all switches agree on link state, a unicast packet to an unknown destination entering at any switch connected to the root is handed to the hosts of every switch connected to it exactly once and then stops.", "quantifier": "every topology, every entry switch, every order in which copies are forwarded", "why_tests_cant": "all graphs, with any number of parallel links", "anchors": ["faucet/valve_switch_stack.py: _build_mask_flood_rules, _flood_actions", "faucet/valve_stack.py: reset_peer_distances, is_pruned_port"]}
{"id": "C60", "title": "The state of a stack port says what is heard there", "statement": "Whenever a stack port is looked at, after any history of probes, it is initialising if no probe ever came, gone if the last one is older than the tolerated number of intervals, bad if the last one came from another switch or port than configured, and up otherwise.", "quantifier": "every accepted configuration, history of probes and ticks, and port", "why_tests_cant": "all interleavings and times", "anchors": ["faucet/port.py: stack_port_update", "faucet/valve_lldp.py: verify_lldp, update_stack_link_state"]}
{"id": "C61", "title": "The stack topology follows the links and is the same everywhere", "statement": "After any history all switches have the same topology, of all switches and configured links only; a link that is up at both ends is in it, one that is up at neither is not once it was looked at; and when every link is up at both ends or neither, the switches agree in the sense that shortest paths, flooding and next hops in the stack rely on.", "quantifier": "every accepted configuration and history of probes and ticks", "why_tests_cant": "all interleavings of events at the ends of all links", "anchors": ["faucet/valve_lldp.py: update_stack_link_state", "faucet/valve_stack.py: update_stack_topo", "faucet/stack.py: modify_topology"]}
{"id": "C62", "title": "Stack configuration is accepted exactly when links have two ends and reach the root", "statement": "A stack configuration is accepted exactly when every stack link is configured from both of its (different) ports and every switch is connected to the root.", "quantifier": "every set of switches and stack ports", "why_tests_cant": "all topologies", "anchors": ["faucet/stack.py: resolve_topology, modify_topology"]}
{"id": "C63", "title": "The managed datapaths are those of the last accepted configuration", "statement": "After any history of configuration loads (accepted and rejected), stack root changes, connections and disconnections, the datapaths that are managed are exactly those of the configuration accepted last, each with what that configuration says of it; a rejected configuration changes none; messages are listened to exactly from managed datapaths that are connected.", "quantifier": "every history", "why_tests_cant": "unbounded histories", "anchors": ["faucet/valves_manager.py: _apply_configs, load_configs, parse_configs, datapath_connect", "faucet/faucet.py: _get_valve"]}
{"id": "C64", "title": "The metric of applied configuration counts the datapaths that were sent it", "statement": "After any history the metric is the number of configured datapaths that have been sent the configuration of the last load attempt (at the load if they were connected and not cold restarted, or on connecting since) over the number of configured datapaths; it never exceeds one, is one exactly if all were sent it, and is zero after a rejected load.", "quantifier": "every history", "why_tests_cant": "unbounded histories", "anchors": ["faucet/valves_manager.py: update_config_applied"]}
{"id": "C65", "title": "Table features describe exactly the pipeline", "statement": "The table features message has exactly one entry for every table of the pipeline, with its number, at least its size and exactly the tables it may send packets on to, and one filler for every other number up to the switch's highest.", "quantifier": "every feature subset, size and highest table number", "why_tests_cant": "exponentially many subsets", "anchors": ["faucet/tfm_pipeline.py: load_tables"]}
{"id": "C66", "title": "Datapaths agree on the VLANs of tunnels", "statement": "All datapaths that share ACLs and VLANs give each tunnel the same VLAN, whatever order each of them resolves its ACLs in.", "quantifier": "every configuration and every two orders", "why_tests_cant": "all sets and orders", "anchors": ["faucet/dp.py: get_tunnel_vlan, resolve_acls"]}
{"id": "C67", "title": "802.1X ACLs apply to the host they were assigned to", "statement": "On an 802.1X port with dot1x_acl, frames of authenticated hosts are dealt with by auth_acl, those of others by noauth_acl, and EAPOL frames reach the authenticator; on a port with dynamic ACLs a host that logs in again is subject to the ACL named last; every login is acted on.", "quantifier": "every configuration, event sequence and frame", "why_tests_cant": "needs several hosts on one port and particular overlaps of the ACLs' rules", "anchors": ["faucet/faucet_dot1x.py: _add_authenticated_flowmod, _del_unauthenticated_flowmod", "faucet/valve_acl.py: add_port_acl, del_port_acl, build_acl_port_of_msgs"]}
{"id": "C68", "title": "A learned host stays switched, not flooded", "statement": "While the switch is connected and a host is learned on a port that has not changed status since the host was last heard of, frames to the host are not flooded: its destination rule is installed and they leave on its port only.", "quantifier": "all configurations, all histories in time order, all learned hosts and frames to them", "why_tests_cant": "The rule and the cache entry are written, refreshed, timed out and deleted by different events; that none of these orders loses the rule while keeping the entry is a statement about all histories.", "anchors": ["faucet/valve_switch_standalone.py: _learn_host_timeouts, _learn_cache_check, _perm_learn_check, learn_host_on_vlan_port_flows", "faucet/valve.py: ports_delete, lacp_update, state_expire"]}
{"id": "C69", "title": "Updating tunnels leaves other rules alone", "statement": "Whenever the tunnels are updated because the stack changed, after any history: every flow entry of the switch that is not an entry of a tunnel (the entries for frames with a tunnel's tag, the entries of rules with tunnels) is there afterwards if and only if it was there before, and groups and meters are unchanged. In particular the other rules of the ACL of a port keep their entries, although the update sends deletes that cover them. This is for rules without cookies of their own and outputs without failover groups; with a cookie it is false.", "quantifier": "every configuration of tunnels, history, view of the stack and contents of the switch", "why_tests_cant": "the deletes of an update are wider than the entries they replace, and only their pairing with additions keeps other entries safe; all configurations and contents have to be considered", "anchors": ["faucet/valve_acl.py: build_tunnel_ofmsgs, build_rule_ofmsgs, build_tunnel_acl_rule_ofmsgs", "faucet/valve_of.py: remove_overlap_ofmsgs, valve_flowreorder", "faucet/valve_stack.py: acl_update_tunnel, add_tunnel_acls"]}
{"id": "C70", "title": "VLANs stay apart when the configuration is reloaded without a restart", "statement": "When the configuration of a connected switch changes and the change is applied without restarting the switch, then from that moment on, whatever was configured, learned or up before: a frame that enters the switch leaves it only on ports that the new configuration has on the frame's VLAN (as the new configuration assigns frames to VLANs), tagged or untagged as the new configuration says, or as a copy to a mirror or to the controller. Ports and VLANs may be added, removed and changed, and ports may move between VLANs. This is for changes in which LAG ports and hairpin ports stay as they are, a port that stays on a VLAN stays tagged or untagged on it and keeps its mirrors, and the first external port is not added nor the last removed; for switches that flood without group tables; and when no packet-in from before the change is handled after it. Outside of that it is false.", "quantifier": "every sequence of configurations, every history of events, frames, reconnections and timeouts between the reloads, every order in which a batch is sent, every frame", "why_tests_cant": "what a reload leaves on the switch depends on everything that was configured, learned and up before it; all pairs of configurations and histories have to be considered", "anchors": ["faucet/dp.py: get_config_changes, _get_port_config_changes, _get_vlan_config_changes, clone_dyn_state", "faucet/valve.py: reload_config, _apply_config_changes, ports_delete, ports_add, del_vlans", "faucet/valve_switch_standalone.py: del_vlan"]}
{"id": "C71", "title": "Stack ports recognise each other's LLDP beacons", "statement": "The LLDP beacon that a FAUCET port sends is understood by a FAUCET datapath with the same OUI on whatever port it arrives: the stack state that it reports is heard, and if the port it arrives on is a stack port, its cabling is reported as right exactly if that port is configured to lead to the very datapath (identifier and name) and port that sent the beacon. This is for beacons of up to 128 bytes, sent under the name of the datapath, without configured TLVs of FAUCET's OUI, from datapaths whose identifier is not zero. A beacon from a datapath with another OUI changes nothing. A beacon over 194 bytes, or over 128 bytes where the switch honours the length in the rule, is not understood.", "quantifier": "every datapath identifier, name, port number, description, list of configured TLVs and stack state of the sender; every port the beacon arrives on, every padding and every amount from 128 bytes on that the switch passes on", "why_tests_cant": "identifiers and names are arbitrary numbers and strings that travel as text in TLVs of variable length", "anchors": ["faucet/valve_packet.py: lldp_beacon, faucet_lldp_tlvs, faucet_lldp_stack_state_tlvs, parse_faucet_lldp, tlv_cast", "faucet/valve.py: _send_lldp_beacon_on_port, lldp_handler, parse_pkt_meta", "faucet/valve_lldp.py: verify_lldp, add_port"]}
{"id": "C72", "title": "No LLDP frame raises an exception in the controller", "statement": "Whatever LLDP frame a port receives from its neighbour, handling it raises no exception (which would end the controller).", "quantifier": "every list of TLVs in the frame, every state of the port", "why_tests_cant": "the frame is chosen by whatever is connected to the port", "anchors": ["faucet/valve.py: lldp_handler", "faucet/valve_packet.py: parse_faucet_lldp, tlv_cast", "faucet/port.py: stack_state_name"]}
{"id": "C73", "title": "The router answers only for its own addresses and only to connected hosts", "statement": "Whatever packet a host sends to the router, if the router sends an answer then it leaves on the port that the packet came in on, tagged with the VLAN exactly if the port is tagged on it, from the router's MAC address to the MAC address that asked; it is the answer to what was asked (the address asked for, the identifier, sequence number and data of the ping) and goes to the IP address that asked; the router speaks for an address that it has on that VLAN, and the host's address is inside the subnet of one of the router's addresses on that VLAN. Router advertisements come from a link-local address of the router and list exactly the other IPv6 subnets of the VLAN. What runs out of TTL is reported from the router's address in the subnet of the source.", "quantifier": "every VLAN with any list of router addresses and tagged ports; every ARP, ICMP, ICMPv6 and other IP packet with any addresses, size, hop limit and contents", "why_tests_cant": "packets and address plans are unbounded; an answer for somebody else's address would only show with a particular overlap", "anchors": ["faucet/valve_route.py: _resolve_vip_response, _unicast_to_vip, control_plane_handler, _router_solicit_handler, _echo_request_handler, _control_plane_time_exceeded_handler", "faucet/vlan.py: vip_map, is_faucet_vip, ip_in_vip_subnet, from_connected_to_vip, link_and_other_vips, pkt_out_port", "faucet/valve.py: _control_plane_handler, router_rcv_packet", "faucet/valve_packet.py: PacketMeta, arp_reply, nd_advert, router_advert, echo_reply, icmpv6_echo_reply"]}
{"id": "C74", "title": "Connected hosts can find the router and ping it", "statement": "On a VLAN where the subnets of the router's addresses do not overlap, a host inside one of the subnets (not at its first or last address) gets an answer to an ARP request or neighbour solicitation for an address of the router, a ping of up to 174 bytes (IPv4, with the tag) or of up to 88 bytes of data (IPv6), a router solicitation where the router has a link-local address in the host's subnet, and, for packets of up to 174 and 194 bytes, when the TTL runs out. Larger pings get none.", "quantifier": "every VLAN with any list of disjoint router addresses, every host address, every MAC address, every packet within the sizes", "why_tests_cant": "address plans, hosts and packet contents are unbounded", "anchors": ["faucet/valve_route.py: _resolve_vip_response, control_plane_handler, _router_solicit_handler, _echo_request_handler, _control_plane_time_exceeded_handler", "faucet/vlan.py: vip_map, is_faucet_vip, ip_in_vip_subnet", "faucet/valve_packet.py: PacketMeta.reparse, reparse_ip, packet_complete", "faucet/valve.py: router_rcv_packet"]}
{"id": "C75", "title": "Routes follow what BGP neighbours say", "statement": "Whatever the BGP neighbours of a VLAN announce and withdraw, with next hops on the subnets of that VLAN, and however often the configuration is reloaded meanwhile (with the VLAN rebuilt or kept): the VLAN's route to a destination goes through the next hop of the last announcement if that was not withdrawn since, and otherwise it is the last route to it in the current configuration (for destinations that the neighbours mention, or that are configured, but not both). VLANs that never had BGP keep exactly their configured routes, whatever is said on other VLANs. No update makes the controller fail.", "quantifier": "every sequence of configurations with any datapaths, VLANs, routers and static routes, every sequence of announcements and withdrawals on any of the BGP VLANs, interleaved with reloads that keep or rebuild any set of VLANs", "why_tests_cant": "sequences of updates and reloads are unbounded and a route can be lost only after a particular interleaving", "anchors": ["faucet/faucet_bgp.py: _bgp_route_handler, _add_bgp_speaker, _add_valve_bgp_speakers, reset, _valve_vlan, _bgp_down_handler", "faucet/valve_route.py: add_route, del_route", "faucet/valve.py: router_vlan_for_ip_gw, add_route, del_route", "faucet/vlan.py: is_faucet_vip, add_route, del_route", "faucet/valves_manager.py: _apply_configs"]}
{"id": "C76", "title": "BGP neighbours are told the subnets and static routes of the VLAN", "statement": "After any sequence of configurations, announcements and withdrawals, what is offered to the BGP neighbours of a VLAN is exactly the subnets of the router's addresses on the VLAN, each through that address, and the destinations of the configured routes, each through the gateway of its last configured route, of the configuration in which BGP was first turned on for the VLAN; on VLANs that never had BGP nothing is offered. Announcements of neighbours are never passed on.", "quantifier": "every sequence of configurations, announcements and withdrawals; every VLAN", "why_tests_cant": "configurations and histories are unbounded; an announcement that leaks would need a particular order of speakers", "anchors": ["faucet/faucet_bgp.py: _create_bgp_speaker_for_vlan, _vlan_prefixes_by_ipv, _add_bgp_speaker, reset"]}
{"id": "C77", "title": "Gauge polls each connected datapath once and gives the replies to all its watchers", "statement": "However datapaths connect, reconnect (also before the loss of the old connection is noticed) and leave, and however often Gauge's configuration is reloaded, also with invalid ones: at no time do two threads request the same statistics of a datapath. Once Gauge has handled the notifications it got, a thread requests the statistics of a datapath exactly if the datapath is connected and a watcher for them is in the last valid configuration, on the datapath's current connection; and what a connected datapath reports is given to each watcher that is configured for it once, in the order of the configuration, and to no other.", "quantifier": "every sequence of connections, losses, notifications handled at any later time, reloads with any list of watchers, replies and polls", "why_tests_cant": "a leaked or a second polling thread needs a particular interleaving of reloads, reconnections and delayed notifications", "anchors": ["faucet/gauge.py: _load_config, _start_watchers, _stop_watchers, _datapath_connect, _datapath_disconnect, _update_watcher", "faucet/gauge_pollers.py: GaugePoller.start, stop, update, GaugeThreadPoller.start, stop, is_active, __call__", "faucet/valve_ryuapp.py: _get_datapath_obj, connect_or_disconnect_handler, reconnect_handler"]}
{"id": "C78", "title": "Clients of the event socket get events once and in order, and losses show", "statement": "However events happen, clients connect, leave and read, in any interleaving: what a client receives is an event that happened, under the number of its place among all events; over all clients numbers only grow, so nothing is received twice or out of order and what is missing shows as a gap. An event that nobody received is still waiting, or was being written to a client that had left, or has had 120 or more events after it. While a client is connected, every event that waits is written to it.", "quantifier": "every sequence of events, connections, departures and steps of the serving thread, of any length", "why_tests_cant": "duplicates and losses depend on how notifications interleave with slow, leaving and reconnecting clients", "anchors": ["faucet/faucet_event.py: NonBlockLock.acquire_nonblock, FaucetEventNotifier.notify, _loop"]}
{"id": "C79", "title": "With an egress pipeline a frame leaves at the port it is for", "statement": "On a datapath with an egress pipeline whose port numbers are below 4096: however ports come up, go down and are reconfigured and however often the datapath reconnects, a frame that is forwarded to a port that is up, on a VLAN of that port, and that the egress ACLs (if any) let pass leaves at that port, once, tagged or untagged as the port carries the VLAN, with one copy to each port that mirrors it, and nowhere else. A frame for a port that is down, and one for an unknown destination, goes on to be flooded.", "quantifier": "every sequence of port additions, deletions and datapath connections, every port configuration, VLAN and frame", "why_tests_cant": "packing the port and VLAN into metadata must be free of collisions for all of them, and deletes by mask must hit exactly the port's rules at any time", "anchors": ["faucet/faucet_metadata.py: get_egress_metadata", "faucet/valve_pipeline.py: output, _add_egress_table_rule, add_port, del_port", "faucet/valve.py: ports_add, ports_delete, _add_default_drop_flows"]}
{"id": "C80", "title": "The switches of a stack learn a host towards the switch it is at", "statement": "In a stack all of whose switches are connected and agree on the topology: in whatever order the packets of a host that stays where it is are reported by the switches they pass, and whatever is forgotten meanwhile, the switch it is attached to has it on the port it is at, and every other switch has it, if at all, on its port towards that switch. A switch that gets a packet of the host from another one after the host's switch has learned it, learns it (with route learning: all switches do when the host's switch hears it again). Frames for it go from switch to switch towards it until they reach its switch, or one that does not know it and floods; if all know it they arrive, passing no switch twice.", "quantifier": "every topology, every sequence of packet-ins at any switch and port and of expiries, any iteration order of sets, both stack modes, external or ordinary host port, tree or shortest-path learning, with or without route learning", "why_tests_cant": "packet-ins of one flooded frame reach the controller from many switches in any order; each decision depends on the caches of all other switches at that moment", "anchors": ["faucet/valve_switch_stack.py: _non_stack_learned, edge_learn_port, _edge_dp_for_host, learn_host_from_pkt", "faucet/valve_stack.py: edge_learn_port_towards, relative_port_towards, default_port_towards, stacked_valves", "faucet/valve.py: learn_host"]}
{"id": "C81", "title": "A host that moves to another switch of a stack is found there", "statement": "When a host moves from one switch of a stack to another and is heard there, every switch that hears it afterwards learns it on its port towards the new switch.", "quantifier": "every topology, every history before the move, and every order in which the packet-ins after it are handled", "why_tests_cant": "depends on the order in which packet-ins of different switches for one frame are handled", "anchors": ["faucet/valve_switch_stack.py: _non_stack_learned, edge_learn_port, _edge_dp_for_host", "faucet/valve.py: learn_host"]}
{"id": "C82", "title": "Networks connected to a stack at several places do not cause loops or duplicates", "statement": "In a stack whose root has ports to an external network in the VLAN, and whose switches agree on the topology: a broadcast or unknown frame that comes in from an external network at any switch reaches every internal port of the VLAN on every connected switch exactly once and leaves by no external port; a frame of a host reaches every other internal port exactly once (with root reflection also the port it came from, unless that is on the root) and leaves by exactly one external port, the first of the root's that is up, if one is. Without reflection (stacks of diameter two), the latter holds for hosts on the root and on switches without external ports, provided other switches with external ports are candidates for root.", "quantifier": "every topology, every set of ports and of links and external ports that are down, every order in which copies travel through the stack, both stack modes, tables of port-by-port or whole-VLAN rules", "why_tests_cant": "a loop or duplicate depends on the combination of the rules of many switches, on the flag carried in the VLAN header and on which ports are up", "anchors": ["faucet/valve_switch_stack.py: _build_flood_rule_actions, _build_mask_flood_rules, _flood_actions, ValveSwitchStackManagerReflection, ValveSwitchStackManagerNoReflection", "faucet/valve_switch_standalone.py: _build_flood_local_rule_actions, _vlan_flood_rules, add_port", "faucet/vlan.py: loop_protect_external_ports, loop_protect_external_ports_up"]}
{"id": "C83", "title": "Whatever the placement of external ports, external frames stay in and host frames get out once", "statement": "In a stack with ports to external networks anywhere: a frame from an external network never leaves by an external port, and a broadcast of a host leaves by exactly one external port whenever some external port of a connected switch is up.", "quantifier": "every topology, every placement and state of external ports, every order in which copies travel", "why_tests_cant": "depends on the combination of the rules of many switches and on which ports are up", "anchors": ["faucet/valve_switch_stack.py: _build_flood_rule_actions, _flood_actions, ValveSwitchStackManagerReflection, ValveSwitchStackManagerNoReflection", "faucet/valve_switch_standalone.py: _build_flood_local_rule_actions, _vlan_flood_rules"]}
{"id": "C84", "title": "The switch has the configured meters, and ACL rules are limited by theirs", "statement": "After every connection and every reload the switch has exactly the meters that are configured and used by ACLs, and those of packetin_pps and slowpath_pps, with the configured rates; and every ACL rule is in force and sends the packets it decides on through its meter and no other.", "quantifier": "every configuration of ports, VLANs, ACLs and meters, every state of the switch before the first connection, every history of connections, reloads and ports going up and down, every order in which messages are sent that the reordering allows", "why_tests_cant": "a meter message acts on the flow entries that use the meter, so what a reload does depends on everything sent before and on how the batch is reordered", "anchors": ["faucet/valve.py: _add_packetin_meter, _add_slowpath_meter (datapath_connect), _apply_config_changes", "faucet/valve_acl.py: add_meters, del_meters", "faucet/valve_of.py: meterdel, meteradd, controller_pps_meteradd, slowpath_pps_meteradd, valve_flowreorder", "faucet/dp.py: _get_meter_config_changes, finalize_config", "faucet/meter.py: Meter"]}
{"id": "C85", "title": "References in a configuration become what they name, or it is rejected", "statement": "In an accepted configuration every reference to a port of an ACL rule (output, failover, mirror, tunnel) and of a mirroring port has become the port of that number or name; every ACL, meter and tunnel datapath that is used exists; a port's reference to a VLAN has become the VLAN of that key, else of that VID, else a new VLAN of that VID, whatever the order of ports; nothing else in the rules has changed. A datapath is rejected exactly if something that is used names nothing (or combines what cannot be combined).", "quantifier": "every set of ports with different names, every ACLs, meters and uses of ACLs by VLANs, ports, the datapath and tunnels, every other datapath, every VLAN section and order of ports", "why_tests_cant": "references are resolved in place, once per ACL, in several passes whose order matters, and may be by number or by name; tests try single configurations", "anchors": ["faucet/dp.py: finalize_config (resolve_port, resolve_mirror_destinations, resolve_acl, resolve_acls, resolve_tunnel_objects)", "faucet/acl.py: resolve_ports, _resolve_ordered_output_ports, _resolve_output_ports, get_meters, get_mirror_destinations, is_tunnel_acl", "faucet/config_parser.py: _get_vlan_by_key, _dp_parse_port"]}
{"id": "C86", "title": "A router joins the VLANs it lists", "statement": "A VLAN reference of a router means the same VLAN as on a port, a router has on each datapath exactly the datapath's VLANs that it lists, and a router that lists a VLAN which does not exist is rejected.", "quantifier": "every VLAN section that is accepted, every ports, every set of routers and datapaths", "why_tests_cant": "the same text is resolved by two different passes against different tables, for every datapath", "anchors": ["faucet/dp.py: finalize_config (resolve_vlan, resolve_vlans, resolve_routers)", "faucet/config_parser.py: _get_vlan_by_key, _parse_dp, _dp_parser_v2"]}
{"id": "C87", "title": "Every rule fits the table it is sent to", "statement": "Whatever happens to a switch, in whatever state, every rule sent to it is for a table it has, matches each field once and only on fields the table was declared to match on (with a mask only where masks are declared, on all of them in an exact-match table), has no match if its priority is 0, sets only fields the table was declared to set, and goes on only to tables declared to follow. So the controller's own checks, whose failure ends the controller, never fail; and the checks let nothing by whose match or next table does not fit. Rules of a reload fit the tables of the old or the new configuration.", "quantifier": "every layer 2 configuration (hairpin, external, restricted and mirrored ports, LAGs, LLDP, every flood mode) whose high and highest priorities are not 0, laid out on every combination of optional tables without egress ACLs, every state, every event (connect, disconnect, port status, frames, LACP, expiry), every warm reload, every port of the egress pipeline", "why_tests_cant": "declarations and rules are made in different modules from different parts of the configuration, and a mismatch shows only for the combination of features and event that makes the rule", "anchors": ["faucet/valve_table.py: ValveTable._verify_flowmod, _trim_actions, goto, goto_miss", "faucet/faucet_pipeline.py: DEFAULT_CONFIGS", "faucet/dp.py: _configure_tables", "faucet/valve.py: _pipeline_change", "faucet/valve_switch_standalone.py", "faucet/valve_pipeline.py"]}
{"id": "C88", "title": "Rules of ACLs fit the tables made for ACLs", "statement": "If no ACL is attached to two kinds of place (VLAN, port, datapath), none asks for an exact-match table, and no place has more than 0x5000 rules, then every rule that ACLs make, and every rule made for ports and VLANs without ACLs, fits the ACL table it is sent to, as C87 says, and passes the controller's checks.", "quantifier": "every set of ACLs (any matches, masks, set fields, outputs, meters, mirrors, failover groups), attached to any VLANs (in and out), ports and the datapath, every combination of optional tables, every event (connect, ports up and down, ACLs of ports changed, VLANs deleted and added)", "why_tests_cant": "the tables are made from a trial build of each ACL at one place of its use, the rules from all of its uses", "anchors": ["faucet/acl.py: ACL.build", "faucet/dp.py: _generate_acl_tables, finalize_config (resolve_acls)", "faucet/valve_acl.py: ValveAclManager, build_acl_ofmsgs", "faucet/valve_table.py: ValveTable._verify_flowmod"]}
{"id": "C89", "title": "A LAG over several switches of a stack settles on one of them", "statement": "When LACP of a LAG's ports has stayed as it is, the same switches have stayed connected and the root of the stack has not changed for as long as it takes each port that is up to hear of its partner once, then the ports of the LAG that forward are exactly those that are up on one switch: the one that has more of the LAG's ports up than every other connected switch, or the root if none has more than it. No two switches forward. A port that the configuration says is selected or unselected forwards always or never. While a port is up its role changes only as it hears of its partner, and ports of switches that are not connected are not up. LACP is up on a port only after its partner was heard in sync, and no longer once the port or the switch goes, a packet says otherwise or the time allowed has passed.", "quantifier": "every stack, every number of switches, LAGs and ports, every history (connecting, disconnecting, ports up and down, LACP packets in and out of sync, expiry, root elections), every quiet period in any order and with anything happening to other LAGs meanwhile", "why_tests_cant": "each port's role is set at a different moment, from the state of all switches at that moment; that they come to agree depends on all interleavings", "anchors": ["faucet/valve_switch_stack.py: get_lacp_dpid_nomination", "faucet/valve_switch_standalone.py: lacp_update_port_selection_state", "faucet/port.py: lacp_actor_update, lacp_port_update", "faucet/valve.py: lacp_update, ports_add, ports_delete, _lacp_state_expire", "faucet/valves_manager.py: _other_running_valves"]}
{"id": "C90", "title": "A LAG with a port up is used", "statement": "When a LAG has settled as in C89 and has a port up, some switch forwards on its ports: the one with most ports up, among those with as many the root, and otherwise the one with the lowest datapath ID, as documented.", "quantifier": "every stack and history as in C89", "why_tests_cant": "which switch is nominated depends on the LACP state of all switches together", "anchors": ["faucet/valve_switch_stack.py: get_lacp_dpid_nomination"]}
{"id": "C91", "title": "Coprocessors send frames out of the ports they name", "statement": "Where each VLAN ID of the coprocessors stands for one port (base plus port number is at most 4095, and coprocessors' IDs do not mean different ports): once the port of a coprocessor has come up, a frame it sends with the ID of a port leaves from that port alone and without the tag, any other frame of it is forwarded by its destination as it is, and frames of other ports are never taken for a coprocessor's. This stays so whatever other parts of the controller send and however often ports go up and down. Frames that a filter of the VLAN table takes first are excepted.", "quantifier": "every configuration of ports and coprocessors, every history of ports coming up and other messages, every frame", "why_tests_cant": "all rules of the VLAN table and the coprocessor table compete by priority; histories and port numbers are unbounded", "anchors": ["faucet/valve_coprocessor.py: CoprocessorManager.add_port", "faucet/faucet_pipeline.py: COPRO_DEFAULT_CONFIG", "faucet/valve.py: ports_add, _add_default_drop_flows", "faucet/port.py: coprocessor"]}
{"id": "C92", "title": "With idle timeouts the controller knows the hosts the switch lets pass", "statement": "With use_idle_timeout, without loop protection and LAGs: whatever frames come in, whichever host rules the switch reports as unused and in whatever order, however often ports go up and down and the switch starts anew, no report makes the controller fail, and the hosts it knows on a port are exactly those whose frames the switch lets pass from there without asking. A host that falls silent is thus forgotten as its rule goes. Any rule that sends frames to a known host sends them to the port it is known on (with external ports, where no port has loop_protect_external). The rule for a host's source goes only when unused, and before the rules that send to it may.", "quantifier": "every configuration of ports and VLANs, every interleaving of frames, reports of unused rules, port changes and cold starts", "why_tests_cant": "reports may come in any order relative to frames and port changes, so that every interleaving counts", "anchors": ["faucet/valve_switch_standalone.py: ValveSwitchFlowRemovedManager", "faucet/faucet.py: flowremoved_handler", "faucet/valve.py: flow_timeout", "faucet/vlan.py: expire_cache_host, cached_host_on_port"]}
{"id": "C93", "title": "LACP frames say what they should, to whom, and often enough", "statement": "Whatever frames came in, however often LACP started afresh on ports and whichever roles ports were given: every LACP frame sent is an untagged frame out of a port of a LAG, on an LACP frame there or (on active ports) as an advertisement; it gives the switch's address, the LAG, the port's ID and priority and the port's role when it is sent (in sync when selected or standing by, collecting and distributing when selected), and says of the partner exactly what the partner last said of itself since LACP started afresh there, nothing if it was silent. It is sent only while all ports it passes LACP through from have partners in sync. A packet that says something new is always answered; any other is answered or was answered within lacp_resp_interval, and not both: it is answered again only after the interval. Nothing fails while the peers named exist. Default port IDs differ over all switches with up to 100 ports.", "quantifier": "every switch configuration, every sequence of LACP frames, restarts, advertisements and role changes, all times", "why_tests_cant": "what a frame says depends on everything heard before on the port, and whether it is sent on all earlier answers", "anchors": ["faucet/valve_switch_standalone.py: lacp_req_reply, lacp_handler, lacp_advertise", "faucet/valve_packet.py: lacp_reqreply", "faucet/port.py: get_lacp_flags, lacp_actor_update", "faucet/dp.py: finalize_config"]}
{"id": "C94", "title": "The router asks for gateways and advertises itself on the right ports with the right frames", "statement": "To find a gateway in a subnet of a VLAN the router asks, by ARP or neighbour solicitation, from its own address in that subnet: on every running port of the VLAN, tagged as the port is, on exactly the flooding port of each LAG, and over the stack links in use (away from the root, or on the link chosen towards it), on no other port and never twice on one. Neighbour solicitations go to the group (RFC 4291) and Ethernet address (RFC 2464) that the gateway listens on. With targeted_gw_resolution the first question goes only to the port and address where the gateway was last seen. Nobody is asked for addresses outside the VLAN's subnets. Router advertisements go from each link-local address of the router to the same ports of its VLAN, with the subnets of its other IPv6 addresses. The rule that brings solicitations for the router's own addresses to it matches the address hosts send them to.", "quantifier": "every VLAN, set of ports, LAG and stack state, all addresses", "why_tests_cant": "the set of ports depends on the state of every port and LAG, and group addresses must be right for all 2^128 addresses", "anchors": ["faucet/valve_route.py: _resolve_gateway_flows, _resolve_gw_on_vlan, _resolve_gw_on_port, _flood_stack_links, advertise, _add_faucet_vip_nd", "faucet/vlan.py: flood_pkt, pkt_out_port, excluded_lag_ports", "faucet/valve_packet.py: arp_request, nd_request, router_advert, ipv6_link_eth_mcast, ipv6_solicited_node_from_ucast"]}
{"id": "C95", "title": "What is meant for the router reaches it, and other packets pass by", "statement": "On each VLAN where the router has an address: ARP sent to its Ethernet address or asking for one of its addresses goes to the controller whole and nowhere else, and all other ARP is forwarded as if there was no router and does not load the controller. Neighbour solicitations for its addresses and (where it has a link-local address) router solicitations go to the controller and on to the VLAN; IPv6 pings and neighbour advertisements to its Ethernet address go to the controller only. With proactive learning every other packet of that version of IP that comes to the router's table reaches the controller: alone, if sent to the router's Ethernet address, or as well as being forwarded. Nothing else in that table gets any further. From the classification table, packets are taken to the router's tables if and only if they are ARP, sent to the groups of its addresses, or sent to its Ethernet address, on a VLAN where it has an address of that version.", "quantifier": "every set of VLANs and addresses of the router, every packet, every set of other rules in the switch", "why_tests_cant": "rules of several VLANs, addresses and versions overlap in one table; which one decides depends on priorities for every packet", "anchors": ["faucet/valve_route.py: add_vlan, _add_faucet_vip_nd, _add_faucet_fib_to_vip, _controller_and_flood", "faucet/valve_pipeline.py: select_packets, accept_to_l2_forwarding", "faucet/valve_table.py: flowcontroller"]}
{"id": "C96", "title": "Only packets that were asked for are looked at, in the VLAN of their tag", "statement": "A packet the switch sends to the controller is looked at exactly if the switch is set up, the packet comes of a rule that sends packets (of this controller, where that is checked) or has run out of time to live, it came in on a port of the configuration, its source can be a host's address, and it is untagged or tagged with a VLAN of the configuration (in a stack: one its port carries, unless it is a stack port). It is then taken to be of the VLAN of its tag (of the VLAN in its destination, if tagged with the global VLAN), with its own addresses and type. What follows the first 18 bytes makes no difference to that, and no frame of at least 18 bytes raises an exception unless its tag and type are all zeros.", "quantifier": "every configuration, every packet-in message and every sequence of bytes in it", "why_tests_cant": "the bytes are whatever any host sends; the checks combine ports, VLANs, cookies and stack membership", "anchors": ["faucet/valve.py: parse_pkt_meta, parse_rcv_packet", "faucet/valve_packet.py: parse_packet_in_pkt, int_from_mac, mac_addr_is_unicast, mac_addr_all_zeros", "faucet/dp.py: port_no_valid", "faucet/valve_of.py: ignore_port"]}
{"id": "C97", "title": "Floods come in only over the chosen stack ports, however the stack has changed", "statement": "In a stack, a packet sent to everybody or to a bridge, IPv4 or IPv6 group is dropped when it comes in on any stack port other than the port chosen towards the root and the ports away from it that are not redundant. Where broadcasts come back from the root, switches other than the root flood those that come from its direction (at the edge: all) without looking at their source, so no host is learned from its own reflected broadcast. All other packets are treated as if these rules did not exist. This holds after any sequence of changes of the stack, of the state when the VLAN was last set up.", "quantifier": "every sequence of set-ups of VLANs with any state of the stack, every packet", "why_tests_cant": "rules are replaced one by one as links come and go; a rule left behind drops or duplicates broadcasts only after a particular history", "anchors": ["faucet/valve_switch_stack.py: _build_mask_flood_rules_filters, _build_mask_flood_rules", "faucet/valve_switch_standalone.py: _build_multiout_flood_rules", "faucet/valve_stack.py: is_pruned_port, is_towards_root", "faucet/valve_pipeline.py: filter_packets, select_packets, remove_filter"]}
{"id": "C98", "title": "A switch's settings are accepted exactly if they are sound, and then are as given", "statement": "The settings of a switch are accepted exactly if every one given exists and is of its type (or null), the datapath ID fits 64 bits, the Ethernet address is valid, there is an interface, the timeout is between 15 and 65535 seconds, the ARP and ND timeouts are less than half of it, combinatorial and group-table flooding are not both asked for, and the sections on LLDP beacons, 802.1X and table sizes are of their types, with a beacon interval of at least a second. Once accepted, each setting is the one given, or its documented default where not given or null; no time that others are worked out from is zero. All other settings are reported as errors, without an exception, except for a null beacon interval.", "quantifier": "every set of settings, of any keys and values of any types, nested to any depth", "why_tests_cant": "the settings combine freely, and any YAML may be in the file; tests try one bad value at a time", "anchors": ["faucet/conf.py: Conf.__init__, _set_default, set_defaults, _check_unknown_conf, _check_conf_types, _set_unknown_conf, update", "faucet/dp.py: DP.defaults, DP.defaults_types, check_config, _lldp_defaults, set_defaults"]}
