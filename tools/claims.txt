C01|proved|C01_reorder_effect,C01_add_then_modify_refuted,C01_group_redefinition_refuted,C01_cookie_slot_refuted|Proved for every batch satisfying clean_batch (the restriction in the statement); the refuted theorems show each restriction is needed.
C02|proved|C02_reorder_order,C02_reorder_barriers,C02_reorder_invents_nothing,C02_reorder_keeps_the_rest,C02_reorder_last_writer,C02_reorder_later_tables_first,C02_reorder_total,C02_reorder_raises_refuted|All batches; the reorderer can raise TypeError on batches the current code does not build.
C03|partial|C03_deletes_effective_partial,C03_delete_lost_refuted|The full statement is false: a wildcard delete with the key of an add is dropped. Proved for clean batches.
C04|proved|C04_trim_preserves,C04_trim_complete,C04_shared_trim_refuted|For flows with at most one apply-actions instruction, as OpenFlow requires. Sharing of memoised instruction objects between flows breaks the claim (refuted).
C05|proved|C05_vid_round_trip,C05_vid_injective,C05_vid_present_not_plain,C05_vid_matches|VIDs 0..4095.
C06|proved|C06_port_flood_not_reflected,C06_vlan_flood_not_reflected|For every VLAN with well-formed membership; action lists of both kinds of flood rule.
C07|partial|C07_port_flood_one_per_lag,C07_vlan_flood_one_per_lag,C07_flood_table_one_per_lag_partial,C07_flood_into_own_lag_refuted,C07_stale_rule_to_down_lag_refuted|Proved of every action list, and of the installed table for ports that have somewhere to flood to. False in general: a LAG member with nowhere to flood to gets no rule of its own (or keeps a stale one).
C08|partial|C08_port_flood_exact,C08_port_flood_empty,C08_vlan_flood_exact,C08_group_same_as_actions,C08_flood_table_exact,C08_flood_table_no_unicast,C08_group_refresh_refuted,C08_restricted_refresh_refuted|Proved of action lists and of the installed table right after a VLAN is (re)programmed, on top of any history. Refreshes with strict modify (after a port goes down) can lose floods (refuted theorems).
C51|proved|C51_reserved_never_flooded|All histories, flood modes without group tables.
C12|proved|C12_index_agrees,C12_cache_is_host_table|For every sequence of cache operations the index agrees with the map (no clock assumption); with a non-decreasing clock the cache is exactly the abstract host table.
C13|partial|C13_vlan_limit_partial,C13_learning_never_raises,C13_stack_limit_refuted,C13_learns_when_room|Proved for every history of one datapath. False in a stack: learning on behalf of a neighbour skips the limit (C13_stack_limit_refuted).
C14|partial|C14_port_limit_partial,C14_move_disables_limit_refuted|Holds while no host moves onto the port. Finding: one move onto a full port disables the limit for good (C14_move_disables_limit_refuted).
C15|proved|C15_permanent_host_stays,C15_permanent_host_elsewhere_dropped|Every history that does not flush the port or VLAN; the whole cache entry is unchanged.
C16|proved|C16_expiry_exact,C16_clock_step_refuted|Every history with a non-decreasing clock; C16_clock_step_refuted shows the clock hypothesis is needed.
C17|partial|C17_src_before_dst,C17_rules_of_a_learning,C17_permanent_dst_expires_refuted,C17_timeout_field_refuted,C17_talker_loses_dst_rule_refuted|The timeouts of rules installed together are ordered and bounded as claimed. Findings: not on permanent ports; the idle timeout can exceed OpenFlow's 16 bits; and refreshes reinstall only the source rule, so a talking host can lose its destination rule for good.
C18|partial|C18_no_flows_while_banned_partial,C18_ban_moves_host_refuted|During the ban no rule is installed on the looping port, whatever happens. Finding: the banned packet does move the host in the cache.
C09|partial|C09_vlan_isolation_partial,C09_stray_frames_stay_partial,C09_isolation_with_foreign_control_refuted|Proved for every history in which hosts send no LACP or LLDP frames tagged with a VLAN their port does not carry; without that restriction it is false (VLAN hopping through the punt rules, refuted theorem). One datapath without stacking, ACLs or routing.
C11|partial|C11_unconfigured_port_dropped,C11_down_port_dropped_partial,C11_down_lag_port_partial,C11_disabled_port_dropped,C11_down_lag_port_punts_refuted,C11_added_down_forwards_refuted,C11_blocked_forwards_refuted|Every history of a standalone datapath. False in three cases, each refuted: a LAG port that goes down keeps punting LACP/LLDP to the controller; a port added with its link down, or reported blocked, is treated as up. Outside them proved.
C19|proved|C19_actor_state|Every history in which disconnections are noticed and link reports are unambiguous; the actor state is characterised exactly by the events.
C20|proved|C20_blocked_lag_port,C20_lag_port_accepts,C20_accepts_while_in_sync|The blocking direction holds for every history; the accepting direction needs disconnections to be noticed (clean).
C42|proved|C42_belief_with_replies,C42_reply_corrects,C42_belief_is_last_report,C42_up_port_accepts,C42_up_set_refuted,C42_up_set_reply_refuted|That frames are let in exactly then is proved where disconnections are noticed (the rules of L2Model; descriptions are in PortDescModel). Beside it: the separate set dyn_up_port_nos keeps deleted and unconfigured ports. C11's findings show what ambiguous reports do.
C21|partial|C21_rate,C21_counter_exact,C21_below_limit|The exact rate, the counter and the absence of drops below the limit are proved for every arrival sequence; that the limit bounds the number processed is false (C21_limit_refuted): only every limit-th packet is ignored.
C44|proved|C44_proxy_address_unique,C44_proxy_address_text,C44_attribution|For every switch index and port. C44_stale_attribution_refuted: entries of earlier configurations are never removed.
C46|partial|C46_ipv4_parseable_partial,C46_gate,C46_size_check_prevents_exception|The exact set of accepted headers is proved; fragments at an offset that is a multiple of 4096 units are accepted (C46_fragment_refuted).
C47|partial|C47_lacp_port_id_unique_partial|Unique for automatic ids of ports 1..100; false beyond (C47_port_101_refuted) and with explicit ids (C47_explicit_id_refuted).
C52|proved|C52_vlan_in_mac,C52_prefix_kept,C52_distinct_vlans|
C53|proved|C53_mask_bits,C53_mask_bits_only,C53_byte_mask,C53_unicast|
C24|proved|C24_longest_prefix,C24_one_entry|Every reachable FIB and every IP packet; one IP version at a time.
C25|proved|C25_wait_bounded,C25_wait_grows,C25_not_before_its_time|Finding: packets to the host reset its backoff (C25_reset_refuted).
C26|proved|C26_watched,C26_gateway_cycle,C26_host_cycle|Findings: a negative limit is no limit, and attempts that send nothing are not counted (C26_negative_limit_refuted, C26_silent_attempts_refuted).
C27|proved|C27_last_addition,C27_filed,C27_never_fails|Single hosts on connected subnets, which are learned from packets, are excepted from the first theorem; VLANs in one router each and subnets that do not overlap, as the configuration check ensures (C37).
C37|proved|C37_router_vips_disjoint,C37_accepted_subnets_apart|Findings: the same VIP may be given to two VLANs (C37_vip_sharing_refuted), and a VLAN may be in two routers (C37_vlan_in_two_routers_refuted).
C50|proved|C50_router_lookup,C50_vlan_lookup|Finding: with overlapping subnets a VLAN does not return the longest (C50_vlan_longest_refuted).
C54|partial|C54_fib_sound_partial,C54_fib_complete,C54_host_entry_refuted|Completeness is proved as stated; soundness excepts entries for single hosts on connected subnets, which may stay after the host's route expired (C54_host_entry_refuted). Further findings: C54_live_host_refuted, C54_vip_hijack_refuted.
C55|partial|C55_filed_only_partial,C55_old_gateway_refuted,C55_unused_gateway_refuted|Filing is exact while routes are not replaced; the rest is false: a replaced and deleted route comes back when its first gateway is heard of, and a gateway without routes is still resolved.
C39|proved|C39_exact,C39_all_or_nothing,C39_cycles_rejected,C39_terminates|Findings: C39_diamond_refuted (two includes of a common file taken for a loop), C39_contents_left_refuted, C39_optional_cycle_refuted, C39_not_a_dictionary_refuted.
C40|partial|C40_noticed,C40_no_misses,C40_no_misses_without_optional,C40_retry_after_rejection,C40_other_file,C40_false_alarm_refuted,C40_removed_refuted,C40_unreadable_refuted|Proved in full without optional includes and, with them, unless a file is both loaded and left out or left out although it exists: then a removal can go unnoticed and a reload is requested although nothing changed. A file that became unreadable raises.
C56|partial|C56_revert_restores,C56_created_include_refuted|Proved unless an optional include that was missing from the good configuration has been created: the revert leaves it.
C34|proved|C34_partition,C34_meaning,C34_apply,C34_state,C34_values|Comparison of objects made of booleans, integers, texts, addresses, lists and dictionaries; the partition holds for any values.
C35|proved|C35_quiet,C35_completes,C35_port,C35_ports_come_and_go,C35_port_acl,C35_vlan,C35_vlans_come_and_go,C35_membership,C35_datapath,C35_meters|Hashes are assumed free of collisions. What is not noticed is under C57.
C43|proved|C43_immutable,C43_assignment,C43_finalize,C43_mark_refuted|The finalized mark is itself a dynamic attribute that any code can clear (C43_mark_refuted).
C57|partial|C35_port,C35_port_acl,C35_vlan,C35_datapath,C35_quiet,C35_completes,C35_fraction_refuted,C35_acl_out_refuted,C35_leave_stack_refuted,C35_link_down_refuted,C35_no_ports_refuted|Holds as far as C35 says; the full claim is refuted: numbers with a fraction compare as equal, the content of outgoing ACLs is not compared, leaving the stack raises, with a stack link down an unchanged file restarts the stack ports, and a switch without ports always starts over.
C28|proved|C28_shortest,C28_unique,C28_agree,C28_to_root,C28_path|For stacks whose switches agree on nodes, root and up links (StackSpec.agreed).
C29|proved|C29_broadcast,C29_self_link_refuted,C29_cut_off_refuted,C29_cut_off_plain_refuted|Floods as packets in flight handled in any order. The refutations show what happens outside the stated conditions: a switch stacked to itself, and switches cut off from the root.
C58|partial|C58_along_tree,C58_shortest_partial,C58_carrier_refuted|Shortest-path next hops proved when carrier and stacking state of stack ports coincide; refuted otherwise (a link with carrier but down for stacking is used).
C59|partial|C59_unicast_partial,C59_parallel_refuted|Proved without parallel links; with parallel links delivered more than once.
C30|proved|C30_choice,C30_one_choice,C30_order,C30_kept,C30_always_one,C30_first_load,C30_reload_keeps|Over all histories of the manager model. Beside it: C30_priority_refuted (a switch without LACP ports ranks as if none were up, so priority does not decide between fully working switches) and C30_somebody_refuted (no root is chosen if no candidate is in contact). Fractions are rationals.
C31|proved|C31_healthy,C31_history,C31_contact,C31_more_ports,C31_port_up|C31_more_ports_refuted: a configured minimum above 1 is accepted and makes a first port that is up turn the switch unhealthy.
C60|proved|C60_state,C60_one_state|ADMIN_DOWN is never set and not modelled; intervals positive integers.
C61|proved|C61_same,C61_links,C61_nodes,C61_agreeing|C61_one_end_refuted: with a link up at one end only, whether it is in the topology depends on the order of events. Reloading configuration is not part of the histories.
C62|proved|C62_accepted,C62_complete|Edge names injective.
C22|proved|C22_port_acl,C22_dp_acl,C22_vlan_acl,C22_egress_acl,C22_port_open,C22_port_closed,C22_egress_open,C22_vlan_closed|Over all histories of the ACL manager's events on a switch, whatever it held before. The assumptions in the statement are needed: C22_acl_removed_refuted (a reload that removes a port's ACLs leaves them in force), C22_catch_all_reload_refuted, C22_shared_failover_refuted, C22_exact_match_refuted, C22_old_name_refuted, C22_priority_offset_refuted.
C23|proved|C23_port_acl,C23_dp_acl,C23_vlan_acl,C23_egress_acl,C23_shared_actions|Tunnels and connection tracking are outside. C23_shared_actions_refuted: instructions are memoised and trimmed in place, so an allow rule can lose a rewrite to a deny rule with equal actions; C23_shared_actions shows it is harmless otherwise. C23_ct_lost_refuted: a rule with an output that does not allow loses its connection tracking action.
C49|proved|C49_last,C49_single,C49_refresh|C49_lost_refuted: the stronger claim that every message produced is sent is false; only the last handler's messages for a switch are kept.
C63|proved|C63_managed,C63_rejected|Hardware of all datapaths supported, datapath ids distinct (checked by the parser). Whether a restart is cold is C46's subject.
C64|proved|C64_applied,C64_all,C64_rejected|C64_disconnected_refuted: datapaths that disconnected still count.
C32|proved|C32_forward,C32_declared,C32_consecutive,C32_distinct,C32_terminates|C32_same_table_refuted: with fixed numbers the coprocessor and VLAN ACL tables coincide. C32_undeclared_refuted: hairpin ports with an egress pipeline use a goto the switch was not told about.
C33|proved|C33_configured,C33_exact,C33_wildcard,C33_enough,C33_monotone|Floating point taken as rational numbers. C33_need_refuted, C33_minimum_refuted: sizes may be less than needed, or than the minimum, because of the maximum.
C65|proved|C65_described,C65_once|Hardware with fixed table numbers does not use table features.
C38|proved|C38_named,C38_exact,C38_config,C38_accepted|C38_extra_port_refuted: 1-2,11-20 also configures port 10. C38_same_number_refuted: of two ports with the same number one is silently dropped.
C36|proved|C36_chosen,C36_distinct,C36_given,C36_complete|C36_given_collides_refuted: an id given for a tunnel may be one chosen for another tunnel before.
C66|partial|C66_agree,C66_disagree_refuted|Proved if no ACL leaves more than one VLAN to be chosen and reserved VLANs and ids given for tunnels are not just above the ordinary VLANs. False otherwise: C66_disagree_refuted has one VLAN used for different tunnels by two datapaths.
C41|proved|C41_beacons,C41_apart,C41_served|Shuffles are any permutation. C41_starved_refuted: with more ports than the number one may wait for ever. C41_every_cycle_refuted: ports miss every other cycle if cycles come exactly at the interval.
C45|proved|C45_authenticated_pass,C45_others_dropped,C45_assigned_acl,C45_eapol_to_authenticator,C45_eapol_to_host,C45_authenticator_only_eapol,C45_bypass_request,C45_acted_on|Port ACL table over all histories; C45_acted_on: no event raises an exception on datapaths without dot1x_acl. The VLANs logins may name change other tables and are not modelled. Ports with dot1x_acl: C67.
C67|partial|C45_new_acl_replaces_old_refuted,C45_dot1x_acl_eapol_refuted,C45_dot1x_acl_others_refuted,C45_dot1x_acl_ambiguous_refuted,C45_login_acted_on_refuted,C45_assigned_acl|False as stated, with witnesses: rules of a previously assigned ACL stay; noauth_acl is deleted non-strictly, taking the EAPOL redirect and other hosts' rules with it; after a logoff noauth and auth rules overlap at one priority; ACLs with failover groups, meters or no rules raise an exception. C45_assigned_acl is the true part: while all open logins of a host name the same ACL.
C10|proved|C10_only_learned_port,C10_reaches_learned_port,C10_with_loop_protection_refuted,C10_exact_port_of_lag_refuted|Invariant over all histories of the standalone L2 model. Refuted beside it: with loop protection the cache moves while the rules stay; in a LAG the rule may name another member than the cache does.
C68|partial|C68_learned_host_stays_switched_partial,C68_learned_host_unicast_partial,C68_with_idle_dst_refuted,C68_permanent_host_after_flap_refuted,C68_lag_host_after_lacp_refuted|Proved for idle_dst off, ports outside LAGs, no loop protection, no foreign control frames, distinct event times. Refuted with idle_dst (the default): a refresh restores only the source rule after the destination rule idled out; refuted for LAG members after LACP went down and up; a permanently learned host is not switched again after its port flaps.
C48|proved|C48_through,C48_as_it_entered,C48_one_switch,C48_back,C48_two_tunnels_refuted,C48_shared_destination_refuted,C48_two_sources_refuted,C48_first_rule,C48_manager_keeps,C48_by_first_rule,C48_second_acl_refuted|End to end over networks of switches after any history. The refuted theorems show what goes wrong outside the stated scope: a rule with two tunnels one of whose destinations is unreachable (KeyError, no tunnel set up), two tunnels to one destination (one's settings apply to both), a bi-directional tunnel with two sources (no way back to one of them), a tunnel in the second ACL of a port (its rule replaces or outranks rules of the first ACL).
C69|proved|C69_rest_untouched,C69_cookie_refuted|For updates sent on their own. C69_cookie_refuted: a tunnel rule with a cookie deletes the more specific rules of its port at the next update of the tunnels, so that denied frames are tunnelled.
C70|proved|C70_isolation_after_reload,C70_covers_one_configuration,C70_lag_port_refuted,C70_late_packet_in_refuted,C70_tagging_refuted,C70_mirror_refuted,C70_hairpin_refuted|Over all histories with any number of reloads. The refuted theorems give a breach for each condition on the change, except the ones on group tables and external ports, which the proof asks for: taking a VLAN from a LAG port, a late packet-in, a port that changes between tagged and untagged while down, a mirror removed while the mirrored port is down, a hairpin port that changes.
C71|proved|C71_beacon_understood,C71_other_oui_ignored,C71_long_beacon_lost,C71_cut_beacon_lost,C71_system_name_refuted,C71_org_tlv_refuted,C71_description_refuted,C71_dp_id_zero_refuted|The refuted theorems show what each condition is for: a system_name configured for beacons, a configured TLV with FAUCET's OUI, a description of 64 characters, or the identifier zero (which configuration allows) keep a correctly cabled stack link from coming up.
C72|partial|C72_no_exception_partial,C72_numbers,C72_exception_otherwise,C72_host_frame_refuted,C72_org_tlv_refuted|False: a frame of 40 bytes from any host on a port that receives LLDP raises it, with a TLV of FAUCET's OUI that reports an unknown state, or any state along with a port id that is not a number. The partial theorem and C72_exception_otherwise together say exactly which frames do.
C73|proved|C73_answers_proper|What is in the packets is modelled down to the fields that matter to the receiver (addresses, tag, identifier, data), not their encoding.
C74|proved|C74_arp,C74_neighbour_solicitation,C74_router_solicitation,C74_ping,C74_ping6,C74_time_exceeded,C74_large_not_answered,C74_large_ping_not_answered,C74_second_vip_refuted,C74_point_to_point_refuted,C74_probe_refuted,C74_ping6_cut_refuted,C74_last_address_refuted|The refuted theorems are what the conditions are for: of two addresses in one subnet the second is dead; a /31 never works; probes for duplicate addresses are not answered; an IPv6 ping of 89 to 128 bytes is answered with its data cut short; the host with the last address of an IPv6 subnet gets no answers.
C75|proved|C75_routes_follow,C75_others_untouched,C75_never_fails,C75_withdrawn_stays_refuted,C75_static_lost_refuted,C75_deconfigured_refuted,C75_down_refuted,C75_no_next_hop_refuted|The refuted theorems are what the conditions are for: a route with its next hop on another VLAN of the router stays when withdrawn; a withdrawal removes a configured route to the same prefix; neighbours of a VLAN whose BGP was taken out of the configuration still change routes; the routes of a neighbour that goes down stay; an announcement without a next hop raises.
C76|proved|C76_offers,C76_silent,C76_reload_refuted|The refuted theorem: what is offered is never updated when the configuration changes.
C77|proved|C77_one_poller,C77_only_configured,C77_polled,C77_replies|The registry of connected datapaths is OS-Ken's; its notifications are queued and handled in order at any later time.
C78|proved|C78_true,C78_in_order,C78_accounted,C78_delivered|Beside it: the event written to a client that has left is lost however few events there are, and until then another client is turned away (C78_lost_refuted, C78_reconnect_refuted).
C79|proved|C79_egress,C79_down,C79_unknown|Port numbers from 4096 on collide (C79_large_port_refuted: a frame for port 1 leaves at port 4097); frames to stack ports are flooded (C79_stack_port_refuted).
C80|proved|C80_home,C80_learns,C80_route_learns,C80_way,C80_delivered,C80_disconnected|One VLAN, fixed topology; whether the cache is updated at all (guard times, limits) is free in each event. For shortest-path learning, following needs carrier and stacking state of stack ports to coincide (C58).
C81|partial|C81_moved_partial,C81_reflected_refuted,C81_order_refuted|Proved if the old switch hears the host from the stack (or forgets it) before a frame of the host comes back to the new switch through the stack or, with reflection, within two seconds (while the new switch discards what comes back), and for an ordinary (not external) new port. False otherwise: a frame flooded three seconds later is reflected by the root to the new switch, which then takes the host to be at the old one, and all switches agree on the old place (C81_reflected_refuted); other switches believe one or the other by set order (C81_order_refuted).
C82|proved|C82_kept_in,C82_one_way_out,C82_small_kept_in,C82_small_one_way_out|At least one other switch still connected (alone: C83_alone_refuted). Without the groups mode: no two parallel links (as C28, C57).
C83|partial|C83_reflected_partial,C83_plain_partial,C83_returns_refuted,C83_two_ways_refuted,C83_root_down_refuted,C83_candidate_refuted,C83_small_two_ways_refuted,C83_alone_refuted|Proved: exactly which ports are given the frame, for every placement. From this the claim is false if the root has no external ports (frames return to the external network, or leave twice), if the root's are all down, without reflection for hosts at candidates for root with external ports, or with external ports at a switch that is no candidate, and for a root that is alone.
C84|partial|C84_meters_partial,C84_acls_partial,C84_port_metered_partial,C84_vlan_metered_partial,C84_deleted_refuted,C84_changed_refuted,C84_packetin_refuted,C84_same_id_refuted|Proved for histories in which no reload drops or changes a meter and meters have different ids; false otherwise: a reload that drops or changes one meter deletes all meters (the meter id is passed as the datapath) and with them the rules that use them.
C85|proved|C85_mirror,C85_mirror_accepts,C85_acls,C85_accepts,C85_port_vlans,C85_port_vlan_one,C85_port_vlans_accepts,C85_mirror_twice_refuted,C85_same_name_refuted,C85_tunnel_stack_refuted|Findings: a port listed twice is mirrored twice; of ports with one name the first is taken without an error; the check that tunnels do not end at stack ports never rejects.
C86|partial|C86_router,C86_same_partial,C86_unused_partial,C86_unknown_refuted,C86_key_refuted|False: an unknown VLAN in a router is left out silently unless no datapath has any VLAN of that router, and a VLAN key that is a number but another VLAN's VID means one VLAN on ports and another in routers. Proved: the VLANs a router gets, agreement for regular keys, rejection of routers without any VLAN.
C87|proved|C87_switching,C87_reload,C87_egress,C87_checks,C87_classification_refuted,C87_priority_refuted,C87_sets_unchecked_refuted|Findings: with use_classification the first rules never fit (the classification table declares no match), so a switch cannot connect; a configured highest_priority of 0 makes rules that fail the check; fields set by rules that go on to another table are not checked.
C88|proved|C88_acls,C88_shared_refuted,C88_exact_refuted,C88_many_refuted|The conditions are needed: an ACL used by a VLAN and a port, an exact-match ACL on one port beside a port without ACLs, and too many rules each make a rule that fails the check when the switch connects, in an accepted configuration. ACLs of tunnels and 802.1X are not modelled here.
C89|proved|C89_packet,C89_packet_up,C89_packet_up_history,C89_heard,C89_settles,C89_one_switch,C89_roles,C89_forced,C89_meanwhile_refuted,C89_election_refuted|Another switch must be connected (see C90). Beside it: before the ports have heard again, two switches may forward at once, and a switch keeps forwarding when another becomes root.
C90|partial|C90_used_partial,C90_tie_refuted,C90_alone_refuted|Proved where one switch has more ports up than all others or the root is among those with most, and another switch is connected. False otherwise: where switches other than the root tie, a list of datapath IDs is nominated and no switch is used; where only one switch is connected, none is nominated and its ports of the LAG do not forward.
C91|proved|C91_injected,C91_forwarded,C91_only_coprocessors,C91_beyond_vids_refuted,C91_overlap_refuted,C91_reload_refuted|Beside it: the conditions on VLAN IDs are not checked of configurations, and without them frames of other VLANs are sent out, or out of the wrong port; a port added by a warm reload is not reachable for coprocessors that were up.
C92|proved|C92_knows_what_passes,C92_sends_to_known,C92_timeouts,C92_lost_stays_lost,C92_talking_host_stays_reachable_refuted,C92_permanent_host_stays_reachable_refuted,C92_banned_host_forgotten_refuted,C92_knows_what_passes_lag_refuted,C92_hairpin_rule_follows_host_refuted|Beside it: once the rule that sends to a host goes unused, it does not come back while the host stays and keeps sending (the code means to reinstall it), nor ever for a permanent host; a host heard while its port is banned is known for good; in a LAG the switch may let pass a host that is not known; a hairpin rule stays where the host was.
C93|proved|C93_frames,C93_news,C93_fresh,C93_no_storm,C93_no_errors,C93_port_ids,C93_role_told_refuted,C93_fresh_passthrough_refuted,C93_missing_peer_refuted,C93_port_ids_refuted|Answers are promised on ports without lacp_passthrough. Beside it: the answer is made before the packet is acted on, so a partner is told the port is not in sync while it is selected; an answer held back for a passthrough peer counts as given; a passthrough peer that is no port makes every LACP packet fail; IDs of ports beyond 100 meet those of the next switch.
C94|proved|C94_resolve,C94_once,C94_targeted,C94_unconnected,C94_vip_group,C94_advertise,C94_dot1x_refuted,C94_external_refuted|Beside it: ports that 802.1X has put into another VLAN still get what the router sends to their native VLAN, and all ports with loop_protect_external get it, where floods spare them.
C95|proved|C95_arp,C95_nd,C95_learning,C95_rest,C95_select,C95_ping_refuted,C95_probe_refuted,C95_other_vlan_refuted|Beside it: without proactive learning the router's IPv4 addresses cannot be pinged and it does not hear unicast neighbour solicitations; ARP on one VLAN for the router's address on another is not forwarded.
C96|proved|C96_frames,C96_global,C96_asked,C96_headers,C96_no_exception,C96_priority_tag_refuted,C96_null_tag_refuted|The exact rule is proved of frames whose tag is not VLAN ID 0. Beside it: without a global VLAN a frame tagged with VLAN ID 0 is taken to be in the VLAN that the last two bytes of its destination say; a tag and type of zeros raises an exception that is not caught (given how the packet library parses).
C97|proved|C97_pruned,C97_only_flooded,C97_rest,C97_other_groups_refuted|Of the classification table, if no other rule for the packet has a higher priority. Beside it: packets to multicast groups outside the four prefixes (such as precision time's) count as unicast and are not dropped on pruned ports.
C98|proved|C98_accepted,C98_loaded,C98_timers,C98_no_exception,C98_null_interval_refuted,C98_negative_refuted|Without the section on stacks. Beside it: a null beacon interval raises an exception that is not caught; negative times are accepted (jitter, guard time, ARP and ND timeouts), as is a yes or no for a number.
