(** * Access control lists: valve_acl.py 26-590 *)

From Coq Require Import ZArith List Bool.
From Verif Require Import PyBase OpenFlow TrimModel TableModel.
Import ListNotations.
Open Scope Z_scope.

(** ** Configuration of a rule (acl.py 37-131, after ports are resolved to numbers) *)

(** One element of an ordered "output" list (acl.py 197-211: one key each).
    "tunnel" carries the tunnel id; "goto" occurs only in rules generated for
    tunnels (acl.py 636, 705), it is not a configuration key.  The Ethernet type
    of pushed tags is not modelled. *)
Inductive out_item :=
| OPop (n : nat)                       (* pop_vlans *)
| OVid (vid : Z)                       (* vlan_vid *)
| OSwap (vid : Z)                      (* swap_vid *)
| OVids (vids : list Z)                (* vlan_vids *)
| OSet (sets : list (field * Z))       (* set_fields *)
| OPort (n : Z)                        (* port *)
| OPorts (ns : list Z)                 (* ports *)
| OFailover (gid : Z) (ns : list Z)    (* failover *)
| OTunnel (tid : Z)                    (* tunnel *)
| OGoto (t : Z).                       (* goto *)

(** An unordered "output" dictionary: every key at most once. *)
Record unordered := mkUnordered {
  u_pop : option nat;
  u_vid : option Z;
  u_swap : option Z;
  u_vids : option (list Z);
  u_sets : option (list (field * Z));
  u_port : option Z;
  u_ports : option (list Z);
  u_failover : option (Z * list Z);
  u_tunnel : option Z;
  u_goto : option Z
}.

Inductive output_conf := Ordered (l : list out_item) | Unordered (u : unordered).

(** Connection tracking (acl.py 213-240): clear, or an action that sends the
    packet to a table again; its other arguments are one number. *)
Inductive ct_conf := CtClear | CtTable (arg : Z).

(** "actions" of a rule (acl.py 82-91); the meter is given by its id. *)
Record actions_conf := mkActions {
  ac_allow : option Z;
  ac_force : option Z;      (* force_port_vlan *)
  ac_meter : option Z;
  ac_mirror : option Z;
  ac_output : option output_conf;
  ac_ct : option ct_conf
}.

(** A match attribute of a rule: an OpenFlow field name, or ([true]) its old name
    (valve_of_old.py 21-29).  Values are given as encoded by MATCH_FIELDS
    (valve_of.py 768-822, functions of os_ken), with a mask. *)
Definition attr : Type := bool * field.
Definition attr_eqb (a b : attr) : bool := Bool.eqb (fst a) (fst b) && field_eqb (snd a) (snd b).

Record rule := mkRule {
  ru_attrs : list (attr * (Z * Z));       (* a dictionary *)
  ru_cookie : option Z;
  ru_actions : option actions_conf
}.

Record acl := mkAcl { al_rules : list rule; al_exact : bool }.

(** ** Building actions *)

(** valve_acl.py 26-37 (push_vlan), valve_of.py 552-565 (push_vlan_act), valve_table.py 96-104 (set_vlan_vid) *)
Definition push_vlan_acts (vid : Z) : list action := [PushVlan; SetField VlanVid (vid_present vid)].
Definition set_vlan_vid (vid : Z) : action := SetField VlanVid (vid_present vid).
Definition set_fields (l : list (field * Z)) : list action := map (fun fv => SetField (fst fv) (snd fv)) l.
Definition out_port (n : Z) : action := Output n 0.

(** valve_of.py 975-997 (groupadd, groupadd_ff): a delete, then the group with one
    bucket per port, watching that port (valve_acl.py 67-78) *)
Definition ff_group (gid : Z) (ns : list Z) : group :=
  mkGroup gid GT_FF (map (fun n => mkBucket n [out_port n]) ns).
Definition groupadd_ff (gid : Z) (ns : list Z) : list ofmsg :=
  [GroupMod GDelete (mkGroup gid GT_ALL []); GroupMod GAdd (ff_group gid ns)].

(** What one ordered element contributes: actions, messages, instructions
    (valve_acl.py 48-91), tunnels apart. *)
Definition item_out (i : out_item) : list action * list ofmsg * list instruction :=
  match i with
  | OPop n => (repeat PopVlan n, [], [])
  | OVid v => (push_vlan_acts v, [], [])
  | OSwap v => ([set_vlan_vid v], [], [])
  | OVids vs => (flat_map push_vlan_acts vs, [], [])
  | OSet l => (set_fields l, [], [])
  | OPort n => ([out_port n], [], [])
  | OPorts ns => (map out_port ns, [], [])
  | OFailover g ns => ([GroupAct g], groupadd_ff g ns, [])
  | OTunnel _ => ([], [], [])
  | OGoto t => ([], [], [Goto t])
  end.
Definition outs_app (a b : list action * list ofmsg * list instruction) :=
  let '(a1, a2, a3) := a in let '(b1, b2, b3) := b in (a1 ++ b1, a2 ++ b2, a3 ++ b3).

(** valve_acl.py 40-92 for the rule of a tunnel, which has no tunnel inside *)
Definition plain_items (l : list out_item) : list action * list ofmsg * list instruction :=
  fold_right (fun i r => outs_app (item_out i) r) ([], [], []) l.

(** valve_acl.py 40-92 (build_ordered_output_actions).  [tun] stands for
    [tunnel_rules] and [source_id]: the generated rule of each tunnel id, or [None]
    when either is missing. *)
Definition ordered_items (tun : option (Z -> list out_item)) (l : list out_item)
  : list action * list ofmsg * list instruction :=
  fold_right (fun i r =>
    outs_app (match i, tun with
              | OTunnel t, Some rules => plain_items (rules t)
              | _, _ => item_out i
              end) r) ([], [], []) l.

(** valve_acl.py 95-111 (rewrite_vlan): vlan_vid, else swap_vid, else vlan_vids *)
Definition rewrite_vlan (u : unordered) : list action :=
  match u_pop u with Some n => repeat PopVlan n | None => [] end ++
  match u_vid u with
  | Some v => push_vlan_acts v
  | None =>
      match u_swap u with
      | Some v => [set_vlan_vid v]
      | None => match u_vids u with Some vs => flat_map push_vlan_acts vs | None => [] end
      end
  end.

(** valve_acl.py 114-150 (build_ct_actions) *)
Definition build_ct (c : ct_conf) : action :=
  match c with CtClear => CtAct false 0 | CtTable a => CtAct true a end.

Definition opt_list {A B} (f : A -> list B) (o : option A) : list B :=
  match o with Some x => f x | None => [] end.

(** valve_acl.py 153-196 (build_output_actions): whether a port was given, the
    actions, the messages and the instructions.  For an ordered list the first
    part is the list of ports, which is never None.  The messages of a tunnel's
    rule are added to themselves (193) and so are lost. *)
Definition build_output_actions (tun : option (Z -> list out_item)) (o : output_conf)
  : bool * list action * list ofmsg * list instruction :=
  match o with
  | Ordered l => let '(a, m, i) := ordered_items tun l in (true, a, m, i)
  | Unordered u =>
      let t := match u_tunnel u, tun with
               | Some t, Some rules => plain_items (rules t)
               | _, _ => ([], [], [])
               end in
      (match u_port u, u_ports u with
       | None, None | None, Some [] => false
       | _, _ => true
       end,
       rewrite_vlan u
         ++ opt_list set_fields (u_sets u)
         ++ opt_list (fun n => [out_port n]) (u_port u)
         ++ opt_list (map out_port) (u_ports u)
         ++ opt_list (fun g => [GroupAct (fst g)]) (u_failover u)
         ++ fst (fst t),
       opt_list (fun g => groupadd_ff (fst g) (snd g)) (u_failover u),
       snd t ++ opt_list (fun t => [Goto t]) (u_goto u))
  end.

(** valve_acl.py 223-226, 233-238: "allow" is 1, or not given and there is a mirror *)
Definition is_allowed (a : actions_conf) : bool :=
  match ac_allow a with
  | Some x => x =? 1
  | None => match ac_mirror a with Some _ => true | None => false end
  end.

(** valve_acl.py 219-262: the instructions (without the final apply), the actions
    and the messages of the "actions" of a rule *)
Definition build_actions (tun : option (Z -> list out_item)) (allow_inst force_inst : list instruction)
           (a : actions_conf) : list instruction * list action * list ofmsg :=
  let inst := match ac_force a with Some 1 => force_inst | _ => allow_inst end in
  let meter := opt_list (fun m => [MeterI m]) (ac_meter a) in
  let mirror := opt_list (fun n => [out_port n]) (ac_mirror a) in
  let allow := is_allowed a in
  let rest := opt_list (fun c => [build_ct c]) (ac_ct a) in
  match ac_output a with
  | Some o =>
      let '(ported, acts, msgs, insts) := build_output_actions tun o in
      if negb allow && ported
      then (meter ++ insts, mirror ++ acts, msgs)                     (* continue, 254-255 *)
      else (meter ++ insts ++ (if allow then inst else []), mirror ++ acts ++ rest, msgs)
  | None => (meter ++ (if allow then inst else []), mirror ++ rest, [])
  end.

(** ** Matches *)

(** os_ken's OFPMatch sorts its fields by OXM number; other fields by theirs. *)
Definition oxm (f : field) : Z :=
  match f with
  | InPort => 0 | Metadata => 2 | EthDst => 3 | EthSrc => 4 | EthType => 5 | VlanVid => 6 | VlanPcp => 7
  | IpProto => 10 | Ipv4Src => 11 | Ipv4Dst => 12 | TcpSrc => 13 | TcpDst => 14 | UdpSrc => 15 | UdpDst => 16
  | Ipv6Src => 26 | Ipv6Dst => 27 | Icmpv6Type => 29 | OtherField n => n
  end.
(** valve_of.py 824-840 (match_from_dict): old names replaced, later attributes
    overwrite earlier ones of the same field. *)
Definition match_from_dict (d : list (attr * (Z * Z))) : fmatch :=
  py_sorted (fun a b => oxm (fst a) <=? oxm (fst b))
    (fold_left (fun k a => dict_put field_eqb (snd (fst a)) (snd a) k) d []).

(** valve_acl.py 265-275: the port and VLAN an ACL is attached to overwrite the
    attributes in_port and vlan_vid. *)
Definition place_match (port_num vlan_vid : option Z) (d : list (attr * (Z * Z))) : list (attr * (Z * Z)) :=
  let d1 := match port_num with
            | Some n => dict_put attr_eqb (false, InPort) (n, -1) d | None => d end in
  match vlan_vid with
  | Some v => dict_put attr_eqb (false, VlanVid) (vid_present v, -1) d1 | None => d1 end.

(** ** Flow mods *)

(** valve_table.py 228-270 (flowmod) with a cookie *)
Definition tb_add_cookie (t : table) (cookie : option Z) (prio : Z) (m : fmatch) (inst : list instruction) : flowmod :=
  mkFlowMod FAdd (tb_id t) prio m (match cookie with Some c => c | None => tb_cookie t end) 0 0
    (trim inst) 0 0 (tb_flags t).

(** Where an ACL is attached: the arguments of build_acl_ofmsgs that are the same
    for all of its rules. *)
Record place := mkPlace {
  pl_table : table;
  pl_allow : list instruction;
  pl_force : list instruction;
  pl_high : Z;              (* highest_priority *)
  pl_exact : bool;          (* exact_match *)
  pl_port : option Z;
  pl_vid : option Z
}.

(** valve_acl.py 199-280 (build_acl_entry), 324-363 (build_rule_ofmsgs) *)
Definition rule_match (pl : place) (r : rule) : fmatch :=
  match_from_dict (place_match (pl_port pl) (pl_vid pl) (ru_attrs r)).
Definition rule_inst (tun : option (Z -> list out_item)) (pl : place) (r : rule) : list instruction * list ofmsg :=
  match ru_actions r with
  | None => ([], [])
  | Some a => let '(insts, acts, msgs) := build_actions tun (pl_allow pl) (pl_force pl) a in
              (insts ++ match acts with [] => [] | _ => [Apply acts] end, msgs)
  end.
Definition build_rule_ofmsgs (tun : option (Z -> list out_item)) (flowdel : bool) (pl : place)
           (r : rule) (rule_priority : Z) : list ofmsg :=
  let '(insts, msgs) := rule_inst tun pl r in
  let m := rule_match pl r in
  let priority := if pl_exact pl then pl_high pl else rule_priority in
  msgs
  ++ (if flowdel then [FlowMod (tb_del (pl_table pl) FDelete priority m OFPP_ANY)] else [])
  ++ [FlowMod (tb_add_cookie (pl_table pl) (ru_cookie r) priority m insts)].

(** valve_acl.py 366-403 (build_acl_ofmsgs): the priority goes down by one with
    every rule, across the ACLs. *)
Fixpoint build_rules (tun : option (Z -> list out_item)) (flowdel : bool) (pl : place) (rs : list rule) (prio : Z)
  : list ofmsg :=
  match rs with
  | [] => []
  | r :: rest => build_rule_ofmsgs tun flowdel pl r prio ++ build_rules tun flowdel pl rest (prio - 1)
  end.
Definition build_acl_ofmsgs (tun : option (Z -> list out_item)) (flowdel : bool) (pl : place) (acls : list acl)
  : list ofmsg :=
  build_rules tun flowdel pl (flat_map al_rules acls) (pl_high pl).

(** ** The manager (valve_acl.py 434-571) *)

(** valve_manager_base.py 13-18 *)
Definition HIGH_PRIORITY : Z := 0x4000.
Definition FILTER_PRIORITY : Z := 0x5000.

(** Tables of the datapath: the ACL tables that exist, and the tables the pipeline
    sends accepted packets to (valve_pipeline.py 36-104). *)
Record amanager := mkAmanager {
  am_dp_acls : list acl;
  am_port : option table;          (* port_acl *)
  am_vlan : option table;          (* vlan_acl *)
  am_egress : option table;        (* egress_acl *)
  am_groups : bool;                (* group_table: groups are wiped when connecting *)
  am_to_vlan : Z;
  am_to_class : Z;
  am_to_l2 : Z;
  am_to_egress : Z
}.

Record aport := mkAport { ap_num : Z; ap_acls : list acl; ap_output_only : bool; ap_dot1x : bool }.
Record avlan := mkAvlan { av_vid : Z; av_in : list acl; av_out : list acl }.

Definition first_exact (l : list acl) : bool := match l with a :: _ => al_exact a | [] => false end.

(** valve_acl.py 456-475 (initialise_tables) *)
Definition dp_place (am : amanager) (t : table) : place :=
  mkPlace t [Goto (am_to_vlan am)] [Goto (am_to_l2 am)] FILTER_PRIORITY false None None.
Definition initialise_tables (am : amanager) : list ofmsg :=
  match am_dp_acls am, am_port am with
  | [], _ | _, None => []
  | acls, Some t => build_acl_ofmsgs None false (dp_place am t) acls
  end.

(** valve_acl.py 477-478 (_port_acls_allowed): the table, if port ACLs may be used *)
Definition port_acls_allowed (am : amanager) (p : aport) : option table :=
  match am_dp_acls am with
  | [] => if ap_output_only p then None else am_port am
  | _ => None
  end.

(** valve_acl.py 480-510 (add_port) *)
Definition port_place (am : amanager) (t : table) (p : aport) : place :=
  mkPlace t [Goto (am_to_vlan am)] [Goto (am_to_l2 am)] FILTER_PRIORITY (first_exact (ap_acls p)) (Some (ap_num p)) None.
Definition add_port (am : amanager) (p : aport) : list ofmsg :=
  match port_acls_allowed am p with
  | None => []
  | Some t =>
      match ap_acls p with
      | [] => if ap_dot1x p then []
              else [FlowMod (tb_add t FILTER_PRIORITY [exact InPort (ap_num p)] [Goto (am_to_vlan am)])]
      | _ => build_acl_ofmsgs None false (port_place am t p) (ap_acls p)
      end
  end.

(** valve_acl.py 512-518 (del_port) *)
Definition del_port (am : amanager) (p : aport) : list ofmsg :=
  match port_acls_allowed am p with
  | None => []
  | Some t => [FlowMod (tb_del t FDelete FILTER_PRIORITY [exact InPort (ap_num p)] OFPP_ANY)]
  end.

(** valve_acl.py 520-526 (cold_start_port) *)
Definition cold_start_port (am : amanager) (p : aport) : list ofmsg := del_port am p ++ add_port am p.

(** valve_acl.py 528-534 (del_vlan) *)
Definition del_vlan (am : amanager) (vid : Z) : list ofmsg :=
  opt_list (fun t => [FlowMod (tb_del t FDelete 0 [vlan_item vid] OFPP_ANY)]) (am_vlan am) ++
  opt_list (fun t => [FlowMod (tb_del t FDelete 0 [vlan_item vid] OFPP_ANY)]) (am_egress am).

(** valve_acl.py 536-573 (add_vlan).  A VLAN with input ACLs makes the vlan_acl table
    exist (dp.py 444-447). *)
Definition vlan_place (am : amanager) (t : table) (v : avlan) : place :=
  mkPlace t [Goto (am_to_class am)] [Goto (am_to_l2 am)] FILTER_PRIORITY (first_exact (av_in v)) None (Some (av_vid v)).
Definition egress_place (am : amanager) (t : table) (v : avlan) : place :=
  mkPlace t [Goto (am_to_egress am)] [Goto (am_to_egress am)] FILTER_PRIORITY (first_exact (av_out v)) None (Some (av_vid v)).
Definition add_vlan (am : amanager) (v : avlan) : list ofmsg :=
  match av_in v, am_vlan am with
  | _ :: _, Some t => build_acl_ofmsgs None false (vlan_place am t v) (av_in v)
  | _, _ => []
  end ++
  match am_egress am with
  | Some t =>
      match av_out v with
      | [] => [FlowMod (tb_add t FILTER_PRIORITY [vlan_item (av_vid v)] [Goto (am_to_egress am)])]
      | _ => build_acl_ofmsgs None false (egress_place am t v) (av_out v)
      end
  | None => []
  end.

(** ** Histories *)

(** valve.py 395-410 (_add_default_drop_flows) and 382-389 (_delete_all_valve_flows),
    for the ACL tables: none of them has a miss_goto (faucet_pipeline.py). *)
Definition opt_tables (am : amanager) : list table :=
  opt_list (fun t => [t]) (am_port am) ++ opt_list (fun t => [t]) (am_vlan am) ++ opt_list (fun t => [t]) (am_egress am).
Definition default_drops (am : amanager) (lowest : Z) : list ofmsg :=
  map (fun t => FlowMod (tb_drop t lowest [] 0)) (opt_tables am).
Definition wipe_all (am : amanager) : list ofmsg :=
  FlowMod (mkFlowMod FDelete OFPTT_ALL 0 [] 0 OFPP_ANY OFPG_ANY [] 0 0 0)
  :: if am_groups am then [GroupMod GDelete (mkGroup OFPG_ALL GT_ALL [])] else [].

(** What happens to the ACL tables, with the messages each event makes the manager
    send (the other managers' messages go to other tables; meters are left out).
    [AConnect]: a datapath connects, with the VLANs and the ports that are up.
    [APortUp]: ports_add (valve.py 845-885), which calls add_port and, for the
    port's VLANs, add_vlan.  [APortDown]: ports_delete (897-933), which calls
    del_port.  [APortAcl]: a warm reload in which only the ACLs of the port changed
    (valve.py 1668-1671).  [AVlans]: VLANs deleted, by id, and VLANs added, by a
    warm reload (1622-1624, 1672-1677).  Ports and VLANs carry their new ACLs. *)
Inductive aevent :=
| AConnect (vlans : list avlan) (ports : list aport)
| APortUp (p : aport) (vlans : list avlan)
| APortDown (p : aport)
| APortAcl (p : aport)
| AVlans (gone : list Z) (new_ : list avlan).

Definition abatch (am : amanager) (lowest : Z) (e : aevent) : list ofmsg :=
  match e with
  | AConnect vs ps =>
      wipe_all am ++ default_drops am lowest ++ initialise_tables am
      ++ flat_map (add_vlan am) vs ++ flat_map (add_port am) ps
  | APortUp p vs => add_port am p ++ flat_map (add_vlan am) vs
  | APortDown p => del_port am p
  | APortAcl p => cold_start_port am p
  | AVlans gone new_ => flat_map (del_vlan am) gone ++ flat_map (add_vlan am) new_
  end.
