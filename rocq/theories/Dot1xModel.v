(** * 802.1X: faucet_dot1x.py, Dot1xManager (valve.py 44-72), valve_acl.py 405-760 *)

From Coq Require Import ZArith List Bool.
From Verif Require Import PyBase OpenFlow ReorderModel TableModel AclModel.
Import ListNotations.
Open Scope Z_scope.

(** A port, with its 802.1X options (port.py 381-403); [dp_base] carries number, ACLs,
    output_only and dot1x.  Ports that are not enabled are left out: they are never
    added (valve.py 867). *)
Record dport := mkDport {
  dp_base : aport;
  dp_mab : bool;       (* dot1x_mab *)
  dp_dyn : bool;       (* dot1x_dyn_acl *)
  dp_pre : bool        (* dot1x_acl *)
}.
Definition dp_num (p : dport) : Z := ap_num (dp_base p).
Definition dp_dot1x (p : dport) : bool := ap_dot1x (dp_base p).

(** A datapath with 802.1X.  Names of ACLs are numbers.  [dx_index]: valve_index,
    the datapath's place among those with 802.1X (faucet_dot1x.py 344-348). *)
Record dconf := mkDconf {
  dx_am : amanager;
  dx_table : table;                (* port_acl, which 802.1X makes exist (dp.py 430-444) *)
  dx_ports : list dport;
  dx_nfv : Z;                      (* nfv_sw_port *)
  dx_index : Z;
  dx_acls : list (Z * acl);        (* dp.acls *)
  dx_auth : option Z;              (* auth_acl *)
  dx_noauth : option Z;            (* noauth_acl *)
  dx_lowest : Z                    (* lowest_priority *)
}.

(** dp.ports[n] *)
Definition port_of (c : dconf) (n : Z) : option dport := find (fun p => dp_num p =? n) (dx_ports c).
(** dp.acls.get(name) *)
Definition acl_of (c : dconf) (name : option Z) : option acl :=
  match name with Some x => dict_get Z.eqb x (dx_acls c) | None => None end.

(** faucet_dot1x.py 22-36 (get_mac_str): 00:00:00, one byte of index, two bytes of
    port number (port.py 386-389: at most 65535) *)
Definition port_mac (c : dconf) (n : Z) : Z := dx_index c * 0x10000 + n.

Definition ETH_EAPOL : Z := 0x888e.               (* valve_packet.py 41 *)
Definition ETH_IP : Z := 0x800.
Definition EAPOL_ETH_DST : Z := 0x0180c2000003.   (* valve_packet.py 45 *)

(** valve_acl.py 452-455 *)
Definition override_priority : Z := FILTER_PRIORITY + 1.
Definition auth_priority : Z := HIGH_PRIORITY.
Definition mab_priority : Z := auth_priority - 1.

(** valve_acl.py 574-582 (add_authed_mac) *)
Definition authed_match (n mac : Z) : fmatch := [exact InPort n; exact EthSrc mac].
Definition add_authed_mac (c : dconf) (n mac : Z) : list ofmsg :=
  [FlowMod (tb_add (dx_table c) auth_priority (authed_match n mac) [Goto (am_to_vlan (dx_am c))])].
(** valve_acl.py 584-601 (del_authed_mac); it is always given an address *)
Definition del_authed_mac (c : dconf) (n mac : Z) (strict : bool) : list ofmsg :=
  [FlowMod (tb_del (dx_table c) (if strict then FDeleteStrict else FDelete) auth_priority (authed_match n mac) OFPP_ANY)].

(** valve_acl.py 423-432 (add_mac_address_to_match) *)
Definition add_mac (mac : option Z) (m : fmatch) : fmatch :=
  match mac with
  | None => m
  | Some x => py_sorted (fun a b => oxm (fst a) <=? oxm (fst b)) (dict_put field_eqb EthSrc (x, -1) m)
  end.

(** valve_acl.py 405-420 (build_acl_port_of_msgs).  [None]: an exception.  Without
    rules the function returns None, which the callers iterate over; a rule with a
    meter indexes [acl.meter], a Boolean, instead of the datapath's meters. *)
Definition has_meter (r : rule) : bool :=
  match ru_actions r with
  | Some a => match ac_meter a with Some _ => true | None => false end
  | None => false
  end.
Definition dot1x_place (c : dconf) (a : acl) (n : Z) : place :=
  mkPlace (dx_table c) [Goto (am_to_vlan (dx_am c))] [Goto (am_to_vlan (dx_am c))] auth_priority (al_exact a) (Some n) None.
Definition build_acl_port (c : dconf) (a : acl) (n : Z) : option (list ofmsg) :=
  match al_rules a with
  | [] => None
  | rs => if existsb has_meter rs then None else Some (build_acl_ofmsgs None false (dot1x_place c a n) [a])
  end.

(** valve_acl.py 636-653 (add_port_acl): every message's match is replaced; a group
    message has none, which is an exception ([None]). *)
Fixpoint all_flows (ms : list ofmsg) : option (list flowmod) :=
  match ms with
  | [] => Some []
  | FlowMod w :: r => option_map (cons w) (all_flows r)
  | _ :: _ => None
  end.
Definition with_match (m : fmatch) (w : flowmod) : flowmod :=
  mkFlowMod (fm_cmd w) (fm_table w) (fm_prio w) m (fm_cookie w) (fm_out_port w) (fm_out_group w) (fm_inst w)
    (fm_hard w) (fm_idle w) (fm_flags w).
Definition acl_flows (c : dconf) (a : acl) (n : Z) (mac : option Z) : option (list flowmod) :=
  match build_acl_port c a n with
  | None => None
  | Some ms => option_map (map (fun w => with_match (add_mac mac (fm_match w)) w)) (all_flows ms)
  end.
Definition add_port_acl (c : dconf) (a : option acl) (n : Z) (mac : option Z) : option (list ofmsg) :=
  match a with None => None | Some a => option_map (map FlowMod) (acl_flows c a n mac) end.
(** valve_acl.py 603-634 (del_port_acl): not strict *)
Definition del_port_acl (c : dconf) (a : option acl) (n : Z) (mac : option Z) : option (list ofmsg) :=
  match a with
  | None => None
  | Some a => option_map (map (fun w => FlowMod (tb_del (dx_table c) FDelete (fm_prio w) (fm_match w) OFPP_ANY))) (acl_flows c a n mac)
  end.

(** valve_acl.py 655-692 (create_dot1x_flow_pair) *)
Definition out_match (n : Z) : fmatch := [exact InPort n; exact EthType ETH_EAPOL].
Definition back_match (c : dconf) (n : Z) : fmatch :=
  [exact InPort (dx_nfv c); exact EthSrc (port_mac c n); exact EthType ETH_EAPOL].
Definition eapol_out (c : dconf) (n : Z) : flowmod :=
  tb_add (dx_table c) override_priority (out_match n) [Apply [SetField EthDst (port_mac c n); out_port (dx_nfv c)]].
Definition eapol_back (c : dconf) (n : Z) : flowmod :=
  tb_add (dx_table c) override_priority (back_match c n) [Apply [SetField EthSrc EAPOL_ETH_DST; out_port n]].
Definition flow_pair (c : dconf) (n : Z) : list ofmsg := [FlowMod (eapol_out c n); FlowMod (eapol_back c n)].
(** valve_acl.py 694-712 (del_dot1x_flow_pair) *)
Definition del_flow_pair (c : dconf) (n : Z) : list ofmsg :=
  [FlowMod (tb_del (dx_table c) FDelete override_priority (back_match c n) OFPP_ANY);
   FlowMod (tb_del (dx_table c) FDelete override_priority (out_match n) OFPP_ANY)].
(** valve_acl.py 714-747 (create_mab_flow), 749-772 (del_mab_flow) *)
Definition mab_match (n : Z) : fmatch :=
  [exact InPort n; exact EthType ETH_IP; exact IpProto 17; exact UdpSrc 68; exact UdpDst 67].
Definition mab_flow (c : dconf) (n : Z) : flowmod :=
  tb_add (dx_table c) mab_priority (mab_match n) [Apply [SetField EthDst (port_mac c n); out_port (dx_nfv c)]].
Definition del_mab_flow (c : dconf) (n : Z) : list ofmsg :=
  [FlowMod (tb_del (dx_table c) FDeleteStrict mab_priority (mab_match n) OFPP_ANY)].

Definition opt_app {A} (a b : option (list A)) : option (list A) :=
  match a, b with Some x, Some y => Some (x ++ y) | _, _ => None end.

(** faucet_dot1x.py 432-446, 448-460 (_add/_del_unauthenticated_flowmod) *)
Definition add_unauthenticated (c : dconf) (p : dport) : option (list ofmsg) :=
  if dp_pre p then add_port_acl c (acl_of c (dx_noauth c)) (dp_num p) None else Some [].
Definition del_unauthenticated (c : dconf) (p : dport) : option (list ofmsg) :=
  if dp_pre p then del_port_acl c (acl_of c (dx_noauth c)) (dp_num p) None else Some [].

(** faucet_dot1x.py 372-411 (_add_authenticated_flowmod).  The VLAN a login may
    name changes other tables only and is left out (valve.py 1718-1745). *)
Definition add_authenticated (c : dconf) (p : dport) (mac : Z) (filter_id : option Z) : option (list ofmsg) :=
  match dp_dyn p, acl_of c filter_id with
  | true, Some a => add_port_acl c (Some a) (dp_num p) (Some mac)
  | _, _ => if dp_pre p then add_port_acl c (acl_of c (dx_auth c)) (dp_num p) (Some mac)
            else Some (add_authed_mac c (dp_num p) mac)
  end.
(** faucet_dot1x.py 413-430 (_del_authenticated_flowmod) *)
Definition del_authenticated (c : dconf) (p : dport) (mac : Z) : option (list ofmsg) :=
  if dp_pre p then del_port_acl c (acl_of c (dx_auth c)) (dp_num p) (Some mac)
  else Some (del_authed_mac c (dp_num p) mac (negb (dp_dyn p))).

(** faucet_dot1x.py 358-370 (_get_login_flowmod), 350-356 (_get_logoff_flowmod) *)
Definition login_flowmod (c : dconf) (p : dport) (mac : Z) (filter_id : option Z) : option (list ofmsg) :=
  opt_app (del_unauthenticated c p) (add_authenticated c p mac filter_id).
Definition logoff_flowmod (c : dconf) (p : dport) (mac : Z) : option (list ofmsg) :=
  opt_app (del_authenticated c p mac) (add_unauthenticated c p).

(** faucet_dot1x.py 214-241 (port_up): the port is running *)
Definition dot1x_port_up (c : dconf) (p : dport) : option (list ofmsg) :=
  opt_app (Some (flow_pair c (dp_num p)))
    (opt_app (add_unauthenticated c p)
       (Some (if dp_mab p then [FlowMod (mab_flow c (dp_num p))] else []))).
(** faucet_dot1x.py 284-315 (port_down): the address passed on is the port's own *)
Definition dot1x_port_down (c : dconf) (p : dport) : option (list ofmsg) :=
  opt_app (del_authenticated c p (port_mac c (dp_num p)))
    (opt_app (del_unauthenticated c p)
       (Some (del_mab_flow c (dp_num p) ++ del_flow_pair c (dp_num p)))).
(** faucet_dot1x.py 193-212 (nfv_sw_port_up) with create_flow_pair (264-282): the
    pairs of the 802.1X ports that are running, [ups] *)
Definition nfv_up (c : dconf) (ups : list Z) : list ofmsg :=
  flat_map (fun p => if dp_dot1x p && existsb (Z.eqb (dp_num p)) ups then flow_pair c (dp_num p) else []) (dx_ports c).

(** valve.py 55-72 (Dot1xManager) *)
Definition manager_add (c : dconf) (ups : list Z) (p : dport) : option (list ofmsg) :=
  if dp_num p =? dx_nfv c then Some (nfv_up c ups)
  else if dp_dot1x p then dot1x_port_up c p else Some [].
Definition manager_del (c : dconf) (p : dport) : option (list ofmsg) :=
  if dp_dot1x p then dot1x_port_down c p else Some [].

(** valve.py 845-885 (ports_add), 897-933 (ports_delete) and 831-843, the messages of
    the ACL manager and then of the 802.1X manager; with the ports that are up
    afterwards. *)
Definition port_add (c : dconf) (ups : list Z) (p : dport) : option (list ofmsg) :=
  opt_app (Some (add_port (dx_am c) (dp_base p))) (manager_add c ups p).
Definition port_delete (c : dconf) (p : dport) : option (list ofmsg) :=
  opt_app (Some (del_port (dx_am c) (dp_base p))) (manager_del c p).

Fixpoint ports_add (c : dconf) (ups : list Z) (ns : list Z) : option (list ofmsg) * list Z :=
  match ns with
  | [] => (Some [], ups)
  | n :: r =>
      match port_of c n with
      | None => ports_add c ups r
      | Some p => let '(ms, ups') := ports_add c (n :: ups) r in (opt_app (port_add c (n :: ups) p) ms, ups')
      end
  end.

(** ** Events *)

(** [DConnect]: the datapath connects, with the ports that are up; all ports were
    taken down when it disconnected (valve.py 822-829).  [DPortUp], [DPortDown]: port
    status (valve.py 641-691), acted on if it changes.  [DLogin], [DLogoff],
    [DFailure]: the authenticator's callbacks (faucet_dot1x.py 116-176). *)
Inductive devent :=
| DConnect (ups : list Z)
| DPortUp (n : Z)
| DPortDown (n : Z)
| DLogin (n mac : Z) (filter_id : option Z)
| DLogoff (n mac : Z)
| DFailure (n mac : Z).

(** faucet_dot1x.py 87-92 (_get_valve_and_port): only 802.1X ports are known *)
Definition dot1x_port (c : dconf) (n : Z) : option dport :=
  match port_of c n with Some p => if dp_dot1x p then Some p else None | None => None end.

(** The messages of an event, and the ports up after it.  [None]: an exception. *)
Definition dbatch (c : dconf) (ups : list Z) (e : devent) : option (list ofmsg) * list Z :=
  match e with
  | DConnect ns =>
      let '(ms, ups') := ports_add c [] ns in
      (opt_app (Some (wipe_all (dx_am c) ++ default_drops (dx_am c) (dx_lowest c))) ms, ups')
  | DPortUp n => if existsb (Z.eqb n) ups then (Some [], ups) else ports_add c ups [n]
  | DPortDown n =>
      if existsb (Z.eqb n) ups
      then match port_of c n with
           | Some p => (port_delete c p, filter (fun k => negb (k =? n)) ups)
           | None => (Some [], ups)
           end
      else (Some [], ups)
  | DLogin n mac fid => (match dot1x_port c n with Some p => login_flowmod c p mac fid | None => None end, ups)
  | DLogoff n mac | DFailure n mac => (match dot1x_port c n with Some p => logoff_flowmod c p mac | None => None end, ups)
  end.
