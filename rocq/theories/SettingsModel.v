(** * The settings of a switch

    Transcription of [Conf.__init__], [_set_default], [set_defaults], [_check_unknown_conf],
    [_check_conf_types], [_set_unknown_conf] and [update] (/repo/faucet/conf.py 49-141) and,
    for a switch, of the defaults and types, [check_config], [_lldp_defaults] and
    [set_defaults] (/repo/faucet/dp.py 53-240, 351-426, 660-668).

    Simplifications: names of settings are strings (others are unknown, and rejected as
    such).  The texts of name and description, and the section on stacks (modelled in
    [StackModel]), are left out.  netaddr.valid_mac is a parameter.  The square root of the
    timeout, taken in floating point, is the integer one: three times the root of a number
    below 65536 is either an integer or further from one than floating point is wrong. *)
From Coq Require Import List Bool ZArith String.
Import ListNotations.
Open Scope string_scope.
Open Scope list_scope.
Open Scope Z_scope.

(** What the YAML file holds; a float in thousandths *)
Inductive pval := PNone | PBool (b : bool) | PInt (n : Z) | PFloat (n : Z) | PStr (s : string)
  | PList (l : list pval) | PDict (d : list (string * pval)).
Inductive ptype := TBool | TInt | TFloat | TStr | TList | TDict.

(** isinstance: a bool is an int *)
Definition isinstance (v : pval) (t : ptype) : bool :=
  match v, t with
  | PBool _, TBool | PBool _, TInt | PInt _, TInt | PFloat _, TFloat | PStr _, TStr
  | PList _, TList | PDict _, TDict => true
  | _, _ => false
  end.
(** As a number; [None]: comparing raises TypeError *)
Definition num (v : pval) : option Z :=
  match v with PInt n => Some n | PBool b => Some (if b then 1 else 0) | _ => None end.
Definition truthy (v : pval) : bool :=
  match v with
  | PNone => false | PBool b => b | PInt n => negb (n =? 0) | PFloat n => negb (n =? 0)
  | PStr s => negb (String.eqb s "") | PList l => match l with [] => false | _ => true end
  | PDict d => match d with [] => false | _ => true end
  end.

Fixpoint lookup {A} (k : string) (d : list (string * A)) : option A :=
  match d with [] => None | (k', v) :: r => if String.eqb k k' then Some v else lookup k r end.

(** valve_packet.py 46 *)
Definition FAUCET_MAC : string := "0e:00:00:00:00:01".

(** dp.py 53-210 *)
Definition DP_SETTINGS : list (string * (ptype * pval)) :=
  [ ("dp_id", (TInt, PNone));
    ("name", (TStr, PNone));
    ("interfaces", (TDict, PDict []));
    ("interface_ranges", (TDict, PDict []));
    ("priority_offset", (TInt, PInt 0));
    ("lowest_priority", (TInt, PNone));
    ("low_priority", (TInt, PNone));
    ("high_priority", (TInt, PNone));
    ("highest_priority", (TInt, PNone));
    ("cookie", (TInt, PInt 1524372928));
    ("timeout", (TInt, PInt 300));
    ("description", (TStr, PNone));
    ("hardware", (TStr, PStr "Open vSwitch"));
    ("arp_neighbor_timeout", (TInt, PInt 30));
    ("nd_neighbor_timeout", (TInt, PInt 30));
    ("ofchannel_log", (TStr, PNone));
    ("stack", (TDict, PNone));
    ("ignore_learn_ins", (TInt, PInt 10));
    ("drop_broadcast_source_address", (TBool, PBool true));
    ("drop_spoofed_faucet_mac", (TBool, PBool true));
    ("group_table", (TBool, PBool false));
    ("max_hosts_per_resolve_cycle", (TInt, PInt 5));
    ("max_host_fib_retry_count", (TInt, PInt 10));
    ("max_resolve_backoff_time", (TInt, PInt 64));
    ("packetin_pps", (TInt, PNone));
    ("slowpath_pps", (TInt, PNone));
    ("learn_jitter", (TInt, PInt 0));
    ("learn_ban_timeout", (TInt, PInt 0));
    ("advertise_interval", (TInt, PInt 30));
    ("fast_advertise_interval", (TInt, PInt 5));
    ("proactive_learn_v4", (TBool, PBool true));
    ("proactive_learn_v6", (TBool, PBool true));
    ("use_idle_timeout", (TBool, PBool false));
    ("lldp_beacon", (TDict, PDict []));
    ("metrics_rate_limit_sec", (TInt, PInt 0));
    ("faucet_dp_mac", (TStr, PStr FAUCET_MAC));
    ("combinatorial_port_flood", (TBool, PBool false));
    ("dp_acls", (TList, PNone));
    ("dot1x", (TDict, PDict []));
    ("table_sizes", (TDict, PDict []));
    ("min_wildcard_table_size", (TInt, PInt 32));
    ("max_wildcard_table_size", (TInt, PInt (1024 + 256)));
    ("port_table_scale_factor", (TFloat, PFloat 1000));
    ("global_vlan", (TInt, PInt 0));
    ("cache_update_guard_time", (TInt, PInt 0));
    ("use_classification", (TBool, PBool false));
    ("egress_pipeline", (TBool, PBool false));
    ("strict_packet_in_cookie", (TBool, PBool true));
    ("multi_out", (TBool, PBool true));
    ("lacp_timeout", (TInt, PInt 30));
    ("idle_dst", (TBool, PBool true)) ].
(** dp.py 226-240 *)
Definition LLDP_TYPES : list (string * ptype) :=
  [ ("send_interval", TInt);
    ("max_per_interval", TInt);
    ("system_name", TStr) ].
Definition DOT1X_TYPES : list (string * ptype) :=
  [ ("nfv_intf", TStr);
    ("nfv_sw_port", TInt);
    ("radius_ip", TStr);
    ("radius_port", TInt);
    ("radius_secret", TStr);
    ("auth_acl", TStr);
    ("noauth_acl", TStr) ].
(** dp.py 212-224 *)
Definition TABLE_SIZES_TYPES : list (string * ptype) :=
  [ ("port_acl", TInt);
    ("vlan", TInt);
    ("vlan_acl", TInt);
    ("classification", TInt);
    ("eth_src", TInt);
    ("ipv4_fib", TInt);
    ("ipv6_fib", TInt);
    ("vip", TInt);
    ("eth_dst_hairpin", TInt);
    ("eth_dst", TInt);
    ("flood", TInt) ].
(** dp.py 49-50 *)
Definition DEFAULT_LLDP_SEND_INTERVAL : Z := 5.
Definition DEFAULT_LLDP_MAX_PER_INTERVAL : Z := 5.

(** conf.py 94-101 *)
Definition known {A} (conf : list (string * pval)) (types : list (string * A)) : bool :=
  forallb (fun kv => match lookup (fst kv) types with Some _ => true | None => false end) conf.
(** conf.py 103-124 *)
Definition check_conf_types (conf : list (string * pval)) (types : list (string * ptype)) : bool :=
  forallb (fun kv => match lookup (fst kv) types with
                     | None => false
                     | Some t => match snd kv with PNone => true | v => isinstance v t end
                     end) conf.
Definition DP_TYPES : list (string * ptype) := map (fun r => (fst r, fst (snd r))) DP_SETTINGS.

(** conf.py 79-92: what is not given, or null, is the default *)
Definition val (conf : list (string * pval)) (k : string) : pval :=
  match lookup k conf with
  | Some PNone | None => match lookup k DP_SETTINGS with Some (_, d) => d | None => PNone end
  | Some v => v
  end.

Inductive outcome := Rejected | Raised | Accepted (settings : string -> pval).

Definition need (v : pval) (k : Z -> outcome) : outcome := match num v with Some n => k n | None => Raised end.
Definition reject_if (b : bool) (k : outcome) : outcome := if b then Rejected else k.
Definition put (k : string) (v : pval) (f : string -> pval) : string -> pval :=
  fun x => if String.eqb x k then v else f x.
Definition default_to (v : pval) (d : pval) : pval := match v with PNone => d | _ => v end.

Section Settings.
  Variable valid_mac : string -> bool.

  (** dp.py 660-668, without the texts *)
  Definition dp_set_defaults (id : pval) (c : string -> pval) (k : (string -> pval) -> outcome) : outcome :=
    need (c "priority_offset") (fun off =>
    let c := put "dp_id" (default_to (c "dp_id") id) c in
    let c := put "lowest_priority" (default_to (c "lowest_priority") (c "priority_offset")) c in
    let c := put "low_priority" (default_to (c "low_priority") (PInt (off + 9000))) c in
    need (c "low_priority") (fun low =>
    let c := put "high_priority" (default_to (c "high_priority") (PInt (low + 1))) c in
    need (c "high_priority") (fun high =>
    k (put "highest_priority" (default_to (c "highest_priority") (PInt (high + 98))) c)))).

  (** conf.py 126-134; the types are no lists here *)
  Definition set_unknown_conf (d : list (string * pval)) (types : list (string * ptype)) : list (string * pval) :=
    d ++ map (fun t => (fst t, PNone)) (filter (fun t => match lookup (fst t) d with None => true | Some _ => false end) types).

  (** dp.py 412-426, without the system's name *)
  Definition lldp_defaults (d : list (string * pval)) (k : list (string * pval) -> outcome) : outcome :=
    reject_if (negb (check_conf_types d LLDP_TYPES)) (
    let d := match lookup "send_interval" d with
             | None => d ++ [("send_interval", PInt DEFAULT_LLDP_SEND_INTERVAL)] | Some _ => d end in
    need (match lookup "send_interval" d with Some v => v | None => PNone end) (fun n =>
    reject_if (n <? 1) (
    let d := match lookup "max_per_interval" d with
             | None => d ++ [("max_per_interval", PInt DEFAULT_LLDP_MAX_PER_INTERVAL)] | Some _ => d end in
    k (set_unknown_conf d LLDP_TYPES)))).

  (** dp.py 351-401 *)
  Definition check_config (c : string -> pval) : outcome :=
    reject_if (negb (isinstance (c "dp_id") TInt)) (
    need (c "dp_id") (fun dpid =>
    reject_if ((dpid <? 0) || (2 ^ 64 - 1 <? dpid)) (
    reject_if (negb (match c "faucet_dp_mac" with PStr m => valid_mac m | _ => false end)) (
    reject_if (negb (truthy (c "interfaces") || truthy (c "interface_ranges"))) (
    need (c "timeout") (fun t =>
    reject_if (t <? 15) (
    reject_if (65535 <? t) (
    need (c "arp_neighbor_timeout") (fun a =>
    reject_if (negb (2 * a <? t)) (
    reject_if (65535 <? a) (
    need (c "nd_neighbor_timeout") (fun n =>
    reject_if (negb (2 * n <? t)) (
    reject_if (65535 <? n) (
    reject_if (truthy (c "combinatorial_port_flood") && truthy (c "group_table")) (
    need (c "cache_update_guard_time") (fun g =>
    let c := if g =? 0 then put "cache_update_guard_time" (PInt (t / 2)) c else c in
    need (c "learn_jitter") (fun j =>
    let c := if j =? 0 then put "learn_jitter" (PInt (Z.max (Z.sqrt (9 * t)) 1)) c else c in
    need (c "learn_ban_timeout") (fun b =>
    let c := if b =? 0 then put "learn_ban_timeout" (c "learn_jitter") c else c in
    let rest c :=
      reject_if (match c "dot1x" with PDict d => negb (check_conf_types d DOT1X_TYPES) | v => truthy v end) (
      reject_if (match c "table_sizes" with PDict d => negb (check_conf_types d TABLE_SIZES_TYPES) | _ => true end)
      (Accepted c)) in
    match c "lldp_beacon" with
    | PDict [] => rest c
    | PDict d => lldp_defaults d (fun d' => rest (put "lldp_beacon" (PDict d') c))
    | v => if truthy v then Rejected else rest c
    end)))))))))))))))))).

  (** conf.py 49-64, 136-140; [id]: the name of the section *)
  Definition load (id : pval) (conf : list (string * pval)) : outcome :=
    reject_if (negb (known conf DP_SETTINGS)) (
    reject_if (negb (check_conf_types conf DP_TYPES)) (
    dp_set_defaults id (val conf) check_config)).
End Settings.
