(** * The settings of a switch: specification *)
From Coq Require Import List Bool ZArith String.
From Verif Require Import SettingsModel.
Import ListNotations.
Open Scope string_scope.
Open Scope Z_scope.

(** No setting is given twice. *)
Definition a_dict (conf : list (string * pval)) : Prop :=
  NoDup (map fst conf) /\ forall k d, In (k, PDict d) conf -> NoDup (map fst d).

(** A setting is given, and not as null *)
Definition given (conf : list (string * pval)) (k : string) (v : pval) : Prop := In (k, v) conf /\ v <> PNone.
(** Its value: that given, or else the default *)
Definition setting (conf : list (string * pval)) (k : string) (default v : pval) : Prop :=
  given conf k v \/ (forall w, ~ given conf k w) /\ v = default.

(** The types of values; yes and no will do for numbers *)
Inductive of_type : pval -> ptype -> Prop :=
| t_bool : forall b, of_type (PBool b) TBool
| t_int : forall n, of_type (PInt n) TInt
| t_bool_int : forall b, of_type (PBool b) TInt
| t_float : forall n, of_type (PFloat n) TFloat
| t_str : forall s, of_type (PStr s) TStr
| t_list : forall l, of_type (PList l) TList
| t_dict : forall d, of_type (PDict d) TDict.
Inductive number : pval -> Z -> Prop :=
| n_int : forall n, number (PInt n) n
| n_yes : number (PBool true) 1
| n_no : number (PBool false) 0.

(** Every setting given is one there is, and of its type or null *)
Definition proper (types : list (string * ptype)) (conf : list (string * pval)) : Prop :=
  forall k v, In (k, v) conf -> exists t, In (k, t) types /\ (v = PNone \/ of_type v t).

(** A number that is set *)
Definition is_set (conf : list (string * pval)) (k : string) (default n : Z) : Prop :=
  exists v, setting conf k (PInt default) v /\ number v n.

(** What a configuration must be to be accepted, [id] being the name of the section *)
Record acceptable (valid_mac : string -> bool) (id : pval) (conf : list (string * pval)) : Prop := {
  ac_proper : proper DP_TYPES conf;
  ac_dp_id : exists v n, setting conf "dp_id" id v /\ number v n /\ 0 <= n < 2 ^ 64;
  ac_mac : exists m, setting conf "faucet_dp_mac" (PStr "0e:00:00:00:00:01") (PStr m) /\ valid_mac m = true;
  ac_ports : exists k d, (k = "interfaces" \/ k = "interface_ranges") /\ given conf k (PDict d) /\ d <> [];
  ac_timers : exists t a n, is_set conf "timeout" 300 t /\ is_set conf "arp_neighbor_timeout" 30 a /\
    is_set conf "nd_neighbor_timeout" 30 n /\ 15 <= t <= 65535 /\ 2 * a < t /\ 2 * n < t;
  ac_flood : ~ (given conf "combinatorial_port_flood" (PBool true) /\ given conf "group_table" (PBool true));
  ac_lldp : forall d, given conf "lldp_beacon" (PDict d) -> proper LLDP_TYPES d /\
    forall v, In ("send_interval", v) d -> exists n, number v n /\ 1 <= n;
  ac_dot1x : forall d, given conf "dot1x" (PDict d) -> proper DOT1X_TYPES d;
  ac_sizes : forall d, given conf "table_sizes" (PDict d) -> proper TABLE_SIZES_TYPES d }.

(** The settings that are worked out from others, if not given *)
Definition derived (k : string) : Prop :=
  In k ["dp_id"; "lowest_priority"; "low_priority"; "high_priority"; "highest_priority";
        "cache_update_guard_time"; "learn_jitter"; "learn_ban_timeout"; "lldp_beacon"].

(** What is then set: everything as given or else the default (see [DP_SETTINGS]), save
    that, if not given (or zero), the time within which an entry is not refreshed is half
    the timeout, the jitter of timeouts three times its root, the ban on learning the
    jitter, and the intervals of beacons 5 *)
Definition loaded (id : pval) (conf : list (string * pval)) (r : string -> pval) : Prop :=
  (forall k t d, In (k, (t, d)) DP_SETTINGS -> ~ derived k -> setting conf k d (r k)) /\
  setting conf "dp_id" id (r "dp_id") /\
  (exists t g j b, is_set conf "timeout" 300 t /\ is_set conf "cache_update_guard_time" 0 g /\
    is_set conf "learn_jitter" 0 j /\ is_set conf "learn_ban_timeout" 0 b /\
    let j' := if j =? 0 then Z.max (Z.sqrt (9 * t)) 1 else j in
    number (r "cache_update_guard_time") (if g =? 0 then t / 2 else g) /\
    number (r "learn_jitter") j' /\ number (r "learn_ban_timeout") (if b =? 0 then j' else b)) /\
  (forall d, given conf "lldp_beacon" (PDict d) -> d <> [] -> exists d', r "lldp_beacon" = PDict d' /\
    (forall k v, In (k, v) d -> lookup k d' = Some v) /\
    ((forall v, ~ In ("send_interval", v) d) -> lookup "send_interval" d' = Some (PInt 5)) /\
    ((forall v, ~ In ("max_per_interval", v) d) -> lookup "max_per_interval" d' = Some (PInt 5))).
