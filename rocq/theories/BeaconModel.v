(** * Sending LLDP beacons

    valve.py 728-786 (_send_lldp_beacon_on_port, fast_advertise), dp.py 818-846
    (lldp_beacon_send_ports).  LACP packets, which are sent at the same time, are left
    out; a beacon is given as the number of the port it is sent on.  Times are
    integers. *)

From Coq Require Import ZArith List Bool.
From Verif Require Import PyBase.
Import ListNotations.
Open Scope Z_scope.

Record port := mkPort { p_num : Z; p_stack : bool; p_beacon : bool (* lldp_beacon_enabled *) }.
Record config := mkConfig {
  c_ports : list port;
  c_fast_interval : Z;
  c_beacon : option (Z * Z) (* lldp_beacon, if configured: send_interval, max_per_interval *)
}.
Record state := mkState {
  last_fast : Z;           (* _last_fast_advertise_sec *)
  last_lldp : Z;           (* _last_lldp_advertise_sec *)
  last_beacon : list (Z * Z) (* dyn_last_lldp_beacon_time of ports that have one *)
}.
(** valve.py 188-190 *)
Definition init : state := mkState 0 0 [].

(** l[:n] *)
Definition py_slice {A} (l : list A) (n : Z) : list A :=
  if 0 <=? n then firstn (Z.to_nat n) l else firstn (length l - Z.to_nat (- n)) l.

(** dp.py 818-846 (lldp_beacon_send_ports): [running] tells which ports are enabled
    and up; sets are lists of ports, in an order that the shuffle makes irrelevant *)
Definition send_ports (c : config) (s : state) (running : Z -> bool) (shuffle : list Z -> list Z) (now : Z) : list Z :=
  match c_beacon c with
  | None => []
  | Some (interval, max_per) =>
      let priority := map p_num (filter (fun p => p_stack p && (running (p_num p) && p_beacon p)) (c_ports c)) in
      let cutoff := now - interval in
      let nonpriority := map p_num (filter (fun p => p_beacon p && (running (p_num p) &&
        match dict_get Z.eqb (p_num p) (last_beacon s) with None => true | Some t => t <? cutoff end)) (c_ports c)) in
      let nonpriority := filter (fun n => negb (mem Z.eqb n priority)) nonpriority in
      priority ++ py_slice (shuffle nonpriority) max_per
  end.

(** valve.py 756-786 (fast_advertise) *)
Definition fast_advertise (c : config) (s : state) (running : Z -> bool) (shuffle : list Z -> list Z) (now : Z) : state * list Z :=
  if (c_fast_interval c =? 0) || (now - last_fast s <? c_fast_interval c) then (s, [])
  else
    let due := match c_beacon c with None => true | Some (interval, _) => (interval =? 0) || (interval <=? now - last_lldp s) end in
    if due then
      let ports := send_ports c s running shuffle now in
      (mkState now now (fold_left (fun d p => dict_put Z.eqb p now d) ports (last_beacon s)), ports)
    else (mkState now (last_lldp s) (last_beacon s), []).

(** A call: the time, which ports are running and what the random shuffle does. *)
Record call := mkCall { ca_now : Z; ca_running : Z -> bool; ca_shuffle : list Z -> list Z }.
(** the beacons sent by each call *)
Fixpoint run (c : config) (s : state) (calls : list call) : list (call * list Z) :=
  match calls with
  | [] => []
  | k :: r =>
      let '(s', out) := fast_advertise c s (ca_running k) (ca_shuffle k) (ca_now k) in
      (k, out) :: run c s' r
  end.
