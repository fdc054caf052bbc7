(** * The per-VLAN host cache

    Transcription of the host cache of /repo/faucet/vlan.py (class [VLAN],
    lines 293-393 and 479-481).  Python's [KeyError] is the value [None].
    Simplifications: a MAC address is an integer; a port is its number, and
    [port.permanent_learn] is a function of it; a set of [HostCacheEntry] is a
    list without two entries of equal (MAC, port number), which is what the
    class's [__hash__]/[__eq__] compare; times are integers (the code only
    subtracts and compares them).  [dyn_host_cache_stats_stale] only drives
    metrics and is modelled as a list of stale port numbers. *)

From Coq Require Import List Bool ZArith.
From Verif Require Import PyBase HostCacheSpec.
Import ListNotations.
Open Scope Z_scope.

(** vlan.py:51-80 [HostCacheEntry] *)
Record entry := { e_mac : Z; e_port : Z; e_time : Z }.

(** vlan.py:65-80 [HostCacheEntry.__hash__] and [__eq__] *)
Definition entry_eq (a b : entry) : bool :=
  (e_mac a =? e_mac b) && (e_port a =? e_port b).

(** vlan.py:171-187: the attributes [dyn_host_cache], [dyn_host_cache_by_port],
    [dyn_host_cache_stats_stale] and [dyn_oldest_host_time]. *)
Record hcache := {
  hc_hosts : list (Z * entry);
  hc_ports : list (Z * list entry);
  hc_stale : list Z;
  hc_oldest : option Z;
}.

(** vlan.py:171-187 [VLAN.set_defaults] *)
Definition hc_init : hcache :=
  {| hc_hosts := []; hc_ports := []; hc_stale := []; hc_oldest := None |}.

(** vlan.py:293-300 [VLAN.reset_caches] (the host part: it leaves
    [dyn_oldest_host_time] alone). *)
Definition reset_caches (c : hcache) : hcache :=
  {| hc_hosts := []; hc_ports := []; hc_stale := []; hc_oldest := hc_oldest c |}.

(** [set.remove] (raises [KeyError] when absent). *)
Fixpoint set_remove (e : entry) (l : list entry) : option (list entry) :=
  match l with
  | [] => None
  | x :: r => if entry_eq e x then Some r else option_map (cons x) (set_remove e r)
  end.

(** [set.add] (keeps an equal element already there). *)
Definition set_add (e : entry) (l : list entry) : list entry :=
  if existsb (entry_eq e) l then l else l ++ [e].

(** vlan.py:356-358 [VLAN.cached_host] *)
Definition cached_host (c : hcache) (mac : Z) : option entry :=
  dict_get Z.eqb mac (hc_hosts c).

(** vlan.py:343-347 [VLAN.cached_hosts_on_port] *)
Definition cached_hosts_on_port (c : hcache) (p : Z) : list entry :=
  match dict_get Z.eqb p (hc_ports c) with
  | Some l => l
  | None => []
  end.

(** vlan.py:349-354 [VLAN.cached_hosts_count_on_port] *)
Definition cached_hosts_count_on_port (c : hcache) (p : Z) : Z :=
  match dict_get Z.eqb p (hc_ports c) with
  | Some l => Z.of_nat (length l)
  | None => 0
  end.

(** vlan.py:360-365 [VLAN.cached_host_on_port] *)
Definition cached_host_on_port (c : hcache) (mac p : Z) : option entry :=
  match cached_host c mac with
  | Some e => if p =? e_port e then Some e else None
  | None => None
  end.

(** vlan.py:479-481 [VLAN.hosts_count] *)
Definition hosts_count (c : hcache) : Z := Z.of_nat (length (hc_hosts c)).

(** [self.dyn_host_cache_by_port[n].remove(entry)]; a missing key raises
    [KeyError], and so does a missing entry. *)
Definition by_port_remove (e : entry) (d : list (Z * list entry)) : option (list (Z * list entry)) :=
  match dict_get Z.eqb (e_port e) d with
  | None => None
  | Some l =>
      match set_remove e l with
      | None => None
      | Some l' => Some (dict_put Z.eqb (e_port e) l' d)
      end
  end.

(** vlan.py:330-332: create the port's set if it is missing, then add. *)
Definition by_port_add (e : entry) (d : list (Z * list entry)) : list (Z * list entry) :=
  let l := match dict_get Z.eqb (e_port e) d with Some l => l | None => [] end in
  dict_put Z.eqb (e_port e) (set_add e l) d.

(** vlan.py:320-333 [VLAN.add_cache_host] *)
Definition add_cache_host (mac p t : Z) (c : hcache) : option hcache :=
  let e := {| e_mac := mac; e_port := p; e_time := t |} in
  let step d stale :=
    Some {| hc_hosts := dict_put Z.eqb mac e (hc_hosts c);
            hc_ports := by_port_add e d;
            hc_stale := stale;
            hc_oldest := hc_oldest c |} in
  match cached_host c mac with
  | None => step (hc_ports c) (p :: hc_stale c)
  | Some old =>
      match by_port_remove old (hc_ports c) with
      | None => None
      | Some d => step d (hc_stale c)
      end
  end.

(** vlan.py:335-341 [VLAN.expire_cache_host] *)
Definition expire_cache_host (mac : Z) (c : hcache) : option hcache :=
  match cached_host c mac with
  | None => Some c
  | Some e =>
      match by_port_remove e (hc_ports c) with
      | None => None
      | Some d =>
          Some {| hc_hosts := dict_del Z.eqb mac (hc_hosts c);
                  hc_ports := d;
                  hc_stale := e_port e :: hc_stale c;
                  hc_oldest := hc_oldest c |}
      end
  end.

(** [for entry in l: self.expire_cache_host(entry.eth_src)] *)
Fixpoint expire_each (l : list entry) (c : hcache) : option hcache :=
  match l with
  | [] => Some c
  | e :: r =>
      match expire_cache_host (e_mac e) c with
      | None => None
      | Some c' => expire_each r c'
      end
  end.

(** vlan.py:367-370 [VLAN.clear_cache_hosts_on_port] *)
Definition clear_cache_hosts_on_port (p : Z) (c : hcache) : option hcache :=
  expire_each (cached_hosts_on_port c p) c.

(** [min(l)] of a non-empty list *)
Definition min_list (x : Z) (l : list Z) : Z := fold_left Z.min l x.

Section Expiry.
  (** [port.permanent_learn] *)
  Variable perm : Z -> bool.

  (** vlan.py:381-385: the entries an expiry pass picks. *)
  Definition stale_entries (min_time : Z) (c : hcache) : list entry :=
    filter (fun e => (e_time e <? min_time) && negb (perm (e_port e))) (map snd (hc_hosts c)).

  (** vlan.py:388-392: the new [dyn_oldest_host_time]. *)
  Definition oldest_after (now : Z) (c : hcache) : Z :=
    match map (fun ke => e_time (snd ke)) (hc_hosts c) with
    | [] => now
    | t :: r => min_list t r
    end.

  (** vlan.py:372-393 [VLAN.expire_cache_hosts]; returns the expired entries. *)
  Definition expire_cache_hosts (now timeout : Z) (c : hcache) : option (hcache * list entry) :=
    let min_time := now - timeout in
    let due := match hc_oldest c with None => true | Some o => o <? min_time end in
    if due then
      let ex := stale_entries min_time c in
      match expire_each ex c with
      | None => None
      | Some c' =>
          Some ({| hc_hosts := hc_hosts c'; hc_ports := hc_ports c';
                   hc_stale := hc_stale c'; hc_oldest := Some (oldest_after now c') |}, ex)
      end
    else Some (c, []).

  (** One call of the methods above. *)
  Definition hc_step (c : hcache) (o : hop) : option hcache :=
    match o with
    | Learn mac p t => add_cache_host mac p t c
    | Forget mac => expire_cache_host mac c
    | PortGone p => clear_cache_hosts_on_port p c
    | Expiry now timeout => option_map fst (expire_cache_hosts now timeout c)
    | Reset => Some (reset_caches c)
    end.

  (** Any sequence of calls; [None] if one of them raised. *)
  Fixpoint hc_run (ops : list hop) (c : hcache) : option hcache :=
    match ops with
    | [] => Some c
    | o :: r => match hc_step c o with None => None | Some c' => hc_run r c' end
    end.
End Expiry.
