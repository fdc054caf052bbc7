(** * What references should mean

    Written from docs/configuration.rst, with only the configuration records of
    RefModel: a port is referred to by its number or its name, a VLAN by its key, its
    VID or its name. *)

From Coq Require Import List Bool ZArith.
From Verif Require Import RefModel.
Import ListNotations.
Open Scope Z_scope.

(** [k] refers to port number [n] of a datapath with these ports. *)
Definition refers (ports : list rport) (k : key) (n : Z) : Prop :=
  match k with
  | KInt m => n = m /\ exists p, In p ports /\ rp_num p = m
  | KStr s => exists p, In p ports /\ rp_name p = s /\ rp_num p = n
  end.
(** The ports of a datapath have different numbers, and names. *)
Definition ports_differ (ports : list rport) : Prop := NoDup (map rp_num ports) /\ NoDup (map rp_name ports).

(** Port [m] is configured to mirror port [q]. *)
Definition mirrors (ports : list rport) (q m : Z) : Prop :=
  exists p ks k, In p ports /\ rp_num p = m /\ rp_mirror p = Some ks /\ In k ks /\ refers ports k q.
Definition is_copro (ports : list rport) (m : Z) : Prop := exists p, In p ports /\ rp_num p = m /\ rp_copro p = true.

(** What an output action comes to.  (The number 0 and the empty text are no port.) *)
Inductive act_means (dps : list (Z * list rport)) (ports : list rport) : oact -> ract -> Prop :=
| am_port : forall k n, refers ports k n -> act_means dps ports (OPort k) (RPort n)
| am_ports : forall ks ns, Forall2 (refers ports) ks ns -> act_means dps ports (OPorts ks) (RPorts ns)
| am_failover : forall ks ns, Forall2 (refers ports) ks ns -> act_means dps ports (OFailover ks) (RFailover ns)
| am_tunnel_dp : forall d there p id bi rv, In (d, there) dps -> (forall k, p = Some k -> k = KInt 0 \/ k = KStr 0) ->
    act_means dps ports (OTunnel (Some d) p id bi rv) (RTunnel d None id bi rv)
| am_tunnel_port : forall d there k n id bi rv, In (d, there) dps -> k <> KInt 0 -> k <> KStr 0 -> refers there k n ->
    act_means dps ports (OTunnel (Some d) (Some k) id bi rv) (RTunnel d (Some n) id bi rv)
| am_vid : forall v, act_means dps ports (OVid v) (RVid v)
| am_vids : forall vs, act_means dps ports (OVids vs) (RVids vs)
| am_other : forall x, act_means dps ports (OOther x) (ROther x).

Definition opt_means {A B} (R : A -> B -> Prop) (a : option A) (b : option B) : Prop :=
  match a, b with
  | None, None => True
  | Some x, Some y => R x y
  | _, _ => False
  end.
(** What a rule comes to: the same match and meter, in the same order. *)
Definition rule_means (dps : list (Z * list rport)) (ports : list rport) (r : rule oact key) (o : rule ract Z) : Prop :=
  ru_match r = ru_match o /\ ru_meter r = ru_meter o /\ opt_means (refers ports) (ru_mirror r) (ru_mirror o) /\
  opt_means (fun x y => fst x = fst y /\ Forall2 (act_means dps ports) (snd x) (snd y)) (ru_output r) (ru_output o).

(** A rule that can be used: all its references are to something, it does not give both
    a port and ports, or a VLAN id and VLAN ids, at once, and its tunnels go one way or
    both ways and, in an ACL of a VLAN, there are none. *)
Definition act_ok (dps : list (Z * list rport)) (ports : list rport) (in_vlan : bool) (a : oact) : Prop :=
  (exists r, act_means dps ports a r) /\
  match a with OTunnel _ _ _ bi rv => in_vlan = false /\ ~ (bi = true /\ rv = true) | _ => True end.
Definition rule_ok (dps : list (Z * list rport)) (ports : list rport) (in_vlan : bool) (r : rule oact key) : Prop :=
  (forall k, ru_mirror r = Some k -> exists n, refers ports k n) /\
  (forall ordered l, ru_output r = Some (ordered, l) -> (forall a, In a l -> act_ok dps ports in_vlan a) /\
    (ordered = false -> ~ (exists v vs, In (OVid v) l /\ In (OVids vs) l) /\ ~ (exists k ks, In (OPort k) l /\ In (OPorts ks) l))).

(** ACL [name] is used: by a VLAN, by a port, by the datapath, or because it has a
    tunnel. *)
Definition used (c : dpconf) (in_vlan : bool) (name : Z) : Prop :=
  if in_vlan then In name (dc_vlan_acls c)
  else In name (dc_port_acls c) \/ In name (dc_dp_acls c) \/
    exists rules r o l dp p id bi rv, In (name, rules) (dc_acls c) /\ In r rules /\ ru_output r = Some (o, l) /\ In (OTunnel dp p id bi rv) l.
(** Everything that is used exists and can be used. *)
Definition dp_ok (dps : list (Z * list rport)) (c : dpconf) : Prop :=
  (dc_port_acls c = [] \/ dc_dp_acls c = []) /\
  forall v name, used c v name -> exists rules, In (name, rules) (dc_acls c) /\
    forall r, In r rules -> rule_ok dps (dc_ports c) v r /\ forall m, ru_meter r = Some m -> In m (dc_meters c).

(** The VLAN that a port's reference is to, given the VLANs of the configuration
    file: the VLAN with that key, or else that VID, or else a new VLAN with that VID. *)
Definition port_vlan (conf : vlans) (k : key) (v : Z) : Prop :=
  (exists name, In (k, (v, name)) conf) \/
  ((forall v' name, ~ In (k, (v', name)) conf) /\
   (k = KInt v /\ ((exists k' name, In (k', (v, name)) conf) \/ 1 <= v <= 4095))).

(** The VLAN that a router's reference is to, given the VLANs of a datapath (VID and
    name): the one with that VID or that name. *)
Definition router_vlan (vs : list (Z * Z)) (k : key) (v : Z) : Prop :=
  match k with KInt n => v = n /\ exists name, In (n, name) vs | KStr s => In (v, s) vs end.
