(** * What 802.1X ports let through

    Only the configuration and the events of Dot1xModel are used, and the packets and
    walks of OpenFlow. *)

From Coq Require Import ZArith List Bool Permutation.
From Verif Require Import OpenFlow ReorderModel TableModel AclModel AclSpec Dot1xModel.
Import ListNotations.
Open Scope Z_scope.

(** Histories are lists of events, the latest first. *)
Fixpoint is_up (evs : list devent) (n : Z) : bool :=
  match evs with
  | [] => false
  | DConnect ns :: _ => existsb (Z.eqb n) ns
  | DPortUp k :: r => (k =? n) || is_up r n
  | DPortDown k :: r => negb (k =? n) && is_up r n
  | _ :: r => is_up r n
  end.

(** The logins of a host on a port that nothing has ended: neither a logoff nor a
    failure of that host, nor that the port went down or the datapath reconnected;
    the latest first, by the ACL they name. *)
Fixpoint logins (evs : list devent) (n mac : Z) : list (option Z) :=
  match evs with
  | [] | DConnect _ :: _ => []
  | DPortUp _ :: r => logins r n mac
  | DPortDown k :: r => if (k =? n) && is_up r n then [] else logins r n mac
  | DLogin k m fid :: r => if (k =? n) && (m =? mac) then fid :: logins r n mac else logins r n mac
  | DLogoff k m :: r | DFailure k m :: r => if (k =? n) && (m =? mac) then [] else logins r n mac
  end.
Definition authenticated (evs : list devent) (n mac : Z) : Prop := logins evs n mac <> [].

(** ** Packets *)
Definition eapol (q : packet) : Prop := pk_hdr q EthType = Some 0x888e.
(** a DHCP request over IPv4: UDP from port 68 to port 67 *)
Definition dhcp_request (q : packet) : Prop :=
  pk_hdr q EthType = Some 0x800 /\ pk_hdr q IpProto = Some 17 /\ pk_hdr q UdpSrc = Some 68 /\ pk_hdr q UdpDst = Some 67.
Definition addressed (f : field) (mac : Z) (q : packet) : packet :=
  mkPacket (pk_in q) (pk_tags q) (fun g => if field_eqb g f then Some mac else pk_hdr q g).

(** ** The configurations considered *)

(** the ACL a login names is there *)
Definition assigned (c : dconf) (fid : option Z) (a : acl) : Prop :=
  exists name, fid = Some name /\ In (name, a) (dx_acls c).

(** The configuration checks (dp.py 428-490, port.py 381-403) and what else is
    assumed: ports have different numbers below 0x10000; the NFV port is output only
    and not an 802.1X port; no dp_acls; no port has both mac authentication bypass and
    dot1x_acl; ACLs are named once, are not exact-match, their rules are like those of
    C22 (other ports' ACLs without failover groups), and there are fewer rules than
    priorities. *)
Record dconf_ok (c : dconf) : Prop := {
  dk_table : am_port (dx_am c) = Some (dx_table c);
  dk_tables : ~ In OFPTT_ALL (map tb_id (opt_tables (dx_am c))) /\ NoDup (map tb_id (opt_tables (dx_am c)));
  dk_dp : am_dp_acls (dx_am c) = [];
  dk_lowest : 0 <= dx_lowest c < mab_priority;
  dk_names : NoDup (map dp_num (dx_ports c));
  dk_nfv : forall p, In p (dx_ports c) -> dp_num p = dx_nfv c -> ap_output_only (dp_base p) = true /\ dp_dot1x p = false;
  dk_dot1x : forall p, In p (dx_ports c) -> dp_dot1x p = true ->
     ap_acls (dp_base p) = [] /\ ap_output_only (dp_base p) = false /\ 0 <= dp_num p < 0x10000 /\
     (dp_dyn p = true -> dp_pre p = false /\ dp_mab p = false) /\
     (dp_pre p = true -> dp_mab p = false);
  dk_port_acls : forall p, In p (dx_ports c) ->
     Forall (fun a => al_exact a = false) (ap_acls (dp_base p)) /\
     Forall (fun r => rule_ok r /\ failovers r = []) (rules_of (ap_acls (dp_base p))) /\
     Z.of_nat (length (rules_of (ap_acls (dp_base p)))) <= FILTER_PRIORITY - dx_lowest c;
  dk_acl_names : NoDup (map fst (dx_acls c));
  dk_acls : forall name a, In (name, a) (dx_acls c) ->
     al_exact a = false /\ Forall rule_ok (al_rules a) /\
     Z.of_nat (length (al_rules a)) <= auth_priority - dx_lowest c
}.

(** ** Histories of a switch

    [dhistory c evs ups s]: the switch is in state [s] after the events [evs].
    Whatever it held before it connected does not matter.  Each event's messages are
    reordered (for any order of the sets involved) and reach the switch as one
    batch.  Nothing in it raised an exception. *)
Inductive dhistory (c : dconf) : list devent -> list Z -> switch -> Prop :=
| dh_connect : forall s ns ms ups sh ub out,
    (forall l, Permutation (sh l) l) ->
    dbatch c [] (DConnect ns) = (Some ms, ups) ->
    valve_flowreorder sh ub ms = Some out ->
    dhistory c [DConnect ns] ups (apply_msgs out s)
| dh_event : forall evs ups s e ms ups' sh ub out,
    dhistory c evs ups s ->
    (forall l, Permutation (sh l) l) ->
    dbatch c ups e = (Some ms, ups') ->
    valve_flowreorder sh ub ms = Some out ->
    dhistory c (e :: evs) ups' (apply_msgs out s).

(** Every field a rule names agrees with the packet, leaving out [but]. *)
Definition covers_but (but : list field) (q : packet) (r : rule) : Prop :=
  forall o f v m, In ((o, f), (v, m)) (ru_attrs r) -> ~ In f but -> agrees q f v m.

(** The address the controller uses towards the authenticator for a port: 00:00:00,
    the index of the datapath, two bytes of port number. *)
Definition stands_for (c : dconf) (p : dport) : Z := dx_index c * 0x10000 + dp_num p.
