(** * What tunnels own, and what rules of a port stand beside them *)
From Coq Require Import ZArith List Bool Permutation.
From Verif Require Import PyBase OpenFlow ReorderModel ReorderSpec TableModel AclModel AclSpec StackModel TunnelModel TunnelSpec.
Import ListNotations.
Open Scope Z_scope.

(** The flow entries of tunnels on the switch [name]: in the table of the port ACLs,
    those for tagged frames, and those of the rules with tunnels of an ACL at its
    sources; or those of all rules of the ACLs of the datapath, if tunnels are among them. *)
Definition owned (c : tconf) (ls : list tacl) (name : Z) (e : flow) : Prop :=
  f_table e = tb_id (tc_table c) /\
  ((f_prio e = OVERRIDE_PRIORITY /\
    exists l d pcp, In l ls /\ In d (tl_dests l) /\ f_match e = [exact VlanVid (Z.lor (td_id d) OFPVID_PRESENT); exact VlanPcp pcp]) \/
   (exists l s r i, In l ls /\ In s (tl_sources l) /\ ts_dp s = name /\ nth_error (al_rules (tl_acl l)) i = Some r /\ rule_tunnels r <> [] /\
      f_prio e = (if al_exact (tl_acl l) then FILTER_PRIORITY else FILTER_PRIORITY - Z.of_nat i) /\ f_match e = entry_match s r) \/
   (exists l s r i, In l ls /\ In s (tl_sources l) /\ ts_dp s = name /\ In (tl_acl l) (am_dp_acls (tc_am c)) /\
      nth_error (rules_of (am_dp_acls (tc_am c))) i = Some r /\
      f_prio e = FILTER_PRIORITY - Z.of_nat i /\ f_match e = match_from_dict (place_match None None (ru_attrs r)))).

(** No rule has a cookie of its own, and no output is a failover group. *)
Definition plain_output (o : output_conf) : Prop :=
  match o with
  | Ordered l => Forall (fun i => match i with OFailover _ _ => False | _ => True end) l
  | Unordered u => u_failover u = None
  end.
Definition plain_rule (r : rule) : Prop :=
  ru_cookie r = None /\ forall a o, ru_actions r = Some a -> ac_output a = Some o -> plain_output o.
Definition plain_tunnels (c : tconf) (ls : list tacl) : Prop :=
  (forall r, In r (rules_of (am_dp_acls (tc_am c))) -> plain_rule r) /\
  forall l, In l ls -> (forall r, In r (al_rules (tl_acl l)) -> plain_rule r) /\
    forall d, In d (tl_dests l) -> Forall (fun i => match i with OFailover _ _ => False | _ => True end) (td_exit d).

(** ** The other rules of a port where tunnels start *)

(** Messages that keep to the rules of the ACL [l] at the port [n] of the source [s]:
    what they add in the table of the port ACLs is about another port, or is at the
    place of a rule of the ACL, or below all of them. *)
Definition keeps (c : tconf) (l : tacl) (s : tsource) (n : Z) (ms : list ofmsg) : Prop :=
  forall w, In (FlowMod w) ms -> fm_cmd w <> FModify /\
    (fm_cmd w = FAdd -> fm_table w = tb_id (tc_table c) ->
     (exists m, m <> n /\ In (exact InPort m) (fm_match w)) \/
     (exists j r, nth_error (al_rules (tl_acl l)) j = Some r /\ fm_prio w = FILTER_PRIORITY - Z.of_nat j /\ fm_match w = entry_match s r) \/
     fm_prio w <= FILTER_PRIORITY - Z.of_nat (length (al_rules (tl_acl l)))).
(** The states reached by such messages and updates of the tunnels, in any order. *)
Inductive settled (c : tconf) (ls : list tacl) (name : Z) (l : tacl) (s : tsource) (n : Z) : tworld -> Prop :=
| settled_start : settled c ls name l s n (mkTworld (map (fun l => (l, [])) ls) empty_switch)
| settled_other : forall w ms sh ub out, settled c ls name l s n w -> keeps c l s n ms -> (forall l, Permutation (sh l) l) ->
    valve_flowreorder sh ub ms = Some out -> settled c ls name l s n (mkTworld (tw_acls w) (apply_msgs out (tw_sw w)))
| settled_update : forall me w acls' pre ms sh ub out, settled c ls name l s n w -> sn_name me = name ->
    add_tunnel_acls c me (tw_acls w) = (acls', Some ms) -> keeps c l s n pre -> (forall l, Permutation (sh l) l) ->
    valve_flowreorder sh ub (pre ++ ms) = Some out -> settled c ls name l s n (mkTworld acls' (apply_msgs out (tw_sw w))).

(** The frame does not carry the id of a tunnel. *)
Definition untunnelled (ls : list tacl) (pk : packet) : Prop :=
  forall v p r l d, pk_tags pk = (v, p) :: r -> In l ls -> In d (tl_dests l) -> 0 <= v < 4096 /\ td_id d <> v.

(** The events of the ACL manager in which the port [n] has the ACL [l] and nothing else. *)
Definition has_only (l : acl) (n : Z) (p : aport) : Prop :=
  (ap_num p = n -> ap_acls p = [l]) /\ forall r, In r (rules_of (ap_acls p)) -> NoDup (map (fun a => snd (fst a)) (ru_attrs r)).
Definition event_keeps (l : acl) (n : Z) (e : aevent) : Prop :=
  match e with
  | AConnect _ ps => forall p, In p ps -> has_only l n p
  | APortUp p _ | APortAcl p | APortDown p => has_only l n p
  | AVlans _ _ => True
  end.
