(** * Tunnels: acl.py 545-760, valve_stack.py 210-232 and 358-438, valve_acl.py 283-322 and 757-843 *)
From Coq Require Import ZArith List Bool.
From Verif Require Import PyBase OpenFlow TrimModel TableModel AclModel StackModel.
Import ListNotations.
Open Scope Z_scope.

(** ** Configuration *)

(** acl.py 327-370, 456-467: where a tunnel ends, after names are resolved.
    [td_exit] is exit_instructions, a list. *)
Record tdest := mkTdest {
  td_id : Z;
  td_dp : Z;
  td_port : option Z;
  td_reverse : bool;
  td_bidir : bool;
  td_maintain : bool;
  td_exit : list out_item
}.
(** acl.py 612-624 (add_tunnel_source), dp.py 858-880: a port, or a whole datapath
    ("dp_acls").  "reverse" and "bi_directional" are always False there. *)
Record tsource := mkTsource { ts_dp : Z; ts_port : option Z }.
(** An ACL with tunnels; [tl_dests] is a dictionary by [td_id]. *)
Record tacl := mkTacl { tl_acl : acl; tl_dests : list tdest; tl_sources : list tsource }.

Definition tsource_eq_dec : forall a b : tsource, {a = b} + {a <> b}.
Proof. repeat decide equality. Defined.
Definition tsource_eqb (a b : tsource) : bool := if tsource_eq_dec a b then true else false.
Definition rule_eq_dec : forall a b : rule, {a = b} + {a <> b}.
Proof. repeat decide equality. Defined.
Definition rule_eqb (a b : rule) : bool := if rule_eq_dec a b then true else false.
Definition acl_eq_dec : forall a b : acl, {a = b} + {a <> b}.
Proof. decide equality; [apply bool_dec|apply list_eq_dec, rule_eq_dec]. Defined.
Definition acl_eqb (a b : acl) : bool := if acl_eq_dec a b then true else false.

(** valve_of.py 61-65 *)
Definition PCP_TUNNEL_FLAG : Z := 3.
Definition PCP_TUNNEL_REVERSE_DIRECTION_FLAG : Z := 4.

(** ** Which port: valve_stack.py 210-232 (tunnel_outport) *)
Definition tunnel_outport (me : snode) (src dst : Z) (dst_port : option Z) : option Z :=
  if negb (is_in_path me src dst) then None
  else if sn_name me =? dst then dst_port
  else option_map sp_no (default_port_towards me dst).

(** Python's truth of a port number or None *)
Definition truthy (o : option Z) : bool := match o with Some n => negb (n =? 0) | None => false end.

(** ** The rule of a tunnel on one switch *)

(** acl.py 703-706, 731-736: to the port, or on to the output table *)
Definition leave (out : option Z) (output_table : Z) : out_item :=
  match out with Some n => OPort n | None => OGoto output_table end.
(** "port": out_port, which is never None where it is used *)
Definition to_port (out : option Z) : list out_item := match out with Some n => [OPort n] | None => [] end.
Definition pcp_of (d : tdest) : Z := if td_reverse d then PCP_TUNNEL_REVERSE_DIRECTION_FLAG else PCP_TUNNEL_FLAG.

(** acl.py 690-763 (update_source_tunnel_rules): the new list; the function always
    returns True *)
Definition source_rules (curr : Z) (s : tsource) (d : tdest) (out : option Z) (output_table : Z) : list out_item :=
  match curr =? ts_dp s, curr =? td_dp d with
  | true, false => [OVids [td_id d]; OSet [(VlanPcp, pcp_of d)]] ++ to_port out ++ [OPop 1]
  | false, true => (if td_maintain d then [] else [OPop 1]) ++ td_exit d ++ [leave out output_table]
  | true, true =>
      td_exit d ++ (if td_maintain d then [OVids [td_id d]; OSet [(VlanPcp, pcp_of d)]] else [])
      ++ [leave out output_table]
  | false, false => to_port out
  end.

(** acl.py 643-688 (update_reverse_tunnel_rules) *)
Definition reverse_rules (curr : Z) (s : tsource) (d : tdest) (out : option Z) (output_table : Z) : list out_item :=
  match curr =? td_dp d, curr =? ts_dp s with
  | true, false => to_port out
  | false, true => [OPop 1; leave out output_table]
  | true, true => [OPop 1; leave out output_table]
  | false, false => to_port out
  end.

(** ** Messages *)

(** valve_acl.py 453 *)
Definition OVERRIDE_PRIORITY : Z := FILTER_PRIORITY + 1.

Definition tunnel_match (tid pcp : Z) : fmatch := [exact VlanVid (vid_present tid); exact VlanPcp pcp].

(** valve_acl.py 283-322 (build_tunnel_ofmsgs) as called by 757-797
    (build_tunnel_rules_ofmsgs, build_reverse_tunnel_rules_ofmsgs) *)
Definition build_tunnel_ofmsgs (t : table) (items : list out_item) (tid : Z) (reverse : bool) : list ofmsg :=
  let '(acts, msgs, insts) := plain_items items in
  let m := tunnel_match tid (if reverse then PCP_TUNNEL_REVERSE_DIRECTION_FLAG else PCP_TUNNEL_FLAG) in
  msgs ++ [FlowMod (tb_del t FDelete OVERRIDE_PRIORITY m OFPP_ANY);
           FlowMod (tb_add t OVERRIDE_PRIORITY m (insts ++ [Apply acts]))].

(** The tunnels of a rule (acl.py 566-581, 584-597) *)
Definition rule_tunnels (r : rule) : list Z :=
  match ru_actions r with
  | None => []
  | Some a =>
      match ac_output a with
      | None => []
      | Some (Ordered l) => flat_map (fun i => match i with OTunnel t => [t] | _ => [] end) l
      | Some (Unordered u) => match u_tunnel u with Some t => [t] | None => [] end
      end
  end.
(** acl.py 566-581 (get_tunnel_rules); a rule is listed once *)
Definition get_tunnel_rules (l : acl) (tid : Z) : list rule :=
  filter (fun r => mem Z.eqb tid (rule_tunnels r)) (al_rules l).
(** list.index *)
Fixpoint index_of (r : rule) (l : list rule) : Z :=
  match l with
  | [] => 0
  | x :: rest => if rule_eqb x r then 0 else 1 + index_of r rest
  end.

(** dyn_tunnel_rules of one ACL on one switch: by tunnel id and source *)
Definition dyn : Type := list ((Z * tsource) * list out_item).
Definition dkey_eqb (a b : Z * tsource) : bool := (fst a =? fst b) && tsource_eqb (snd a) (snd b).
Definition dyn_get (dy : dyn) (s : tsource) (tid : Z) : option (list out_item) := dict_get dkey_eqb (tid, s) dy.

(** The settings of a switch: its ACL manager and port_acl table, and the output
    table (eth_dst). *)
Record tconf := mkTconf { tc_am : amanager; tc_table : table; tc_output : Z }.

(** valve_acl.py 799-843 (build_tunnel_acl_rule_ofmsgs).  [None]: a KeyError,
    because a rule that is built uses a tunnel that has no entry in
    dyn_tunnel_rules (valve_acl.py 81, 187). *)
Definition known (dy : dyn) (s : tsource) (rs : list rule) : bool :=
  forallb (fun r => forallb (fun t => match dyn_get dy s t with Some _ => true | None => false end) (rule_tunnels r)) rs.
Definition tun_of (dy : dyn) (s : tsource) : Z -> list out_item :=
  fun t => match dyn_get dy s t with Some l => l | None => [] end.
Definition source_place (c : tconf) (l : tacl) (s : tsource) : place :=
  mkPlace (tc_table c) [Goto (am_to_vlan (tc_am c))] [Goto (am_to_l2 (tc_am c))] FILTER_PRIORITY
    (al_exact (tl_acl l)) (ts_port s) None.
Definition build_tunnel_acl_rule_ofmsgs (c : tconf) (l : tacl) (dy : dyn) (s : tsource) (tid : Z) : option (list ofmsg) :=
  if mem acl_eqb (tl_acl l) (am_dp_acls (tc_am c)) then
    let rs := flat_map al_rules (am_dp_acls (tc_am c)) in
    if known dy s rs then
      Some (build_acl_ofmsgs (Some (tun_of dy s)) true (dp_place (tc_am c) (tc_table c)) (am_dp_acls (tc_am c)))
    else None
  else
    let rs := get_tunnel_rules (tl_acl l) tid in
    if known dy s rs then
      Some (flat_map (fun r => build_rule_ofmsgs (Some (tun_of dy s)) true (source_place c l s) r
                                 (FILTER_PRIORITY - index_of r (al_rules (tl_acl l)))) rs)
    else None.

Definition sequence {A} (l : list (option (list A))) : option (list A) :=
  fold_right (fun o r => match o, r with Some a, Some b => Some (a ++ b) | _, _ => None end) (Some []) l.
Fixpoint first_of_each (l : list tsource) : list tsource :=
  match l with
  | [] => []
  | x :: r => x :: filter (fun y => negb (tsource_eqb y x)) (first_of_each r)
  end.

(** valve_stack.py 358-423 (acl_update_tunnel) *)
Section Update.
  Variables (c : tconf) (me : snode) (l : tacl).

  (** lines 370-371 *)
  Definition fwd_port (d : tdest) (s : tsource) : option Z := tunnel_outport me (ts_dp s) (td_dp d) (td_port d).
  Definition rev_port (d : tdest) (s : tsource) : option Z := tunnel_outport me (td_dp d) (ts_dp s) (ts_port s).
  Definition none (o : option Z) : bool := match o with None => true | _ => false end.
  (** 373-384, 393-402 *)
  Definition fwd_updated (d : tdest) (s : tsource) : bool :=
    if none (fwd_port d s) && none (td_port d) && (td_dp d =? sn_name me) then true else truthy (fwd_port d s).
  Definition rev_updated (d : tdest) (s : tsource) : bool :=
    (if none (ts_port s) && none (rev_port d s) && (ts_dp s =? sn_name me) then true else truthy (rev_port d s))
    && td_bidir d.
  Definition fwd_rules (d : tdest) (s : tsource) : list out_item :=
    source_rules (sn_name me) s d (fwd_port d s) (tc_output c).
  Definition rev_rules (d : tdest) (s : tsource) : list out_item :=
    reverse_rules (sn_name me) s d (rev_port d s) (tc_output c).

  Definition dyn_update (dy : dyn) : dyn :=
    fold_left (fun dy d =>
      fold_left (fun dy s => if fwd_updated d s then dict_put dkey_eqb (td_id d, s) (fwd_rules d s) dy else dy)
        (tl_sources l) dy) (tl_dests l) dy.
  Definition tunnel_msgs (d : tdest) : list ofmsg :=
    flat_map (fun s => build_tunnel_ofmsgs (tc_table c) (fwd_rules d s) (td_id d) (td_reverse d))
      (filter (fun s => fwd_updated d s && negb (sn_name me =? ts_dp s)) (tl_sources l))
    ++ flat_map (fun s => build_tunnel_ofmsgs (tc_table c) (rev_rules d s) (td_id d) true)
         (filter (rev_updated d) (tl_sources l)).
  (** source_vids *)
  Definition own_pairs : list (tsource * Z) :=
    flat_map (fun d => map (fun s => (s, td_id d))
      (filter (fun s => fwd_updated d s && (sn_name me =? ts_dp s)) (tl_sources l))) (tl_dests l).
  Definition source_msgs (dy : dyn) : option (list ofmsg) :=
    sequence (flat_map (fun s =>
      map (fun p => build_tunnel_acl_rule_ofmsgs c l dy s (snd p)) (filter (fun p => tsource_eqb (fst p) s) own_pairs))
      (first_of_each (map fst own_pairs))).
  Definition acl_update_tunnel (dy : dyn) : dyn * option (list ofmsg) :=
    let dy' := dyn_update dy in
    (dy', option_map (app (flat_map tunnel_msgs (tl_dests l))) (source_msgs dy')).
End Update.

(** valve_stack.py 425-431 (add_tunnel_acls), with the tables of the ACLs *)
Fixpoint add_tunnel_acls (c : tconf) (me : snode) (ls : list (tacl * dyn)) : list (tacl * dyn) * option (list ofmsg) :=
  match ls with
  | [] => ([], Some [])
  | (l, dy) :: r =>
      let '(dy', o) := acl_update_tunnel c me l dy in
      let '(r', o') := add_tunnel_acls c me r in
      ((l, dy') :: r', match o, o' with Some a, Some b => Some (a ++ b) | _, _ => None end)
  end.
