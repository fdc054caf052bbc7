(** * What the tables accept

    valve_table.py 22-70 (tables, goto), 140-226 (_verify_flowmod, _trim_inst),
    faucet_pipeline.py 87-210 (match_types and set_fields), dp.py 429-500
    (_generate_acl_tables), 573-600 (_configure_tables), 1200-1260 (resolve_acls),
    acl.py 237-311 (build): which rules a table declares it can hold, and the checks
    made of every rule before it is sent.  A check that fails raises an exception that
    ends the controller (faucet.py, kill_on_exception).

    Left out: tunnels' and 802.1X' ACLs. *)

From Coq Require Import ZArith List Bool.
From Verif Require Import PyBase PipelineModel OpenFlow TrimModel TableModel L2Model.
From Verif Require AclModel EgressModel.
Import ListNotations.
Open Scope Z_scope.

(** valve_table.py 22-50: [de_match]: match_types, with whether values may be masked;
    [de_set]: set_fields.  None stands for an empty list: looking a field up in None
    raises an exception, too. *)
Record decl := mkDecl { de_match : list (field * bool); de_set : list field; de_exact : bool }.

(** OXM number of arp_tpa *)
Definition ArpTpa : field := OtherField 23.

(** faucet_pipeline.py 87-210: match_types *)
Definition default_match (t : tname) : list (field * bool) :=
  match t with
  | PortAcl => [(InPort, false)]
  | Vlan => [(EthDst, true); (EthType, false); (InPort, false); (VlanVid, false)]
  | Copro => [(InPort, false); (EthType, false); (VlanVid, false)]
  | VlanAcl | Classification | EgressAcl => []
  | PipelineModel.EthSrc => [(EthDst, true); (EthSrc, false); (EthType, false); (InPort, false); (VlanVid, false)]
  | Fib4 => [(EthType, false); (Ipv4Dst, true); (VlanVid, false)]
  | Fib6 => [(EthType, false); (Ipv6Dst, true); (VlanVid, false)]
  | Vip => [(ArpTpa, false); (EthDst, false); (EthType, false); (Icmpv6Type, false); (IpProto, false)]
  | Hairpin => [(InPort, false); (EthDst, false); (VlanVid, false)]
  | PipelineModel.EthDst => [(EthDst, false); (VlanVid, false)]
  | Egress => [(Metadata, true); (VlanVid, false)]
  | Flood => [(EthDst, true); (InPort, false); (VlanVid, false)]
  end.
(** faucet_pipeline.py 87-210: set_fields *)
Definition default_set (t : tname) : list field :=
  match t with
  | Vlan => [VlanVid]
  | PipelineModel.EthSrc => [VlanVid; EthDst]
  | Fib4 | Fib6 => [EthDst; EthSrc; VlanVid]
  | _ => []
  end.
(** faucet_pipeline.py 170-190: exact_match *)
Definition default_exact (t : tname) : bool :=
  match t with Hairpin | PipelineModel.EthDst => true | _ => false end.

(** dp.py 577-596: what there is of external and of restricted ports changes the tables *)
Definition with_externals (ext : bool) (t : tname) (d : decl) : decl :=
  match t with
  | Vlan | PipelineModel.EthDst | Flood =>
      mkDecl (de_match d ++ if ext then [(VlanPcp, false)] else []) (de_set d ++ if ext then [VlanPcp] else [])
             (de_exact d)
  | _ => d
  end.
Definition with_restricted (restricted : bool) (t : tname) (d : decl) : decl :=
  match t with
  | Flood => mkDecl (de_match d ++ if restricted then [(EthType, false)] else []) (de_set d) (de_exact d)
  | _ => d
  end.
(** [acls]: _generate_acl_tables *)
Definition declare (ext restricted : bool) (acls : tname -> option decl) (t : tname) : decl :=
  with_restricted restricted t (with_externals ext t
    (match acls t with
     | Some d => d
     | None => mkDecl (default_match t) (default_set t) (default_exact t)
     end)).

(** ** The checks *)

Definition is_flowdel (fm : flowmod) : bool :=
  match fm_cmd fm with FDelete | FDeleteStrict => true | _ => false end.
(** a value with a mask is a tuple *)
Definition has_mask (i : match_item) : bool := negb (snd (snd i) =? -1).
Definition no_items (m : fmatch) : bool := match m with [] => true | _ => false end.

(** valve_table.py 140-176 (_verify_flowmod), not for the table of all tables *)
Definition verify_flowmod (d : decl) (fm : flowmod) : bool :=
  if is_flowdel fm then
    forallb (fun i => match dict_get field_eqb (fst i) (de_match d) with Some _ => true | None => false end) (fm_match fm)
  else
    negb ((fm_prio fm =? 0) && negb (no_items (fm_match fm)))
    && forallb (fun i => match dict_get field_eqb (fst i) (de_match d) with
                         | None => false
                         | Some config_mask =>
                             (config_mask || negb (has_mask i))
                             && (negb (de_exact d) || Nat.eqb (length (de_match d)) (length (fm_match fm)))
                         end) (fm_match fm).
(** valve_table.py 178-226: the check of _trim_actions; trimming what is trimmed already
    makes the same check. *)
Definition verify_inst (d : decl) (fm : flowmod) : bool :=
  match trim_inst (Some (de_set d)) (fm_inst fm) with Some _ => true | None => false end.

Section Checks.
  Variable f : features.
  Variable D : tname -> decl.

  (** valve_table.py 52-70 (goto, goto_miss); a flow of no match is what goto_miss is for *)
  Definition verify_gotos (t : tname) (fm : flowmod) : bool :=
    forallb (fun i => match i with
                      | Goto n =>
                          mem Z.eqb n (map (table_id f) (next_tables f t))
                          || (no_items (fm_match fm)
                              && match miss_goto f t with Some u => table_id f u =? n | None => false end)
                      | _ => true
                      end) (fm_inst fm).

  Definition passes (t : tname) (fm : flowmod) : bool :=
    verify_flowmod (D t) fm && verify_inst (D t) fm && verify_gotos t fm.
End Checks.

(** valve_pipeline.py 147-160 (initialise_tables), 201-222 (filter_packets): the first
    rules of the classification table, which is the table after the VLANs *)
Definition pipeline_filters (t : table) (drop_bcast : bool) : list ofmsg :=
  (if drop_bcast then [FlowMod (tb_drop t FILTER_PRIORITY [exact EthSrc MAC_BROADCAST] 0)] else [])
  ++ [FlowMod (tb_drop t (FILTER_PRIORITY + 10) [exact EthType ETH_TYPE_ECTP] 0)].

(** ** The tables of ACLs *)

(** ACLs by name, and where they are used *)
Record fvlan := mkFvlan { fv_vid : Z; fv_in : list Z; fv_out : list Z }.
Record fport := mkFport { fp_num : Z; fp_in : list Z; fp_output_only : bool; fp_dot1x : bool }.
Record fconf := mkFconf { fc_acls : Z -> AclModel.acl; fc_vlans : list fvlan; fc_ports : list fport; fc_dp : list Z }.

(** dp.py 1200-1254 (resolve_acls): the uses, in the order they are built: the name, the
    port and the VLAN *)
Definition use : Type := Z * (option Z * option Z).
Definition vlan_uses (v : fvlan) : list use := map (fun n => (n, (None, Some (fv_vid v)))) (fv_in v ++ fv_out v).
Definition port_uses (p : fport) : list use := map (fun n => (n, (Some (fp_num p), None))) (fp_in p).
Definition uses (c : fconf) : list use :=
  flat_map vlan_uses (fc_vlans c) ++ flat_map port_uses (fc_ports c) ++ map (fun n => (n, (None, None))) (fc_dp c).

(** dp.py 482-483, acl.py 277-280: a field is noted, with a mask if it ever has one *)
Definition note (types : list (field * bool)) (x : field * bool) : list (field * bool) :=
  match dict_get field_eqb (fst x) types with
  | Some _ => if snd x then dict_put field_eqb (fst x) (snd x) types else types
  | None => dict_put field_eqb (fst x) (snd x) types
  end.
Definition note_items (types : list (field * bool)) (m : fmatch) : list (field * bool) :=
  fold_left (fun ts i => note ts (fst i, has_mask i)) m types.
Definition inst_sets (l : list instruction) : list field :=
  flat_map (fun i => match i with Apply acts => set_fields_of acts | _ => [] end) l.
(** acl.py 237-281 (build): starts with nothing at each use *)
Definition build_place (u : option Z * option Z) (exact_match : bool) : AclModel.place :=
  AclModel.mkPlace wildcard_table [Goto OFPTT_ALL] [Goto OFPTT_ALL] (2 ^ 16 - 1) exact_match (fst u) (snd u).
Definition build (a : AclModel.acl) (u : option Z * option Z) : list (field * bool) * list field :=
  fold_left (fun r m => match m with
                        | FlowMod fm => (note_items (fst r) (fm_match fm), snd r ++ inst_sets (fm_inst fm))
                        | _ => r
                        end)
            (AclModel.build_acl_ofmsgs None false (build_place u (AclModel.al_exact a)) [a]) ([], []).
(** what is left of the last use *)
Definition built (c : fconf) (n : Z) : list (field * bool) * list field :=
  match find (fun u => fst u =? n) (rev (uses c)) with
  | Some u => build (fc_acls c n) (snd u)
  | None => ([], [])
  end.
(** dp.py 439-470: the ACLs of each table *)
Definition table_acls (c : fconf) (t : tname) : list Z :=
  match t with
  | PortAcl => match fc_dp c with [] => flat_map fp_in (fc_ports c) | l => l end
  | VlanAcl => flat_map fv_in (fc_vlans c)
  | EgressAcl => flat_map fv_out (fc_vlans c)
  | _ => []
  end.
(** dp.py 473-497 *)
Definition acl_decl (c : fconf) (t : tname) : option decl :=
  match table_acls c t with
  | [] => None
  | ns => Some (mkDecl (fold_left (fun ts n => fold_left note (fst (built c n)) ts) ns [])
                       (flat_map (fun n => snd (built c n)) ns)
                       (fold_left (fun _ n => AclModel.al_exact (fc_acls c n)) ns false))
  end.

(** what the ACL manager sees of the ports and VLANs *)
Definition avlan_of (c : fconf) (v : fvlan) : AclModel.avlan :=
  AclModel.mkAvlan (fv_vid v) (map (fc_acls c) (fv_in v)) (map (fc_acls c) (fv_out v)).
Definition aport_of (c : fconf) (p : fport) : AclModel.aport :=
  AclModel.mkAport (fp_num p) (map (fc_acls c) (fp_in p)) (fp_output_only p) (fp_dot1x p).
