(** * What it means for a rule to fit a table *)

From Coq Require Import ZArith List Bool.
From Verif Require Import OpenFlow PipelineModel TableModel FitModel.
From Verif Require AclModel L2Model EgressModel.
Import ListNotations.
Open Scope Z_scope.

(** A table can match on [types], with masks where the boolean is true; if [is_exact], a
    rule must match on all of them.  It can set the fields [sets] and send packets to the
    tables [next], and packets that match nothing to [miss]. *)
Record table_fits (types : list (field * bool)) (sets : list field) (is_exact : bool)
       (next : list Z) (miss : option Z) (fm : flowmod) : Prop := {
  tf_items : forall fd v m, In (fd, (v, m)) (fm_match fm) ->
    exists masks, In (fd, masks) types /\ (m <> -1 -> masks = true);
  tf_once : NoDup (map fst (fm_match fm));
  tf_default : fm_cmd fm <> FDelete -> fm_cmd fm <> FDeleteStrict -> fm_prio fm = 0 -> fm_match fm = [];
  tf_exact : fm_cmd fm <> FDelete -> fm_cmd fm <> FDeleteStrict -> is_exact = true -> fm_match fm <> [] ->
    forall fd b, In (fd, b) types -> In fd (map fst (fm_match fm));
  tf_sets : forall acts fd v, In (Apply acts) (fm_inst fm) -> In (SetField fd v) acts -> In fd sets;
  tf_gotos : forall n, In (Goto n) (fm_inst fm) -> In n next \/ (fm_match fm = [] /\ miss = Some n)
}.

(** The declaration [D] of the tables of the pipeline of [f], and what follows what there *)
Definition fits (f : features) (D : tname -> decl) (t : tname) (fm : flowmod) : Prop :=
  table_fits (de_match (D t)) (de_set (D t)) (de_exact (D t)) (map (table_id f) (next_tables f t))
             (option_map (table_id f) (miss_goto f t)) fm.

(** A message is a deletion in all tables, or is for a table there is, fits it and passes
    the controller's own checks. *)
Definition sent_ok (f : features) (D : tname -> decl) (m : ofmsg) : Prop :=
  match m with
  | FlowMod fm =>
      (fm_table fm = OFPTT_ALL /\ (fm_cmd fm = FDelete \/ fm_cmd fm = FDeleteStrict)) \/
      exists t, included f t = true /\ fm_table fm = table_id f t /\ fits f D t fm /\ passes f D t fm = true
  | _ => True
  end.

(** The tables are where the pipeline puts them, and there are no egress ACLs. *)
Record laid_out (f : features) (cfg : L2Model.dconf) : Prop := {
  lo_vlan : tb_id (L2Model.d_tvlan cfg) = table_id f Vlan;
  lo_src : tb_id (L2Model.d_tsrc cfg) = table_id f PipelineModel.EthSrc;
  lo_hp : L2Model.has_hairpin cfg = true -> tb_id (L2Model.d_thp cfg) = table_id f Hairpin;
  lo_dst : tb_id (L2Model.d_tdst cfg) = table_id f PipelineModel.EthDst;
  lo_flood : tb_id (L2Model.d_tflood cfg) = table_id f Flood;
  lo_hairpin : ft_hairpin f = L2Model.has_hairpin cfg;
  lo_egress : ft_egress_acl f = false
}.
(** What a switch with this configuration is told of its tables *)
Definition declared (cfg : L2Model.dconf) (c : fconf) : tname -> decl :=
  declare (L2Model.has_externals cfg) (L2Model.any_restricted cfg) (acl_decl c).

(** ** Access control lists *)

(** No two uses of an ACL are of different kinds: at a VLAN, at a port, at the datapath. *)
Definition kind (u : option Z * option Z) : bool * bool :=
  (match fst u with Some _ => true | None => false end, match snd u with Some _ => true | None => false end).
Definition separate (c : fconf) : Prop :=
  forall u u', In u (uses c) -> In u' (uses c) -> fst u = fst u' -> kind (snd u) = kind (snd u').

(** A rule sends packets nowhere but where "allow" does ("goto" is no key of the
    configuration). *)
Definition no_goto (r : AclModel.rule) : Prop :=
  forall a, AclModel.ru_actions r = Some a ->
    match AclModel.ac_output a with
    | Some (AclModel.Ordered l) => forall t, ~ In (AclModel.OGoto t) l
    | Some (AclModel.Unordered u) => AclModel.u_goto u = None
    | None => True
    end.

(** The ACLs that are used have rules, and do not ask for an exact-match table. *)
Definition ordinary (c : fconf) : Prop :=
  forall u, In u (uses c) ->
    AclModel.al_rules (fc_acls c (fst u)) <> [] /\ AclModel.al_exact (fc_acls c (fst u)) = false /\
    forall r, In r (AclModel.al_rules (fc_acls c (fst u))) -> no_goto r.

(** No place has more than 0x5000 rules. *)
Definition rules_of (c : fconf) (ns : list Z) : Z := Z.of_nat (length (flat_map (fun n => AclModel.al_rules (fc_acls c n)) ns)).
Definition few (c : fconf) : Prop :=
  (forall v, In v (fc_vlans c) -> rules_of c (fv_in v) <= 0x5000 /\ rules_of c (fv_out v) <= 0x5000) /\
  (forall p, In p (fc_ports c) -> rules_of c (fp_in p) <= 0x5000) /\ rules_of c (fc_dp c) <= 0x5000.

(** The ACL manager's tables and the tables it sends packets to are those of the
    pipeline of [f], which has the tables that [c] needs. *)
Record acl_pipeline (f : features) (c : fconf) (am : AclModel.amanager) : Prop := {
  ap_port_tab : forall t, AclModel.am_port am = Some t -> included f PortAcl = true /\ tb_id t = table_id f PortAcl;
  ap_vlan_tab : forall t, AclModel.am_vlan am = Some t ->
    included f VlanAcl = true /\ tb_id t = table_id f VlanAcl /\ flat_map fv_in (fc_vlans c) <> [];
  ap_egress_tab : forall t, AclModel.am_egress am = Some t ->
    included f EgressAcl = true /\ tb_id t = table_id f EgressAcl /\ flat_map fv_out (fc_vlans c) <> [];
  ap_dp : AclModel.am_dp_acls am = map (fc_acls c) (fc_dp c);
  ap_to_vlan : AclModel.am_to_vlan am = table_id f Vlan;
  ap_to_class : AclModel.am_to_class am = table_id f (classification_table f);
  ap_to_l2 : AclModel.am_to_l2 am = table_id f (output_table f);
  ap_to_egress : AclModel.am_to_egress am = table_id f Egress
}.

(** What happens, happens to ports and VLANs of the configuration. *)
Definition vlan_of_conf (c : fconf) (v : AclModel.avlan) : Prop := exists w, In w (fc_vlans c) /\ v = avlan_of c w.
Definition port_of_conf (c : fconf) (p : AclModel.aport) : Prop := exists q, In q (fc_ports c) /\ p = aport_of c q.
Definition event_of_conf (c : fconf) (e : AclModel.aevent) : Prop :=
  match e with
  | AclModel.AConnect vs ps => (forall v, In v vs -> vlan_of_conf c v) /\ (forall p, In p ps -> port_of_conf c p)
  | AclModel.APortUp p vs => port_of_conf c p /\ (forall v, In v vs -> vlan_of_conf c v)
  | AclModel.APortDown p | AclModel.APortAcl p => port_of_conf c p
  | AclModel.AVlans gone vs => forall v, In v vs -> vlan_of_conf c v
  end.
