(** * What tables accept *)

From Coq Require Import ZArith List Bool Lia.
From Verif Require Import PyBase PyBaseProofs PipelineModel OpenFlow TrimModel TableModel FloodModel FloodRulesModel HostCacheModel LearnModel L2Model L2ReloadModel FitModel FitSpec FitProofs FitAclProofs.
From Verif Require AclModel EgressModel.
Import ListNotations.
Open Scope Z_scope.

(** ** C87: rules fit the tables they are sent to *)

(** Whatever happens to a switch, in whatever state, every rule sent to it is for a table
    it has, matches on fields the table can match on, sets fields it can set, goes on to
    tables that follow it, and so passes the controller's own checks. *)
Theorem C87_switching : forall f cfg c st ev st' ms,
  laid_out f cfg -> d_high cfg <> 0 -> d_highest cfg <> 0 ->
  cstep cfg st ev = Some (st', ms) -> Forall (sent_ok f (declared cfg c)) ms.
Proof. intros f cfg c st ev st' ms L H1 H2 E. eapply step_ok; eauto. Qed.
Print Assumptions C87_switching.

(** The messages of a reload fit the tables of the old configuration or those of the new
    one.  A switch that is told what its tables can do is not reloaded unless they stay the
    same (valve.py 1892-1900). *)
Theorem C87_reload : forall f cfg cfg' c xp xv st st' ms,
  laid_out f cfg -> laid_out f cfg' ->
  d_high cfg <> 0 -> d_highest cfg <> 0 -> d_high cfg' <> 0 -> d_highest cfg' <> 0 ->
  warm_reload xp xv cfg cfg' st = Some (st', ms) ->
  Forall (fun m => sent_ok f (declared cfg c) m \/ sent_ok f (declared cfg' c) m) ms /\
  (has_externals cfg = has_externals cfg' -> any_restricted cfg = any_restricted cfg' -> Forall (sent_ok f (declared cfg c)) ms).
Proof.
  intros f cfg cfg' c xp xv st st' ms L L' A B A' B' E.
  pose proof (reload_ok f cfg cfg' c L L' A B A' B' xp xv st st' ms E) as H. split; [exact H|].
  intros Ee Er. eapply Forall_impl; [|exact H]. intros m [X|X]; [exact X|]. unfold declared in *. rewrite Ee, Er. exact X.
Qed.
Print Assumptions C87_reload.

Theorem C87_egress : forall f ec ext restricted c p n,
  included f Egress = true -> tb_id (EgressModel.ec_egress ec) = table_id f Egress -> EgressModel.ec_flood ec = table_id f Flood ->
  Forall (sent_ok f (declare ext restricted (acl_decl c)))
    (EgressModel.eg_default ec ++ EgressModel.eg_add ec p ++ EgressModel.eg_del ec n).
Proof.
  intros f ec ext restricted c p n I Id Fl. apply Forall_app; split; [apply eg_default_ok; auto|].
  apply Forall_app; split; [apply eg_add_ok; auto|apply eg_del_ok; auto].
Qed.
Print Assumptions C87_egress.

(** The checks let nothing by but rules that fit, as far as matches and the tables that
    follow are concerned. *)
Theorem C87_checks : forall f D t fm, NoDup (map fst (de_match (D t))) -> NoDup (map fst (fm_match fm)) ->
  passes f D t fm = true ->
  (forall fd v m, In (fd, (v, m)) (fm_match fm) -> exists masks, In (fd, masks) (de_match (D t)) /\
    (fm_cmd fm <> FDelete -> fm_cmd fm <> FDeleteStrict -> m <> -1 -> masks = true)) /\
  (fm_cmd fm <> FDelete -> fm_cmd fm <> FDeleteStrict -> fm_prio fm = 0 -> fm_match fm = []) /\
  (fm_cmd fm <> FDelete -> fm_cmd fm <> FDeleteStrict -> de_exact (D t) = true -> fm_match fm <> [] ->
    forall fd b, In (fd, b) (de_match (D t)) -> In fd (map fst (fm_match fm))) /\
  (forall n, In (Goto n) (fm_inst fm) -> In n (map (table_id f) (next_tables f t)) \/
    (fm_match fm = [] /\ option_map (table_id f) (miss_goto f t) = Some n)).
Proof. exact checks_sound. Qed.
Print Assumptions C87_checks.

(** *** A case *)

Definition fx_features : features := mkFeatures false false false false false false true false false false.
Definition fx_port (n : Z) (hairpin ext restricted : bool) : pconf :=
  mkPconf n true (Some 100) [] hairpin hairpin true 0 false false ext restricted [] false false 255 true false false true.
Definition fx_cfg (ps : list pconf) (highest : Z) : dconf :=
  mkDconf ps [mkVconf 100 true 255 0x0e0000000001]
    (mkTable 0 7 0) (mkTable 1 7 0) (mkTable 2 7 0) (mkTable 3 7 0) (mkTable 4 7 0)
    Multi 0 0xf000 highest 300 0 10 false 10 30 true true (fun _ => 3).
Definition fx_none : fconf := mkFconf (fun _ => AclModel.mkAcl [] false) [] [] [].

(** One port hairpins, one is external and one is restricted: the hypotheses hold, and
    connecting sends a flood rule that matches on the Ethernet type and a VLAN rule that
    sets the VLAN priority. *)
Definition fx_three : dconf := fx_cfg [fx_port 1 true false false; fx_port 2 false true false; fx_port 3 false false true] 0xf001.
Definition flow_with (P : flowmod -> bool) (m : ofmsg) : bool := match m with FlowMod fm => P fm | _ => false end.
Definition has_field (fd : field) (fm : flowmod) : bool := existsb (fun i => field_eqb fd (fst i)) (fm_match fm).
Example ex_fits :
  laid_out fx_features fx_three /\ d_high fx_three <> 0 /\ d_highest fx_three <> 0 /\
  match cstep fx_three dstate_init (CConnect 10 [1; 2; 3]) with
  | Some (_, ms) =>
      existsb (flow_with (fun fm => (fm_table fm =? table_id fx_features Flood) && has_field EthType fm)) ms = true /\
      existsb (flow_with (fun fm => (fm_table fm =? table_id fx_features Vlan)
                                    && existsb (field_eqb VlanPcp) (inst_sets (fm_inst fm)))) ms = true
  | None => False
  end.
Proof.
  split; [constructor; reflexivity|]. split; [discriminate|]. split; [discriminate|]. vm_compute. split; reflexivity.
Qed.

(** Of a reload: port 4 is added. *)
Example ex_reload_fits :
  let cfg' := reconf fx_three (d_ports fx_three ++ [fx_port 4 false false false]) (d_vlans fx_three) in
  laid_out fx_features fx_three /\ laid_out fx_features cfg' /\
  has_externals fx_three = has_externals cfg' /\ any_restricted fx_three = any_restricted cfg' /\
  match cstep fx_three dstate_init (CConnect 10 [1; 2; 3; 4]) with
  | Some (st, _) => match warm_reload [] [] fx_three cfg' st with Some (_, ms) => (Nat.ltb 10 (length ms)) = true | None => False end
  | None => False
  end.
Proof. split; [constructor; reflexivity|]. split; [constructor; reflexivity|]. vm_compute. repeat split; reflexivity. Qed.

(** *** Findings *)

(** With use_classification the first rules go to the classification table, which can
    match on nothing (faucet_pipeline.py 143-149): the check fails when the switch
    connects, whatever else is configured. *)
Theorem C87_classification_refuted : forall f ext restricted c drop_bcast tb,
  exists fm, In (FlowMod fm) (pipeline_filters tb drop_bcast) /\
    passes f (declare ext restricted (acl_decl c)) Classification fm = false.
Proof.
  intros f ext restricted c b tb. exists (tb_drop tb (FILTER_PRIORITY + 10) [exact EthType ETH_TYPE_ECTP] 0). split.
  - apply in_app_iff. right. left. reflexivity.
  - reflexivity.
Qed.
Print Assumptions C87_classification_refuted.

(** A configured highest_priority of 0 (dp.py 664-667 fills it in only if it is not given):
    connecting fails the checks. *)
Theorem C87_priority_refuted :
  exists f cfg, laid_out f cfg /\ d_high cfg <> 0 /\
  match cstep cfg dstate_init (CConnect 10 [1; 2]) with
  | Some (_, ms) => exists fm, In (FlowMod fm) ms /\
      forall t, included f t = true -> fm_table fm = table_id f t -> passes f (declared cfg fx_none) t fm = false
  | None => False
  end.
Proof.
  exists fx_features, (fx_cfg [fx_port 1 true false false; fx_port 2 false false false] 0). split; [constructor; reflexivity|].
  split; [discriminate|].
  assert (X : match cstep (fx_cfg [fx_port 1 true false false; fx_port 2 false false false] 0) dstate_init (CConnect 10 [1; 2]) with
    | Some (_, ms) => existsb (flow_with (fun fm => (fm_prio fm =? 0) && negb (is_flowdel fm) && negb (no_items (fm_match fm)))) ms
    | None => false end = true) by (vm_compute; reflexivity).
  destruct (cstep _ dstate_init _) as [[st ms]|]; [|discriminate]. apply existsb_exists in X as (m & Hm & X).
  destruct m; try discriminate. cbn in X. apply andb_true_iff in X as [X Z]. apply andb_true_iff in X as [X Y].
  eexists. split; [exact Hm|]. intros t _ _. unfold passes, verify_flowmod. apply negb_true_iff in Y. rewrite Y, X, Z. reflexivity.
Qed.
Print Assumptions C87_priority_refuted.

(** The fields that rules set are checked only in rules that go on to no other table
    (valve_table.py 206-215). *)
Theorem C87_sets_unchecked_refuted :
  exists f D t fm, included f t = true /\ passes f D t fm = true /\
    exists acts fd v, In (Apply acts) (fm_inst fm) /\ In (SetField fd v) acts /\ ~ In fd (de_set (D t)).
Proof.
  exists fx_features, (declared fx_three fx_none), Vlan,
    (mkFlowMod FAdd 0 1 [exact InPort 1] 0 0 0 [Apply [SetField Ipv4Dst 1]; Goto 1] 0 0 0).
  split; [reflexivity|]. split; [vm_compute; reflexivity|].
  exists [SetField Ipv4Dst 1], Ipv4Dst, 1. split; [left; reflexivity|]. split; [left; reflexivity|].
  vm_compute. intros [X|[X|[]]]; discriminate.
Qed.
Print Assumptions C87_sets_unchecked_refuted.

(** ** C88: rules of ACLs fit the tables made for them *)

(** If no ACL is used at two kinds of place, none asks for exact matches, and no place has
    more rules than there are priorities: whatever happens, the rules of ACLs, and those of
    ports and VLANs without ACLs, fit the tables that were made for the ACLs and pass the
    controller's own checks. *)
Theorem C88_acls : forall f c am ext restricted lowest e,
  separate c -> ordinary c -> few c -> acl_pipeline f c am -> event_of_conf c e ->
  Forall (sent_ok f (declare ext restricted (acl_decl c))) (AclModel.abatch am lowest e).
Proof. intros f c am ext restricted lowest e S O F P E. eapply abatch_ok; eauto. Qed.
Print Assumptions C88_acls.

(** *** A case *)

Definition fy_features : features := mkFeatures true true true false false false false false false false.
Definition fy_rule (attrs : list (AclModel.attr * (Z * Z))) (sets : list (field * Z)) : AclModel.rule :=
  AclModel.mkRule attrs None (Some (AclModel.mkActions (Some 1) None None None (Some (AclModel.Ordered [AclModel.OSet sets])) None)).
(** ACL 1 matches a network and rewrites the destination, ACL 2 matches a type, ACL 3
    matches a type in an exact-match table. *)
Definition fy_acls (n : Z) : AclModel.acl :=
  if n =? 1 then AclModel.mkAcl [fy_rule [((false, EthType), (0x800, -1)); ((false, Ipv4Dst), (0x0a000000, 0xff000000))] [(EthDst, 0x0e)];
                                 fy_rule [] []] false
  else AclModel.mkAcl [fy_rule [((false, EthType), (0x806, -1))] []] (n =? 3).
Definition fy_am (c : fconf) : AclModel.amanager :=
  AclModel.mkAmanager (map (fc_acls c) (fc_dp c)) (Some (mkTable 0 7 0)) (Some (mkTable 2 7 0)) (Some (mkTable 5 7 0)) false 1 3 4 6.
Definition fy_conf : fconf :=
  mkFconf fy_acls [mkFvlan 100 [1] [2]; mkFvlan 200 [] [1]] [mkFport 1 [4] false false; mkFport 2 [] false false] [].
Ltac few_ := split; [|split; [|vm_compute; discriminate]]; (let x := fresh "x" in let Hx := fresh "Hx" in
  intros x Hx; cbn in Hx; repeat destruct Hx as [<-|Hx]; try destruct Hx; vm_compute; try split; discriminate).
Ltac ord_ := let u := fresh "u" in let H := fresh "Hu" in let r := fresh "r" in let Hr := fresh "Hr" in let a := fresh "a" in let Ha := fresh "Ha" in
  intros u H; cbn in H; repeat destruct H as [<-|H]; try destruct H; (split; [discriminate|]; split; [reflexivity|];
    intros r Hr a Ha; cbn in Hr; repeat destruct Hr as [<-|Hr]; try destruct Hr; cbn in Ha; injection Ha as <-; cbn;
    intros t X; repeat destruct X as [X|X]; try discriminate; destruct X).
Example ex_acls :
  separate fy_conf /\ ordinary fy_conf /\ few fy_conf /\ acl_pipeline fy_features fy_conf (fy_am fy_conf) /\
  event_of_conf fy_conf (AclModel.AConnect (map (avlan_of fy_conf) (fc_vlans fy_conf)) (map (aport_of fy_conf) (fc_ports fy_conf))) /\
  existsb (flow_with (fun fm => (fm_table fm =? table_id fy_features VlanAcl) && has_field Ipv4Dst fm && has_field VlanVid fm
                                && existsb (field_eqb EthDst) (inst_sets (fm_inst fm))))
    (AclModel.abatch (fy_am fy_conf) 0 (AclModel.AConnect (map (avlan_of fy_conf) (fc_vlans fy_conf)) (map (aport_of fy_conf) (fc_ports fy_conf)))) = true.
Proof.
  split; [|split; [|split; [|split; [|split]]]].
  - intros u u' H H' E. cbn in H, H'. repeat destruct H as [<-|H]; try destruct H; repeat destruct H' as [<-|H']; try destruct H';
      cbn in E; try discriminate; reflexivity.
  - ord_.
  - few_.
  - constructor; try reflexivity; intros t E; injection E as <-; cbn; repeat split; discriminate.
  - split; intros x H; apply in_map_iff in H as (y & <- & H); exists y; auto.
  - vm_compute. reflexivity.
Qed.

(** *** Findings *)

(** An ACL used by a VLAN and by a port: the table of VLANs' ACLs does not know VLANs,
    because what is noted of the ACL is what its last use (the port) matched on.  The
    check fails when the switch connects. *)
Definition fz_shared : fconf := mkFconf fy_acls [mkFvlan 100 [2] [2]] [mkFport 1 [2] false false] [].
Definition all_conf (c : fconf) : AclModel.aevent :=
  AclModel.AConnect (map (avlan_of c) (fc_vlans c)) (map (aport_of c) (fc_ports c)).
Definition fails (f : features) (c : fconf) (fm : flowmod) : Prop :=
  forall t, included f t = true -> fm_table fm = table_id f t ->
    forall ext restricted, passes f (declare ext restricted (acl_decl c)) t fm = false.
Theorem C88_shared_refuted :
  exists f c am, ordinary c /\ few c /\ acl_pipeline f c am /\ event_of_conf c (all_conf c) /\
    exists fm, In (FlowMod fm) (AclModel.abatch am 0 (all_conf c)) /\ fails f c fm.
Proof.
  exists fy_features, fz_shared, (fy_am fz_shared). split; [ord_|]. split; [few_|].
  split; [constructor; try reflexivity; intros t E; injection E as <-; cbn; repeat split; discriminate|].
  split; [split; intros x H; apply in_map_iff in H as (y & <- & H); exists y; auto|].
  exists (AclModel.tb_add_cookie (mkTable 2 7 0) None 0x5000 [exact EthType 0x806; exact VlanVid (vid_present 100)] [Goto 3]).
  split; [vm_compute; tauto|].
  intros t It E ext restricted. assert (T : t = VlanAcl) by (destruct t; vm_compute in It, E; try discriminate; reflexivity).
  subst t. destruct ext, restricted; vm_compute; reflexivity.
Qed.
Print Assumptions C88_shared_refuted.

(** A port with an ACL for an exact-match table, and a port without ACLs: the rule that
    lets the second port's packets pass does not match on everything. *)
Definition fz_exact : fconf := mkFconf fy_acls [mkFvlan 100 [2] [2]] [mkFport 1 [3] false false; mkFport 2 [] false false] [].
Theorem C88_exact_refuted :
  exists f c am, separate c /\ few c /\ acl_pipeline f c am /\ event_of_conf c (all_conf c) /\
    exists fm, In (FlowMod fm) (AclModel.abatch am 0 (all_conf c)) /\ fails f c fm.
Proof.
  exists fy_features, fz_exact, (fy_am fz_exact). split.
  { intros u u' H H' E. cbn in H, H'. repeat destruct H as [<-|H]; try destruct H; repeat destruct H' as [<-|H']; try destruct H';
      cbn in E; try discriminate; reflexivity. }
  split; [few_|].
  split; [constructor; try reflexivity; intros t E; injection E as <-; cbn; repeat split; discriminate|].
  split; [split; intros x H; apply in_map_iff in H as (y & <- & H); exists y; auto|].
  exists (tb_add (mkTable 0 7 0) 0x5000 [exact InPort 2] [Goto 1]).
  split; [vm_compute; tauto|].
  intros t It E ext restricted. assert (T : t = PortAcl) by (destruct t; vm_compute in It, E; try discriminate; reflexivity).
  subst t. destruct ext, restricted; vm_compute; reflexivity.
Qed.
Print Assumptions C88_exact_refuted.

(** The number of rules is not checked: the rule after 0x5000 others has priority 0. *)
Definition fz_many : fconf :=
  mkFconf (fun _ => AclModel.mkAcl (repeat (fy_rule [] []) (Z.to_nat 0x5001)) false) [mkFvlan 100 [2] [2]] [mkFport 1 [3] false false] [].
Theorem C88_many_refuted :
  exists f c am, separate c /\ acl_pipeline f c am /\ event_of_conf c (all_conf c) /\
    exists fm, In (FlowMod fm) (AclModel.abatch am 0 (all_conf c)) /\ fails f c fm.
Proof.
  exists fy_features, fz_many, (fy_am fz_many). split.
  { intros u u' H H' E. cbn in H, H'. repeat destruct H as [<-|H]; try destruct H; repeat destruct H' as [<-|H']; try destruct H';
      cbn in E; try discriminate; reflexivity. }
  split; [constructor; try reflexivity; intros t E; injection E as <-; cbn; repeat split; discriminate|].
  split; [split; intros x H; apply in_map_iff in H as (y & <- & H); exists y; auto|].
  assert (X : existsb (flow_with (fun fm => (fm_prio fm =? 0) && negb (is_flowdel fm) && negb (no_items (fm_match fm))))
    (AclModel.abatch (fy_am fz_many) 0 (all_conf fz_many)) = true) by (vm_compute; reflexivity).
  apply existsb_exists in X as (m & Hm & X). destruct m; try discriminate. eexists. split; [exact Hm|].
  cbn in X. apply andb_true_iff in X as [X Z]. apply andb_true_iff in X as [X Y].
  intros t _ _ ext restricted. unfold passes, verify_flowmod. apply negb_true_iff in Y. rewrite Y, X, Z. reflexivity.
Qed.
Print Assumptions C88_many_refuted.
