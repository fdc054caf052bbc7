(** * What the router sends of its own accord: theorems (C94) *)
From Coq Require Import List Bool ZArith Lia.
From Verif Require Import PyBase PyBaseProofs IpModel FloodModel FloodSpec FloodProofs AskModel AskSpec AskProofs.
Import ListNotations.
Open Scope Z_scope.

Lemma asks_same : forall mac me gw whom f g,
  asks mac me gw whom f -> asks mac me gw whom g -> fa_tag f = fa_tag g -> f = g.
Proof.
  intros mac me gw whom [s d t b] [s' d' t' b'] [A B] [A' B'] T. cbn [fa_src fa_dst fa_tag fa_body] in *.
  destruct (ip_ver gw =? 4); [|destruct whom]; destruct B, B'; congruence.
Qed.
Lemma tag_on_same : forall v q t t', In q (members v) -> tag_on v q t -> tag_on v q t' -> t = t'.
Proof.
  intros v q t t' M [A B] [A' B']. apply in_app_or in M. destruct M as [M|M].
  - rewrite (A M), (A' M). reflexivity.
  - rewrite (B M), (B' M). reflexivity.
Qed.

(** To find a gateway in a subnet of the VLAN, the router asks for it from its address
    in that subnet: on every port of the VLAN that runs, tagged as the port is, on one
    port of each LAG, and over the links of the stack in use; and nowhere else. *)
Theorem C94_resolve : forall running sv v gw tried known,
  wf_vlan (a_vlan v) -> (exists p, In p (a_vips v) /\ ip_in_net gw (vip_net p) = true) ->
  a_targeted v = false \/ tried = true \/ known = None ->
  exists p, In p (a_vips v) /\ ip_in_net gw (vip_net p) = true /\
  forall n f, In (n, f) (resolve_gateway_flows running sv v gw tried known) <->
    asks (a_mac v) (v_ip p) gw None f /\
    ((stack_link running sv n /\ fa_tag f = Some (v_vid (a_vlan v))) \/
     exists q, reached running (a_vlan v) q /\ p_num q = n /\ tag_on (a_vlan v) q (fa_tag f)).
Proof.
  intros running sv v gw tried known WF [p0 [H0 C0]] D. unfold resolve_gateway_flows.
  destruct (find (fun p => ip_in_net gw (vip_net p)) (a_vips v)) as [p|] eqn:F.
  2:{ pose proof (find_none _ _ F p0 H0) as X. cbn in X. congruence. }
  apply find_some in F. destruct F as [Hp Cp]. exists p. split; [exact Hp|]. split; [exact Cp|].
  intros n f.
  replace (match a_targeted v && negb tried, known with
           | true, Some (q, mac) => [resolve_gw_on_port v q p gw mac]
           | _, _ => resolve_gw_on_vlan running sv v p gw
           end) with (resolve_gw_on_vlan running sv v p gw)
    by (destruct D as [D|[D|D]]; destruct (a_targeted v), tried, known as [[? ?]|]; try discriminate D; reflexivity).
  unfold resolve_gw_on_vlan. rewrite in_app_iff, stack_links_in, (flood_pkt_in _ _ _ _ _ WF).
  pose proof (fun vid => gw_resolve_asks vid (a_mac v) (v_ip p) gw None I) as A. cbn zeta in A.
  split.
  - intros [[H ->]|(q & t & R & E & T & ->)].
    + destruct (A (Some (v_vid (a_vlan v)))) as [A1 A2]. split; [exact A1|]. left. split; [exact H|exact A2].
    + destruct (A t) as [A1 A2]. split; [exact A1|]. right. exists q.
      split; [exact R|]. split; [exact E|]. rewrite A2. exact T.
  - intros [A0 [[H T]|(q & R & E & T)]].
    + left. split; [exact H|]. destruct (A (Some (v_vid (a_vlan v)))) as [A1 A2].
      apply (asks_same _ _ _ _ _ _ A0 A1). congruence.
    + right. exists q, (fa_tag f). split; [exact R|]. split; [exact E|]. split; [exact T|].
      destruct (A (fa_tag f)) as [A1 A2]. apply (asks_same _ _ _ _ _ _ A0 A1). congruence.
Qed.
Print Assumptions C94_resolve.

(** No port is asked twice. *)
Theorem C94_once : forall running sv v gw tried known,
  wf_vlan (a_vlan v) ->
  (forall s, sv = Some s -> NoDup (sv_away s) /\
     forall n q, In n (sv_away s) \/ sv_chosen s = Some n -> In q (members (a_vlan v)) -> p_num q <> n) ->
  NoDup (map fst (resolve_gateway_flows running sv v gw tried known)).
Proof.
  intros running sv v gw tried known WF ST. unfold resolve_gateway_flows.
  destruct (find _ _) as [p|]; [|constructor].
  assert (ND : NoDup (map fst (resolve_gw_on_vlan running sv v p gw))).
  { unfold resolve_gw_on_vlan. rewrite map_app. apply NoDup_app_intro.
    - unfold flood_stack_links. destruct sv as [s|]; [|constructor]. destruct (ST s eq_refl) as [N _].
      rewrite map_map. cbn [fst]. rewrite map_id. apply NoDup_filter.
      destruct (sv_root s); [apply NoDup_filter; exact N|].
      destruct (sv_chosen s); repeat constructor. intros [].
    - apply flood_pkt_once. exact WF.
    - intros n H1 H2. apply in_map_iff in H1, H2. destruct H1 as [[n1 f1] [E1 H1]].
      destruct H2 as [[n2 f2] [E2 H2]]. cbn in E1, E2. subst n1 n2.
      apply stack_links_in in H1. destruct H1 as [(s & Es & _ & H1) _].
      apply (flood_pkt_in _ _ _ _ _ WF) in H2. destruct H2 as (q & t & [M _] & E & _).
      destruct (ST s Es) as [_ X]. apply (X n q); [|exact M|exact E].
      destruct (sv_root s); [left; apply H1|right; exact H1]. }
  destruct (a_targeted v && negb tried); [|exact ND].
  destruct known as [[q mac]|]; [|exact ND]. repeat constructor. intros [].
Qed.
Print Assumptions C94_once.

(** With targeted_gw_resolution, a gateway last seen at a port is first asked there and
    by its own address. *)
Theorem C94_targeted : forall running sv v gw q mac,
  wf_vlan (a_vlan v) -> (exists p, In p (a_vips v) /\ ip_in_net gw (vip_net p) = true) ->
  a_targeted v = true -> In q (members (a_vlan v)) -> one_host mac ->
  exists p f, In p (a_vips v) /\ ip_in_net gw (vip_net p) = true /\
    resolve_gateway_flows running sv v gw false (Some (q, mac)) = [(p_num q, f)] /\
    asks (a_mac v) (v_ip p) gw (Some mac) f /\ tag_on (a_vlan v) q (fa_tag f).
Proof.
  intros running sv v gw q mac WF [p0 [H0 C0]] T M OH. unfold resolve_gateway_flows.
  destruct (find (fun p => ip_in_net gw (vip_net p)) (a_vips v)) as [p|] eqn:F.
  2:{ pose proof (find_none _ _ F p0 H0) as X. cbn in X. congruence. }
  apply find_some in F. destruct F as [Hp Cp]. rewrite T. cbn [andb negb].
  eexists. eexists. split; [exact Hp|]. split; [exact Cp|]. split; [reflexivity|].
  destruct (gw_resolve_asks (if in_ports q (v_tagged (a_vlan v)) then Some (v_vid (a_vlan v)) else None)
              (a_mac v) (v_ip p) gw (Some mac) OH) as [A1 A2].
  split; [exact A1|]. cbn zeta in A2. rewrite A2. split.
  - intro X. rewrite (in_ports_self _ _ X). reflexivity.
  - intro X. destruct (in_ports q (v_tagged (a_vlan v))) eqn:E; [|reflexivity]. exfalso.
    apply in_ports_spec in E. destruct E as [r [Hr E]].
    pose proof (wf_nodup _ WF) as ND. unfold members in ND. rewrite map_app in ND.
    apply (NoDup_app_disj _ _ _ (p_num q) ND); [rewrite <- E|]; apply in_map; assumption.
Qed.
Print Assumptions C94_targeted.

(** Nobody is asked for an address outside the VLAN's subnets. *)
Theorem C94_unconnected : forall running sv v gw tried known,
  (forall p, In p (a_vips v) -> ip_in_net gw (vip_net p) = false) ->
  resolve_gateway_flows running sv v gw tried known = [].
Proof.
  intros running sv v gw tried known H. unfold resolve_gateway_flows.
  destruct (find _ _) as [p|] eqn:F; [|reflexivity].
  apply find_some in F. destruct F as [F1 F2]. rewrite (H p F1) in F2. discriminate.
Qed.
Print Assumptions C94_unconnected.

(** The rule for neighbour solicitations for one of the router's addresses matches the
    address hosts send them to. *)
Theorem C94_vip_group : forall p, vip_nd_mcast p = group_mac (group_of (ip_val (v_ip p))).
Proof. exact vip_nd_ok. Qed.
Print Assumptions C94_vip_group.

(** From each link-local address of the router on the VLAN, one advertisement goes out of
    every port of the VLAN that runs (one port of each LAG), to all nodes, with the
    subnets of its other IPv6 addresses; and nothing else is advertised. *)
Theorem C94_advertise : forall running v n f, wf_vlan (a_vlan v) ->
  (In (n, f) (advertise running v) <->
   exists p q, In p (a_vips v) /\ ip_ver (v_ip p) = 6 /\ is_link_local (v_ip p) = true /\
     reached running (a_vlan v) q /\ p_num q = n /\ tag_on (a_vlan v) q (fa_tag f) /\
     fa_src f = a_mac v /\ fa_dst f = 0x333300000001 /\
     fa_body f = RouterAdvert (v_ip p) (mkIp 6 0xff020000000000000000000000000001)
       (map vip_net (filter (fun o => (ip_ver (v_ip o) =? 6) && negb (is_link_local (v_ip o))) (a_vips v)))
       (a_mac v)).
Proof.
  intros running v n f WF. unfold advertise. rewrite in_flat_map, !filter_filter. split.
  - intros (p & Hp & H). apply filter_In in Hp. destruct Hp as [Hp LL]. apply andb_true_iff in LL.
    destruct LL as [V6 LL]. apply Z.eqb_eq in V6.
    apply (flood_pkt_in _ _ _ _ _ WF) in H. destruct H as (q & t & R & E & T & ->).
    exists p, q. repeat (split; [assumption || reflexivity|]). reflexivity.
  - intros (p & q & Hp & V6 & LL & R & E & T & F1 & F2 & F3).
    exists p. split.
    + apply filter_In. split; [exact Hp|]. rewrite V6, LL. reflexivity.
    + apply (flood_pkt_in _ _ _ _ _ WF). exists q, (fa_tag f).
      split; [exact R|]. split; [exact E|]. split; [exact T|].
      destruct f as [s d t b]. cbn [fa_src fa_dst fa_tag fa_body] in *. subst. reflexivity.
Qed.
Print Assumptions C94_advertise.

(** ** Cases *)
Definition ax_port (n lag : Z) (sel ext : bool) (dot1x : option Z) : port :=
  mkPort n false true lag sel sel true ext false [] dot1x.
Definition ax_vlan (tagged untagged : list port) : vlan := FloodModel.mkVlan 100 tagged untagged [] true.
Definition ax_gw : ip := mkIp 6 0xfc000000000000000000000000123456.
Definition ax_vips : list vip :=
  [mkVip (mkIp 6 0xfe800000000000000000000000000001) 64; mkVip (mkIp 6 0xfc000000000000000000000000000001) 64].
Definition ax_all : Z -> bool := fun _ => true.
Definition ax_v (untagged : list port) : avlan :=
  mkAvlan (ax_vlan [ax_port 1 0 false false None; ax_port 2 5 false false None; ax_port 3 5 true false None] untagged)
    14 ax_vips true.
Ltac wf_small :=
  split;
  [ repeat constructor; cbn; intuition discriminate
  | intros a Ha; cbn in Ha; repeat destruct Ha as [<-|Ha]; try contradiction; vm_compute; intuition discriminate
  | intros a n Ha Hn; cbn in Ha; repeat destruct Ha as [<-|Ha]; try contradiction; cbn in Hn; contradiction ].
(** A gateway is looked for on a tagged port, on the selected port of a LAG and on an
    untagged port, then on the port and at the address it was last seen. *)
Example ex_ask :
  wf_vlan (a_vlan (ax_v [ax_port 4 0 false false None])) /\
  map (fun nf => (fst nf, fa_tag (snd nf), fa_dst (snd nf)))
    (resolve_gateway_flows ax_all None (ax_v [ax_port 4 0 false false None]) ax_gw false None) =
    [(1, Some 100, 0x3333ff123456); (3, Some 100, 0x3333ff123456); (4, None, 0x3333ff123456)] /\
  map (fun nf => (fst nf, fa_tag (snd nf), fa_dst (snd nf)))
    (resolve_gateway_flows ax_all None (ax_v [ax_port 4 0 false false None]) ax_gw false
      (Some (ax_port 4 0 false false None, 77))) = [(4, None, 77)] /\
  map fst (advertise ax_all (ax_v [ax_port 4 0 false false None])) = [1; 3; 4].
Proof. split; [wf_small|]. vm_compute. auto. Qed.

(** Finding: a port whose host 802.1X has put into another VLAN still gets what the
    router sends to the port's native VLAN, although nothing is flooded there from that
    VLAN: the host is told of the wrong routers and subnets. *)
Theorem C94_dot1x_refuted : exists v q, wf_vlan (a_vlan v) /\ In q (members (a_vlan v)) /\
  (forall u e r i, ~ eligible (a_vlan v) u e r i q) /\
  exists f, In (p_num q, f) (advertise ax_all v).
Proof.
  exists (ax_v [ax_port 4 0 false false (Some 200)]), (ax_port 4 0 false false (Some 200)).
  split; [wf_small|]. split; [cbn; auto|]. split.
  - intros u e r i (_ & _ & _ & _ & _ & _ & H). destruct H as [H|H]; [left; reflexivity|discriminate|discriminate].
  - eexists. vm_compute. right. right. left. reflexivity.
Qed.
Print Assumptions C94_dot1x_refuted.

(** Finding: floods reach the network behind ports with loop_protect_external over one
    such port only; what the router sends goes there over all of them. *)
Theorem C94_external_refuted : exists v q, wf_vlan (a_vlan v) /\ In q (members (a_vlan v)) /\
  p_external q = true /\ p_phys_up q = true /\ (forall u e r i, ~ eligible (a_vlan v) u e r i q) /\
  exists f, In (p_num q, f) (resolve_gateway_flows ax_all None v ax_gw false None).
Proof.
  exists (ax_v [ax_port 4 0 false true None; ax_port 5 0 false true None]), (ax_port 5 0 false true None).
  split; [wf_small|]. split; [cbn; auto 10|]. split; [reflexivity|]. split; [reflexivity|]. split.
  - intros u e r i (_ & _ & _ & _ & H & _). destruct (H eq_refl eq_refl) as (_ & C & _).
    specialize (C (ax_port 4 0 false true None) ltac:(cbn; auto 10) eq_refl eq_refl). vm_compute in C. congruence.
  - eexists. vm_compute. right. right. right. left. reflexivity.
Qed.
Print Assumptions C94_external_refuted.
