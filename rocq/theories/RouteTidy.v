(** * Batches of routing messages take effect as if sent in order *)
From Coq Require Import ZArith List Bool Lia Permutation.
From Verif Require Import PyBase PyBaseProofs OpenFlow TrimModel TrimProofs TableModel ReorderModel ReorderSpec ReorderProofs BatchProofs
  FloodRulesProofs IpModel IpSpec IpProofs RouteModel RouteSpec RouteFib RouteRib RouteMicro RouteShape RouteInv RouteCalm.
Import ListNotations.
Open Scope Z_scope.

(** Whatever is deleted is written again. *)
Definition rewrites (ms : list ofmsg) : Prop :=
  forall f x, last_msg f ms = Some x -> exists w, x = FlowMod w /\ fm_cmd w = FAdd.
Definition noadds (ms : list ofmsg) : Prop := forall w, In (FlowMod w) ms -> fm_cmd w <> FAdd.
(** The deletes of [m2] are not for the slots of the adds of [m1]. *)
Definition away (m1 m2 : list ofmsg) : Prop :=
  forall w x, In (FlowMod w) m1 -> fm_cmd w = FAdd -> In (FlowMod x) m2 ->
    ~ (fm_table w = fm_table x /\ fm_prio w = fm_prio x /\ fm_match w = fm_match x).

Lemma rewrites_app m1 m2 : rewrites m1 -> rewrites m2 -> rewrites (m1 ++ m2).
Proof.
  intros H1 H2 f x. rewrite last_msg_app. destruct (last_msg f m2) as [y|] eqn:E; [|apply H1].
  intros X; injection X as <-. eapply H2; eauto.
Qed.
Lemma noadds_app m1 m2 : noadds m1 -> noadds m2 -> noadds (m1 ++ m2).
Proof. intros H1 H2 w I. apply in_app_iff in I as [I|I]; auto. Qed.

Lemma tidy_staged m1 m2 : rewrites m1 -> noadds m2 -> away m1 m2 -> tidy (m1 ++ m2).
Proof.
  intros R N A f d E Cd w Iw Cw. apply in_app_iff in Iw as [Iw|Iw]; [|exfalso; eapply N; eauto].
  rewrite last_msg_app in E. destruct (last_msg f m2) as [y|] eqn:E2.
  - injection E as ->. destruct (last_msg_in _ _ _ E2) as (x & X & Ix & Wx). injection X as <-.
    destruct (wslot w f) eqn:Ww; [|reflexivity]. exfalso. eapply A; eauto.
    apply wslot_spec in Wx as (A1 & A2 & A3). apply wslot_spec in Ww as (B1 & B2 & B3). repeat split; congruence.
  - destruct (R f _ E) as (x & X & Cx). injection X as <-. congruence.
Qed.

Section Tidy.
  Variable c : rconf.
  Hypothesis K : route_cfg c.
  Let L := linked c.
  Let api := fresh c.
  Notation mic := (micro c L api).
  Notation mics := (micros c L api).

  Lemma map_rewrites l d i h : rewrites (map (fun u => fib_add c u d i h) l).
  Proof.
    intros f x E. destruct (last_msg_in _ _ _ E) as (w & -> & I & _). apply in_map_iff in I as (u & X & _).
    exists w. split; [reflexivity|]. injection X as <-. reflexivity.
  Qed.
  Lemma resolved_rewrites v d e b : rewrites (add_resolved_route c v d e b).
  Proof.
    unfold add_resolved_route. destruct b; [|apply map_rewrites]. intros f x E. rewrite last_msg_app in E.
    destruct (last_msg f (map _ _)) as [y|] eqn:E2.
    - injection E as <-. eapply map_rewrites; eauto.
    - exfalso. destruct (last_msg_in _ _ _ E) as (w & -> & I & W). apply in_map_iff in I as (u & X & Iu). injection X as <-.
      assert (In (fib_add c u d (nexthop_inst c v e) 0) (map (fun u => fib_add c u d (nexthop_inst c v e) 0) (routed_vlans c v))) as J by (apply in_map_iff; eauto).
      pose proof (last_msg_none _ _ _ E2 J) as Y. apply wslot_spec in W as (A1 & A2 & A3).
      assert (wslot (tb_write (rc_fib c) FAdd (route_priority d) (route_match c u d) (nexthop_inst c v e) 0 0) f = true); [|congruence].
      apply wslot_spec. repeat split; assumption.
  Qed.
  Lemma flat_rewrites {A} (g : A -> list ofmsg) l : (forall x, rewrites (g x)) -> rewrites (flat_map g l).
  Proof. intros H. induction l as [|y l IH]; [intros f x E; discriminate|]. cbn [flat_map]. now apply rewrites_app. Qed.
  Lemma nil_rewrites : rewrites [].
  Proof. intros f x E. discriminate. Qed.

  Lemma micro_rewrites k s ms s' : mic k s ms s' -> writing k -> rewrites ms.
  Proof.
    intros M Nk. destruct M; try apply nil_rewrites.
    - unfold adds_if. destruct (cached_eth _ _); [apply resolved_rewrites|apply nil_rewrites].
    - destruct Nk.
    - unfold update_msgs. destruct (cached_eth _ _) as [e|]; [destruct (e =? eth)|]; try apply nil_rewrites; apply flat_rewrites; intros; apply resolved_rewrites.
    - apply rewrites_app; [apply map_rewrites|].
      assert (rewrites (adds_if c v' (host_net h) (cached_eth (s v') h))).
      { unfold adds_if. destruct (cached_eth _ _); [apply resolved_rewrites|apply nil_rewrites]. }
      destruct (dict_get _ _ _) as [g|]; [destruct (ip_eqb g h)|]; auto. apply nil_rewrites.
  Qed.
  Lemma micro_noadds k s ms s' : mic k s ms s' -> k <> KW -> noadds ms.
  Proof.
    intros M Nk. destruct M; try congruence; try (intros w []).
    - intros w I. apply in_map_iff in I as (u & X & _). injection X as <-. discriminate.
    - discriminate.
    - destruct H.
  Qed.
  Lemma micros_rewrites s ms s' : mics writing s ms s' -> rewrites ms.
  Proof. intros M. induction M; [apply nil_rewrites|]. apply rewrites_app; auto. eapply micro_rewrites; eauto. Qed.
  Lemma micros_noadds s ms s' : mics deleting s ms s' -> noadds ms.
  Proof. intros M. induction M; [intros w []|]. apply noadds_app; auto. eapply micro_noadds; eauto. Qed.

  Lemma tidy_w s ms s' : mics writing s ms s' -> tidy ms.
  Proof. intros M. rewrite <- (app_nil_r ms). apply tidy_staged; [eapply micros_rewrites; eauto|intros w []|intros w x _ _ []]. Qed.
  Lemma tidy_d s ms s' : mics deleting s ms s' -> tidy ms.
  Proof. intros M. change ms with ([] ++ ms). apply tidy_staged; [apply nil_rewrites|eapply micros_noadds; eauto|intros w x []]. Qed.

  (** ** A packet: what was learned is not expired at once *)

  (** Adds are for destinations behind [src]. *)
  Definition behind (src : ip) (d : net) : Prop := my_net c d /\ forall g v, d = host_net g -> on_link c v g -> g = src.
  Definition adds_behind (src : ip) (ms : list ofmsg) : Prop :=
    forall w, In (FlowMod w) ms -> fm_cmd w = FAdd -> exists u d i h, FlowMod w = fib_add c u d i h /\ behind src d.

  Lemma resolved_behind src v d e b : behind src d -> adds_behind src (add_resolved_route c v d e b).
  Proof.
    intros H w I Cw. unfold add_resolved_route in I. apply in_app_iff in I as [I|I].
    - destruct b; [|destruct I]. apply in_map_iff in I as (u & X & _). injection X as <-. discriminate.
    - apply in_map_iff in I as (u & X & _). exists u, d, (nexthop_inst c v e), 0. auto.
  Qed.

  Lemma learn_behind e now p s s' ms : both c s -> my_ip c (rp_src p) -> learn_from_pkt c e now p s = (s', ms) ->
    ms = [] \/ (adds_behind (rp_src p) ms /\
      dict_get ip_eqb (rp_src p) (r_neigh (s' (rp_vlan p))) = Some (new_nexthop (Some (rp_eth p)) (Some (rp_port p)) now)).
  Proof.
    intros Bo A. unfold learn_from_pkt. destruct (ip_in_vip_subnet _ _) eqn:V; cbn [andb].
    2:{ intros E; injection E as <- <-. now left. }
    destruct (stateful_gw _ _ && rp_ip p); [|intros E; injection E as <- <-; now left].
    unfold add_host_fib_route. destruct (add_route _ _ _ _ _) as [s1 m1] eqn:E1. cbn [app].
    pose proof (vip_subnet_linked c K _ _ A V) as Lk.
    assert (both c s1) as [B1 C1].
    { eapply micros_both; [ |exact Bo]. eapply (add_route_micros c K L api); [exact A|apply my_host, A|now left|exact E1]. }
    intros E; injection E as <- <-. right. split.
    - assert (adds_behind (rp_src p) m1) as H1.
      { assert (behind (rp_src p) (host_net (rp_src p))) as Bh.
        { split; [apply my_host, A|]. intros g v X _. apply host_net_inj in X. congruence. }
        unfold add_route in E1. destruct (router_vlan_for_gw _ _ _) as [v'|]; [|injection E1 as <- <-; intros w []].
        rewrite no_vip_net in E1.
        assert (forall e, adds_behind (rp_src p) (add_resolved_route c v' (host_net (rp_src p)) e false)) as R by (intros; now apply resolved_behind).
        destruct (dict_get _ _ _) as [g|].
        - destruct (ip_eqb g _); injection E1 as <- <-; [intros w []|]. destruct (cached_eth _ _); [apply R|intros w []].
        - injection E1 as <- <-. destruct (cached_eth _ _); [apply R|intros w []]. }
      assert (forall b, adds_behind (rp_src p) (flat_map (fun d => add_resolved_route c (rp_vlan p) d (rp_eth p) b) (dsts_for_gw (s1 (rp_vlan p)) (rp_src p)))) as H2.
      { intros b w I Cw. apply in_flat_map in I as (d & Id & I). eapply resolved_behind; [|exact I|exact Cw].
        split; [eapply (ba_net c L s1 B1); eauto|]. intros g v -> O.
        apply (ca_filed c s1 C1) in Id. symmetry. eapply (ca_host c s1 C1); eauto. }
      intros w I Cw. apply in_app_iff in I as [I|I]; [now apply H1|].
      destruct (cached_eth (s1 (rp_vlan p)) (rp_src p)) as [e0|]; [destruct (e0 =? rp_eth p); [destruct I|]|]; eapply H2; eauto.
    - rewrite upd_at. cbn. now rewrite ip_get_put, ip_eqb_refl.
  Qed.

  Lemma fresh_not_due e now p : resolution_due now (rc_timeout c) (new_nexthop (Some e) (Some p) now) = false.
  Proof.
    unfold resolution_due. cbn. pose proof (rk_timeout c K). replace (now - now) with 0 by lia.
    destruct (Z.ltb_spec 0 (rc_timeout c)); [reflexivity|lia].
  Qed.

  Lemma resolve_one_keeps e now v s s' ms tr src n : resolution_due now (rc_timeout c) n = false ->
    dict_get ip_eqb src (r_neigh (s v)) = Some n -> resolve_gateways c e now false v s = Some (s', ms, tr) ->
    dict_get ip_eqb src (r_neigh (s' v)) = Some n.
  Proof.
    intros Nd G. unfold resolve_gateways. destruct (r_todo_routes (s v)) as [|g t].
    { cbn. intros E; injection E as <- <- <-. exact G. }
    set (s1 := upd s v _). assert (dict_get ip_eqb src (r_neigh (s1 v)) = Some n) as G1 by (unfold s1; rewrite upd_at; exact G).
    clearbody s1. cbn [resolve_loop]. destruct (_ =? 0). { intros E; injection E as <- <- <-. exact G1. }
    destruct (dict_get ip_eqb g (r_neigh (s1 v))) as [n1|] eqn:Gg; [|intros E; injection E as <- <- <-; exact G1].
    destruct (resolution_due now _ n1) eqn:Du; [|intros E; injection E as <- <- <-; exact G1].
    assert (g <> src) as Ng by (intros ->; rewrite G1 in Gg; injection Gg as <-; congruence).
    unfold resolve_only. destruct (resolve_gateway c e now v g n1 (s1 v)) as [r m] eqn:E1.
    intros E; injection E as <- <- <-. rewrite upd_at. unfold resolve_gateway in E1.
    destruct (vlan_vip_map _ g); injection E1 as <- _; [|exact G1]. cbn. rewrite ip_get_put.
    destruct (ip_eqb g src) eqn:X; [apply ip_eqb_eq in X; contradiction|exact G1].
  Qed.

  Lemma expire_one e now v s s' ms tr src n : base c L s -> resolution_due now (rc_timeout c) n = false ->
    dict_get ip_eqb src (r_neigh (s v)) = Some n -> resolve_expire_hosts c e now false v s = Some (s', ms, tr) ->
    forall w, In (FlowMod w) ms -> exists g u, g <> src /\ linked c v g /\
      w = tb_del (rc_fib c) FDeleteStrict (route_priority (host_net g)) (route_match c u (host_net g)) OFPP_ANY.
  Proof.
    intros B Nd G. unfold resolve_expire_hosts. destruct (r_todo_hosts (s v)) as [|g t].
    { cbn. intros E; injection E as <- <- <-. intros w []. }
    set (s1 := upd s v _). assert (r_neigh (s1 v) = r_neigh (s v)) as G1 by (unfold s1; now rewrite upd_at).
    clearbody s1. cbn [resolve_loop]. destruct (_ =? 0). { intros E; injection E as <- <- <-. intros w []. }
    rewrite G1. destruct (dict_get ip_eqb g (r_neigh (s v))) as [n1|] eqn:Gg; [|intros E; injection E as <- <- <-; intros w []].
    destruct (resolution_due now _ n1) eqn:Du; [|intros E; injection E as <- <- <-; intros w []].
    assert (g <> src) as Ng by (intros ->; rewrite G in Gg; injection Gg as <-; congruence).
    pose proof (proj1 (ba_neigh c L s B v g n1 Gg)) as Lg.
    destruct (resolve_expire c e now s1 v g n1) as [[s2 m2]|] eqn:E1; [|discriminate].
    intros E; injection E as <- <- <-. rewrite app_nil_r. intros w I.
    unfold resolve_expire in E1. destruct (nh_dead _ n1).
    - unfold expire_gateway, del_route in E1. rewrite no_vip_net in E1.
      destruct (dict_get net_eqb _ _) as [g0|].
      + destruct (rib_del _ _); [|discriminate]. injection E1 as _ <-. destruct (nh_port n1); [|destruct I].
        apply in_map_iff in I as (u & X & _). injection X as <-. exists g, u. auto.
      + injection E1 as _ <-. destruct (nh_port n1); destruct I.
    - exfalso. unfold resolve_gateway in E1. destruct (vlan_vip_map _ g); injection E1 as _ <-; [|destruct I].
      assert (forall l, ~ In (FlowMod w) (map (fun q : list Z * Z => PacketOut (fst q) (snd q)) l)) as X.
      { intros l J. apply in_map_iff in J as (q & J & _). discriminate. }
      destruct (_ && _); [destruct (nh_port n1)|]; try (eapply X; exact I). destruct I as [I|[]]. discriminate.
  Qed.

  Lemma behind_away src m v g u x : adds_behind src m -> g <> src -> linked c v g ->
    x = tb_del (rc_fib c) FDeleteStrict (route_priority (host_net g)) (route_match c u (host_net g)) OFPP_ANY ->
    forall w, In (FlowMod w) m -> fm_cmd w = FAdd -> ~ (fm_table w = fm_table x /\ fm_prio w = fm_prio x /\ fm_match w = fm_match x).
  Proof.
    intros Ab Ng Lk -> w I Cw (_ & Ep & Em). destruct (Ab w I Cw) as (u' & d & i & h & X & Md & Bd). injection X as ->.
    cbn in Ep, Em. apply Ng. apply (Bd g v); [|apply Lk].
    eapply (slot_net c u' d u (host_net g)); auto. apply my_host, Lk.
  Qed.

  Theorem step_tidy e ev s s' ms : both c s -> event_ok c ev -> api_event api s ev -> ev <> RConnect ->
    route_step c e ev s = Some (s', ms) -> tidy ms.
  Proof.
    intros Bo Ok Ap Ne.
    pose proof (fun v a (H : linked c v a) => (H : L v a)) as LL.
    destruct Bo as [B Ca]. assert (both c s) as Bo by (split; assumption).
    destruct ev as [v gw dst|v dst|now|now|port|now p|]; cbn [route_step].
    - intros E. injection E as E. destruct Ok as [O1 O2]. eapply tidy_w. eapply (add_route_micros c K L api s v gw dst); eauto.
    - intros E. eapply tidy_d. eapply (del_route_micros c L api s v dst); eauto.
    - intros E. eapply tidy_d. unfold each_vlan in E. eapply (each_vlan_micros c L api LL deleting); [|exact B|apply mis_nil|exact E].
      intros v s0 s1 m0 tr B0 F. eapply micros_weaken; [|eapply resolve_gateways_micros; eauto]. intros k ->; solve [discriminate|exact Logic.I].
    - intros E. eapply tidy_d. unfold each_vlan in E. eapply (each_vlan_micros c L api LL deleting); [|exact B|apply mis_nil|exact E].
      intros v s0 s1 m0 tr B0 F. eapply micros_weaken; [apply expiring_deleting|eapply resolve_expire_hosts_micros; eauto].
    - intros E. eapply tidy_d. rewrite port_down_as_each in E. unfold each_vlan in E.
      eapply micros_weaken; [apply expiring_deleting|]. eapply (each_vlan_micros c L api LL expiring _ (port_down_one c L api port)); [exact B|apply mis_nil|exact E].
    - destruct Ok as (As & Ad & At). unfold router_rcv_packet. destruct (vl_vips _) as [|x l].
      { intros E; injection E as <- <-. intros f d E. discriminate. }
      destruct (if _ || _ then _ else _) as [s1 m1] eqn:E1.
      assert (mics writing s m1 s1) as M1.
      { destruct (_ || _); [|injection E1 as <- <-; constructor]. eapply control_plane_micros; eauto. }
      destruct m1 as [|y m1]; [|intros E; injection E as <- <-; eapply tidy_w; eauto].
      destruct (rp_ttl p). { intros E; injection E as <- <-. eapply tidy_w; eauto. }
      destruct (learn_from_pkt c e now p s1) as [s2 m2] eqn:E2.
      pose proof (learn_micros c K L api _ _ _ _ _ _ As E2) as M2.
      assert (both c s1) as B1 by (eapply micros_both; eauto).
      assert (both c s2) as [B2 C2] by (eapply micros_both; eauto).
      destruct (resolve_gateways c e now false (rp_vlan p) s2) as [[[s3 m3] t3]|] eqn:E3; [|discriminate].
      pose proof (resolve_gateways_micros c L api LL _ _ _ _ _ _ _ _ B2 E3) as M3.
      assert (both c s3) as [B3 C3] by (eapply micros_both; [exact M3|split; assumption]).
      destruct (resolve_expire_hosts c e now false (rp_vlan p) s3) as [[[s4 m4] t4]|] eqn:E4; [|discriminate].
      pose proof (micros_weaken _ _ _ _ _ _ _ _ expiring_deleting (resolve_expire_hosts_micros c L api LL _ _ _ _ _ _ _ _ B3 E4)) as M4.
      intros E; injection E as <- <-.
      assert (mics deleting s2 (m3 ++ m4) s4) as M34.
      { eapply micros_app; [eapply micros_weaken; [|exact M3]; intros k ->; solve [discriminate|exact Logic.I]|exact M4]. }
      apply tidy_staged; [eapply micros_rewrites; eauto|eapply micros_noadds; eauto|].
      destruct (learn_behind e now p s1 s2 m2 B1 As E2) as [->|[Ab Gn]]; [intros w y []|].
      pose proof (resolve_one_keeps e now (rp_vlan p) s2 s3 m3 t3 _ _ (fresh_not_due _ _ _) Gn E3) as Gn3.
      pose proof (expire_one e now (rp_vlan p) s3 s4 m4 t4 _ _ B3 (fresh_not_due _ _ _) Gn3 E4) as Ex.
      intros w y Iw Cw Iy. apply in_app_iff in Iy as [Iy|Iy].
      + exfalso. clear -M3 Iy. remember quiet as Q. induction M3; [destruct Iy|]. subst.
        apply in_app_iff in Iy as [Iy|Iy]; [|now apply IHM3]. red in H0. subst. inversion H; subst; try destruct Iy; try discriminate. destruct H0.
      + destruct (Ex y Iy) as (g & u & Ng & Lk & Ey). eapply behind_away; eauto.
    - congruence.
  Qed.
End Tidy.
