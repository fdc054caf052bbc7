(** * When routes are not replaced: the FIB follows the RIB *)
From Coq Require Import ZArith List Bool Lia Permutation.
From Verif Require Import PyBase PyBaseProofs OpenFlow TrimModel TrimProofs TableModel ReorderModel ReorderSpec ReorderProofs BatchProofs
  FloodRulesProofs IpModel IpSpec IpProofs RouteModel RouteSpec RouteFib RouteRib RouteMicro RouteShape RouteInv.
Import ListNotations.
Open Scope Z_scope.

Notation rget d r := (dict_get net_eqb d (r_routes r)).

Definition fresh (c : rconf) (s : rst) (dst : net) (gw : ip) : Prop :=
  (forall v g, rget dst (s v) = Some g -> g = gw) /\ (forall h v, dst = host_net h -> on_link c v h -> gw = h).

Record calm (c : rconf) (s : rst) : Prop := {
  ca_filed : forall v g d, In d (dsts_for_gw (s v) g) -> rget d (s v) = Some g;
  ca_one : forall v v' d g g', rget d (s v) = Some g -> rget d (s v') = Some g' -> g = g';
  ca_host : forall v v' h g, rget (host_net h) (s v) = Some g -> on_link c v' h -> g = h
}.

Section Calm.
  Variable c : rconf.
  Hypothesis K : route_cfg c.
  Let L := linked c.
  Let api := fresh c.
  Let LL : forall v a, linked c v a -> L v a := fun _ _ H => H.
  Notation mic := (micro c L api).
  Notation mics := (micros c L api).
  Notation bas := (base c L).

  Lemma upd_ne s v r x : x <> v -> upd s v r x = s x.
  Proof. intros H. unfold upd. apply Z.eqb_neq in H. now rewrite H. Qed.
  Lemma upd_cases s v r x : (x = v /\ upd s v r x = r) \/ (x <> v /\ upd s v r x = s x).
  Proof. destruct (Z.eq_dec x v) as [->|H]; [left; split; [reflexivity|apply upd_at]|right; split; [exact H|now apply upd_ne]]. Qed.

  (** ** Routes stay unique *)

  (** Only routes and gateways matter. *)
  Lemma calm_same s s' : (forall v d, rget d (s' v) = rget d (s v)) -> (forall v g, dsts_for_gw (s' v) g = dsts_for_gw (s v) g) -> calm c s -> calm c s'.
  Proof.
    intros E1 E2 [A B C]. constructor.
    - intros v g d. rewrite E1, E2. apply A.
    - intros v v' d g g'. rewrite !E1. apply B.
    - intros v v' h g. rewrite E1. apply C.
  Qed.
  Lemma calm_upd s v r : calm c s -> (forall d, rget d r = rget d (s v)) -> (forall g, dsts_for_gw r g = dsts_for_gw (s v) g) -> calm c (upd s v r).
  Proof.
    intros Ca E1 E2. apply (calm_same s); auto.
    - intros x d. destruct (upd_cases s v r x) as [[-> ->]|[_ ->]]; auto.
    - intros x d. destruct (upd_cases s v r x) as [[-> ->]|[_ ->]]; auto.
  Qed.

  (** A route of a VLAN goes to a gateway on one of its subnets. *)
  Lemma route_linked s v d g : bas s -> rget d (s v) = Some g -> linked c v g.
  Proof.
    intros B E. apply (ba_gws c L s B v g). apply or_comm, (ro_used (s v) (ba_rib c L s B v)).
    intros Z0. pose proof (ro_filed (s v) (ba_rib c L s B v) d g E) as F. rewrite Z0 in F. destruct F.
  Qed.

  Lemma add_fresh s v gw dst : calm c s -> linked c v gw -> dst = host_net gw \/ fresh c s dst gw -> fresh c s dst gw.
  Proof.
    intros [A B C] Lk [->|H]; [|exact H]. split.
    - intros v' g E. eapply C; [exact E|apply Lk].
    - intros h v' E _. now apply host_net_inj.
  Qed.

  Lemma calm_add s v gw dst : calm c s -> fresh c s dst gw -> calm c (upd s v (rib_add dst gw (s v))).
  Proof.
    intros [A B C] [F1 F2].
    assert (forall x d g, rget d (upd s v (rib_add dst gw (s v)) x) = Some g -> (d = dst /\ g = gw) \/ (d <> dst /\ rget d (s x) = Some g) \/ (d = dst /\ rget d (s x) = Some g)) as R.
    { intros x d g. destruct (upd_cases s v (rib_add dst gw (s v)) x) as [[-> ->]|[N ->]].
      - rewrite rib_add_routes. destruct (net_eqb dst d) eqn:E.
        + apply net_eqb_eq in E as ->. intros X; injection X as ->. auto.
        + intros X. apply net_eqb_ne in E. right; left. auto.
      - intros X. destruct (net_eq_dec d dst) as [->|N']; auto. }
    assert (forall x g, rget dst (upd s v (rib_add dst gw (s v)) x) = Some g -> g = gw) as R1.
    { intros x g X. destruct (R x dst g X) as [[_ ->]|[[N _]|[_ Y]]]; [reflexivity|congruence|eapply F1; eauto]. }
    constructor.
    - intros x g d. destruct (upd_cases s v (rib_add dst gw (s v)) x) as [[-> ->]|[N ->]]; [|apply A].
      rewrite rib_add_dsts, rib_add_routes. destruct (ip_eqb gw g) eqn:Eg.
      + apply ip_eqb_eq in Eg as <-. rewrite (set_add_in net_eqb net_eqb_eq). intros [->|H]; [now rewrite net_eqb_refl|].
        destruct (net_eqb dst d); [reflexivity|now apply A].
      + intros H. destruct (net_eqb dst d) eqn:E; [|now apply A]. apply net_eqb_eq in E as ->.
        f_equal. symmetry. apply (F1 v). now apply A.
    - intros x x' d g g' X X'. destruct (net_eq_dec d dst) as [->|Nd].
      + rewrite (R1 x g X), (R1 x' g' X'). reflexivity.
      + destruct (R x d g X) as [[-> _]|[[_ Y]|[-> _]]]; try congruence.
        destruct (R x' d g' X') as [[-> _]|[[_ Y']|[-> _]]]; try congruence. eapply B; eauto.
    - intros x x' h g X O. destruct (R x _ g X) as [[<- ->]|[[_ Y]|[<- Y]]].
      + eapply F2; eauto.
      + eapply C; eauto.
      + eapply C; eauto.
  Qed.

  Lemma calm_del s v dst r : bas s -> calm c s -> rib_del dst (s v) = Some r -> calm c (upd s v r).
  Proof.
    intros Ba [A B C] E. pose proof (rib_del_spec dst (s v) (ba_rib c L s Ba v)) as S.
    destruct (rget dst (s v)) as [g0|] eqn:G; [|congruence].
    destruct S as (r' & E' & O & Rr & Rd & _). rewrite E in E'. injection E' as <-.
    assert (forall x d g, rget d (upd s v r x) = Some g -> rget d (s x) = Some g) as R.
    { intros x d g. destruct (upd_cases s v r x) as [[-> ->]|[_ ->]]; auto. rewrite Rr. destruct (net_eqb dst d); [discriminate|auto]. }
    constructor.
    - intros x g d. destruct (upd_cases s v r x) as [[-> ->]|[_ ->]]; [|apply A].
      rewrite Rd, Rr. destruct (ip_eqb g0 g) eqn:Eg.
      + apply ip_eqb_eq in Eg as <-. rewrite (set_remove_in net_eqb net_eqb_eq). intros [N H].
        destruct (net_eqb dst d) eqn:En; [apply net_eqb_eq in En; congruence|]. now apply A.
      + intros H. apply A in H. destruct (net_eqb dst d) eqn:En; [|exact H]. apply net_eqb_eq in En as ->.
        apply ip_eqb_ne in Eg. congruence.
    - intros x x' d g g' X X'. eapply B; eauto.
    - intros x x' h g X. eapply C; eauto.
  Qed.

  Definition hole_state (s : rst) (v' : Z) (h : ip) : rst :=
    match rget (host_net h) (s v') with
    | Some g => if ip_eqb g h then s else upd s v' (rib_add (host_net h) h (s v'))
    | None => upd s v' (rib_add (host_net h) h (s v'))
    end.

  Lemma hole_calm s v' h : calm c s -> linked c v' h -> calm c (hole_state s v' h).
  Proof.
    intros Ca Lk. assert (calm c (upd s v' (rib_add (host_net h) h (s v')))) as X.
    { apply calm_add; [exact Ca|]. apply (add_fresh s v'); auto. }
    unfold hole_state. destruct (rget _ _) as [g|]; [destruct (ip_eqb g h)|]; auto.
  Qed.

  Lemma micro_calm k s ms s' : mic k s ms s' -> bas s -> calm c s -> calm c s'.
  Proof.
    intros M B Ca. destruct M.
    - apply calm_add; [exact Ca|]. apply (add_fresh s v); auto.
    - eapply calm_del; eauto.
    - eapply calm_del; eauto.
    - apply calm_upd; auto.
    - apply calm_upd; auto.
    - apply calm_upd; auto.
    - change (calm c (upd (hole_state s v' h) v (put_neigh h (new_nexthop None None now) (hole_state s v' h v)))).
      apply calm_upd; auto. now apply hole_calm.
    - apply calm_upd; auto.
    - apply (calm_same s); auto; intros; now rewrite H.
    - exact Ca.
  Qed.

  Definition both (s : rst) : Prop := bas s /\ calm c s.
  Lemma micro_both k s ms s' : mic k s ms s' -> both s -> both s'.
  Proof. intros M [B Ca]. split; [eapply micro_base; eauto|eapply micro_calm; eauto]. Qed.
  Lemma micros_both P s ms s' : mics P s ms s' -> both s -> both s'.
  Proof. apply micros_inv. apply micro_both. Qed.

  (** ** Sound: what is forwarded has a route *)

  (** The route of [d] in VLAN [v] leads to a gateway that is at [e], or not known
      to be anywhere.  Connected hosts are left out: see [hosts] below. *)
  Definition live (s : rst) (v : Z) (d : net) (e : Z) : Prop :=
    (exists h v', my_ip c h /\ d = host_net h /\ on_link c v' h) \/
    exists g, rget d (s v) = Some g /\ (cached_eth (s v) g = Some e \/ cached_eth (s v) g = None).

  (** Applying small steps one by one. *)
  Lemma seq_in ms s f : shaped c unconditional ms -> In f (sw_flows (apply_msgs ms s)) ->
    In f (sw_flows s) /\ last_msg f ms = None \/ exists w, In (FlowMod w) ms /\ fm_cmd w = FAdd /\ f = flow_of w.
  Proof.
    intros S H. apply (seq_flows (tb_id (rc_fib c)) (tb_cookie (rc_fib c)) ms s) in H.
    - destruct (last_msg f ms) as [x|] eqn:E; [|auto].
      destruct (last_msg_in _ _ _ E) as (d & -> & I & _).
      destruct (fm_cmd d) eqn:Ed; try contradiction. right. eauto.
    - apply K.
    - eapply adds_one_table; eauto.
  Qed.

  Lemma last_msg_none f ms w : last_msg f ms = None -> In (FlowMod w) ms -> wslot w f = false.
  Proof.
    intros E I. destruct (wslot w f) eqn:W; [|reflexivity]. destruct (in_last_msg f ms w I W) as (d & X & _). congruence.
  Qed.

  Lemma del_slot v d u i h : In u (routed_vlans c v) -> last_msg (entry c u d i h) (del_route_flows c v d) <> None.
  Proof.
    intros Hu E.
    assert (In (FlowMod (tb_del (rc_fib c) FDeleteStrict (route_priority d) (route_match c u d) OFPP_ANY)) (del_route_flows c v d)) as I.
    { apply in_map_iff. eauto. }
    pose proof (last_msg_none _ _ _ E I) as Y.
    assert (X : wslot (tb_del (rc_fib c) FDeleteStrict (route_priority d) (route_match c u d) OFPP_ANY) (entry c u d i h) = true) by (apply wslot_spec; repeat split).
    congruence.
  Qed.

  (** The adds at the slots of [v] and [d]. *)
  Lemma add_slot v d e b u i h : In u (routed_vlans c v) -> last_msg (entry c u d i h) (add_resolved_route c v d e b) <> None.
  Proof.
    intros Hu E.
    assert (In (FlowMod (tb_write (rc_fib c) FAdd (route_priority d) (route_match c u d) (nexthop_inst c v e) 0 0)) (add_resolved_route c v d e b)) as I.
    { apply in_or_app. right. apply in_map_iff. exists u. split; [reflexivity|exact Hu]. }
    pose proof (last_msg_none _ _ _ E I) as Y.
    assert (X : wslot (tb_write (rc_fib c) FAdd (route_priority d) (route_match c u d) (nexthop_inst c v e) 0 0) (entry c u d i h) = true) by (apply wslot_spec; repeat split).
    congruence.
  Qed.
  Lemma last_msg_app f m1 m2 : last_msg f (m1 ++ m2) = match last_msg f m2 with Some x => Some x | None => last_msg f m1 end.
  Proof.
    unfold last_msg. rewrite rev_app_distr. induction (rev m2) as [|x l IH]; cbn [app find]; [reflexivity|].
    destruct (slot_eq _ _ _ x); auto.
  Qed.
  Lemma flat_slot {A} f (g : A -> list ofmsg) l x : In x l -> last_msg f (g x) <> None -> last_msg f (flat_map g l) <> None.
  Proof.
    induction l as [|y l IH]; intros I N; [destruct I|]. cbn [flat_map]. rewrite last_msg_app.
    destruct I as [->|I].
    - destruct (last_msg f (flat_map g l)); [discriminate|exact N].
    - specialize (IH I N). destruct (last_msg f (flat_map g l)); [discriminate|congruence].
  Qed.

  (** A route's forwarding entry survives a step only if the step keeps it right. *)
  Lemma micro_live k s ms s' v u d i e : mic k s ms s' -> both s -> In u (routed_vlans c v) ->
    last_msg (entry c u d i 0) ms = None -> live s v d e -> live s' v d e.
  Proof.
    intros M [B Ca] Hu Nl [Ho|(g & Hg & Hc)]; [left; exact Ho|].
    destruct M.
    - (* add *)
      pose proof (add_fresh s v0 gw dst Ca H H2) as [F1 F2].
      right. destruct (upd_cases s v0 (rib_add dst gw (s v0)) v) as [[-> ->]|[_ ->]]; [|eauto].
      exists g. rewrite rib_add_routes, (cached_same (s v0)) by apply rib_add_neigh. split; [|exact Hc].
      destruct (net_eqb dst d) eqn:E; [|exact Hg]. apply net_eqb_eq in E as ->. f_equal. symmetry. eapply F1; eauto.
    - (* del *)
      right. destruct (upd_cases s v0 r v) as [[-> ->]|[_ ->]]; [|eauto].
      pose proof (rib_del_spec dst (s v0) (ba_rib c L s B v0)) as S.
      destruct (rget dst (s v0)) as [g0|] eqn:G0; [|congruence].
      destruct S as (r' & E' & O & Rr & Rd & Rn). rewrite H in E'. injection E' as <-.
      exists g. rewrite Rr, (cached_same (s v0)) by exact Rn. split; [|exact Hc].
      destruct (net_eqb dst d) eqn:E; [|exact Hg]. apply net_eqb_eq in E as ->.
      exfalso. exact (del_slot v0 d u i 0 Hu Nl).
    - (* quiet delete *)
      destruct (upd_cases s v0 r v) as [[-> E]|[_ E]]; unfold live; rewrite E; [|right; eauto].
      pose proof (rib_del_spec (host_net h) (s v0) (ba_rib c L s B v0)) as S.
      destruct (rget (host_net h) (s v0)) as [g0|] eqn:G0; [|congruence].
      destruct S as (r' & E' & O & Rr & Rd & Rn). rewrite H0 in E'. injection E' as <-.
      destruct (net_eqb (host_net h) d) eqn:En.
      + apply net_eqb_eq in En as <-. left. exists h, v0. split; [apply H|]. split; [reflexivity|apply H].
      + right. exists g. rewrite Rr, En, (cached_same (s v0)) by exact Rn. auto.
    - (* next hop entry *)
      right. destruct (upd_cases s v0 (put_neigh g0 n (s v0)) v) as [[-> ->]|[_ ->]]; [|eauto].
      exists g. split; [exact Hg|]. rewrite cached_put. destruct (ip_eqb g0 g) eqn:E; [|exact Hc].
      apply ip_eqb_eq in E as ->. destruct H0 as [->| ->]; auto.
    - (* forget *)
      right. destruct (upd_cases s v0 (set_neigh (dict_del ip_eqb g0 (r_neigh (s v0))) (s v0)) v) as [[-> ->]|[_ ->]]; [|eauto].
      exists g. split; [exact Hg|]. rewrite cached_del. destruct (ip_eqb g0 g); auto.
    - (* update *)
      right. destruct (upd_cases s v0 (put_neigh g0 (new_nexthop (Some eth) (Some port) now) (s v0)) v) as [[-> ->]|[_ ->]]; [|eauto].
      exists g. split; [exact Hg|]. rewrite cached_put. destruct (ip_eqb g0 g) eqn:E; [|exact Hc].
      apply ip_eqb_eq in E as ->. cbn [nh_eth new_nexthop].
      pose proof (ro_filed (s v0) (ba_rib c L s B v0) d g Hg) as Fd.
      unfold update_msgs in Nl. destruct (cached_eth (s v0) g) as [e0|] eqn:Ec.
      + destruct (Z.eqb_spec e0 eth) as [->|Ne]; [destruct Hc as [X|X]; [injection X as ->; auto|discriminate]|].
        exfalso. refine (flat_slot _ _ _ d Fd _ Nl). now apply add_slot.
      + exfalso. refine (flat_slot _ _ _ d Fd _ Nl). now apply add_slot.
    - (* hole *)
      right. exists g.
      assert (rget d (hole_state s v' h v) = Some g /\ cached_eth (hole_state s v' h v) g = cached_eth (s v) g) as [X1 X2].
      { assert (rget d (upd s v' (rib_add (host_net h) h (s v')) v) = Some g /\ cached_eth (upd s v' (rib_add (host_net h) h (s v')) v) g = cached_eth (s v) g) as Y.
        { destruct (upd_cases s v' (rib_add (host_net h) h (s v')) v) as [[-> ->]|[_ ->]]; [|auto].
          rewrite rib_add_routes, (cached_same (s v')) by apply rib_add_neigh. split; [|reflexivity].
          destruct (net_eqb (host_net h) d) eqn:E; [|exact Hg]. apply net_eqb_eq in E as <-. f_equal. symmetry.
          eapply (ca_host c s Ca); [exact Hg|apply H0]. }
        unfold hole_state. destruct (rget (host_net h) (s v')) as [g1|]; [destruct (ip_eqb g1 h)|]; auto. }
      cbv zeta. change (match rget (host_net h) (s v') with
               | Some g1 => if ip_eqb g1 h then s else upd s v' (rib_add (host_net h) h (s v'))
               | None => upd s v' (rib_add (host_net h) h (s v')) end) with (hole_state s v' h).
      destruct (upd_cases (hole_state s v' h) v0 (put_neigh h (new_nexthop None None now) (hole_state s v' h v0)) v) as [[-> ->]|[_ ->]].
      + split; [exact X1|]. rewrite cached_put. destruct (ip_eqb h g); [auto|]. rewrite X2. exact Hc.
      + rewrite X2. auto.
    - right. destruct (upd_cases s v0 (set_todo_hosts b (set_todo_routes a (s v0))) v) as [[-> ->]|[_ ->]]; eauto.
    - right. rewrite H. eauto.
    - right. eauto.
  Qed.

  Lemma step_add_live s s' u d i h : both s' -> calm c s -> step_add c s s' u d i h ->
    (forall v g, In d (dsts_for_gw (s v) g) -> d = host_net g \/ rget d (s' v) = Some g) ->
    fibent c (live s') (entry c u d i h).
  Proof.
    intros [B' C'] Ca (N & [(-> & U)|(v & g & e & -> & -> & Lk & Hu & Hd & Hc)]) Q; [now apply fe_hole|].
    apply fe_fwd; auto; [apply Lk|].
    destruct Hd as [->|[Hd|Hd]].
    - left. exists g, v. split; [apply Lk|]. split; [reflexivity|apply Lk].
    - right. eauto.
    - destruct (Q v g Hd) as [->|Hd'].
      + left. exists g, v. split; [apply Lk|]. split; [reflexivity|apply Lk].
      + right. eauto.
  Qed.

  Lemma micro_adds_live k s ms s' : mic k s ms s' -> both s -> shaped c (live s') ms.
  Proof.
    intros M [B Ca]. pose proof (micro_both _ _ _ _ M (conj B Ca)) as B'.
    pose proof (micro_adds c K L api k s ms s' M B) as A.
    inversion M; subst; try apply adds_are_nil; try apply dels_are.
    - eapply adds_are_weaken; [|exact A]. intros u d i h X. eapply step_add_live; eauto.
        intros x g Hd. right. pose proof (add_fresh s v gw dst Ca H H2) as [F1 _].
        pose proof (ca_filed c s Ca x g d Hd) as Hr.
        destruct (upd_cases s v (rib_add dst gw (s v)) x) as [[-> ->]|[_ ->]]; [|exact Hr].
        rewrite rib_add_routes. destruct (net_eqb dst d) eqn:E; [|exact Hr]. apply net_eqb_eq in E as ->. f_equal. symmetry. eapply F1; eauto.
    - eapply adds_are_weaken; [|exact A]. intros u d i h X. eapply step_add_live; eauto.
        intros x g0 Hd. right. pose proof (ca_filed c s Ca x g0 d Hd) as Hr.
        destruct (upd_cases s v (put_neigh g (new_nexthop (Some eth) (Some port) now) (s v)) x) as [[-> ->]|[_ ->]]; exact Hr.
    - eapply adds_are_weaken; [|exact A]. intros u d i h0 X. eapply step_add_live; eauto.
        intros x g0 Hd. pose proof (ca_filed c s Ca x g0 d Hd) as Hr.
        cbv zeta. change (match rget (host_net h) (s v') with
               | Some g1 => if ip_eqb g1 h then s else upd s v' (rib_add (host_net h) h (s v'))
               | None => upd s v' (rib_add (host_net h) h (s v')) end) with (hole_state s v' h).
        assert (rget d (hole_state s v' h x) = Some g0) as Y.
        { assert (rget d (upd s v' (rib_add (host_net h) h (s v')) x) = Some g0) as Y.
          { destruct (upd_cases s v' (rib_add (host_net h) h (s v')) x) as [[-> ->]|[_ ->]]; [|exact Hr].
            rewrite rib_add_routes. destruct (net_eqb (host_net h) d) eqn:E; [|exact Hr]. apply net_eqb_eq in E as <-. f_equal. symmetry.
            eapply (ca_host c s Ca); [exact Hr|apply H0]. }
          unfold hole_state. destruct (rget (host_net h) (s v')) as [g1|]; [destruct (ip_eqb g1 h)|]; auto. }
        right. destruct (upd_cases (hole_state s v' h) v (put_neigh h (new_nexthop None None now) (hole_state s v' h v)) x) as [[-> ->]|[_ ->]]; exact Y.
    - intros x [<-|[]]. exact Logic.I.
  Qed.

  Lemma micro_sound k s ms s' sw : mic k s ms s' -> both s ->
    (forall f, In f (sw_flows sw) -> fibent c (live s) f) -> forall f, In f (sw_flows (apply_msgs ms sw)) -> fibent c (live s') f.
  Proof.
    intros M Bo H f Hf. pose proof (micro_adds_live _ _ _ _ M Bo) as A.
    assert (shaped c unconditional ms) as Sh.
    { eapply adds_are_weaken; [|exact A]. cbn. intros u d i h X. destruct X; [apply fe_miss|now apply fe_vip|now apply fe_hole|].
      apply fe_fwd; auto. exact Logic.I. }
    destruct (seq_in ms sw f Sh Hf) as [[I N]|(w & I & Cm & ->)].
    - specialize (H f I). destruct H as [|u d U D|u d hd U D|v u d e C Hu D Li]; [apply fe_miss|now apply fe_vip|now apply fe_hole|].
      apply fe_fwd; auto. eapply micro_live; eauto.
    - specialize (A _ I). cbn in A. rewrite Cm in A. destruct A as (u & d & i & h & E & X). injection E as ->. exact X.
  Qed.
  Lemma micros_sound P s ms s' : mics P s ms s' -> forall sw, both s ->
    (forall f, In f (sw_flows sw) -> fibent c (live s) f) -> forall f, In f (sw_flows (apply_msgs ms sw)) -> fibent c (live s') f.
  Proof.
    intros M. induction M as [s|k s ms s1 ms2 s2 M1 Hk M2 IH]; intros sw B H; [exact H|].
    unfold apply_msgs. rewrite fold_left_app. apply IH; [eapply micro_both; eauto|]. now apply (micro_sound k s ms s1 sw).
  Qed.
  Lemma micros_one_table P s ms s' : mics P s ms s' -> both s -> forall x, In x ms -> one_table (tb_id (rc_fib c)) (tb_cookie (rc_fib c)) x.
  Proof.
    intros M [B _]. eapply adds_one_table. eapply micros_shaped; eauto.
  Qed.

  (** ** Complete: every resolved route is forwarded *)

  Definition complete (s : rst) (fs : list flow) : Prop :=
    forall v d g e u, rget d (s v) = Some g -> cached_eth (s v) g = Some e -> In u (routed_vlans c v) ->
      In (entry c u d (nexthop_inst c v e) 0) fs.

  Section Slots.
    Variables (u : Z) (d : net) (i : list instruction) (h : Z).
    Hypothesis U : 0 <= u <= 0xfff.
    Hypothesis D : my_net c d.
    Let f := entry c u d i h.

    Lemma wslot_entry w u' d' i' h' : FlowMod w = fib_add c u' d' i' h' -> 0 <= u' <= 0xfff -> my_net c d' ->
      wslot w f = true -> u' = u /\ d' = d.
    Proof.
      intros E U' D' W. injection E as ->. apply wslot_spec in W as (_ & Hp & Hm). cbn [tb_write fm_prio fm_match f_prio f_match f entry flow_of] in *.
      destruct (slot_inj c u d u' d' U U' D D' Hp Hm). auto.
    Qed.

    Lemma map_hit l i0 h0 : (forall x, In x l -> 0 <= x <= 0xfff) -> In u l ->
      last_msg f (map (fun x => fib_add c x d i0 h0) l) = Some (fib_add c u d i0 h0).
    Proof.
      intros R I. destruct (last_msg f _) as [x|] eqn:E.
      - destruct (last_msg_in _ _ _ E) as (w & -> & Iw & W). apply in_map_iff in Iw as (u' & Ew & Iu).
        symmetry in Ew. destruct (wslot_entry w u' d i0 h0 Ew (R u' Iu) D W) as [-> _]. now rewrite Ew.
      - exfalso. assert (In (fib_add c u d i0 h0) (map (fun x => fib_add c x d i0 h0) l)) as J by (apply in_map_iff; eauto).
        pose proof (last_msg_none _ _ _ E J) as Y.
        assert (X : wslot (tb_write (rc_fib c) FAdd (route_priority d) (route_match c u d) i0 h0 0) f = true) by (apply wslot_spec; repeat split).
        congruence.
    Qed.
    Lemma map_miss l d0 i0 h0 : (forall x, In x l -> 0 <= x <= 0xfff) -> my_net c d0 -> d <> d0 \/ ~ In u l ->
      last_msg f (map (fun x => fib_add c x d0 i0 h0) l) = None.
    Proof.
      intros R D0 N. destruct (last_msg f _) as [x|] eqn:E; [|reflexivity]. exfalso.
      destruct (last_msg_in _ _ _ E) as (w & -> & Iw & W). apply in_map_iff in Iw as (u' & Ew & Iu).
      symmetry in Ew. destruct (wslot_entry w u' d0 i0 h0 Ew (R u' Iu) D0 W) as [-> ->]. tauto.
    Qed.
    Lemma del_miss v d0 : configured c v -> my_net c d0 -> d <> d0 \/ ~ In u (routed_vlans c v) -> last_msg f (del_route_flows c v d0) = None.
    Proof.
      intros C D0 N. destruct (last_msg f _) as [x|] eqn:E; [|reflexivity]. exfalso.
      destruct (last_msg_in _ _ _ E) as (w & -> & Iw & W). apply in_map_iff in Iw as (u' & Ew & Iu). injection Ew as <-.
      apply wslot_spec in W as (_ & Hp & Hm). cbn [tb_del fm_prio fm_match f_prio f_match f entry flow_of tb_write] in *.
      destruct (slot_inj c u d u' d0 U (routed_vid c v u' K C Iu) D D0 Hp Hm) as [-> ->]. tauto.
    Qed.
    Lemma resolved_hit v e b : configured c v -> In u (routed_vlans c v) ->
      last_msg f (add_resolved_route c v d e b) = Some (fib_add c u d (nexthop_inst c v e) 0).
    Proof.
      intros C I. unfold add_resolved_route. rewrite last_msg_app, map_hit; auto.
      intros x Hx. eapply routed_vid; eauto.
    Qed.
    Lemma resolved_miss v d0 e b : configured c v -> my_net c d0 -> d <> d0 \/ ~ In u (routed_vlans c v) ->
      last_msg f (add_resolved_route c v d0 e b) = None.
    Proof.
      intros C D0 N. unfold add_resolved_route. rewrite last_msg_app, map_miss; auto.
      - destruct b; [now apply del_miss|reflexivity].
      - intros x Hx. eapply routed_vid; eauto.
    Qed.
    Lemma all_hit v e b l : configured c v -> (forall x, In x l -> my_net c x) -> In d l -> In u (routed_vlans c v) ->
      last_msg f (flat_map (fun x => add_resolved_route c v x e b) l) = Some (fib_add c u d (nexthop_inst c v e) 0).
    Proof.
      intros C Hl I Hu. induction l as [|y l IH]; [destruct I|]. cbn [flat_map]. rewrite last_msg_app.
      destruct (in_dec net_eq_dec d l) as [J|J].
      - rewrite IH; auto. intros; apply Hl; now right.
      - destruct I as [->|I]; [|contradiction].
        replace (last_msg f (flat_map (fun x => add_resolved_route c v x e b) l)) with (@None ofmsg).
        + now apply resolved_hit.
        + symmetry. clear IH. induction l as [|z l IH]; [reflexivity|]. cbn [flat_map]. rewrite last_msg_app, IH.
          * apply resolved_miss; auto; [apply Hl; right; now left|]. left. intros ->. apply J. now left.
          * intros x [->|Hx]; [apply Hl; now left|apply Hl; right; now right].
          * intros Hd. apply J. now right.
    Qed.
    Lemma all_miss v e b l : configured c v -> (forall x, In x l -> my_net c x) -> ~ In d l \/ ~ In u (routed_vlans c v) ->
      last_msg f (flat_map (fun x => add_resolved_route c v x e b) l) = None.
    Proof.
      intros C Hl N. induction l as [|z l IH]; [reflexivity|]. cbn [flat_map]. rewrite last_msg_app, IH.
      - apply resolved_miss; auto; [apply Hl; now left|]. destruct N as [N|N]; [left|right; exact N]. intros ->. apply N. now left.
      - intros x Hx. apply Hl. now right.
      - destruct N as [N|N]; [left|right; exact N]. intros Hd. apply N. now right.
    Qed.
  End Slots.

  Lemma shared v v' : v' = v \/ (exists r, In r (rc_routers c) /\ In v r /\ In v' r) -> exists u, routed_from c v u /\ routed_from c v' u.
  Proof.
    unfold routed_from. intros H. destruct (_ && _).
    - exists (rc_global c). auto.
    - exists v. split; [auto|]. destruct H as [->|(r & A & B & C)]; [auto|]. right. eauto.
  Qed.

  Section Complete.
    Hypothesis SA : subnets_apart c.
    Lemma apart v v' u a : linked c v a -> linked c v' a -> In u (routed_vlans c v) -> In u (routed_vlans c v') -> v = v'.
    Proof.
      intros A B C D. apply routed_vlans_spec in C, D. eapply (SA v v' u a); eauto; try apply A; try apply B.
    Qed.

    (** The step leaves the entry alone, or writes it. *)
    Lemma keep ms sw f : (forall x, In x ms -> one_table (tb_id (rc_fib c)) (tb_cookie (rc_fib c)) x) ->
      last_msg f ms = None -> In f (sw_flows sw) -> In f (sw_flows (apply_msgs ms sw)).
    Proof. intros O E I. apply (seq_flows _ _ ms sw (rk_table c K) O). now rewrite E. Qed.
    Lemma put ms sw u d i h : (forall x, In x ms -> one_table (tb_id (rc_fib c)) (tb_cookie (rc_fib c)) x) ->
      last_msg (entry c u d i h) ms = Some (fib_add c u d i h) -> In (entry c u d i h) (sw_flows (apply_msgs ms sw)).
    Proof. intros O E. apply (seq_flows _ _ ms sw (rk_table c K) O). rewrite E. reflexivity. Qed.

    Lemma micro_complete k s ms s' sw : mic k s ms s' -> both s -> complete s (sw_flows sw) -> complete s' (sw_flows (apply_msgs ms sw)).
    Proof.
      intros M Bo Co v d g e u Hr Hc Hu. pose proof (micro_both _ _ _ _ M Bo) as [B' C'].
      pose proof (micros_one_table any s ms s' (micros_one c L api any k s ms s' M Logic.I) Bo) as O.
      destruct Bo as [B Ca].
      pose proof (route_linked s' v d g B' Hr) as Lg.
      pose proof (routed_vid c v u K (lk_conf c v g Lg) Hu) as U.
      assert (my_net c d) as D. { eapply (ba_net c L s' B' v g). apply (ro_filed (s' v) (ba_rib c L s' B' v)). exact Hr. }
      destruct M.
      - (* add *)
        pose proof (add_fresh s v0 gw dst Ca H H2) as [F1 F2].
        destruct (upd_cases s v0 (rib_add dst gw (s v0)) v) as [[-> E]|[N E]]; rewrite E in Hr, Hc.
        + rewrite rib_add_routes in Hr. rewrite (cached_same (s v0)) in Hc by apply rib_add_neigh.
          destruct (net_eqb dst d) eqn:En.
          * apply net_eqb_eq in En as ->. injection Hr as ->. apply put; [exact O|]. unfold adds_if. rewrite Hc.
            apply resolved_hit; auto. apply H.
          * apply keep; [exact O| |eapply Co; eauto]. unfold adds_if. destruct (cached_eth (s v0) gw); [|reflexivity].
            apply resolved_miss; auto; [apply H|]. left. apply net_eqb_ne in En. congruence.
        + apply keep; [exact O| |eapply Co; eauto]. unfold adds_if. destruct (cached_eth (s v0) gw); [|reflexivity].
          apply resolved_miss; auto; [apply H|]. destruct (net_eq_dec d dst) as [->|]; [|now left]. right. intros J.
          apply N. assert (g = gw) as -> by (eapply F1; eauto). eapply apart; eauto.
      - (* del *)
        pose proof (rib_del_spec dst (s v0) (ba_rib c L s B v0)) as S.
        destruct (rget dst (s v0)) as [g0|] eqn:G0; [|congruence].
        destruct S as (r' & E' & _ & Rr & Rd & Rn). rewrite H in E'. injection E' as <-.
        pose proof (route_linked s v0 dst g0 B G0) as L0.
        assert (my_net c dst) as D0. { eapply (ba_net c L s B v0 g0). apply (ro_filed (s v0) (ba_rib c L s B v0)). exact G0. }
        destruct (upd_cases s v0 r v) as [[-> E]|[N E]]; rewrite E in Hr, Hc.
        + rewrite Rr in Hr. rewrite (cached_same (s v0)) in Hc by exact Rn. destruct (net_eqb dst d) eqn:En; [discriminate|].
          apply keep; [exact O| |eapply Co; eauto]. apply del_miss; auto; [apply L0|]. left. apply net_eqb_ne in En. congruence.
        + apply keep; [exact O| |eapply Co; eauto]. apply del_miss; auto; [apply L0|].
          destruct (net_eq_dec d dst) as [->|]; [|now left]. right. intros J. apply N.
          assert (g = g0) as -> by (eapply (ca_one c s Ca); eauto). eapply apart; eauto.
      - (* quiet *)
        pose proof (rib_del_spec (host_net h) (s v0) (ba_rib c L s B v0)) as S.
        destruct (rget (host_net h) (s v0)) as [g0|] eqn:G0; [|congruence].
        destruct S as (r' & E' & _ & Rr & Rd & Rn). rewrite H0 in E'. injection E' as <-.
        apply keep; [exact O|reflexivity|].
        destruct (upd_cases s v0 r v) as [[-> E]|[N E]]; rewrite E in Hr, Hc; [|eapply Co; eauto].
        rewrite Rr in Hr. rewrite (cached_same (s v0)) in Hc by exact Rn. destruct (net_eqb (host_net h) d) eqn:En; [discriminate|].
        eapply Co; eauto.
      - apply keep; [exact O|reflexivity|].
        destruct (upd_cases s v0 (put_neigh g0 n (s v0)) v) as [[-> E]|[N E]]; rewrite E in Hr, Hc; [|eapply Co; eauto].
        rewrite cached_put in Hc. destruct (ip_eqb g0 g) eqn:Eg; [|eapply Co; eauto].
        apply ip_eqb_eq in Eg as ->. destruct H0 as [X|X]; [congruence|]. eapply Co; eauto; congruence.
      - apply keep; [exact O|reflexivity|].
        destruct (upd_cases s v0 (set_neigh (dict_del ip_eqb g0 (r_neigh (s v0))) (s v0)) v) as [[-> E]|[N E]]; rewrite E in Hr, Hc; [|eapply Co; eauto].
        rewrite cached_del in Hc. destruct (ip_eqb g0 g); [discriminate|eapply Co; eauto].
      - (* update *)
        assert (forall x, In x (dsts_for_gw (s v0) g0) -> my_net c x) as Dn by (intros x; apply (ba_net c L s B v0 g0)).
        destruct (upd_cases s v0 (put_neigh g0 (new_nexthop (Some eth) (Some port) now) (s v0)) v) as [[-> E]|[N E]]; rewrite E in Hr, Hc.
        + rewrite cached_put in Hc. destruct (ip_eqb g0 g) eqn:Eg.
          * apply ip_eqb_eq in Eg as ->. cbn [nh_eth new_nexthop] in Hc. injection Hc as ->.
            pose proof (ro_filed (s v0) (ba_rib c L s B v0) d g Hr) as Fd.
            unfold update_msgs in *. destruct (cached_eth (s v0) g) as [e0|] eqn:Ec.
            -- destruct (Z.eqb_spec e0 e) as [->|Ne].
               ++ eapply Co; eauto.
               ++ apply put; [exact O|]. apply all_hit; auto. apply H.
            -- apply put; [exact O|]. apply all_hit; auto. apply H.
          * apply ip_eqb_ne in Eg. apply keep; [exact O| |eapply Co; eauto].
            assert (~ In d (dsts_for_gw (s v0) g0)) as Nd.
            { intros J. apply (ca_filed c s Ca) in J. change (rget d (s v0) = Some g) in Hr; congruence. }
            unfold update_msgs. destruct (cached_eth (s v0) g0) as [e0|]; [destruct (e0 =? eth)|]; try reflexivity; apply all_miss; auto; apply H.
        + apply keep; [exact O| |eapply Co; eauto].
          assert (~ In d (dsts_for_gw (s v0) g0) \/ ~ In u (routed_vlans c v0)) as Nd.
          { destruct (in_dec net_eq_dec d (dsts_for_gw (s v0) g0)) as [J|J]; [|now left]. right. intros J'.
            apply (ca_filed c s Ca) in J. assert (g = g0) as -> by (eapply (ca_one c s Ca); eauto). apply N. eapply apart; eauto. }
          unfold update_msgs. destruct (cached_eth (s v0) g0) as [e0|]; [destruct (e0 =? eth)|]; try reflexivity; apply all_miss; auto; apply H.
      - (* hole *)
        assert (v' = v0) as ->.
        { destruct (shared v0 v' H1) as (x & X1 & X2). apply routed_vlans_spec in X1, X2. eapply apart; eauto. }
        change (rget d (upd (hole_state s v0 h) v0 (put_neigh h (new_nexthop None None now) (hole_state s v0 h v0)) v) = Some g) in Hr.
        change (cached_eth (upd (hole_state s v0 h) v0 (put_neigh h (new_nexthop None None now) (hole_state s v0 h v0)) v) g = Some e) in Hc.
        pose proof (hole_calm s v0 h Ca H) as Ch.
        assert (my_net c (host_net h)) as Dh by (apply my_host, H).
        set (m2 := match rget (host_net h) (s v0) with Some g0 => if ip_eqb g0 h then [] else adds_if c v0 (host_net h) (cached_eth (s v0) h) | None => adds_if c v0 (host_net h) (cached_eth (s v0) h) end) in *.
        assert (d <> host_net h \/ ~ In u (routed_vlans c v0) -> last_msg (entry c u d (nexthop_inst c v e) 0) (blackhole_flows c e0 v0 h ++ m2) = None) as Un.
        { intros Nn. rewrite last_msg_app.
          assert (last_msg (entry c u d (nexthop_inst c v e) 0) m2 = None) as ->.
          { assert (last_msg (entry c u d (nexthop_inst c v e) 0) (adds_if c v0 (host_net h) (cached_eth (s v0) h)) = None) as Y.
            { unfold adds_if. destruct (cached_eth (s v0) h); [|reflexivity]. apply resolved_miss; auto. apply H. }
            subst m2. destruct (rget (host_net h) (s v0)) as [g1|]; [destruct (ip_eqb g1 h)|]; auto. }
          apply map_miss; auto. intros x Hx. eapply routed_vid; eauto. apply H. }
        assert (forall x, d <> host_net h -> rget d (hole_state s v0 h x) = rget d (s x)) as Rh.
        { intros x Nd. assert (rget d (upd s v0 (rib_add (host_net h) h (s v0)) x) = rget d (s x)) as Y.
          { destruct (upd_cases s v0 (rib_add (host_net h) h (s v0)) x) as [[-> ->]|[_ ->]]; [|reflexivity].
            rewrite rib_add_routes. destruct (net_eqb (host_net h) d) eqn:En; [apply net_eqb_eq in En; congruence|reflexivity]. }
          unfold hole_state. destruct (rget (host_net h) (s v0)) as [g1|]; [destruct (ip_eqb g1 h)|]; auto. }
        assert (forall x a, cached_eth (hole_state s v0 h x) a = cached_eth (s x) a) as Chh.
        { intros x a. assert (cached_eth (upd s v0 (rib_add (host_net h) h (s v0)) x) a = cached_eth (s x) a) as Y.
          { destruct (upd_cases s v0 (rib_add (host_net h) h (s v0)) x) as [[-> ->]|[_ ->]]; [|reflexivity].
            apply cached_same, rib_add_neigh. }
          unfold hole_state. destruct (rget (host_net h) (s v0)) as [g1|]; [destruct (ip_eqb g1 h)|]; auto. }
        assert (forall x, x <> v0 -> forall d, rget d (hole_state s v0 h x) = rget d (s x)) as Rx.
        { intros x Nx d0. assert (rget d0 (upd s v0 (rib_add (host_net h) h (s v0)) x) = rget d0 (s x)) as Y by now rewrite upd_ne.
          unfold hole_state. destruct (rget (host_net h) (s v0)) as [g1|]; [destruct (ip_eqb g1 h)|]; auto. }
        destruct (upd_cases (hole_state s v0 h) v0 (put_neigh h (new_nexthop None None now) (hole_state s v0 h v0)) v) as [[-> E]|[N E]]; rewrite E in Hr, Hc.
        + rewrite cached_put in Hc. destruct (ip_eqb h g) eqn:Eg; [discriminate|]. apply ip_eqb_ne in Eg.
          change (rget d (hole_state s v0 h v0) = Some g) in Hr.
          assert (d <> host_net h) as Nd.
          { intros ->. apply Eg. symmetry. eapply (ca_host c _ Ch); [exact Hr|apply H]. }
          apply keep; [exact O|apply Un; now left|]. rewrite (Rh _ Nd) in Hr. rewrite Chh in Hc. eapply Co; eauto.
        + apply keep; [exact O|apply Un|rewrite (Rx v N) in Hr; rewrite Chh in Hc; eapply Co; eauto].
          destruct (net_eq_dec d (host_net h)) as [->|]; [|now left]. right. intros J. apply N.
          assert (g = h) as -> by (eapply (ca_host c _ Ch); [exact Hr|apply H]). eapply apart; eauto.
      - apply keep; [exact O|reflexivity|].
        destruct (upd_cases s v0 (set_todo_hosts b (set_todo_routes a (s v0))) v) as [[-> E]|[N E]]; rewrite E in Hr, Hc; eapply Co; eauto.
      - apply keep; [exact O|reflexivity|]. rewrite H in Hr, Hc. eapply Co; eauto.
      - apply keep; [exact O|reflexivity|]. eapply Co; eauto.
    Qed.
    Lemma micros_complete P s ms s' : mics P s ms s' -> forall sw, both s ->
      complete s (sw_flows sw) -> complete s' (sw_flows (apply_msgs ms sw)).
    Proof.
      intros M. induction M as [s|k s ms s1 ms2 s2 M1 Hk M2 IH]; intros sw B H; [exact H|].
      unfold apply_msgs. rewrite fold_left_app. apply IH; [eapply micro_both; eauto|]. now apply (micro_complete k s ms s1 sw).
    Qed.
  End Complete.
End Calm.
