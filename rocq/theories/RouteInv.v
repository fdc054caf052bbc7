(** * The FIB in every history of a router *)
From Coq Require Import ZArith List Bool Lia Permutation.
From Verif Require Import PyBase PyBaseProofs OpenFlow TrimModel TrimProofs TableModel ReorderModel ReorderSpec ReorderProofs BatchProofs
  FloodRulesProofs IpModel IpSpec IpProofs RouteModel RouteSpec RouteFib RouteRib RouteMicro RouteShape.
Import ListNotations.
Open Scope Z_scope.

(** ** What entries do *)

Lemma land_vid v : 0 <= v < 4096 -> Z.land (vid_present v) 0xfff = v.
Proof.
  intros H. change 0xfff with (Z.ones 12). rewrite Z.land_ones by lia.
  rewrite vid_present_add by lia. change (2 ^ 12) with 4096.
  replace (v + 4096) with (v + 1 * 4096) by lia. rewrite Z.mod_add by lia. now apply Z.mod_small.
Qed.

Section Entry.
  Variable c : rconf.
  Hypothesis K : route_cfg c.

  Lemma route_match_spec u d u' a p : 0 <= u <= 0xfff -> 0 <= u' <= 0xfff -> my_net c d -> my_ip c a -> ip_packet c u' a p ->
    (matches p (route_match c u d) = true <-> u' = u /\ belongs a d).
  Proof.
    intros U U' [D1 D2] [A1 A2] ((pcp & r & T) & Ht & Hd). unfold matches, route_match. cbn [forallb].
    rewrite !andb_true_iff. rewrite (item_exact p VlanVid), (item_exact p EthType).
    assert (pk_get p VlanVid = Some (vid_present u') ) as ->. { cbn. rewrite T. reflexivity. }
    assert (pk_get p EthType = Some (ether_type (rc_ver c))) as ->. { exact Ht. }
    rewrite !vid_present_add by lia.
    assert (item_matches p (masked (nw_dst_field (rc_ver c)) (n_addr d) (netmask (n_ver d) (n_len d))) = ip_in_net a d) as ->.
    { unfold item_matches, masked. assert (pk_get p (nw_dst_field (rc_ver c)) = Some (ip_val a)) as ->.
      { unfold nw_dst_field. destruct (rc_ver c =? 4); exact Hd. }
      unfold ip_in_net. rewrite A2, D2, Z.eqb_refl. cbn [andb]. f_equal.
      rewrite <- D2. destruct D1 as (V & Ln & P0 & Up & (k & Ek)). unfold netmask. change width with bits.
      set (b := bits (n_ver d)) in *. assert (0 < 2 ^ (b - n_len d)) by (apply Z.pow_pos_nonneg; lia).
      assert (0 <= b - n_len d <= b) as Kb by lia.
      assert (0 <= n_addr d < 2 ^ b) as Rb by lia.
      rewrite (land_mask (n_addr d) b (b - n_len d) Kb Rb).
      rewrite Ek, Z.div_mul by lia. reflexivity. }
    rewrite (ip_in_net_spec a d A1 D1). split.
    - intros (X & _ & B & _). split; [|exact B]. injection X. lia.
    - intros [-> B]. auto.
  Qed.

  Lemma entry_serves u d i h : 0 <= u <= 0xfff -> my_net c d -> serves c (entry c u d i h) u d.
  Proof.
    intros U D. split; [reflexivity|]. intros u' a p U' A P. now apply route_match_spec.
  Qed.

  (** The destination an entry serves is determined by it. *)
  Lemma belongs_first d : my_net c d -> belongs (mkIp (n_ver d) (n_addr d)) d /\ my_ip c (mkIp (n_ver d) (n_addr d)).
  Proof.
    intros [(V & Ln & P0 & Up & _) E]. assert (0 < 2 ^ (bits (n_ver d) - n_len d)) by (apply Z.pow_pos_nonneg; lia).
    split; [split; cbn; [reflexivity|lia]|]. split; [|exact E]. unfold good_ip. cbn [ip_ver ip_val].
    destruct V as [V|V]; rewrite V in *; unfold bits in *; [change (4 =? 4) with true in *|change (6 =? 4) with false in *]; cbv iota in *; [left|right]; split; auto; lia.
  Qed.

  Definition sample (u : Z) (a : ip) : packet :=
    mkPacket 0 [(u, 0)] (fun f => if field_eqb f EthType then Some (ether_type (rc_ver c))
                                  else if field_eqb f (nw_dst_field (rc_ver c)) then Some (ip_val a) else None).
  Lemma sample_ok u a : ip_packet c u a (sample u a).
  Proof.
    split; [cbn; eauto|]. split; [reflexivity|]. unfold sample, nw_dst_field, pk_hdr. destruct (rc_ver c =? 4); reflexivity.
  Qed.

  Lemma net_ext d d' : my_net c d -> my_net c d' -> (forall a, my_ip c a -> (belongs a d <-> belongs a d')) -> d = d'.
  Proof.
    intros D D' H.
    destruct (belongs_first d D) as [B I]. destruct (belongs_first d' D') as [B' I'].
    destruct (proj1 (H _ I) B) as [_ X1]. destruct (proj2 (H _ I') B') as [_ X2]. cbn [ip_val] in *.
    assert (n_addr d = n_addr d') as Ea by lia.
    destruct D as [(V & Ln & P0 & Up & _) E]. destruct D' as [(V' & Ln' & P0' & Up' & _) E'].
    assert (n_ver d = n_ver d') as Ev by congruence.
    set (b := bits (n_ver d)) in *. rewrite <- Ev in *. fold b in Ln', Up', X1.
    assert (0 < 2 ^ (b - n_len d)) by (apply Z.pow_pos_nonneg; lia).
    assert (0 < 2 ^ (b - n_len d')) by (apply Z.pow_pos_nonneg; lia).
    assert (forall k, 0 < k -> n_addr d + k <= 2 ^ b -> my_ip c (mkIp (n_ver d) (n_addr d + k - 1))) as Il.
    { intros k K0 K1. split; [|exact E]. unfold good_ip. cbn [ip_ver ip_val].
      destruct V as [V|V]; subst b; rewrite V in *; unfold bits in *; [change (4 =? 4) with true in *|change (6 =? 4) with false in *]; cbv iota in *; [left|right]; split; auto; lia. }
    assert (2 ^ (b - n_len d) = 2 ^ (b - n_len d')) as Ep.
    { assert (belongs (mkIp (n_ver d) (n_addr d + 2 ^ (b - n_len d) - 1)) d) as Y1.
      { split; cbn [ip_ver ip_val]; [reflexivity|]. fold b. lia. }
      assert (belongs (mkIp (n_ver d) (n_addr d + 2 ^ (b - n_len d') - 1)) d') as Y2.
      { split; cbn [ip_ver ip_val]; [exact Ev|]. rewrite <- Ev. fold b. lia. }
      apply H in Y1; [|apply Il; auto]. apply H in Y2; [|apply Il; [auto|lia]].
      destruct Y1 as [_ Y1]. destruct Y2 as [_ Y2]. cbn [ip_val] in *. rewrite <- Ev in Y1. fold b in Y1, Y2. lia. }
    apply Z.pow_inj_r in Ep; [|lia|lia|lia].
    destruct d as [x1 x2 x3], d' as [y1 y2 y3]. cbn [n_ver n_addr n_len] in *. subst. f_equal. lia.
  Qed.

  Lemma serves_inj f u d u' d' : 0 <= u <= 0xfff -> 0 <= u' <= 0xfff -> my_net c d -> my_net c d' -> serves c f u d -> serves c f u' d' -> u = u' /\ d = d'.
  Proof.
    intros U U' D D' [_ S] [_ S'].
    assert (forall a, my_ip c a -> (belongs a d -> u = u' /\ belongs a d')) as X.
    { intros a A B. apply (S' u a (sample u a) U A (sample_ok u a)). apply (S u a (sample u a) U A (sample_ok u a)). auto. }
    assert (forall a, my_ip c a -> (belongs a d' -> u' = u /\ belongs a d)) as Y.
    { intros a A B. apply (S u' a (sample u' a) U' A (sample_ok u' a)). apply (S' u' a (sample u' a) U' A (sample_ok u' a)). auto. }
    destruct (belongs_first d D) as [B I]. split; [now apply (X _ I)|].
    apply net_ext; auto. intros a A. split; intros H; [now apply X|now apply Y].
  Qed.

  Lemma nexthop_trim v e : trim (nexthop_inst c v e) = nexthop_inst c v e.
  Proof.
    unfold nexthop_inst. set (l := (if rc_dec_ttl c then _ else _) ++ _). assert (exists x l', l = x :: l') as (x & l' & ->).
    { subst l. destruct (rc_dec_ttl c); [cbn; eauto|]. destruct (rc_routers c); cbn; eauto. }
    reflexivity.
  Qed.

  Lemma entry_forwards v u d e h : configured c v -> forwards c (entry c u d (nexthop_inst c v e) h) v (vl_mac (get_vlan c v)) e.
  Proof.
    intros C groups live u' a p ((pcp & r & T) & _).
    unfold entry. cbn [flow_of f_inst tb_write fm_inst]. rewrite nexthop_trim. unfold nexthop_inst.
    pose proof (rk_vids c K v C) as Hv.
    set (p1 := match rc_routers c with [] => p | _ => mkPacket (pk_in p) ((v, pcp) :: r) (pk_hdr p) end).
    assert (exec_acts groups live ((if rc_dec_ttl c then [DecTtl] else []) ++
              match rc_routers c with [] => [] | _ => [SetField VlanVid (vid_present v)] end ++
              [SetField EthSrc (vl_mac (get_vlan c v)); SetField EthDst e]) p
            = ([], set_field EthDst e (set_field EthSrc (vl_mac (get_vlan c v)) p1))) as X.
    { assert (set_field VlanVid (vid_present v) p = mkPacket (pk_in p) ((v, pcp) :: r) (pk_hdr p)) as Y.
      { cbn [set_field]. rewrite T, land_vid by lia. reflexivity. }
      subst p1. destruct (rc_dec_ttl c), (rc_routers c); cbn [app exec_acts act_on]; rewrite ?Y; reflexivity. }
    eexists. split.
    - cbn [exec_insts]. rewrite X. cbn [app]. reflexivity.
    - cbn [set_field pk_in pk_tags pk_hdr]. subst p1.
      split; [destruct (rc_routers c); reflexivity|].
      split; [rewrite T; destruct (rc_routers c); [exact T|reflexivity]|].
      split; [reflexivity|]. split; [reflexivity|]. intros f N1 N2.
      destruct (field_eqb f EthDst) eqn:E1; [destruct f; discriminate || congruence|].
      destruct (field_eqb f EthSrc) eqn:E2; [destruct f; discriminate || congruence|].
      destruct (rc_routers c); reflexivity.
  Qed.

  Lemma entry_drops u d h : drops (entry c u d [] h).
  Proof. reflexivity. Qed.
  Lemma entry_to_router u d h : to_router c (entry c u d [Goto (rc_vip_table c)] h).
  Proof. reflexivity. Qed.

  (** Entries of one slot serve the same destination. *)
  Lemma slot_inj u d u' d' : 0 <= u <= 0xfff -> 0 <= u' <= 0xfff -> my_net c d -> my_net c d' ->
    route_priority d = route_priority d' -> route_match c u d = route_match c u' d' -> u = u' /\ d = d'.
  Proof.
    intros U U' [D E] [D' E'] Hp Hm. unfold route_priority in Hp. unfold route_match, exact, masked in Hm.
    injection Hm as Hv Ha _. rewrite !vid_present_add in Hv by lia. split; [lia|].
    destruct d as [x1 x2 x3], d' as [y1 y2 y3]. cbn [n_ver n_addr n_len] in *. f_equal; congruence || lia.
  Qed.
  Lemma slot_net u d u' d' : my_net c d -> my_net c d' ->
    route_priority d = route_priority d' -> route_match c u d = route_match c u' d' -> d = d'.
  Proof.
    intros [D E] [D' E'] Hp Hm. unfold route_priority in Hp. unfold route_match, exact, masked in Hm.
    injection Hm as Hv Ha _.
    destruct d as [x1 x2 x3], d' as [y1 y2 y3]. cbn [n_ver n_addr n_len] in *. f_equal; congruence || lia.
  Qed.
End Entry.

(** ** Every history *)

Definition no_limit (_ : Z) (_ : ip) : Prop := True.
Definition no_rule (_ : rst) (_ : net) (_ : ip) : Prop := True.

Section General.
  Variable c : rconf.
  Hypothesis K : route_cfg c.
  Variable static : Z -> list (net * ip).

  Lemma connect_shape cond sh ub out s0 : (forall l, Permutation (sh l) l) -> valve_flowreorder sh ub (connect_flows c) = Some out ->
    forall f, In f (sw_flows (apply_msgs out s0)) -> fibent c cond f.
  Proof.
    intros Hsh R f Hf.
    destruct (wipe_split sh ub (connect_flows c) out s0 (tb_del (mkTable OFPTT_ALL 0 0) FDelete 0 [] OFPP_ANY) R) as (post & s1 & E1 & E2 & _ & Sub).
    { now left. } { repeat split. }
    rewrite E2 in Hf.
    assert (forall x, In x post -> x = Barrier \/ In x (connect_flows c)) as S.
    { intros x Hx. eapply reorder_invents_nothing_lemma; eauto. }
    revert f Hf. apply (apply_msgs_inv (fibent c cond)).
    - intros w Hw Cm. destruct (S _ Hw) as [X|X]; [discriminate|].
      destruct (connect_rest c K cond _ X) as [Y|(w' & Y & _ & Z0)].
      + unfold wipe_fib in Y. injection Y as ->. discriminate.
      + injection Y as ->. exact Z0.
    - intros w f Hw Cm _ _. destruct (S _ Hw) as [X|X]; [discriminate|].
      destruct (connect_rest c K cond _ X) as [Y|(w' & Y & Z0 & _)].
      + unfold wipe_fib in Y. injection Y as ->. discriminate.
      + injection Y as ->. congruence.
    - intros w Hw Cm. destruct (S _ Hw) as [X|X]; [discriminate|].
      destruct (connect_rest c K cond _ X) as [Y|(w' & Y & Z0 & _)].
      + unfold wipe_fib in Y. injection Y as ->. discriminate.
      + injection Y as ->. congruence.
    - rewrite E1. intros f [].
  Qed.

  Lemma shaped_step cond sh ub ms out s : shaped c cond ms -> (forall l, Permutation (sh l) l) -> valve_flowreorder sh ub ms = Some out ->
    (forall f, In f (sw_flows s) -> fibent c cond f) -> forall f, In f (sw_flows (apply_msgs out s)) -> fibent c cond f.
  Proof.
    intros S Hsh R H. apply (reorder_inv (fibent c cond) sh ub ms out s Hsh R).
    - intros w Hw Cm. specialize (S _ Hw). cbn in S. rewrite Cm in S. destruct S as (u & d & i & h & E & F).
      injection E as ->. exact F.
    - intros w f Hw Cm. specialize (S _ Hw). cbn in S. rewrite Cm in S. contradiction.
    - intros w Hw Cm. specialize (S _ Hw). cbn in S. rewrite Cm in S. contradiction.
    - exact H.
  Qed.

  (** ** The start *)

  Lemma static_rib_spec l :
    (forall d g, In d (dsts_for_gw (static_rib l) g) <-> In (d, g) l) /\
    (forall d g, dict_get net_eqb d (r_routes (static_rib l)) = Some g -> In (d, g) l) /\
    (forall d g, In (d, g) l -> exists g', dict_get net_eqb d (r_routes (static_rib l)) = Some g') /\
    (forall g, In g (r_route_gws (static_rib l)) \/ In g (r_host_gws (static_rib l)) -> exists d, In (d, g) l) /\
    r_neigh (static_rib l) = [].
  Proof.
    unfold static_rib.
    induction l as [|[d0 g0] l IH] using rev_ind.
    - cbn. split; [tauto|]. split; [discriminate|]. split; [intros d g []|]. split; [|reflexivity]. intros g [[]|[]].
    - rewrite fold_left_app. cbn [fold_left fst snd]. set (r := fold_left _ l empty_rib) in *.
      destruct IH as (A & B & C & D & E). split; [intros d g; split|split; [|split; [|split]]].
      + rewrite rib_add_dsts. destruct (ip_eqb g0 g) eqn:Eg.
        * apply ip_eqb_eq in Eg as ->. rewrite (set_add_in net_eqb net_eqb_eq). intros [->|H]; apply in_or_app; [right; now left|left; now apply A].
        * intros H. apply in_or_app. left. now apply A.
      + intros H. rewrite rib_add_dsts. apply in_app_iff in H as [H|[H|[]]].
        * apply A in H. destruct (ip_eqb g0 g) eqn:Eg; [|exact H]. apply ip_eqb_eq in Eg as ->. apply (set_add_in net_eqb net_eqb_eq). auto.
        * injection H as -> ->. rewrite ip_eqb_refl. apply (set_add_in net_eqb net_eqb_eq). auto.
      + intros d g. rewrite rib_add_routes. destruct (net_eqb d0 d) eqn:En.
        * apply net_eqb_eq in En as ->. intros X; injection X as ->. apply in_or_app. right. now left.
        * intros X. apply in_or_app. left. now apply B.
      + intros d g H. rewrite rib_add_routes. destruct (net_eqb d0 d) eqn:En; [eauto|].
        apply in_app_iff in H as [H|[H|[]]]; [eapply C; eauto|]. injection H as -> ->. now rewrite net_eqb_refl in En.
      + intros g H. unfold rib_add in H. apply update_gw_types_gws_in in H. cbn [r_route_gws r_host_gws] in H.
        destruct H as [->|H]; [exists d0; apply in_or_app; right; now left|]. destruct (D g H) as [d Hd]. exists d. apply in_or_app. now left.
      + rewrite rib_add_neigh. exact E.
  Qed.

  Lemma start_base (L : Z -> ip -> Prop) : static_ok c static -> (forall v d g, In (d, g) (static v) -> L v g) -> base c L (start static).
  Proof.
    intros S HL. constructor; intros v; unfold start; destruct (static_rib_spec (static v)) as (A & B & C & D & E).
    - apply static_rib_ok.
    - intros g H. destruct (D g H) as [d Hd]. eauto.
    - intros g n. rewrite E. discriminate.
    - intros g d H. apply A in H. apply (so_good c static S v d g H).
  Qed.

  Theorem history_shape P evs w : static_ok c static -> rreach c static P evs w ->
    base c no_limit (rw_st w) /\ (rw_up w = true -> forall f, In f (sw_flows (rw_sw w)) -> fibent c unconditional f).
  Proof.
    intros S R.
    induction R as [s0|evs w e ev s ms sh ub out R [B F] Eo Ok Hp Ne St Hsh Ro|evs w e s ms sh ub out s0 R [B F] St Hsh Ro|evs w R [B F]|evs w f l1 l2 R [B F] El Hh];
      cbn [rw_st rw_sw rw_up].
    - split; [|discriminate]. apply start_base; [exact S|]. intros; exact Logic.I.
    - destruct (step_staged c K no_limit no_rule (fun _ _ _ => Logic.I) e ev (rw_st w) s ms B Ok) as (m1 & s1 & m2 & -> & M1 & M2); auto.
      { destruct ev; cbn; auto. right. exact Logic.I. }
      assert (base c no_limit s1) as B1 by (eapply micros_base; [|exact M1|exact B]; auto; intros; exact Logic.I).
      assert (base c no_limit s) as B2 by (eapply micros_base; [|exact M2|exact B1]; auto; intros; exact Logic.I).
      split; [exact B2|]. intros Up. rewrite Up. specialize (F Up).
      eapply shaped_step; [|exact Hsh|exact Ro|exact F]. apply adds_are_app.
      + eapply micros_shaped; [exact K| |exact M1|exact B]. intros; exact Logic.I.
      + eapply micros_shaped; [exact K| |exact M2|exact B1]. intros; exact Logic.I.
    - cbn [route_step] in St. injection St as <- <-. split; [now apply reset_base|]. intros _. eapply connect_shape; eauto.
    - split; [exact B|discriminate].
    - split; [exact B|]. intros Up g Hg. apply F; [exact Up|]. rewrite El. apply in_app_iff in Hg as [Hg|Hg]; apply in_or_app; [now left|right; now right].
  Qed.
End General.
