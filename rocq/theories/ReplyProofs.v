(** * Proofs about what the router answers *)

From Coq Require Import ZArith List Bool Lia.
From Verif Require Import PyBase PyBaseProofs IpModel IpSpec IpProofs RouteModel ReplyModel ReplySpec.
Import ListNotations.
Open Scope Z_scope.

Section Vlan.
Variable v : yvlan.
Hypothesis Hv : good_vlan (y_vlan v).
Notation vl := (y_vlan v).

Lemma vip_map_some a p : good_ip a -> vlan_vip_map vl a = Some p -> In p (vl_vips vl) /\ belongs a (vip_net p).
Proof.
  intros Ha H. apply find_some in H. destruct H as [Hin H]. split; [exact Hin|].
  apply ip_in_net_spec; [exact Ha|apply vip_net_good, Hv, Hin|exact H].
Qed.
Lemma in_subnet_beside a p : belongs a (vip_net p) -> (in_subnet a p = true <-> beside p a).
Proof.
  intros [Hver Hb]. unfold in_subnet, beside. rewrite negb_true_iff, orb_false_iff.
  unfold ip_eqb, broadcast. cbn [ip_ver ip_val]. rewrite Hver, !Z.eqb_refl. cbn [andb].
  rewrite !Z.eqb_neq. rewrite width_bits. split.
  - intros [H1 H2]. split; [reflexivity|]. lia.
  - intros [_ H]. lia.
Qed.
Lemma beside_belongs a p : beside p a -> belongs a (vip_net p).
Proof. intros [H1 H2]. split; [exact H1|]. lia. Qed.
Lemma ip_in_vip_subnet_on_link a : good_ip a -> ip_in_vip_subnet vl a = true -> on_link vl a.
Proof.
  intros Ha. unfold ip_in_vip_subnet. destruct (vlan_vip_map vl a) as [p|] eqn:E; [|discriminate].
  destruct (vip_map_some a p Ha E) as [Hin Hb]. intros H. exists p. split; [exact Hin|].
  apply in_subnet_beside; assumption.
Qed.
Lemma is_faucet_vip_own a : is_faucet_vip vl a = true -> own vl a.
Proof.
  unfold is_faucet_vip. destruct (vlan_vip_map vl a) as [p|] eqn:E; [|discriminate].
  apply find_some in E. intros H. apply ip_eqb_eq in H. exists p. split; [apply E|symmetry; exact H].
Qed.

(** With subnets that do not overlap the first VIP found is the one. *)
Lemma vip_map_apart a p : apart vl -> good_ip a -> In p (vl_vips vl) -> belongs a (vip_net p) -> vlan_vip_map vl a = Some p.
Proof.
  intros Hap Ha Hin Hb. destruct (vlan_vip_map vl a) as [p'|] eqn:E.
  - destruct (vip_map_some a p' Ha E) as [Hin' Hb'].
    destruct (Hap p p' Hin Hin') as [->|Hd]; [reflexivity|]. exfalso. exact (Hd a (conj Hb Hb')).
  - exfalso. unfold vlan_vip_map in E. eapply find_none in E; [|exact Hin]. cbn beta in E.
    rewrite (proj2 (ip_in_net_spec a (vip_net p) Ha (vip_net_good p (Hv p Hin))) Hb) in E. discriminate.
Qed.
Lemma own_is_faucet_vip a : apart vl -> own vl a -> is_faucet_vip vl a = true.
Proof.
  intros Hap (p & Hin & <-). unfold is_faucet_vip.
  rewrite (vip_map_apart (v_ip p) p Hap (proj1 (Hv p Hin)) Hin (vip_belongs p (Hv p Hin))).
  apply ip_eqb_eq. reflexivity.
Qed.
Lemma on_link_ip_in_vip_subnet a : apart vl -> good_ip a -> on_link vl a -> ip_in_vip_subnet vl a = true.
Proof.
  intros Hap Ha (p & Hin & Hb). unfold ip_in_vip_subnet.
  rewrite (vip_map_apart a p Hap Ha Hin (beside_belongs a p Hb)).
  apply in_subnet_beside; [apply beside_belongs; exact Hb|exact Hb].
Qed.

Lemma link_local_spec a : good_ip a -> ip_ver a = 6 -> (is_link_local a = true <-> link_local6 a).
Proof.
  intros Ha H6. unfold is_link_local. rewrite H6. cbn [Z.eqb Pos.eqb].
  replace (6 =? 4) with false by reflexivity.
  rewrite ip_in_net_spec; [|exact Ha|].
  - unfold belongs, link_local6. cbn [n_ver n_addr n_len]. rewrite H6.
    replace (0xFE800000000000000000000000000000 + 2 ^ (bits 6 - 10)) with 0xFEC00000000000000000000000000000 by reflexivity.
    tauto.
  - unfold good_net. cbn [n_ver n_addr n_len]. split; [right; reflexivity|].
    split; [vm_compute; split; discriminate|]. split; [vm_compute; discriminate|].
    split; [vm_compute; discriminate|]. exists 1018. vm_compute. reflexivity.
Qed.

(** ** Only proper answers *)

Variable q : request.
Hypothesis Hq : good_packet q.

Lemma src_good : good_ip (l3_src (q_l3 q)).
Proof. apply Hq. Qed.
Lemma resolve_proper t r : resolve_vip_response v q t = Some r ->
  (exists s, q_l3 q = Arp 1 s t) \/ (exists s d, q_l3 q = Icmp6 s d 255 false (NeighbourSolicit t)) ->
  r = pkt_out v q (s_body r) /\ proper vl q (s_body r).
Proof.
  intros H Hk. unfold resolve_vip_response in H.
  destruct (is_faucet_vip vl t) eqn:E1; [|discriminate].
  destruct (ip_in_vip_subnet vl (l3_src (q_l3 q))) eqn:E2; [|discriminate].
  cbn [andb] in H. injection H as <-. split; [reflexivity|]. cbn [pkt_out s_body].
  apply is_faucet_vip_own in E1. apply (ip_in_vip_subnet_on_link _ src_good) in E2.
  destruct Hk as [(s & Hk)|(s & d & Hk)]; rewrite Hk in *; cbn [l3_src] in *; cbn [proper].
  - split; [rewrite Hk; reflexivity|]. split; [reflexivity|]. split; [reflexivity|]. split; assumption.
  - split; [exists d; rewrite Hk; reflexivity|]. split; [reflexivity|]. split; [reflexivity|]. split; assumption.
Qed.
Lemma exceeded_proper r : time_exceeded v q = Some r -> q_ttl q = true ->
  r = pkt_out v q (s_body r) /\ proper vl q (s_body r).
Proof.
  intros H Ht. unfold time_exceeded in H. destruct (has_ext (q_l3 q)); [discriminate|].
  destruct (vlan_vip_map vl (l3_src (q_l3 q))) as [p|] eqn:E; [|discriminate].
  destruct (vip_map_some _ p src_good E) as [Hin Hb].
  destruct (in_subnet (l3_src (q_l3 q)) p) eqn:Es; [|discriminate]. injection H as <-.
  split; [reflexivity|]. cbn [pkt_out s_body proper]. split; [exact Ht|]. split; [reflexivity|].
  exists p. split; [exact Hin|]. split; [reflexivity|]. apply in_subnet_beside; assumption.
Qed.
Lemma unicast_spec : unicast_to_vip v q = true ->
  q_eth_dst q = vl_mac vl /\ own vl (l3_dst (q_l3 q)) /\ on_link vl (l3_src (q_l3 q)).
Proof.
  unfold unicast_to_vip. rewrite !andb_true_iff. intros [[H1 H2] H3].
  split; [apply Z.eqb_eq; exact H1|]. split; [apply is_faucet_vip_own; exact H2|].
  apply ip_in_vip_subnet_on_link; [exact src_good|exact H3].
Qed.
Theorem answers_proper r : answer_packet v q = Some r -> r = pkt_out v q (s_body r) /\ proper vl q (s_body r).
Proof.
  unfold answer_packet. destruct (vl_vips vl) as [|p0 ps]; [discriminate|].
  destruct (_ || _ || _); [|discriminate]. destruct (packet_complete q); [|discriminate].
  destruct (is_v4 (q_l3 q)) eqn:E4.
  - unfold ipv4_handler. destruct (q_l3 q) as [op s d|s d ty data|s d h e b|s d e] eqn:E.
    + destruct (Z.eqb_spec op 1) as [->|]; [|discriminate].
      destruct (_ || _); [|discriminate]. cbn [andb]. intros H. apply (resolve_proper d r H). left. exists s. exact E.
    + destruct (q_ttl q) eqn:Et; [intros H; apply exceeded_proper; [exact H|exact Et]|].
      destruct (unicast_to_vip v q) eqn:Eu; [|discriminate].
      destruct (Z.eqb_spec ty 8) as [->|]; [|discriminate]. cbn [andb]. intros H. injection H as <-.
      split; [reflexivity|]. cbn [pkt_out s_body proper].
      destruct (unicast_spec Eu) as (H1 & H2 & H3). rewrite E in H2, H3. cbn [l3_src l3_dst] in H2, H3.
      split; [exact E|]. split; [exact H1|]. split; [exact H2|exact H3].
    + destruct (q_ttl q) eqn:Et; [intros H; apply exceeded_proper; [exact H|exact Et]|discriminate].
    + destruct (q_ttl q) eqn:Et; [intros H; apply exceeded_proper; [exact H|exact Et]|discriminate].
  - unfold ipv6_handler. destruct (q_ttl q) eqn:Et; [intros H; apply exceeded_proper; [exact H|exact Et]|].
    destruct (q_l3 q) as [op s d|s d ty data|s d h e b|s d e] eqn:E; try discriminate.
    destruct e; [discriminate|]. cbn [orb].
    destruct (ip_in_vip_subnet vl s) eqn:Es; [|discriminate]. cbn [negb].
    assert (Hs : on_link vl s).
    { assert (G := src_good). rewrite E in G. apply (ip_in_vip_subnet_on_link s G Es). }
    destruct (Z.eqb_spec h 255) as [->|Hh].
    + cbn [negb andb]. destruct b as [t|t| |i n data|].
      * intros H. apply (resolve_proper t r H). right. exists s, d. exact E.
      * discriminate.
      * unfold router_solicit. rewrite E. cbn [l3_src].
        destruct (find _ (link_local_vips vl)) as [p|] eqn:Ef; [|discriminate]. intros H. injection H as <-.
        split; [reflexivity|]. cbn [pkt_out s_body proper].
        apply find_some in Ef. destruct Ef as [Hin Hn]. unfold link_local_vips in Hin.
        apply filter_In in Hin. destruct Hin as [Hin Hl]. apply andb_true_iff in Hl. destruct Hl as [H6 Hl].
        apply Z.eqb_eq in H6.
        split; [exists d; exact E|]. split; [exists p; split; [exact Hin|reflexivity]|].
        split; [apply link_local_spec; [apply (Hv p Hin)|exact H6|exact Hl]|].
        split; [exact Hs|]. split; [reflexivity|].
        intros n. rewrite in_map_iff. unfold other_vips. split.
        -- intros (p' & <- & Hin'). apply filter_In in Hin'. destruct Hin' as [Hin' Ho].
           apply andb_true_iff in Ho. destruct Ho as [Ho1 Ho2]. apply Z.eqb_eq in Ho1.
           exists p'. split; [exact Hin'|]. split; [exact Ho1|]. split; [|reflexivity].
           intros X. apply link_local_spec in X; [|apply (Hv p' Hin')|exact Ho1]. rewrite X in Ho2. discriminate.
        -- intros (p' & Hin' & Ho1 & Ho2 & ->). exists p'. split; [reflexivity|]. apply filter_In. split; [exact Hin'|].
           rewrite Ho1, Z.eqb_refl. cbn [andb]. destruct (is_link_local (v_ip p')) eqn:El; [|reflexivity].
           exfalso. apply Ho2, link_local_spec; [apply (Hv p' Hin')|exact Ho1|exact El].
      * destruct (unicast_to_vip v q) eqn:Eu; [|discriminate]. intros H. injection H as <-.
        split; [reflexivity|]. cbn [pkt_out s_body proper].
        destruct (unicast_spec Eu) as (H1 & H2 & H3). rewrite E in H2, H3. cbn [l3_src l3_dst] in H2, H3.
        split; [exists (skipn 88 data); unfold echo6_data; rewrite firstn_skipn; exact E|].
        split; [exact H1|]. split; [exact H2|exact H3].
      * discriminate.
    + cbn [negb andb]. destruct b as [t|t| |i n data|]; try discriminate.
      destruct (unicast_to_vip v q) eqn:Eu; [|discriminate]. intros H. injection H as <-.
      split; [reflexivity|]. cbn [pkt_out s_body proper].
      destruct (unicast_spec Eu) as (H1 & H2 & H3). rewrite E in H2, H3. cbn [l3_src l3_dst] in H2, H3.
      split; [exists (skipn 88 data); unfold echo6_data; rewrite firstn_skipn; exact E|].
      split; [exact H1|]. split; [exact H2|exact H3].
Qed.

(** ** Answers that must be given *)

Lemma complete_small n : whole q n -> n <= MAX_PACKET_IN_BYTES ->
  (forall l, l <= n -> l <= right_size (q_l3 q) l) -> packet_complete q = true.
Proof.
  intros [Hw Hl] Hn Hr. unfold packet_complete. rewrite Hw.
  rewrite (Z.min_l (q_len q)) by lia. rewrite Z.min_l by (apply Hr; exact Hl). apply Z.eqb_refl.
Qed.
Lemma has_vips a : own vl a -> exists p ps, vl_vips vl = p :: ps.
Proof. intros (p & Hin & _). destruct (vl_vips vl) as [|p' ps]; [destruct Hin|]. exists p', ps. reflexivity. Qed.
Hypothesis Hap : apart vl.

Lemma enter b : own vl b -> (q_eth_dst q = vl_mac vl \/ is_group (q_eth_dst q) = true) -> packet_complete q = true ->
  answer_packet v q = if is_v4 (q_l3 q) then ipv4_handler v q else ipv6_handler v q.
Proof.
  intros Ho He Hc. unfold answer_packet. destruct (has_vips b Ho) as (p & ps & ->). rewrite Hc.
  destruct He as [He|He]; rewrite He; rewrite ?Z.eqb_refl; rewrite ?orb_true_r; reflexivity.
Qed.
Lemma arp_answered s t : q_l3 q = Arp 1 s t -> (q_eth_dst q = BROADCAST \/ q_eth_dst q = vl_mac vl) -> whole q 64 ->
  own vl t -> on_link vl s ->
  answer_packet v q = Some (pkt_out v q (ArpReply (vl_mac vl) t (q_eth_src q) s)).
Proof.
  intros E He Hw Ho Hl. rewrite (enter t Ho).
  - unfold is_v4, ipv4_handler, resolve_vip_response. rewrite E. cbn [l3_src].
    assert (G := Hq). destruct G as (G1 & _ & G3). rewrite E in G1, G3. cbn [l3_src] in G1. rewrite G3.
    rewrite (own_is_faucet_vip t Hap Ho), (on_link_ip_in_vip_subnet s Hap G1 Hl).
    destruct He as [He|He]; rewrite He; rewrite ?Z.eqb_refl; rewrite ?orb_true_r; reflexivity.
  - destruct He as [He|He]; [right; rewrite He; reflexivity|left; exact He].
  - apply (complete_small 64 Hw); [vm_compute; discriminate|]. rewrite E. intros l Hle. exact Hle.
Qed.
Lemma ns_answered s d t : q_l3 q = Icmp6 s d 255 false (NeighbourSolicit t) ->
  (is_group (q_eth_dst q) = true \/ q_eth_dst q = vl_mac vl) -> whole q 194 -> q_ttl q = false ->
  own vl t -> on_link vl s ->
  answer_packet v q = Some (pkt_out v q (NeighbourAdvertisement t s t (vl_mac vl))).
Proof.
  intros E He Hw Ht Ho Hl. rewrite (enter t Ho).
  - unfold is_v4, ipv6_handler, resolve_vip_response. rewrite Ht, E. cbn [l3_src].
    assert (G := Hq). unfold good_packet in G. rewrite E in G. cbn [l3_src] in G. destruct G as (G1 & _ & G3 & _).
    rewrite (own_is_faucet_vip t Hap Ho), (on_link_ip_in_vip_subnet s Hap G1 Hl). rewrite G3. reflexivity.
  - destruct He as [He|He]; [right; exact He|left; exact He].
  - apply (complete_small 194 Hw); [vm_compute; discriminate|]. rewrite E. intros l Hle. cbn [right_size]. lia.
Qed.
Lemma echo_answered s d data : q_l3 q = Icmp s d 8 data -> q_eth_dst q = vl_mac vl -> whole q 174 -> q_ttl q = false ->
  own vl d -> on_link vl s ->
  answer_packet v q = Some (pkt_out v q (EchoReply d s data)).
Proof.
  intros E He Hw Ht Ho Hl. rewrite (enter d Ho).
  - unfold is_v4, ipv4_handler, unicast_to_vip. rewrite Ht, E, He, Z.eqb_refl. cbn [l3_src l3_dst].
    assert (G := Hq). destruct G as (G1 & _ & G3). rewrite E in G1, G3. cbn [l3_src] in G1. rewrite G3.
    rewrite (own_is_faucet_vip d Hap Ho), (on_link_ip_in_vip_subnet s Hap G1 Hl). reflexivity.
  - left. exact He.
  - apply (complete_small 174 Hw); [vm_compute; discriminate|]. rewrite E. intros l Hle. exact Hle.
Qed.
Lemma echo6_answered s d h i n data : q_l3 q = Icmp6 s d h false (EchoRequest6 i n data) ->
  q_eth_dst q = vl_mac vl -> whole q 194 -> q_ttl q = false -> own vl d -> on_link vl s ->
  answer_packet v q = Some (pkt_out v q (EchoReply6 d s h i n (firstn 88 data))).
Proof.
  intros E He Hw Ht Ho Hl. rewrite (enter d Ho).
  - unfold is_v4, ipv6_handler, unicast_to_vip. rewrite Ht, E, He, Z.eqb_refl. cbn [l3_src l3_dst].
    assert (G := Hq). unfold good_packet in G. rewrite E in G. cbn [l3_src] in G. destruct G as (G1 & _ & G3 & _).
    rewrite (own_is_faucet_vip d Hap Ho), (on_link_ip_in_vip_subnet s Hap G1 Hl). rewrite G3.
    cbn [negb orb andb]. rewrite andb_false_r. reflexivity.
  - left. exact He.
  - apply (complete_small 194 Hw); [vm_compute; discriminate|]. rewrite E. intros l Hle. cbn [right_size]. lia.
Qed.
Lemma rs_answered s d p : q_l3 q = Icmp6 s d 255 false RouterSolicit ->
  (is_group (q_eth_dst q) = true \/ q_eth_dst q = vl_mac vl) -> whole q 194 -> q_ttl q = false ->
  In p (vl_vips vl) -> link_local6 (v_ip p) -> beside p s ->
  exists ps, answer_packet v q = Some (pkt_out v q (RouterAdvertisement (v_ip p) s ps (vl_mac vl))).
Proof.
  intros E He Hw Ht Hin Hll Hb.
  assert (Ho : own vl (v_ip p)) by (exists p; split; [exact Hin|reflexivity]).
  exists (map vip_net (other_vips vl)). rewrite (enter (v_ip p) Ho).
  - unfold is_v4, ipv6_handler, router_solicit. rewrite Ht, E. cbn [l3_src].
    assert (G := Hq). unfold good_packet in G. rewrite E in G. cbn [l3_src] in G. destruct G as (G1 & _ & G3 & _).
    rewrite (on_link_ip_in_vip_subnet s Hap G1 (ex_intro _ p (conj Hin Hb))). rewrite G3.
    replace (6 =? 4) with false by reflexivity. cbn [negb orb andb].
    replace (255 =? 255) with true by reflexivity. cbn [negb andb].
    assert (F : find (fun p0 => ip_in_net s (vip_net p0)) (link_local_vips vl) = Some p).
    { destruct (find _ (link_local_vips vl)) as [p'|] eqn:Ef.
      - apply find_some in Ef. destruct Ef as [Hin' Hn]. apply filter_In in Hin'. destruct Hin' as [Hin' _].
        destruct (Hap p p' Hin Hin') as [->|Hd]; [reflexivity|]. exfalso. apply (Hd s). split; [apply beside_belongs; exact Hb|].
        apply ip_in_net_spec; [exact G1|apply vip_net_good, Hv, Hin'|exact Hn].
      - exfalso. eapply find_none in Ef; [|apply filter_In; split; [exact Hin|]].
        + cbn beta in Ef. rewrite (proj2 (ip_in_net_spec s (vip_net p) G1 (vip_net_good p (Hv p Hin))) (beside_belongs s p Hb)) in Ef.
          discriminate.
        + cbn beta. rewrite (proj1 Hll). rewrite (proj2 (link_local_spec (v_ip p) (proj1 (Hv p Hin)) (proj1 Hll)) Hll). reflexivity. }
    rewrite F. reflexivity.
  - destruct He as [He|He]; [right; exact He|left; exact He].
  - apply (complete_small 194 Hw); [vm_compute; discriminate|]. rewrite E. intros l Hle. cbn [right_size]. lia.
Qed.
Lemma ttl_answered p : q_ttl q = true ->
  (match q_l3 q with Icmp _ _ _ _ | OtherIp _ _ false => whole q 174 | Icmp6 _ _ _ false _ => whole q 194 | _ => False end) ->
  In p (vl_vips vl) -> beside p (l3_src (q_l3 q)) ->
  answer_packet v q = Some (pkt_out v q (TimeExceeded (v_ip p) (l3_src (q_l3 q)))).
Proof.
  intros Ht Hk Hin Hb.
  assert (T : has_ext (q_l3 q) = false -> time_exceeded v q = Some (pkt_out v q (TimeExceeded (v_ip p) (l3_src (q_l3 q))))).
  { intros X. unfold time_exceeded. rewrite X.
    rewrite (vip_map_apart _ p Hap src_good Hin (beside_belongs _ p Hb)).
    rewrite (proj2 (in_subnet_beside _ p (beside_belongs _ p Hb)) Hb). reflexivity. }
  assert (C : packet_complete q = true).
  { destruct (q_l3 q) as [op s d|s d ty data|s d h [|] b|s d [|]] eqn:E; try contradiction.
    - apply (complete_small 174 Hk); [vm_compute; discriminate|]. rewrite E. intros l Hle. exact Hle.
    - apply (complete_small 194 Hk); [vm_compute; discriminate|]. rewrite E. intros l Hle. cbn [right_size]. lia.
    - apply (complete_small 174 Hk); [vm_compute; discriminate|]. rewrite E. intros l Hle. cbn [right_size].
      destruct (ip_ver s =? 4); [exact Hle|lia]. }
  unfold answer_packet. destruct (has_vips (v_ip p) (ex_intro _ p (conj Hin eq_refl))) as (p0 & ps & ->).
  rewrite C, Ht, orb_true_r. unfold ipv4_handler, ipv6_handler. rewrite Ht.
  destruct (q_l3 q) as [op s d|s d ty data|s d h [|] b|s d [|]] eqn:E; try contradiction;
    destruct (is_v4 _); apply T; reflexivity.
Qed.
(** Nothing larger than a fixed size is answered. *)
Lemma large_not_answered : 194 < q_len q -> answer_packet v q = None.
Proof.
  intros H. unfold answer_packet. destruct (vl_vips vl); [reflexivity|]. destruct (_ || _ || _); [|reflexivity].
  replace (packet_complete q) with false; [reflexivity|]. symmetry. apply Z.eqb_neq. unfold MAX_PACKET_IN_BYTES. lia.
Qed.
End Vlan.
