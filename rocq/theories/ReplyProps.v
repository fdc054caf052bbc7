(** * C73, C74: what the router answers *)

From Coq Require Import ZArith List Bool Lia.
From Verif Require Import PyBase PyBaseProofs IpModel IpSpec IpProofs RouteModel ReplyModel ReplySpec ReplyProofs.
Import ListNotations.
Open Scope Z_scope.

(** ** C73: the router answers only for its own addresses, only to those who ask, and
    only to directly connected hosts *)

Theorem C73_answers_proper : forall (v : yvlan) (q : request) (r : reply),
  good_vlan (y_vlan v) -> good_packet q -> answer_packet v q = Some r ->
  s_port r = q_port q /\
  (In (q_port q) (y_tagged v) -> s_tag r = Some (vl_id (y_vlan v))) /\
  (~ In (q_port q) (y_tagged v) -> s_tag r = None) /\
  s_eth_src r = vl_mac (y_vlan v) /\ s_eth_dst r = q_eth_src q /\
  proper (y_vlan v) q (s_body r).
Proof.
  intros v q r Hv Hq H. destruct (answers_proper v Hv q Hq r H) as [E P].
  rewrite E. unfold pkt_out. cbn [s_port s_tag s_eth_src s_eth_dst s_body].
  assert (M : mem Z.eqb (q_port q) (y_tagged v) = true <-> In (q_port q) (y_tagged v)).
  { apply mem_spec. intros x y. apply Z.eqb_eq. }
  split; [reflexivity|]. split; [intros X; rewrite (proj2 M X); reflexivity|].
  split; [|split; [reflexivity|split; [reflexivity|exact P]]].
  intros X. destruct (mem Z.eqb (q_port q) (y_tagged v)); [|reflexivity]. exfalso. apply X, M. reflexivity.
Qed.
Print Assumptions C73_answers_proper.

(** ** C74: hosts find the router and can ping it *)

Theorem C74_arp : forall (v : yvlan) (q : request) (host vip : ip),
  good_vlan (y_vlan v) -> good_packet q -> apart (y_vlan v) ->
  q_l3 q = Arp 1 host vip -> q_eth_dst q = 0xffffffffffff \/ q_eth_dst q = vl_mac (y_vlan v) -> whole q 64 ->
  own (y_vlan v) vip -> on_link (y_vlan v) host ->
  exists r, answer_packet v q = Some r /\ s_body r = ArpReply (vl_mac (y_vlan v)) vip (q_eth_src q) host.
Proof. intros. eexists. split; [eapply arp_answered; eassumption|reflexivity]. Qed.
Print Assumptions C74_arp.
Theorem C74_neighbour_solicitation : forall (v : yvlan) (q : request) (host dst vip : ip),
  good_vlan (y_vlan v) -> good_packet q -> apart (y_vlan v) ->
  q_l3 q = Icmp6 host dst 255 false (NeighbourSolicit vip) ->
  is_group (q_eth_dst q) = true \/ q_eth_dst q = vl_mac (y_vlan v) -> whole q 194 -> q_ttl q = false ->
  own (y_vlan v) vip -> on_link (y_vlan v) host ->
  exists r, answer_packet v q = Some r /\ s_body r = NeighbourAdvertisement vip host vip (vl_mac (y_vlan v)).
Proof. intros. eexists. split; [eapply ns_answered; eassumption|reflexivity]. Qed.
Print Assumptions C74_neighbour_solicitation.
Theorem C74_router_solicitation : forall (v : yvlan) (q : request) (host dst : ip) (p : vip),
  good_vlan (y_vlan v) -> good_packet q -> apart (y_vlan v) ->
  q_l3 q = Icmp6 host dst 255 false RouterSolicit ->
  is_group (q_eth_dst q) = true \/ q_eth_dst q = vl_mac (y_vlan v) -> whole q 194 -> q_ttl q = false ->
  In p (vl_vips (y_vlan v)) -> link_local6 (v_ip p) -> beside p host ->
  exists r ps, answer_packet v q = Some r /\ s_body r = RouterAdvertisement (v_ip p) host ps (vl_mac (y_vlan v)).
Proof.
  intros v q host dst p Hv Hq Ha E He Hw Ht Hin Hl Hb.
  destruct (rs_answered v Hv q Hq Ha host dst p E He Hw Ht Hin Hl Hb) as (ps & X).
  eexists. exists ps. split; [exact X|reflexivity].
Qed.
Print Assumptions C74_router_solicitation.
Theorem C74_ping : forall (v : yvlan) (q : request) (host vip : ip) (data : list Z),
  good_vlan (y_vlan v) -> good_packet q -> apart (y_vlan v) ->
  q_l3 q = Icmp host vip 8 data -> q_eth_dst q = vl_mac (y_vlan v) -> whole q 174 -> q_ttl q = false ->
  own (y_vlan v) vip -> on_link (y_vlan v) host ->
  exists r, answer_packet v q = Some r /\ s_body r = EchoReply vip host data.
Proof. intros. eexists. split; [eapply echo_answered; eassumption|reflexivity]. Qed.
Print Assumptions C74_ping.
Theorem C74_ping6 : forall (v : yvlan) (q : request) (host vip : ip) (hop id seq : Z) (data : list Z),
  good_vlan (y_vlan v) -> good_packet q -> apart (y_vlan v) ->
  q_l3 q = Icmp6 host vip hop false (EchoRequest6 id seq data) -> (length data <= 88)%nat ->
  q_eth_dst q = vl_mac (y_vlan v) -> whole q 194 -> q_ttl q = false ->
  own (y_vlan v) vip -> on_link (y_vlan v) host ->
  exists r, answer_packet v q = Some r /\ s_body r = EchoReply6 vip host hop id seq data.
Proof.
  intros v q host vip hop id seq data Hv Hq Ha E Hd He Hw Ht Ho Hl. eexists.
  split; [eapply echo6_answered; eassumption|]. cbn [pkt_out s_body]. rewrite firstn_all2 by exact Hd. reflexivity.
Qed.
Print Assumptions C74_ping6.
Theorem C74_time_exceeded : forall (v : yvlan) (q : request) (p : vip),
  good_vlan (y_vlan v) -> good_packet q -> apart (y_vlan v) -> q_ttl q = true ->
  (match q_l3 q with Icmp _ _ _ _ | OtherIp _ _ false => whole q 174 | Icmp6 _ _ _ false _ => whole q 194 | _ => False end) ->
  In p (vl_vips (y_vlan v)) -> beside p (l3_src (q_l3 q)) ->
  exists r, answer_packet v q = Some r /\ s_body r = TimeExceeded (v_ip p) (l3_src (q_l3 q)).
Proof. intros. eexists. split; [eapply ttl_answered; eassumption|reflexivity]. Qed.
Print Assumptions C74_time_exceeded.

(** *** A case *)

Definition ip4 (n : Z) : ip := mkIp 4 (0x0a000000 + n). (* 10.0.0.n *)
Definition ll6 (n : Z) : ip := mkIp 6 (0xFE800000000000000000000000000000 + n). (* fe80::n *)
Definition gu6 (n : Z) : ip := mkIp 6 (0xFC000000000000000000000000000000 + n). (* fc00::n *)
Definition ex_vlan : yvlan :=
  mkYvlan (mkVlan 100 0x0e0000000001 [mkVip (ip4 254) 24; mkVip (ll6 254) 64; mkVip (gu6 254) 112] false None [1; 2]) [2].
Definition ask (port dst : Z) (p : l3) : request := mkRequest port 0x020000000042 dst 64 64 false p.

Lemma good4 n : 0 <= n < 256 -> good_ip (ip4 n).
Proof. intros H. left. unfold ip4. cbn [ip_ver ip_val]. split; [reflexivity|]. split; [lia|]. apply Z.lt_trans with 0x0b000000; [lia|vm_compute; reflexivity]. Qed.
Lemma good_ll n : 0 <= n < 256 -> good_ip (ll6 n).
Proof. intros H. right. unfold ll6. cbn [ip_ver ip_val]. split; [reflexivity|]. split; [lia|]. apply Z.lt_trans with 0xFE800000000000000000000000000100; [lia|vm_compute; reflexivity]. Qed.
Lemma good_gu n : 0 <= n < 256 -> good_ip (gu6 n).
Proof. intros H. right. unfold gu6. cbn [ip_ver ip_val]. split; [reflexivity|]. split; [lia|]. apply Z.lt_trans with 0xFC000000000000000000000000000100; [lia|vm_compute; reflexivity]. Qed.

Example ex_good : good_vlan (y_vlan ex_vlan).
Proof.
  intros p [<-|[<-|[<-|[]]]]; (split; [|vm_compute; split; discriminate]).
  - apply good4. lia.
  - apply good_ll. lia.
  - apply good_gu. lia.
Qed.
Lemma disjoint_by m n : n_ver m <> n_ver n \/ n_addr m + 2 ^ (bits (n_ver m) - n_len m) <= n_addr n \/
  n_addr n + 2 ^ (bits (n_ver n) - n_len n) <= n_addr m -> disjoint m n.
Proof. intros H a [[V1 B1] [V2 B2]]. destruct H as [H|[H|H]]; [congruence|lia|lia]. Qed.
Example ex_apart : apart (y_vlan ex_vlan).
Proof.
  intros p p' H H'. destruct H as [<-|[<-|[<-|[]]]]; destruct H' as [<-|[<-|[<-|[]]]];
    try (left; reflexivity); right; apply disjoint_by; vm_compute;
    try (left; discriminate); right; (left; discriminate) || (right; discriminate).
Qed.
Example ex_on_link : on_link (y_vlan ex_vlan) (ip4 1) /\ on_link (y_vlan ex_vlan) (ll6 1) /\ on_link (y_vlan ex_vlan) (gu6 1).
Proof.
  split; [|split].
  - exists (mkVip (ip4 254) 24). split; [left; reflexivity|]. vm_compute. repeat split; reflexivity.
  - exists (mkVip (ll6 254) 64). split; [right; left; reflexivity|]. vm_compute. repeat split; reflexivity.
  - exists (mkVip (gu6 254) 112). split; [right; right; left; reflexivity|]. vm_compute. repeat split; reflexivity.
Qed.
Example ex_packets :
  good_packet (ask 2 0xffffffffffff (Arp 1 (ip4 1) (ip4 254))) /\
  good_packet (ask 1 0x333300000002 (Icmp6 (ll6 1) (ll6 2) 255 false RouterSolicit)) /\
  good_packet (ask 1 0x0e0000000001 (Icmp6 (gu6 1) (gu6 254) 64 false (EchoRequest6 1 2 [3; 4]))).
Proof.
  split; [|split]; (split; [|split]); cbn;
    try (apply good4; lia); try (apply good_ll; lia); try (apply good_gu; lia); try reflexivity; split; reflexivity || exact I.
Qed.
Example ex_answers :
  answer_packet ex_vlan (ask 2 0xffffffffffff (Arp 1 (ip4 1) (ip4 254))) =
    Some (mkReply 2 (Some 100) 0x0e0000000001 0x020000000042 (ArpReply 0x0e0000000001 (ip4 254) 0x020000000042 (ip4 1))) /\
  answer_packet ex_vlan (ask 1 0x333300000002 (Icmp6 (ll6 1) (ll6 2) 255 false RouterSolicit)) =
    Some (mkReply 1 None 0x0e0000000001 0x020000000042
      (RouterAdvertisement (ll6 254) (ll6 1) [mkNet 6 0xFC000000000000000000000000000000 112] 0x0e0000000001)) /\
  answer_packet ex_vlan (ask 1 0x0e0000000001 (Icmp6 (gu6 1) (gu6 254) 64 false (EchoRequest6 1 2 [3; 4]))) =
    Some (mkReply 1 None 0x0e0000000001 0x020000000042 (EchoReply6 (gu6 254) (gu6 1) 64 1 2 [3; 4])) /\
  answer_packet ex_vlan (mkRequest 1 0x020000000042 0x0e0000000001 100 100 true (OtherIp (ip4 1) (ip4 77) false)) =
    Some (mkReply 1 None 0x0e0000000001 0x020000000042 (TimeExceeded (ip4 254) (ip4 1))).
Proof. vm_compute. repeat split; reflexivity. Qed.

(** *** What is not answered *)

(** Packets over 194 bytes with the VLAN tag: pings with more than 156 or 128 bytes, and
    what runs out of TTL at full size. *)
Theorem C74_large_not_answered : forall (v : yvlan) (q : request), 194 < q_len q -> answer_packet v q = None.
Proof. intros v q H. apply large_not_answered. exact H. Qed.
Print Assumptions C74_large_not_answered.
Theorem C74_large_ping_not_answered : forall (v : yvlan) (q : request) (s d : ip) (ty : Z) (data : list Z),
  q_l3 q = Icmp s d ty data -> 174 < q_len q -> answer_packet v q = None.
Proof.
  intros v q s d ty data E H. unfold answer_packet. destruct (vl_vips (y_vlan v)); [reflexivity|].
  destruct (_ || _ || _); [|reflexivity].
  replace (packet_complete q) with false; [reflexivity|]. symmetry. apply Z.eqb_neq.
  rewrite E. unfold right_size, VLAN_ICMP_ECHO_REQ_SIZE, MAX_PACKET_IN_BYTES. lia.
Qed.
Print Assumptions C74_large_ping_not_answered.
(** Where the subnets of two VIPs overlap, which configuration allows, the router does
    not answer for the second at all, whoever asks. *)
Theorem C74_second_vip_refuted : exists v : yvlan, good_vlan (y_vlan v) /\ own (y_vlan v) (ip4 253) /\ on_link (y_vlan v) (ip4 1) /\
  (forall q host, good_packet q -> q_l3 q = Arp 1 host (ip4 253) -> answer_packet v q = None) /\
  (forall q host data, good_packet q -> q_l3 q = Icmp host (ip4 253) 8 data -> q_ttl q = false -> answer_packet v q = None).
Proof.
  exists (mkYvlan (mkVlan 100 1 [mkVip (ip4 254) 24; mkVip (ip4 253) 24] false None [1]) []).
  split; [|split; [|split; [|split]]].
  - intros p [<-|[<-|[]]]; (split; [apply good4; lia|vm_compute; split; discriminate]).
  - exists (mkVip (ip4 253) 24). split; [right; left; reflexivity|reflexivity].
  - exists (mkVip (ip4 254) 24). split; [left; reflexivity|]. vm_compute. repeat split; reflexivity.
  - intros q host Hq E. destruct (answer_packet _ q) as [r|] eqn:A; [|reflexivity]. exfalso. revert A.
    unfold good_packet in Hq. rewrite E in Hq. destruct Hq as (_ & _ & H4).
    unfold answer_packet, is_v4, ipv4_handler, resolve_vip_response. rewrite E. cbn [l3_src y_vlan vl_vips]. rewrite H4.
    match goal with |- context [is_faucet_vip ?a ?b] => replace (is_faucet_vip a b) with false by reflexivity end.
    cbn [andb]. destruct (_ || _ || _); [|discriminate]. destruct (packet_complete q); [|discriminate].
    cbn [Z.eqb Pos.eqb]. destruct (_ && _); discriminate.
  - intros q host data Hq E Ht. destruct (answer_packet _ q) as [r|] eqn:A; [|reflexivity]. exfalso. revert A.
    unfold good_packet in Hq. rewrite E in Hq. destruct Hq as (_ & _ & H4).
    unfold answer_packet, is_v4, ipv4_handler, unicast_to_vip. rewrite E, Ht. cbn [l3_src l3_dst y_vlan vl_vips]. rewrite H4.
    match goal with |- context [is_faucet_vip ?a ?b] => replace (is_faucet_vip a b) with false by reflexivity end.
    rewrite andb_false_r. cbn [andb]. destruct (_ || _ || _); [|discriminate]. destruct (packet_complete q); discriminate.
Qed.
Print Assumptions C74_second_vip_refuted.
(** In a subnet of two addresses, 10.0.0.0/31 here, the router answers nobody. *)
Theorem C74_point_to_point_refuted : exists v : yvlan, good_vlan (y_vlan v) /\ apart (y_vlan v) /\
  own (y_vlan v) (ip4 0) /\ belongs (ip4 1) (vip_net (mkVip (ip4 0) 31)) /\
  forall q, good_packet q -> answer_packet v q = None.
Proof.
  exists (mkYvlan (mkVlan 100 1 [mkVip (ip4 0) 31] false None [1]) []).
  assert (Hg : good_vlan (y_vlan (mkYvlan (mkVlan 100 1 [mkVip (ip4 0) 31] false None [1]) []))).
  { intros p [<-|[]]. split; [apply good4; lia|vm_compute; split; discriminate]. }
  split; [exact Hg|split; [|split; [|split]]].
  - intros p p' [<-|[]] [<-|[]]. left. reflexivity.
  - exists (mkVip (ip4 0) 31). split; [left; reflexivity|reflexivity].
  - vm_compute. repeat split; discriminate.
  - intros q Hq. destruct (answer_packet _ q) as [r|] eqn:A; [|reflexivity]. exfalso.
    apply C73_answers_proper in A; [|exact Hg|exact Hq]. destruct A as (_ & _ & _ & _ & _ & P).
    assert (No : forall p a, In p [mkVip (ip4 0) 31] -> beside p a -> False).
    { intros p a [<-|[]] [_ H].
      replace (n_addr (vip_net (mkVip (ip4 0) 31))) with 0x0a000000 in H by reflexivity.
      replace (2 ^ (bits (n_ver (vip_net (mkVip (ip4 0) 31))) - n_len (vip_net (mkVip (ip4 0) 31)))) with 2 in H by reflexivity.
      lia. }
    destruct (s_body r); cbn [proper] in P.
    + destruct P as (_ & _ & _ & _ & p & Hin & Hb). exact (No p _ Hin Hb).
    + destruct P as (_ & _ & _ & _ & p & Hin & Hb). exact (No p _ Hin Hb).
    + destruct P as (_ & _ & _ & (p & Hin & Hb) & _). exact (No p _ Hin Hb).
    + destruct P as (_ & _ & _ & p & Hin & Hb). exact (No p _ Hin Hb).
    + destruct P as (_ & _ & _ & p & Hin & Hb). exact (No p _ Hin Hb).
    + destruct P as (_ & _ & p & Hin & _ & Hb). exact (No p _ Hin Hb).
Qed.
Print Assumptions C74_point_to_point_refuted.
(** A host that probes whether the router's address is free, before it uses it itself, is
    told that it is: ARP probes come from 0.0.0.0 (RFC 5227), neighbour solicitations for
    duplicate address detection from :: (RFC 4862). *)
Theorem C74_probe_refuted : exists v : yvlan, good_vlan (y_vlan v) /\ apart (y_vlan v) /\
  own (y_vlan v) (ip4 254) /\ own (y_vlan v) (gu6 254) /\
  (forall q, q_l3 q = Arp 1 (mkIp 4 0) (ip4 254) -> answer_packet v q = None) /\
  (forall q d h e, q_l3 q = Icmp6 (mkIp 6 0) d h e (NeighbourSolicit (gu6 254)) -> answer_packet v q = None).
Proof.
  exists ex_vlan. split; [exact ex_good|]. split; [exact ex_apart|].
  split; [exists (mkVip (ip4 254) 24); split; [left; reflexivity|reflexivity]|].
  split; [exists (mkVip (gu6 254) 112); split; [right; right; left; reflexivity|reflexivity]|].
  split.
  - intros q E. unfold answer_packet, is_v4, ipv4_handler, resolve_vip_response. rewrite E. cbn [l3_src].
    replace (ip_in_vip_subnet (y_vlan ex_vlan) (mkIp 4 0)) with false by reflexivity. rewrite andb_false_r.
    cbn [y_vlan ex_vlan vl_vips ip_ver Z.eqb Pos.eqb]. destruct (_ || _ || _); [|reflexivity].
    destruct (packet_complete q); [|reflexivity]. destruct (_ && _); reflexivity.
  - intros q d h e E. unfold answer_packet, is_v4, ipv6_handler, time_exceeded. rewrite E. cbn [l3_src].
    replace (vlan_vip_map (y_vlan ex_vlan) (mkIp 6 0)) with (@None vip) by reflexivity.
    replace (ip_in_vip_subnet (y_vlan ex_vlan) (mkIp 6 0)) with false by reflexivity.
    cbn [y_vlan ex_vlan vl_vips ip_ver Z.eqb Pos.eqb]. destruct (_ || _ || _); [|reflexivity].
    destruct (packet_complete q); [|reflexivity]. destruct (q_ttl q); [destruct (has_ext _); reflexivity|].
    cbn [negb]. rewrite orb_true_r. reflexivity.
Qed.
Print Assumptions C74_probe_refuted.
(** IPv6 pings with 89 to 128 bytes are answered, with the data cut short. *)
Theorem C74_ping6_cut_refuted : exists (v : yvlan) (q : request) (data : list Z) (r : reply),
  good_vlan (y_vlan v) /\ apart (y_vlan v) /\ good_packet q /\ whole q 194 /\
  q_l3 q = Icmp6 (gu6 1) (gu6 254) 64 false (EchoRequest6 1 2 data) /\ length data = 100%nat /\
  answer_packet v q = Some r /\ exists data', s_body r = EchoReply6 (gu6 254) (gu6 1) 64 1 2 data' /\ data' <> data.
Proof.
  exists ex_vlan, (mkRequest 1 2 0x0e0000000001 166 166 false (Icmp6 (gu6 1) (gu6 254) 64 false (EchoRequest6 1 2 (repeat 7 100)))),
    (repeat 7 100), (mkReply 1 None 0x0e0000000001 2 (EchoReply6 (gu6 254) (gu6 1) 64 1 2 (repeat 7 88))).
  split; [exact ex_good|]. split; [exact ex_apart|].
  split; [split; [apply good_gu; lia|split; [apply good_gu; lia|split; [reflexivity|exact I]]]|].
  split; [split; [reflexivity|vm_compute; discriminate]|].
  split; [reflexivity|]. split; [apply repeat_length|]. split; [vm_compute; reflexivity|].
  exists (repeat 7 88). split; [reflexivity|]. intros X. apply (f_equal (@length Z)) in X. rewrite !repeat_length in X. discriminate.
Qed.
Print Assumptions C74_ping6_cut_refuted.
(** The last address of an IPv6 subnet is a host's like any other; it gets no answer. *)
Theorem C74_last_address_refuted : exists v : yvlan, good_vlan (y_vlan v) /\ apart (y_vlan v) /\
  belongs (gu6 0xffff) (vip_net (mkVip (gu6 254) 112)) /\ In (mkVip (gu6 254) 112) (vl_vips (y_vlan v)) /\
  forall q d h e b, q_l3 q = Icmp6 (gu6 0xffff) d h e b -> answer_packet v q = None.
Proof.
  exists ex_vlan. split; [exact ex_good|]. split; [exact ex_apart|].
  split; [vm_compute; repeat split; discriminate|]. split; [right; right; left; reflexivity|].
  intros q d h e b E. unfold answer_packet, is_v4, ipv6_handler, time_exceeded. rewrite E. cbn [l3_src].
  replace (vlan_vip_map (y_vlan ex_vlan) (gu6 0xffff)) with (Some (mkVip (gu6 254) 112)) by reflexivity.
  replace (in_subnet (gu6 0xffff) (mkVip (gu6 254) 112)) with false by reflexivity.
  replace (ip_in_vip_subnet (y_vlan ex_vlan) (gu6 0xffff)) with false by reflexivity.
  replace (ip_ver (gu6 0xffff) =? 4) with false by reflexivity.
  cbn [y_vlan ex_vlan vl_vips]. destruct (_ || _ || _); [|reflexivity].
  destruct (packet_complete q); [|reflexivity]. destruct (q_ttl q); [destruct (has_ext _); reflexivity|].
  cbn [negb]. rewrite orb_true_r. reflexivity.
Qed.
Print Assumptions C74_last_address_refuted.
