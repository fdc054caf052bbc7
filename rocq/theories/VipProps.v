(** * The rules that bring packets to the router: properties *)
From Coq Require Import List Bool ZArith Lia.
From Verif Require Import OpenFlow IpModel AskModel AskSpec VipModel VipSpec VipProofs.
Import ListNotations.
Open Scope Z_scope.

Ltac kinds := unfold arp, icmp6, LPM_PRIORITY, max_prefixlen in *;
  repeat match goal with
  | H : ip_packet _ _ |- _ => destruct H as [[? ?]|[? ?]]; subst
  | H : solicits_router _ _ |- _ => destruct H as [[[? [? ?]] ?]|[[? [? ?]] ?]]
  | H : answers_router _ _ |- _ => destruct H as [[[? [? ?]]|[? [? ?]]] ?]
  end; cbn [Z.eqb Pos.eqb icmp_type icmp_size] in *; try congruence; try lia.

(** An ARP packet for the router (to its Ethernet address, or asking for one of its
    addresses) goes to the controller whole, and nowhere else.  All other ARP packets are
    forwarded as if there was no router, and are not sent to the controller. *)
Theorem C95_arp : forall cfg s pk, wf_vip cfg -> fresh_vip cfg s -> arp pk ->
  (arp_for_router cfg pk -> does (vip_switch cfg s) (vc_vip cfg) pk (to_router 64)) /\
  (~ arp_for_router cfg pk -> (exists v p, router_on cfg v p /\ ip_ver (v_ip p) = 4) ->
   does (vip_switch cfg s) (vc_vip cfg) pk (on cfg)).
Proof.
  intros cfg s pk WF F A. split.
  - intros R. apply (case_wins cfg s pk 12320); [exact WF|exact F|apply c_arp; assumption|].
    intros n i C. destruct C; kinds; right; auto.
  - intros NR [v [p [R V]]]. apply (case_wins cfg s pk 12319); [exact WF|exact F|apply (c_arp_on cfg pk v p); assumption|].
    intros n i C. destruct C; kinds; try tauto; right; auto.
Qed.
Print Assumptions C95_arp.

(** Neighbour solicitations for the router's addresses and, where it has a link-local
    address, router solicitations go to the controller and are also forwarded; pings and
    neighbour advertisements to the router's Ethernet address go to the controller only. *)
Theorem C95_nd : forall cfg s pk, wf_vip cfg -> fresh_vip cfg s ->
  (solicits_router cfg pk -> does (vip_switch cfg s) (vc_vip cfg) pk (to_router_and_on cfg 194)) /\
  (answers_router cfg pk -> does (vip_switch cfg s) (vc_vip cfg) pk (to_router 194)).
Proof.
  intros cfg s pk WF F. split.
  - intros S. apply (case_wins cfg s pk 12416); [exact WF|exact F|apply c_sol; assumption|].
    intros n i C. destruct C; try (right; split; reflexivity); kinds.
  - intros S. apply (case_wins cfg s pk 12416); [exact WF|exact F|apply c_ans; assumption|].
    intros n i C. destruct C; try (right; split; reflexivity); kinds.
Qed.
Print Assumptions C95_nd.

(** With proactive learning, everything else of that version of IP reaches the controller,
    which can so learn where it came from: what is sent to the router's Ethernet address
    on a learning VLAN only the controller (194 bytes of it, of ICMP on IPv4 174), other
    packets are also forwarded. *)
Theorem C95_learning : forall cfg s pk ver v, wf_vip cfg -> fresh_vip cfg s -> ip_packet ver pk ->
  learning cfg ver v ->
  (pk_get pk EthDst = Some (rv_mac v) ->
   (ver = 4 /\ pk_get pk IpProto = Some 1 -> does (vip_switch cfg s) (vc_vip cfg) pk (to_router 174)) /\
   (~ (ver = 4 /\ pk_get pk IpProto = Some 1) -> does (vip_switch cfg s) (vc_vip cfg) pk (to_router 194))) /\
  ((forall v', learning cfg ver v' -> pk_get pk EthDst <> Some (rv_mac v')) ->
   ~ solicits_router cfg pk -> ~ answers_router cfg pk ->
   does (vip_switch cfg s) (vc_vip cfg) pk (to_router_and_on cfg 194)).
Proof.
  intros cfg s pk ver v WF F IP L. pose proof (eth_of ver pk IP) as E. split.
  - intros D.
    assert (NS : ~ solicits_router cfg pk).
    { assert (M : Z.testbit (rv_mac v) 40 = false).
      { apply (proj2 WF). destruct L as [_ [p [[V _] _]]]. exact V. }
      intros [[_ [w [q [_ [_ H]]]]]|[_ [H _]]]; rewrite D in H; injection H as H; rewrite H in M.
      - rewrite group_mac_bit in M. discriminate.
      - discriminate. }
    assert (Dec : answers_router cfg pk \/ ~ (exists w, vcase cfg pk 12416 w) ).
    { destruct (pk_get pk Icmpv6Type) as [t|] eqn:T.
      - destruct (pk_get pk IpProto) as [q|] eqn:Q.
        + destruct (Z.eq_dec q 58) as [->|NQ].
          * destruct IP as [[-> EE]|[-> EE]].
            -- right. intros [w C]. inversion C; subst; try contradiction; kinds.
            -- destruct (Z.eq_dec t 128) as [->|N1]; [|destruct (Z.eq_dec t 136) as [->|N2]].
               ++ left. destruct L as [_ [p [R [V _]]]]. split; [left; split; auto|]. exists v, p. auto.
               ++ left. destruct L as [_ [p [R [V _]]]]. split; [right; split; auto|]. exists v, p. auto.
               ++ right. intros [w C]. inversion C; subst; try contradiction; kinds.
          * right. intros [w C]. inversion C; subst; try contradiction; kinds.
        + right. intros [w C]. inversion C; subst; try contradiction; kinds.
      - right. intros [w C]. inversion C; subst; try contradiction; kinds. }
    destruct Dec as [An|NA].
    + split; [intros [-> _]; exfalso; kinds|intros _].
      apply (case_wins cfg s pk 12416); [exact WF|exact F|apply c_ans; assumption|].
      intros n i C. destruct C; try (right; split; reflexivity); try contradiction; kinds.
    + assert (NAn : ~ answers_router cfg pk) by (intros X; apply NA; eexists; apply c_ans; exact X).
      assert (Pr : pk_get pk IpProto = Some (icmp_type ver) \/ pk_get pk IpProto <> Some (icmp_type ver)).
      { destruct (pk_get pk IpProto) as [q|]; [|right; discriminate].
        destruct (Z.eq_dec q (icmp_type ver)) as [->|N]; [left; reflexivity|right; congruence]. }
      destruct Pr as [Pr|NPr].
      * assert (W : does (vip_switch cfg s) (vc_vip cfg) pk (to_router (icmp_size ver))).
        { apply (case_wins cfg s pk (LPM_PRIORITY + max_prefixlen ver - 1)); [exact WF|exact F|
            apply (c_icmp_us cfg pk ver v); assumption|].
          intros n i C. destruct C; try contradiction; kinds; right; split; reflexivity. }
        split; [intros [-> _]; exact W|]. intros N4. destruct IP as [[-> _]|[-> _]]; [|exact W].
        exfalso. apply N4. split; [reflexivity|exact Pr].
      * split; [intros [-> X]; exfalso; exact (NPr X)|intros _].
        apply (case_wins cfg s pk (LPM_PRIORITY + max_prefixlen ver - 3)); [exact WF|exact F|
          apply (c_us cfg pk ver v); assumption|].
        intros n i C. destruct C; try contradiction; kinds; right; split; reflexivity.
  - intros ND NS NAn.
    assert (Pr : pk_get pk IpProto = Some (icmp_type ver) \/ pk_get pk IpProto <> Some (icmp_type ver)).
    { destruct (pk_get pk IpProto) as [q|]; [|right; discriminate].
      destruct (Z.eq_dec q (icmp_type ver)) as [->|N]; [left; reflexivity|right; congruence]. }
    destruct Pr as [Pr|NPr].
    + apply (case_wins cfg s pk (LPM_PRIORITY + max_prefixlen ver - 2)); [exact WF|exact F|
          apply (c_icmp cfg pk ver v); assumption|].
      intros n i C. destruct C; try contradiction; kinds;
        try (right; split; reflexivity); exfalso; eapply ND; eassumption.
    + apply (case_wins cfg s pk (LPM_PRIORITY + max_prefixlen ver - 4)); [exact WF|exact F|
          apply (c_ip cfg pk ver v); assumption|].
      intros n i C. destruct C; try contradiction; kinds;
        try (right; split; reflexivity); exfalso; eapply ND; eassumption.
Qed.
Print Assumptions C95_learning.

(** Nothing else that comes to the router's table gets any further. *)
Theorem C95_rest : forall cfg s pk, wf_vip cfg -> fresh_vip cfg s ->
  ~ (arp pk /\ exists v p, router_on cfg v p /\ ip_ver (v_ip p) = 4) ->
  ~ solicits_router cfg pk -> ~ answers_router cfg pk ->
  (forall ver v, ip_packet ver pk -> ~ learning cfg ver v) ->
  does (vip_switch cfg s) (vc_vip cfg) pk dropped.
Proof.
  intros cfg s pk WF F NA NS NAn NL. apply (case_wins cfg s pk 0); [exact WF|exact F|apply c_miss|].
  intros n i C. destruct C; try contradiction; try (exfalso; eapply NL; eassumption).
  - right. auto.
  - exfalso. apply NA. split; [assumption|]. match goal with H : arp_for_router _ _ |- _ => destruct H as [v [p [R [V _]]]] end.
    exists v, p. auto.
  - exfalso. apply NA. split; [assumption|]. exists v, p. auto.
Qed.
Print Assumptions C95_rest.

(** What comes to the router's tables: of each VLAN on which it has an address of that
    version, all ARP, what is sent to a group of its addresses and (with a link-local
    address) to all routers, and what is sent to its Ethernet address, unless a filter
    comes first; and nothing else is taken out of the way of other packets. *)
Theorem C95_select : forall cfg s pk, wf_vip cfg -> unfiltered cfg s pk ->
  (forall v p, router_on cfg v p -> on_vlan v pk ->
     ((ip_ver (v_ip p) = 4 /\ arp pk) \/
      (ip_ver (v_ip p) = 6 /\ ip_packet 6 pk /\
         (pk_get pk EthDst = Some (group_mac (group_of (ip_val (v_ip p)))) \/
          is_link_local (v_ip p) = true /\ pk_get pk EthDst = Some 0x333300000002)) ->
      does (vip_switch cfg s) (vc_class cfg) pk [Goto (vc_vip cfg)]) /\
     (ip_packet (ip_ver (v_ip p)) pk -> pk_get pk EthDst = Some (rv_mac v) ->
      does (vip_switch cfg s) (vc_class cfg) pk
        [Goto (if ip_ver (v_ip p) =? 4 then vc_fib4 cfg else vc_fib6 cfg)])) /\
  (forall f, hit (sw_flows (vip_switch cfg s)) (vc_class cfg) pk f ->
     In f (sw_flows s) \/
     exists v p, router_on cfg v p /\ on_vlan v pk /\
       (ip_ver (v_ip p) = 4 /\ arp pk \/
        ip_ver (v_ip p) = 6 /\ pk_get pk EthDst = Some (group_mac (group_of (ip_val (v_ip p)))) \/
        ip_ver (v_ip p) = 6 /\ is_link_local (v_ip p) = true /\ pk_get pk EthDst = Some 0x333300000002 \/
        pk_get pk EthDst = Some (rv_mac v))).
Proof.
  intros cfg s pk WF U.
  assert (Main : forall t, selects cfg pk t ->
            (forall t', selects cfg pk t' -> t' = t) -> does (vip_switch cfg s) (vc_class cfg) pk [Goto t]).
  { intros t S Uniq. destruct (selects_rule cfg pk t S) as [w [W [T [M [P I]]]]].
    apply (decided (vip_rules cfg) s (vc_class cfg) pk [Goto t] w (all_add_vip cfg) W T M).
    - intros r R Tr Mr. destruct (rule_selects cfg pk r WF R Tr Mr) as [Pr [t' [S' I']]].
      right. rewrite Pr, P, I', (Uniq t' S'). auto.
    - rewrite P. exact U. }
  assert (Mac : forall v a, In v (vc_vlans cfg) -> Some (rv_mac v) = Some a -> Z.testbit a 40 = true -> False).
  { intros v a V E B. injection E as E. rewrite <- E, (proj2 WF v V) in B. discriminate. }
  assert (Bit : Z.testbit 0x333300000002 40 = true) by reflexivity.
  split.
  - intros v p R V. split.
    + intros H. apply Main.
      * exists v, p. split; [exact R|]. split; [exact V|]. left. split; [reflexivity|]. exact H.
      * intros t' [v' [p' [R' [V' [[-> _]|[IP' [D' ->]]]]]]]; [reflexivity|]. exfalso.
        destruct H as [[_ A]|[_ [IP [D|[_ D]]]]].
        -- unfold arp in A. destruct IP' as [[_ E]|[_ E]]; congruence.
        -- rewrite D in D'. symmetry in D'. apply (Mac v' _ (proj1 R') D'). apply group_mac_bit.
        -- rewrite D in D'. symmetry in D'. apply (Mac v' _ (proj1 R') D'). exact Bit.
    + intros IP D. apply Main.
      * exists v, p. split; [exact R|]. split; [exact V|]. right. auto.
      * intros t' [v' [p' [R' [V' [[-> H]|[IP' [D' ->]]]]]]].
        -- exfalso. destruct H as [[_ A]|[_ [_ [D'|[_ D']]]]].
           ++ unfold arp in A. destruct IP as [[_ E]|[_ E]]; congruence.
           ++ rewrite D in D'. apply (Mac v _ (proj1 R) D'). apply group_mac_bit.
           ++ rewrite D in D'. apply (Mac v _ (proj1 R) D'). exact Bit.
        -- destruct IP as [[-> E]|[-> E]], IP' as [[-> E']|[-> E']]; congruence.
  - intros f [F [T [M _]]]. apply added_from in F; [|apply all_add_vip]. destruct F as [F|[r [R ->]]]; [left; exact F|].
    right. destruct (rule_selects cfg pk r WF R T M) as [_ [t [[v [p [Ro [V H]]]] _]]].
    exists v, p. split; [exact Ro|]. split; [exact V|].
    destruct H as [[_ [H|[Ver [_ [H|[L H]]]]]]|[_ [H _]]]; auto 6.
Qed.
Print Assumptions C95_select.

(** ** A case, and what does not hold *)

Definition ex_vlan1 := mkRvlan 100 0x0e0000000001 [mkVip (mkIp 4 0x0a0001fe) 24; mkVip (mkIp 6 0xfe800000000000000000000000000001) 64].
Definition ex_vlan2 := mkRvlan 200 0x0e0000000001 [mkVip (mkIp 4 0x0a0002fe) 24].
Definition ex_vc (learn : bool) := mkVipconf [ex_vlan1; ex_vlan2] 3 6 4 5 8 1 learn learn.
Definition ex_pk (vid ety dst proto type tpa : Z) : packet :=
  mkPacket 1 [(vid, 0)] (fun f => match f with
    | EthType => Some ety | EthDst => Some dst
    | IpProto => if proto =? 0 then None else Some proto
    | Icmpv6Type => if type =? 0 then None else Some type
    | OtherField 23 => if tpa =? 0 then None else Some tpa
    | _ => None end).

Lemma ex_vc_wf : forall b, wf_vip (ex_vc b).
Proof. intros b. split; [discriminate|]. intros v [<-|[<-|[]]]; reflexivity. Qed.
Lemma ex_fresh : forall b, fresh_vip (ex_vc b) empty_switch.
Proof. intros b f []. Qed.

(** Hypotheses of the theorems are met: a host on VLAN 100 asks for the router, and for
    another host, and is selected for that; it solicits routers. *)
Example ex_vip :
  arp (ex_pk 100 0x806 0xffffffffffff 0 0 0x0a0001fe) /\
  arp_for_router (ex_vc true) (ex_pk 100 0x806 0xffffffffffff 0 0 0x0a0001fe) /\
  ~ arp_for_router (ex_vc true) (ex_pk 100 0x806 0xffffffffffff 0 0 0x0a000101) /\
  on_vlan ex_vlan1 (ex_pk 100 0x806 0xffffffffffff 0 0 0x0a0001fe) /\
  solicits_router (ex_vc true) (ex_pk 100 0x86dd 0x333300000002 58 133 0) /\
  learning (ex_vc true) 4 ex_vlan1 /\
  (forall ver v, ~ learning (ex_vc false) ver v).
Proof.
  assert (R : router_on (ex_vc true) ex_vlan1 (mkVip (mkIp 4 0x0a0001fe) 24)) by (split; left; reflexivity).
  assert (R6 : router_on (ex_vc true) ex_vlan1 (mkVip (mkIp 6 0xfe800000000000000000000000000001) 64))
    by (split; [left; reflexivity|right; left; reflexivity]).
  split; [reflexivity|]. split; [exists ex_vlan1, (mkVip (mkIp 4 0x0a0001fe) 24); split; [exact R|]; split; [reflexivity|]; right; split; reflexivity|].
  split.
  { intros [v [p [[V P] [Ver D]]]]. cbn in V. destruct V as [<-|[<-|[]]]; cbn in P.
    - destruct P as [<-|[<-|[]]]; cbn in Ver, D; destruct D as [D|[_ D]]; discriminate.
    - destruct P as [<-|[]]; cbn in Ver, D; destruct D as [D|[_ D]]; discriminate. }
  split; [reflexivity|]. split.
  { right. split; [repeat split|]. split; [reflexivity|]. exists ex_vlan1, (mkVip (mkIp 6 0xfe800000000000000000000000000001) 64).
    split; [exact R6|]. split; reflexivity. }
  split; [split; [left; split; reflexivity|]; eexists; split; [exact R|]; split; reflexivity|].
  intros ver v [[[_ L]|[_ L]] _]; discriminate.
Qed.

(** Without proactive learning of IPv4, the router cannot be pinged: a ping sent to its
    Ethernet address is dropped when it comes to the router's table, though an IPv6 ping
    is not. *)
Theorem C95_ping_refuted : ~ (forall cfg s v p pk, wf_vip cfg -> fresh_vip cfg s -> router_on cfg v p ->
  ip_ver (v_ip p) = 4 -> ip_packet 4 pk -> pk_get pk IpProto = Some 1 -> pk_get pk EthDst = Some (rv_mac v) ->
  exists n, does (vip_switch cfg s) (vc_vip cfg) pk (to_router n)).
Proof.
  intros H. set (pk := ex_pk 100 0x800 0x0e0000000001 1 0 0).
  destruct (H (ex_vc false) empty_switch ex_vlan1 (mkVip (mkIp 4 0x0a0001fe) 24) pk (ex_vc_wf _) (ex_fresh _)) as [n [[f F] D]];
    try reflexivity; try (split; left; reflexivity); try (left; split; reflexivity).
  assert (Dr : does (vip_switch (ex_vc false) empty_switch) (vc_vip (ex_vc false)) pk dropped).
  { apply C95_rest; [apply ex_vc_wf|apply ex_fresh| | | |].
    - intros [A _]. discriminate.
    - intros [[[E _] _]|[[E _] _]]; discriminate.
    - intros [[[E _]|[E _]] _]; discriminate.
    - intros ver v _ [[[_ L]|[_ L]] _]; discriminate. }
  destruct Dr as [_ Dr]. specialize (Dr f F). rewrite (D f F) in Dr. discriminate.
Qed.
Print Assumptions C95_ping_refuted.

(** Nor does it then hear the solicitations by which a host checks that the router it
    knows is still there: these are sent to the router's Ethernet address. *)
Theorem C95_probe_refuted : ~ (forall cfg s v p pk, wf_vip cfg -> fresh_vip cfg s -> router_on cfg v p ->
  ip_ver (v_ip p) = 6 -> icmp6 135 pk -> pk_get pk EthDst = Some (rv_mac v) ->
  exists n, does (vip_switch cfg s) (vc_vip cfg) pk (to_router n)).
Proof.
  intros H. set (pk := ex_pk 100 0x86dd 0x0e0000000001 58 135 0).
  destruct (H (ex_vc false) empty_switch ex_vlan1 (mkVip (mkIp 6 0xfe800000000000000000000000000001) 64) pk
              (ex_vc_wf _) (ex_fresh _)) as [n [[f F] D]];
    try reflexivity; try (repeat split; reflexivity); try (split; [left; reflexivity|right; left; reflexivity]).
  assert (Dr : does (vip_switch (ex_vc false) empty_switch) (vc_vip (ex_vc false)) pk dropped).
  { apply C95_rest; [apply ex_vc_wf|apply ex_fresh| | | |].
    - intros [A _]. discriminate.
    - intros [[_ [v [p [[V P] [Ver E]]]]]|[[_ [_ E]] _]]; [|discriminate].
      pose proof (group_mac_bit (ip_val (v_ip p))) as B. injection E as E. rewrite <- E in B. discriminate.
    - intros [[[_ [_ E]]|[_ [_ E]]] _]; discriminate.
    - intros ver v _ [[[_ L]|[_ L]] _]; discriminate. }
  destruct Dr as [_ Dr]. specialize (Dr f F). rewrite (D f F) in Dr. discriminate.
Qed.
Print Assumptions C95_probe_refuted.

(** ARP on one VLAN for the router's address on another VLAN goes nowhere but to the
    controller: the hosts of the VLAN do not see it. *)
Theorem C95_other_vlan_refuted : ~ (forall cfg s v pk, wf_vip cfg -> fresh_vip cfg s -> In v (vc_vlans cfg) ->
  (exists p, In p (rv_vips v) /\ ip_ver (v_ip p) = 4) -> arp pk -> on_vlan v pk ->
  pk_get pk EthDst <> Some (rv_mac v) ->
  (forall p, In p (rv_vips v) -> pk_get pk ArpTpa <> Some (ip_val (v_ip p))) ->
  does (vip_switch cfg s) (vc_vip cfg) pk (on cfg)).
Proof.
  intros H. set (pk := ex_pk 200 0x806 0xffffffffffff 0 0 0x0a0001fe).
  assert (D : does (vip_switch (ex_vc true) empty_switch) (vc_vip (ex_vc true)) pk (on (ex_vc true))).
  { apply (H (ex_vc true) empty_switch ex_vlan2 pk (ex_vc_wf _) (ex_fresh _)); try reflexivity.
    - right. left. reflexivity.
    - exists (mkVip (mkIp 4 0x0a0002fe) 24). split; [left|]; reflexivity.
    - discriminate.
    - intros p [<-|[]]. discriminate. }
  assert (R : does (vip_switch (ex_vc true) empty_switch) (vc_vip (ex_vc true)) pk (to_router 64)).
  { apply (C95_arp (ex_vc true) empty_switch pk (ex_vc_wf _) (ex_fresh _)); [reflexivity|].
    exists ex_vlan1, (mkVip (mkIp 4 0x0a0001fe) 24). split; [split; left; reflexivity|]. split; [reflexivity|].
    right. split; reflexivity. }
  destruct D as [[f F] D], R as [_ R]. specialize (D f F). specialize (R f F). rewrite D in R. discriminate.
Qed.
Print Assumptions C95_other_vlan_refuted.
