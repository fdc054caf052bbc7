(** * The rules that bring packets to the router: proofs *)
From Coq Require Import List Bool ZArith Lia.
From Verif Require Import OpenFlow IpModel AskModel AskSpec AskProofs VipModel VipSpec.
From Verif Require CoproProofs.
Import ListNotations.
Open Scope Z_scope.

Lemma matches_cons : forall pk f v m, matches pk (exact f v :: m) = true <-> pk_get pk f = Some v /\ matches pk m = true.
Proof.
  intros. unfold matches, exact. cbn [forallb item_matches]. rewrite andb_true_iff. apply and_iff_compat_r.
  destruct (pk_get pk f) as [x|]; [|split; discriminate].
  rewrite !Z.land_m1_r, Z.eqb_eq. split; [intros ->; reflexivity|congruence].
Qed.

(** ** Adding rules *)

Definition all_add (fms : list flowmod) : Prop := forall fm, In fm fms -> fm_cmd fm = FAdd.

Lemma added_from : forall fms s f, all_add fms -> In f (sw_flows (apply_msgs (map FlowMod fms) s)) ->
  In f (sw_flows s) \/ exists fm, In fm fms /\ f = flow_of fm.
Proof.
  induction fms as [|a fms IH]; intros s f A H; [left; exact H|].
  cbn in H. apply IH in H; [|intros x X; apply A; right; exact X].
  destruct H as [H|[fm [I E]]]; [|right; exists fm; split; [right; exact I|exact E]].
  cbn in H. apply CoproProofs.in_add in H; [|apply A; left; reflexivity].
  destruct H as [E|[H _]]; [right; exists a; split; [left; reflexivity|exact E]|left; exact H].
Qed.

Lemma slot_kept : forall fms s f, all_add fms -> In f (sw_flows s) ->
  exists g, In g (sw_flows (apply_msgs (map FlowMod fms) s)) /\
    f_table g = f_table f /\ f_prio g = f_prio f /\ f_match g = f_match f.
Proof.
  induction fms as [|a fms IH]; intros s f A H; [exists f; auto|].
  assert (A' : all_add fms) by (intros x X; apply A; right; exact X).
  cbn. destruct (same_slot (fm_table a) (fm_prio a) (fm_match a) f) eqn:S.
  - destruct (IH (apply_msg (FlowMod a) s) (flow_of a) A') as [g [G [E1 [E2 E3]]]].
    + cbn. apply CoproProofs.in_add; [apply A; left; reflexivity|left; reflexivity].
    + exists g. split; [exact G|].
      apply (CoproProofs.same_slot_self f (flow_of a)) in S. destruct S as [S1 [S2 S3]].
      rewrite E1, E2, E3, S1, S2, S3. auto.
  - apply (IH (apply_msg (FlowMod a) s) f A'). cbn. apply CoproProofs.in_add; [apply A; left; reflexivity|auto].
Qed.

Lemma added_to : forall fms s fm, all_add fms -> In fm fms ->
  exists g, In g (sw_flows (apply_msgs (map FlowMod fms) s)) /\
    f_table g = fm_table fm /\ f_prio g = fm_prio fm /\ f_match g = fm_match fm.
Proof.
  intros fms s fm A H. apply in_split in H. destruct H as [l [r ->]].
  rewrite map_app. unfold apply_msgs. rewrite fold_left_app. cbn [map fold_left].
  apply (slot_kept r _ (flow_of fm)).
  - intros x X. apply A. apply in_or_app. right. right. exact X.
  - cbn. apply CoproProofs.in_add; [|left; reflexivity]. apply A. apply in_or_app. right. left. reflexivity.
Qed.

Lemma decided : forall fms s t pk inst w, all_add fms -> In w fms -> fm_table w = t ->
  matches pk (fm_match w) = true ->
  (forall r, In r fms -> fm_table r = t -> matches pk (fm_match r) = true ->
     fm_prio r < fm_prio w \/ fm_prio r = fm_prio w /\ fm_inst r = inst) ->
  (forall f, In f (sw_flows s) -> f_table f = t -> matches pk (f_match f) = true -> f_prio f < fm_prio w) ->
  does (apply_msgs (map FlowMod fms) s) t pk inst.
Proof.
  intros fms s t pk inst w A W T M R S.
  destruct (added_to fms s w A W) as [g [G [E1 [E2 E3]]]].
  assert (All : forall f, In f (sw_flows (apply_msgs (map FlowMod fms) s)) -> f_table f = t ->
            matches pk (f_match f) = true -> f_prio f < fm_prio w \/ f_prio f = fm_prio w /\ f_inst f = inst).
  { intros f F Ft Fm. apply added_from in F; [|exact A]. destruct F as [F|[r [I ->]]].
    - left. apply S; assumption.
    - apply R; assumption. }
  assert (Gm : matches pk (f_match g) = true) by (rewrite E3; exact M).
  split.
  - exists g. split; [exact G|]. split; [congruence|]. split; [exact Gm|].
    intros f F Ft Fm. rewrite E2. destruct (All f F Ft Fm) as [H|[H _]]; lia.
  - intros f [F [Ft [Fm Max]]]. destruct (All f F Ft Fm) as [H|[_ H]]; [|exact H].
    assert (E1' : f_table g = t) by congruence. specialize (Max g G E1' Gm). lia.
Qed.

(** ** The rules *)

Lemma group_mac_bit : forall a, Z.testbit (group_mac (group_of a)) 40 = true.
Proof.
  intros a. unfold group_mac. set (x := group_of a mod 2 ^ 32).
  assert (X : 0 <= x < 2 ^ 32) by (apply Z.mod_pos_bound; lia).
  rewrite Z.testbit_true by lia.
  assert (E : (0x333300000000 + x) / 2 ^ 40 = 0x33).
  { symmetry. apply (Z.div_unique _ _ _ (0x003300000000 + x)).
    - left. change (2 ^ 40) with 0x10000000000. change (2 ^ 32) with 0x100000000 in X. lia.
    - change (2 ^ 40) with 0x10000000000. lia. }
  rewrite E. reflexivity.
Qed.

Lemma all_add_vip : forall cfg, all_add (vip_rules cfg).
Proof.
  intros cfg fm H. unfold vip_rules in H. cbn [In] in H. destruct H as [<-|H]; [reflexivity|].
  apply in_flat_map in H. destruct H as [v [_ H]].
  apply in_app_iff in H. destruct H as [H|H]; apply in_flat_map in H; destruct H as [p [_ H]];
    unfold vip_nd4, vip_nd6, fib_to_vip in H; cbn [Z.eqb Pos.eqb] in H;
    apply in_app_iff in H; destruct H as [H|H];
    repeat first
      [ progress cbn [In app] in H
      | match type of H with context [if ?b then _ else _] => destruct b end
      | destruct H as [H|H]; [subst; reflexivity|]
      | contradiction ].
Qed.

(** Each rule comes of a VLAN and an address of the router on it. *)
Lemma in_rules : forall cfg r, In r (vip_rules cfg) <->
  r = vip_add cfg (vc_vip cfg) MISS_PRIORITY [] [] \/
  exists v p, router_on cfg v p /\
    (ip_ver (v_ip p) = 4 /\ In r (vip_nd4 cfg v (LPM_PRIORITY + 32) p ++ fib_to_vip cfg 4 v (LPM_PRIORITY + 32) p) \/
     ip_ver (v_ip p) = 6 /\ In r (vip_nd6 cfg v (LPM_PRIORITY + 128) p ++ fib_to_vip cfg 6 v (LPM_PRIORITY + 128) p)).
Proof.
  intros cfg r. unfold vip_rules. cbn [In]. rewrite in_flat_map. split.
  - intros [<-|[v [V H]]]; [left; reflexivity|right]. apply in_app_iff in H.
    destruct H as [H|H]; apply in_flat_map in H; destruct H as [p [P H]];
      apply filter_In in P; destruct P as [P Ver]; apply Z.eqb_eq in Ver; exists v, p;
      (split; [split; assumption|]); [left|right]; split; assumption.
  - intros [->|[v [p [[V P] H]]]]; [left; reflexivity|right]. exists v. split; [exact V|].
    apply in_app_iff. destruct H as [[Ver H]|[Ver H]]; [left|right]; apply in_flat_map; exists p;
      (split; [apply filter_In; split; [exact P|apply Z.eqb_eq; exact Ver]|exact H]).
Qed.

(** What the rules of the VIP table that match a packet say *)
Inductive vcase (cfg : vipconf) (pk : packet) : Z -> list instruction -> Prop :=
| c_miss : vcase cfg pk 0 dropped
| c_arp : arp pk -> arp_for_router cfg pk -> vcase cfg pk 12320 (to_router 64)
| c_arp_on : forall v p, arp pk -> router_on cfg v p -> ip_ver (v_ip p) = 4 -> vcase cfg pk 12319 (on cfg)
| c_sol : solicits_router cfg pk -> vcase cfg pk 12416 (to_router_and_on cfg 194)
| c_ans : answers_router cfg pk -> vcase cfg pk 12416 (to_router 194)
| c_icmp_us : forall ver v, ip_packet ver pk -> learning cfg ver v -> pk_get pk EthDst = Some (rv_mac v) ->
    pk_get pk IpProto = Some (icmp_type ver) ->
    vcase cfg pk (LPM_PRIORITY + max_prefixlen ver - 1) (to_router (icmp_size ver))
| c_icmp : forall ver v, ip_packet ver pk -> learning cfg ver v -> pk_get pk IpProto = Some (icmp_type ver) ->
    vcase cfg pk (LPM_PRIORITY + max_prefixlen ver - 2) (to_router_and_on cfg 194)
| c_us : forall ver v, ip_packet ver pk -> learning cfg ver v -> pk_get pk EthDst = Some (rv_mac v) ->
    vcase cfg pk (LPM_PRIORITY + max_prefixlen ver - 3) (to_router 194)
| c_ip : forall ver v, ip_packet ver pk -> learning cfg ver v ->
    vcase cfg pk (LPM_PRIORITY + max_prefixlen ver - 4) (to_router_and_on cfg 194).

Ltac mats H := unfold icmp6_match in H; repeat
  match type of H with matches _ (exact _ _ :: _) = true => apply matches_cons in H; destruct H as [? H] end; clear H.
Ltac here := repeat first [left; reflexivity | right].
Ltac memb H :=
  repeat first
    [ progress cbn [In app] in H
    | match type of H with In _ (_ ++ _) => apply in_app_iff in H; destruct H as [H|H] end
    | match type of H with context [if ?b then _ else _] => destruct b eqn:?B end
    | match type of H with _ \/ _ => destruct H as [H|H]; [subst|] end
    | contradiction ].

Lemma learn_of : forall cfg ver v p, (ver = 4 \/ ver = 6) -> router_on cfg v p -> ip_ver (v_ip p) = ver ->
  (if ver =? 4 then vc_learn4 cfg else vc_learn6 cfg) && negb (is_link_local (v_ip p)) = true -> learning cfg ver v.
Proof.
  intros cfg ver v p D R E H. apply andb_true_iff in H. destruct H as [L NL]. apply negb_true_iff in NL.
  split; [|exists p; auto]. destruct D as [-> | ->]; cbn in L; auto.
Qed.

Lemma rule_case : forall cfg pk r, wf_vip cfg -> In r (vip_rules cfg) -> fm_table r = vc_vip cfg ->
  matches pk (fm_match r) = true -> vcase cfg pk (fm_prio r) (fm_inst r).
Proof.
  intros cfg pk r [WT _] I T M. apply in_rules in I. destruct I as [->|[v [p [R [[Ver I]|[Ver I]]]]]].
  - cbn. apply c_miss.
  - apply in_app_iff in I. destruct I as [I|I].
    + unfold vip_nd4 in I. cbn [In] in I.
      destruct I as [<-|[<-|[<-|[<-|[]]]]]; cbn in T; try congruence; cbn [fm_match flowcontroller vip_add] in M; mats M.
      * apply c_arp; [assumption|]. exists v, p. auto.
      * apply c_arp; [assumption|]. exists v, p. auto.
      * apply (c_arp_on cfg pk v p); assumption.
    + unfold fib_to_vip in I. cbn [In] in I. destruct I as [<-|I]; [cbn in T; congruence|].
      match type of I with In _ (if ?b then _ else _) => destruct b eqn:L; [|contradiction] end.
      apply (learn_of cfg 4 v p) in L; auto. cbn [In] in I.
      destruct I as [<-|[<-|[<-|[<-|[]]]]]; cbn [fm_match flowcontroller controller_and_flood vip_add] in M; mats M;
        cbn in H; assert (IP : ip_packet 4 pk) by (left; auto).
      * apply (c_icmp_us cfg pk 4 v); assumption.
      * apply (c_icmp cfg pk 4 v); assumption.
      * apply (c_us cfg pk 4 v); assumption.
      * apply (c_ip cfg pk 4 v); assumption.
  - apply in_app_iff in I. destruct I as [I|I].
    + unfold vip_nd6 in I. apply in_app_iff in I. destruct I as [I|I].
      * destruct (is_link_local (v_ip p)) eqn:L; [|contradiction]. cbn [In] in I.
        destruct I as [<-|[<-|[]]]; cbn in T; try congruence.
        cbn [fm_match controller_and_flood vip_add] in M. mats M.
        apply c_sol. right. split; [split; auto|]. split; [assumption|]. exists v, p. auto.
      * cbn [In] in I.
        destruct I as [<-|[<-|[<-|[<-|[]]]]]; cbn in T; try congruence;
          cbn [fm_match flowcontroller controller_and_flood vip_add] in M; mats M.
        -- apply c_ans. split; [left; split; auto|]. exists v, p. auto.
        -- apply c_ans. split; [right; split; auto|]. exists v, p. auto.
        -- apply c_sol. left. split; [split; auto|]. exists v, p. rewrite <- vip_nd_ok. auto.
    + unfold fib_to_vip in I. cbn [In] in I. destruct I as [<-|I]; [cbn in T; congruence|].
      match type of I with In _ (if ?b then _ else _) => destruct b eqn:L; [|contradiction] end.
      apply (learn_of cfg 6 v p) in L; auto. cbn [In] in I.
      destruct I as [<-|[<-|[<-|[<-|[]]]]]; cbn [fm_match flowcontroller controller_and_flood vip_add] in M; mats M;
        cbn in H; assert (IP : ip_packet 6 pk) by (right; auto).
      * apply (c_icmp_us cfg pk 6 v); assumption.
      * apply (c_icmp cfg pk 6 v); assumption.
      * apply (c_us cfg pk 6 v); assumption.
      * apply (c_ip cfg pk 6 v); assumption.
Qed.

Lemma in_rules4 : forall cfg v p r, router_on cfg v p -> ip_ver (v_ip p) = 4 ->
  In r (vip_nd4 cfg v (LPM_PRIORITY + 32) p ++ fib_to_vip cfg 4 v (LPM_PRIORITY + 32) p) -> In r (vip_rules cfg).
Proof. intros. apply in_rules. right. exists v, p. auto. Qed.
Lemma in_rules6 : forall cfg v p r, router_on cfg v p -> ip_ver (v_ip p) = 6 ->
  In r (vip_nd6 cfg v (LPM_PRIORITY + 128) p ++ fib_to_vip cfg 6 v (LPM_PRIORITY + 128) p) -> In r (vip_rules cfg).
Proof. intros. apply in_rules. right. exists v, p. auto. Qed.

Ltac fits := cbn [fm_match flowcontroller controller_and_flood select_packets vip_add]; unfold icmp6_match;
  repeat (apply matches_cons; split; [first [assumption | reflexivity]|]); reflexivity.

Lemma learn_rules : forall cfg ver v r, learning cfg ver v ->
  In r [ flowcontroller cfg [exact EthType (eth_type ver); exact EthDst (rv_mac v); exact IpProto (icmp_type ver)]
              (LPM_PRIORITY + max_prefixlen ver - 1) (icmp_size ver);
            controller_and_flood cfg [exact EthType (eth_type ver); exact IpProto (icmp_type ver)] (LPM_PRIORITY + max_prefixlen ver - 2);
            flowcontroller cfg [exact EthType (eth_type ver); exact EthDst (rv_mac v)]
              (LPM_PRIORITY + max_prefixlen ver - 3) MAX_PACKET_IN_SIZE;
            controller_and_flood cfg [exact EthType (eth_type ver)] (LPM_PRIORITY + max_prefixlen ver - 4) ] ->
  In r (vip_rules cfg).
Proof.
  intros cfg ver v r [[[-> L]|[-> L]] [p [R [Ver NL]]]] I.
  - apply (in_rules4 cfg v p r R Ver). apply in_or_app. right. unfold fib_to_vip. cbn [Z.eqb Pos.eqb].
    rewrite L, NL. cbn [andb negb]. right. exact I.
  - apply (in_rules6 cfg v p r R Ver). apply in_or_app. right. unfold fib_to_vip. cbn [Z.eqb Pos.eqb].
    rewrite L, NL. cbn [andb negb]. right. exact I.
Qed.
Lemma eth_of : forall ver pk, ip_packet ver pk -> pk_get pk EthType = Some (eth_type ver).
Proof. intros ver pk [[-> H]|[-> H]]; exact H. Qed.

Lemma case_rule : forall cfg pk n i, vcase cfg pk n i ->
  exists r, In r (vip_rules cfg) /\ fm_table r = vc_vip cfg /\ matches pk (fm_match r) = true /\ fm_prio r = n /\ fm_inst r = i.
Proof.
  intros cfg pk n i C. destruct C as
    [|A [v [p [R [Ver [D|[D T]]]]]]|v p A R Ver|[[[E [P T]] [v [p [R [Ver D]]]]]|[[E [P T]] [D [v [p [R [Ver L]]]]]]]
     |[[[E [P T]]|[E [P T]]] [v [p [R [Ver D]]]]]|ver v IP L D P|ver v IP L P|ver v IP L D|ver v IP L].
  - exists (vip_add cfg (vc_vip cfg) MISS_PRIORITY [] []). split; [left; reflexivity|]. repeat split.
  - eexists. split; [apply (in_rules4 cfg v p _ R Ver); right; right; left; reflexivity|].
    split; [reflexivity|]. split; [fits|]. split; reflexivity.
  - eexists. split; [apply (in_rules4 cfg v p _ R Ver); right; left; reflexivity|].
    split; [reflexivity|]. split; [fits|]. split; reflexivity.
  - eexists. split; [apply (in_rules4 cfg v p _ R Ver); right; right; right; left; reflexivity|].
    split; [reflexivity|]. split; [fits|]. split; reflexivity.
  - rewrite <- vip_nd_ok in D. eexists.
    split; [apply (in_rules6 cfg v p _ R Ver); apply in_or_app; left; unfold vip_nd6; apply in_or_app; right;
            right; right; right; left; reflexivity|].
    split; [reflexivity|]. split; [fits|]. split; reflexivity.
  - eexists.
    split; [apply (in_rules6 cfg v p _ R Ver); apply in_or_app; left; unfold vip_nd6; apply in_or_app; left;
            rewrite L; right; left; reflexivity|].
    split; [reflexivity|]. split; [fits|]. split; reflexivity.
  - eexists.
    split; [apply (in_rules6 cfg v p _ R Ver); apply in_or_app; left; unfold vip_nd6; apply in_or_app; right;
            left; reflexivity|].
    split; [reflexivity|]. split; [fits|]. split; reflexivity.
  - eexists.
    split; [apply (in_rules6 cfg v p _ R Ver); apply in_or_app; left; unfold vip_nd6; apply in_or_app; right;
            right; left; reflexivity|].
    split; [reflexivity|]. split; [fits|]. split; reflexivity.
  - apply eth_of in IP. eexists. split; [apply (learn_rules cfg ver v _ L); left; reflexivity|].
    split; [reflexivity|]. split; [fits|]. split; reflexivity.
  - apply eth_of in IP. eexists. split; [apply (learn_rules cfg ver v _ L); right; left; reflexivity|].
    split; [reflexivity|]. split; [fits|]. split; reflexivity.
  - apply eth_of in IP. eexists. split; [apply (learn_rules cfg ver v _ L); right; right; left; reflexivity|].
    split; [reflexivity|]. split; [fits|]. split; reflexivity.
  - apply eth_of in IP. eexists. split; [apply (learn_rules cfg ver v _ L); right; right; right; left; reflexivity|].
    split; [reflexivity|]. split; [fits|]. split; reflexivity.
Qed.

Lemma case_wins : forall cfg s pk n i, wf_vip cfg -> fresh_vip cfg s -> vcase cfg pk n i ->
  (forall n' i', vcase cfg pk n' i' -> n' < n \/ n' = n /\ i' = i) ->
  does (vip_switch cfg s) (vc_vip cfg) pk i.
Proof.
  intros cfg s pk n i WF F C Max. destruct (case_rule cfg pk n i C) as [w [W [T [M [<- <-]]]]].
  apply (decided (vip_rules cfg) s (vc_vip cfg) pk (fm_inst w) w (all_add_vip cfg) W T M).
  - intros r R Tr Mr. apply Max. apply rule_case; assumption.
  - intros f I Tf _. exfalso. exact (F f I Tf).
Qed.

(** ** The classification table *)

Definition selects (cfg : vipconf) (pk : packet) (t : Z) : Prop :=
  exists v p, router_on cfg v p /\ on_vlan v pk /\
    ((t = vc_vip cfg /\
      (ip_ver (v_ip p) = 4 /\ arp pk \/
       ip_ver (v_ip p) = 6 /\ ip_packet 6 pk /\
         (pk_get pk EthDst = Some (group_mac (group_of (ip_val (v_ip p)))) \/
          is_link_local (v_ip p) = true /\ pk_get pk EthDst = Some 0x333300000002))) \/
     ip_packet (ip_ver (v_ip p)) pk /\ pk_get pk EthDst = Some (rv_mac v) /\
     t = if ip_ver (v_ip p) =? 4 then vc_fib4 cfg else vc_fib6 cfg).

Lemma rule_selects : forall cfg pk r, wf_vip cfg -> In r (vip_rules cfg) -> fm_table r = vc_class cfg ->
  matches pk (fm_match r) = true -> fm_prio r = 0x4000 /\ exists t, selects cfg pk t /\ fm_inst r = [Goto t].
Proof.
  intros cfg pk r [WT _] I T M. apply in_rules in I. destruct I as [->|[v [p [R [[Ver I]|[Ver I]]]]]].
  - cbn in T. congruence.
  - apply in_app_iff in I. destruct I as [I|I].
    + unfold vip_nd4 in I. cbn [In] in I.
      destruct I as [<-|[<-|[<-|[<-|[]]]]]; cbn in T; try congruence; cbn [fm_match select_packets vip_add] in M; mats M.
      split; [reflexivity|]. exists (vc_vip cfg). split; [|reflexivity]. exists v, p. split; [exact R|].
      split; [assumption|]. left. auto.
    + unfold fib_to_vip in I. cbn [In] in I. destruct I as [<-|I].
      * cbn [fm_match select_packets vip_add] in M. mats M. split; [reflexivity|]. exists (vc_fib4 cfg).
        split; [|reflexivity]. exists v, p. split; [exact R|]. split; [assumption|]. right. rewrite Ver.
        split; [left; auto|]. auto.
      * match type of I with In _ (if ?b then _ else _) => destruct b; [|contradiction] end. cbn [In] in I.
        destruct I as [<-|[<-|[<-|[<-|[]]]]]; cbn in T; congruence.
  - apply in_app_iff in I. destruct I as [I|I].
    + unfold vip_nd6 in I. apply in_app_iff in I. destruct I as [I|I].
      * destruct (is_link_local (v_ip p)) eqn:L; [|contradiction]. cbn [In] in I.
        destruct I as [<-|[<-|[]]]; cbn in T; try congruence.
        cbn [fm_match select_packets vip_add] in M. mats M. split; [reflexivity|]. exists (vc_vip cfg).
        split; [|reflexivity]. exists v, p. split; [exact R|]. split; [assumption|]. left. split; [reflexivity|].
        right. split; [exact Ver|]. split; [right; auto|]. right. auto.
      * cbn [In] in I. destruct I as [<-|[<-|[<-|[<-|[]]]]]; cbn in T; try congruence.
        cbn [fm_match select_packets vip_add] in M. mats M. split; [reflexivity|]. exists (vc_vip cfg).
        split; [|reflexivity]. exists v, p. split; [exact R|]. split; [assumption|]. left. split; [reflexivity|].
        right. split; [exact Ver|]. split; [right; auto|]. left. rewrite <- vip_nd_ok. assumption.
    + unfold fib_to_vip in I. cbn [In] in I. destruct I as [<-|I].
      * cbn [fm_match select_packets vip_add] in M. mats M. split; [reflexivity|]. exists (vc_fib6 cfg).
        split; [|reflexivity]. exists v, p. split; [exact R|]. split; [assumption|]. right. rewrite Ver.
        split; [right; auto|]. auto.
      * match type of I with In _ (if ?b then _ else _) => destruct b; [|contradiction] end. cbn [In] in I.
        destruct I as [<-|[<-|[<-|[<-|[]]]]]; cbn in T; congruence.
Qed.

Lemma selects_rule : forall cfg pk t, selects cfg pk t ->
  exists r, In r (vip_rules cfg) /\ fm_table r = vc_class cfg /\ matches pk (fm_match r) = true /\
    fm_prio r = 0x4000 /\ fm_inst r = [Goto t].
Proof.
  intros cfg pk t [v [p [R [V [[-> [[Ver A]|[Ver [IP [D|[L D]]]]]]|[IP [D ->]]]]]]].
  - eexists. split; [apply (in_rules4 cfg v p _ R Ver); left; reflexivity|].
    split; [reflexivity|]. split; [fits|]. split; reflexivity.
  - apply eth_of in IP. rewrite <- vip_nd_ok in D. eexists.
    split; [apply (in_rules6 cfg v p _ R Ver); apply in_or_app; left; unfold vip_nd6; apply in_or_app; right;
            right; right; left; reflexivity|].
    split; [reflexivity|]. split; [fits|]. split; reflexivity.
  - apply eth_of in IP. eexists.
    split; [apply (in_rules6 cfg v p _ R Ver); apply in_or_app; left; unfold vip_nd6; apply in_or_app; left;
            rewrite L; left; reflexivity|].
    split; [reflexivity|]. split; [fits|]. split; reflexivity.
  - destruct IP as [[Ver E]|[Ver E]]; rewrite Ver; eexists.
    + split; [apply (in_rules4 cfg v p _ R Ver); apply in_or_app; right; left; reflexivity|].
      split; [reflexivity|]. split; [fits|]. split; reflexivity.
    + split; [apply (in_rules6 cfg v p _ R Ver); apply in_or_app; right; left; reflexivity|].
      split; [reflexivity|]. split; [fits|]. split; reflexivity.
Qed.
