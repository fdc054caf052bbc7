(** * Proofs about what the router sends of its own accord *)
From Coq Require Import List Bool ZArith Lia.
From Verif Require Import PyBase PyBaseProofs IpModel FloodModel FloodSpec FloodProofs AskModel AskSpec.
Import ListNotations.
Open Scope Z_scope.

Lemma from_bytes_app : forall l r, from_bytes (l ++ r) = fold_left (fun a b => a * 256 + b) r (from_bytes l).
Proof. intros. unfold from_bytes. apply fold_left_app. Qed.

Lemma last3_packed : forall a, last3 (packed a) = [(a / 65536) mod 256; (a / 256) mod 256; a mod 256].
Proof.
  intro a. unfold packed, last3. cbn [seq map skipn].
  change (256 ^ (15 - Z.of_nat 13)) with 65536. change (256 ^ (15 - Z.of_nat 14)) with 256.
  change (256 ^ (15 - Z.of_nat 15)) with 1. rewrite Z.div_1_r. reflexivity.
Qed.

Lemma low24 : forall a x, fold_left (fun a b => a * 256 + b) (last3 (packed a)) x = x * 16777216 + a mod 16777216.
Proof.
  intros a x. rewrite last3_packed. cbn [fold_left].
  assert (E : (a / 65536) mod 256 * 65536 + (a / 256) mod 256 * 256 + a mod 256 = a mod 16777216).
  { replace (a / 65536) with (a / 256 / 256) by (rewrite Z.div_div by lia; reflexivity).
    set (b := a / 256). pose proof (Z.div_mod a 256 ltac:(lia)) as H1. fold b in H1.
    pose proof (Z.div_mod b 256 ltac:(lia)) as H2. set (c := b / 256) in *.
    pose proof (Z.div_mod c 256 ltac:(lia)) as H3. set (d := c / 256) in *.
    pose proof (Z.mod_pos_bound a 256 ltac:(lia)). pose proof (Z.mod_pos_bound b 256 ltac:(lia)).
    pose proof (Z.mod_pos_bound c 256 ltac:(lia)).
    apply (Z.mod_unique a 16777216 d); lia. }
  lia.
Qed.

Lemma solicited_ok : forall a, ipv6_solicited_node_from_ucast a = group_of a.
Proof.
  intro a. unfold ipv6_solicited_node_from_ucast. rewrite from_bytes_app, low24. unfold group_of.
  change (2 ^ 24) with 16777216. f_equal.
Qed.
Lemma group_of_low : forall a, group_of a mod 16777216 = a mod 16777216.
Proof.
  intro a. unfold group_of. change (2 ^ 24) with 16777216.
  replace 0xff0200000000000000000001ff000000 with (0xff0200000000000000000001ff * 16777216) by (vm_compute; reflexivity).
  rewrite Z.add_comm, Z.mod_add by lia. apply Z.mod_mod. lia.
Qed.
Lemma group_mac_of : forall a, group_mac (group_of a) = 0x3333ff000000 + a mod 16777216.
Proof.
  intro a. unfold group_mac, group_of. change (2 ^ 24) with 16777216. change (2 ^ 32) with 4294967296.
  replace 0xff0200000000000000000001ff000000 with (4278190080 + 0xff0200000000000000000001 * 4294967296)
    by (vm_compute; reflexivity).
  replace (4278190080 + 0xff0200000000000000000001 * 4294967296 + a mod 16777216)
    with ((4278190080 + a mod 16777216) + 0xff0200000000000000000001 * 4294967296) by ring.
  rewrite Z.mod_add by lia.
  pose proof (Z.mod_pos_bound a 16777216 ltac:(lia)).
  rewrite Z.mod_small by lia. lia.
Qed.
Lemma eth_mcast_ok : forall a, ipv6_link_eth_mcast a = group_mac (group_of a).
Proof.
  intro a. unfold ipv6_link_eth_mcast. rewrite from_bytes_app, low24, group_mac_of.
  f_equal.
Qed.
Lemma vip_nd_ok : forall p, vip_nd_mcast p = group_mac (group_of (ip_val (v_ip p))).
Proof.
  intro p. unfold vip_nd_mcast. rewrite solicited_ok, eth_mcast_ok, !group_mac_of, group_of_low. reflexivity.
Qed.

Lemma one_host_unicast : forall mac, one_host mac -> mac_addr_is_unicast mac = true.
Proof.
  intros mac [_ B]. unfold mac_addr_is_unicast. destruct (mac =? mac_broadcast) eqn:E.
  - apply Z.eqb_eq in E. subst mac. discriminate.
  - rewrite B. reflexivity.
Qed.
Lemma gw_resolve_asks : forall vid mac me gw whom,
  match whom with Some h => one_host h | None => True end ->
  let f := gw_resolve_pkt (ip_ver gw) vid mac (match whom with Some h => h | None => mac_broadcast end) me gw in
  asks mac me gw whom f /\ fa_tag f = vid.
Proof.
  intros vid mac me gw whom H. unfold gw_resolve_pkt, asks. destruct (ip_ver gw =? 4).
  - cbn. destruct whom; repeat split.
  - unfold nd_request. destruct whom as [h|]; cbn [fa_src fa_dst fa_body fa_tag].
    + rewrite (one_host_unicast _ H). repeat split.
    + change (mac_addr_is_unicast mac_broadcast) with false. cbn [fa_src fa_dst fa_body fa_tag].
      rewrite eth_mcast_ok, solicited_ok. auto.
Qed.

Lemma in_ports_self : forall q l, In q l -> in_ports q l = true.
Proof. intros q l H. apply in_ports_spec. eauto. Qed.

Lemma NoDup_app_l : forall A (l r : list A), NoDup (l ++ r) -> NoDup l.
Proof. intros A l r H. induction l; [constructor|]. cbn in H. inversion H; subst. constructor; [|auto]. intro C. apply H2. apply in_or_app. left. exact C. Qed.
Lemma NoDup_app_r : forall A (l r : list A), NoDup (l ++ r) -> NoDup r.
Proof. intros A l r H. induction l; [exact H|]. cbn in H. inversion H; auto. Qed.
Lemma NoDup_app_disj : forall A (l r : list A) x, NoDup (l ++ r) -> In x l -> In x r -> False.
Proof.
  intros A l r x H. induction l as [|a l IH]; intros Hl Hr; [contradiction|]. cbn in H. inversion H; subst.
  destruct Hl as [->|Hl]; [|auto]. apply H2. apply in_or_app. right. exact Hr.
Qed.
Lemma NoDup_app_intro : forall A (l r : list A), NoDup l -> NoDup r -> (forall x, In x l -> ~ In x r) -> NoDup (l ++ r).
Proof.
  intros A l r Hl Hr D. induction l as [|a l IH]; [exact Hr|]. inversion Hl; subst. cbn. constructor.
  - intro C. apply in_app_or in C. destruct C as [C|C]; [contradiction|]. apply (D a); [left; reflexivity|exact C].
  - apply IH; [assumption|]. intros x Hx. apply D. right. exact Hx.
Qed.

Lemma filter_nums : forall (P : port -> bool) l, NoDup (map p_num l) -> NoDup (map p_num (filter P l)).
Proof.
  intros P l. induction l as [|a l IH]; intro H; cbn; [constructor|]. inversion H; subst.
  destruct (P a); cbn; auto. constructor; auto.
  intro X. apply H2. apply in_map_iff in X. destruct X as [b [E Hb]]. apply filter_In in Hb.
  rewrite <- E. apply in_map. apply Hb.
Qed.

Lemma flood_pkt_in : forall running v build n f, wf_vlan v ->
  (In (n, f) (flood_pkt running v build) <->
   exists q t, reached running v q /\ p_num q = n /\ tag_on v q t /\ f = build t).
Proof.
  intros running v build n f WF. pose proof (wf_nodup v WF) as ND. unfold members in ND.
  rewrite map_app in ND.
  assert (Disj : forall q, In q (v_tagged v) -> In q (v_untagged v ++ v_dot1x v) -> False).
  { intros q H1 H2. apply (NoDup_app_disj _ _ _ (p_num q) ND); apply in_map; assumption. }
  unfold flood_pkt. cbn [flat_map fst snd tagged_flood_ports untagged_flood_ports flood_ports].
  rewrite app_nil_r. unfold tagged_flood_ports, untagged_flood_ports, flood_ports.
  rewrite in_app_iff, !in_map_iff. split.
  - intros [[q [E H]]|[q [E H]]]; injection E as <- <-; apply filter_In in H; destruct H as [Hq P];
      apply andb_true_iff in P; destruct P as [P1 P2]; apply negb_true_iff in P2.
    + assert (M : In q (members v)) by (apply in_or_app; left; exact Hq).
      exists q, (Some (v_vid v)). split; [|split; [reflexivity|split; [|reflexivity]]].
      * split; [exact M|]. split; [exact P1|]. intro N.
        apply (proj1 (excluded_lag_spec v WF None q M) P2 N).
      * split; [reflexivity|]. intro U. exfalso. apply (Disj q Hq U).
    + assert (M : In q (members v)) by (apply in_or_app; right; exact Hq).
      exists q, None. split; [|split; [reflexivity|split; [|reflexivity]]].
      * split; [exact M|]. split; [exact P1|]. intro N.
        apply (proj1 (excluded_lag_spec v WF None q M) P2 N).
      * split; [|reflexivity]. intro T. exfalso. apply (Disj q T Hq).
  - intros (q & t & (M & R & L) & <- & [T1 T2] & ->).
    assert (P : running (p_num q) && negb (in_ports q (excluded_lag_ports v None)) = true).
    { rewrite R. cbn. apply negb_true_iff. apply (excluded_lag_spec v WF None q M). intro N. split; [auto|exact I]. }
    apply in_app_or in M. destruct M as [M|M].
    + left. exists q. rewrite (T1 M). split; [reflexivity|]. apply filter_In. auto.
    + right. exists q. rewrite (T2 M). split; [reflexivity|]. apply filter_In. auto.
Qed.
Lemma flood_pkt_once : forall running v build, wf_vlan v -> NoDup (map fst (flood_pkt running v build)).
Proof.
  intros running v build WF. pose proof (wf_nodup v WF) as ND. unfold members in ND. rewrite map_app in ND.
  unfold flood_pkt. cbn [flat_map fst snd]. rewrite app_nil_r.
  unfold tagged_flood_ports, untagged_flood_ports, flood_ports.
  rewrite map_app, !map_map. cbn [fst]. apply NoDup_app_intro.
  - apply filter_nums. apply (NoDup_app_l _ _ _ ND).
  - apply filter_nums. apply (NoDup_app_r _ _ _ ND).
  - intros x H1 H2. apply in_map_iff in H1, H2. destruct H1 as [q [E1 H1]]. destruct H2 as [r [E2 H2]].
    apply filter_In in H1, H2. apply (NoDup_app_disj _ _ _ x ND).
    + rewrite <- E1. apply in_map. apply H1.
    + rewrite <- E2. apply in_map. apply H2.
Qed.

Lemma stack_links_in : forall running sv v build n f,
  In (n, f) (flood_stack_links running sv v build) <->
  stack_link running sv n /\ f = build (Some (v_vid v)).
Proof.
  intros running sv v build n f. unfold flood_stack_links, stack_link. destruct sv as [s|].
  - rewrite in_map_iff. split.
    + intros [m [E H]]. injection E as <- <-. apply filter_In in H. destruct H as [H R].
      split; [|reflexivity]. exists s. split; [reflexivity|]. split; [exact R|].
      destruct (sv_root s).
      * apply filter_In in H. destruct H as [H P]. apply andb_true_iff in P. destruct P as [P1 P2].
        apply negb_true_iff in P1, P2. split; [exact H|].
        split; intro C; [rewrite (proj2 (mem_spec _ Z.eqb Z.eqb_eq m (sv_inactive s)) C) in P1
                        |rewrite (proj2 (mem_spec _ Z.eqb Z.eqb_eq m (sv_pruned s)) C) in P2]; discriminate.
      * destruct (sv_chosen s); [|contradiction]. destruct H as [->|[]]. reflexivity.
    + intros [(s' & E & R & H) ->]. injection E as <-. exists n. split; [reflexivity|].
      apply filter_In. split; [|exact R]. destruct (sv_root s).
      * destruct H as (H & I & P). apply filter_In. split; [exact H|].
        destruct (mem Z.eqb n (sv_inactive s)) eqn:E1; [apply (mem_spec _ Z.eqb Z.eqb_eq) in E1; contradiction|].
        destruct (mem Z.eqb n (sv_pruned s)) eqn:E2; [apply (mem_spec _ Z.eqb Z.eqb_eq) in E2; contradiction|].
        reflexivity.
      * rewrite H. left. reflexivity.
  - split; [contradiction|]. intros [(s & E & _) _]. discriminate.
Qed.
