(** * Virtual IPs: the overlap check (C37) and the lookup of an address (C50) *)
From Coq Require Import ZArith List Bool Lia.
From Verif Require Import PyBase PyBaseProofs OpenFlow TableModel IpModel IpSpec IpProofs RouteModel RouteSpec RouteRib RouteMicro RouterCheckModel.
Import ListNotations.
Open Scope Z_scope.

(** The VIP is an address of VLAN [x]. *)
Definition vip_of (x : vlan) (p : vip) : Prop := In p (vl_vips x).

Lemma router_vips_in vs p : In p (router_vips vs) <-> exists x, In x vs /\ vip_of x p /\ is_link_local (v_ip p) = false.
Proof.
  unfold router_vips.
  assert (forall ps acc, In p (fold_left (fun acc q => if is_link_local (v_ip q) then acc else set_add vip_eqb q acc) ps acc) <->
    In p acc \/ (In p ps /\ is_link_local (v_ip p) = false)) as H1.
  { induction ps as [|q ps IH]; intros acc; cbn [fold_left]; [cbn; tauto|]. rewrite IH. destruct (is_link_local (v_ip q)) eqn:E.
    - cbn [In]. split; [tauto|]. intros [H|[[->|H] N]]; [tauto|congruence|tauto].
    - rewrite (set_add_in vip_eqb vip_eqb_eq). cbn [In]. split; [|intros [H|[[<-|H] N]]; tauto].
      intros [[->|H]|[H N]]; tauto. }
  assert (forall vs acc, In p (fold_left (fun acc v => fold_left (fun acc q => if is_link_local (v_ip q) then acc else set_add vip_eqb q acc) (vl_vips v) acc) vs acc) <->
    In p acc \/ exists x, In x vs /\ vip_of x p /\ is_link_local (v_ip p) = false) as H2.
  { induction vs0 as [|x vs0 IH]; intros acc; cbn [fold_left].
    - split; [tauto|]. intros [H|(x & [] & _)]. exact H.
    - rewrite IH, H1. unfold vip_of. split.
      + intros [[H|[H N]]|(y & Hy & Q)]; [tauto|right; exists x; cbn; tauto|right; exists y; cbn; tauto].
      + intros [H|(y & [<-|Hy] & Q)]; [tauto|tauto|]. right. eauto. }
  rewrite H2. cbn. tauto.
Qed.

Lemma check_in rs : forall seen vs, check_routers seen rs = true -> In vs rs -> vips_overlap (router_vips vs) = false.
Proof.
  induction rs as [|r rs IH]; intros seen vs H I; [destruct I|]; destruct I as [->|I]; cbn [check_routers] in H; apply andb_true_iff in H as [H1 H2].
  - apply andb_true_iff in H1 as [_ H1]. now apply negb_true_iff.
  - eapply IH; eauto.
Qed.

(** C37: in an accepted configuration any two different virtual IPs of a router
    that are not link-local have subnets with no address in common. *)
Theorem C37_router_vips_disjoint : forall rs vs x y p q,
  check_routers [] rs = true -> In vs rs ->
  In x vs -> In y vs -> vip_of x p -> vip_of y q ->
  good_vip p -> good_vip q -> is_link_local (v_ip p) = false -> is_link_local (v_ip q) = false ->
  p <> q -> disjoint (vip_net p) (vip_net q).
Proof.
  intros rs vs x y p q C I Ix Iy Ip Iq Gp Gq Lp Lq Ne a [A B].
  pose proof (check_in rs [] vs C I) as O.
  assert (forall p q, In p (router_vips vs) -> In q (router_vips vs) -> good_vip p -> good_vip q -> p <> q -> ~ belongs (v_ip p) (vip_net q)) as N.
  { intros p0 q0 J J' G G' Ne0 Bl. assert (vips_overlap (router_vips vs) = true); [|congruence].
    apply existsb_exists. exists p0. split; [exact J|]. apply existsb_exists. exists q0. split; [apply (set_remove_in vip_eqb vip_eqb_eq); split; auto|].
    apply ip_in_net_spec; [apply G|now apply vip_net_good|exact Bl]. }
  assert (In p (router_vips vs)) as Jp by (apply router_vips_in; eauto).
  assert (In q (router_vips vs)) as Jq by (apply router_vips_in; eauto).
  destruct (Z.le_gt_cases (n_len (vip_net p)) (n_len (vip_net q))) as [Le|Lt].
  - apply (N q p Jq Jp Gq Gp); [congruence|]. eapply (nested (vip_net p) (vip_net q) a); eauto; try apply vip_net_good; auto. now apply vip_belongs.
  - apply (N p q Jp Jq Gp Gq Ne). eapply (nested (vip_net q) (vip_net p) a); eauto; try apply vip_net_good; auto; [lia|]. now apply vip_belongs.
Qed.
Print Assumptions C37_router_vips_disjoint.

Definition ip4 (a b c d : Z) : ip := mkIp 4 (((a * 256 + b) * 256 + c) * 256 + d).
Definition vv (id : Z) (vips : list vip) : vlan := mkVlan id 0 vips false None [].

(** A router of two VLANs with three subnets is accepted; with one subnet inside
    another it is not. *)
Example router_check_works :
  check_routers [] [[vv 100 [mkVip (ip4 10 0 0 254) 24]; vv 200 [mkVip (ip4 10 0 1 254) 24; mkVip (ip4 172 16 0 1) 12]]] = true /\
  check_routers [] [[vv 100 [mkVip (ip4 10 0 0 254) 24]; vv 200 [mkVip (ip4 10 0 1 254) 16]]] = false.
Proof. split; reflexivity. Qed.

(** With different VIPs in each VLAN, each VLAN in one router, no link-local
    VIPs and no global VLAN, the VLANs that are routed together have
    no address in common: what the FIB theorems ask for. *)
Theorem C37_accepted_subnets_apart : forall c,
  route_cfg c -> one_router c -> rc_global c = 0 ->
  check_routers [] (map (map (get_vlan c)) (rc_routers c)) = true ->
  (forall x p, In x (rc_vlans c) -> vip_of x p -> is_link_local (v_ip p) = false) ->
  (forall x y p, In x (rc_vlans c) -> In y (rc_vlans c) -> vip_of x p -> vip_of y p -> x = y) ->
  subnets_apart c.
Proof.
  intros c K One Gl Ck Nl Dv v v' u a Cv Cv' R R' A (x & p & Ix & Ex & Ip & Bp) (y & q & Iy & Ey & Iq & Bq).
  unfold routed_from in R, R'. rewrite Gl in R, R'. cbn in R, R'.
  assert (v = v' \/ exists r, In r (rc_routers c) /\ In v r /\ In v' r) as [E|(r & Ir & Iv & Iv')]; [|exact E|].
  { destruct R as [->|(r & Ir & I1 & I2)], R' as [->|(r' & Ir' & I1' & I2')]; eauto.
    rewrite (One r r' u Ir Ir' I2 I2') in *. eauto. }
  destruct (Z.eq_dec v v') as [|Nv]; [assumption|exfalso].
  destruct (get_vlan_conf c v Cv) as [Gv1 Gv2], (get_vlan_conf c v' Cv') as [Gw1 Gw2].
  assert (forall z z', In z (rc_vlans c) -> In z' (rc_vlans c) -> vl_id z = vl_id z' -> z = z') as U.
  { pose proof (rk_ids c K) as Nd. clear -Nd. induction (rc_vlans c) as [|h l IH]; intros z z' Hz Hz' E; [destruct Hz|].
    cbn in Nd. inversion Nd; subst. destruct Hz as [->|Hz], Hz' as [->|Hz']; auto.
    - exfalso. apply H1. rewrite E. now apply in_map.
    - exfalso. apply H1. rewrite <- E. now apply in_map. }
  rewrite (U x (get_vlan c v)) in * by congruence. rewrite (U y (get_vlan c v')) in * by congruence.
  apply (C37_router_vips_disjoint _ (map (get_vlan c) r) (get_vlan c v) (get_vlan c v') p q Ck) with (a := a); eauto.
  - now apply in_map.
  - now apply in_map.
  - now apply in_map.
  - apply (rk_vips c K _ _ Gv2 Ip).
  - apply (rk_vips c K _ _ Gw2 Iq).
  - intros ->. apply Nv. rewrite <- Gv1, <- Gw1. f_equal. eapply Dv; eauto.
Qed.
Print Assumptions C37_accepted_subnets_apart.

(** Findings.  The same VIP may be given to two VLANs of a router: it is one
    element of the set that is checked. *)
Theorem C37_vip_sharing_refuted : exists rs vs x y p,
  check_routers [] rs = true /\ In vs rs /\ In x vs /\ In y vs /\ vl_id x <> vl_id y /\ vip_of x p /\ vip_of y p /\ good_vip p.
Proof.
  exists [[vv 100 [mkVip (ip4 10 0 0 254) 24]; vv 200 [mkVip (ip4 10 0 0 254) 24]]],
    [vv 100 [mkVip (ip4 10 0 0 254) 24]; vv 200 [mkVip (ip4 10 0 0 254) 24]], (vv 100 [mkVip (ip4 10 0 0 254) 24]), (vv 200 [mkVip (ip4 10 0 0 254) 24]), (mkVip (ip4 10 0 0 254) 24).
  split; [reflexivity|]. split; [now left|]. split; [now left|]. split; [right; now left|]. split; [discriminate|].
  split; [now left|]. split; [now left|]. split; [left; cbn; lia|cbn; lia].
Qed.
(** A VLAN may be in two routers, even alone in one of them, if that one comes first. *)
Theorem C37_vlan_in_two_routers_refuted : exists rs vs vs' x,
  check_routers [] rs = true /\ rs = [vs; vs'] /\ vs = [x] /\ In x vs' /\ length vs' = 2%nat /\
  check_routers [] [vs'; vs] = false.
Proof.
  exists [[vv 100 []]; [vv 100 []; vv 200 []]], [vv 100 []], [vv 100 []; vv 200 []], (vv 100 []).
  repeat split; try reflexivity. now left.
Qed.

(** ** C50: the VIP of an address *)

Definition subnets (ver : Z) (vs : list vlan) : list net :=
  flat_map (fun x => map vip_net (filter (fun p => ip_ver (v_ip p) =? ver) (vl_vips x))) vs.
Lemma subnets_in ver vs n : In n (subnets ver vs) <-> exists x p, In x vs /\ vip_of x p /\ ip_ver (v_ip p) = ver /\ n = vip_net p.
Proof.
  unfold subnets. rewrite in_flat_map. split.
  - intros (x & Ix & I). apply in_map_iff in I as (p & <- & I). apply filter_In in I as [I E]. apply Z.eqb_eq in E. exists x, p. auto.
  - intros (x & p & Ix & Ip & E & ->). exists x. split; [exact Ix|]. apply in_map_iff. exists p. split; [reflexivity|]. apply filter_In. split; [exact Ip|]. now apply Z.eqb_eq.
Qed.

(** A router's lookup returns a VLAN and a VIP of it whose subnet is the longest of
    those of the router that contain the address; it returns nothing only if no
    subnet of the router contains it. *)
Theorem C50_router_lookup : forall vs a,
  good_ip a -> (forall x p, In x vs -> vip_of x p -> good_vip p) ->
  match router_vip_map vs a with
  | Some (v, p) => (exists x, In x vs /\ vl_id x = v /\ vip_of x p) /\ longest a (vip_net p) (subnets (ip_ver a) vs)
  | None => forall x p, In x vs -> vip_of x p -> ~ belongs a (vip_net p)
  end.
Proof.
  intros vs a A G. unfold router_vip_map.
  pose (c := mkRconf (ip_ver a) [] [] 0 (mkTable 0 0 0) 0 0 0 false false 0 0 0 0).
  assert (forall n id p, In (n, (id, p)) (router_trie (ip_ver a) vs) -> exists x, In x vs /\ vl_id x = id /\ vip_of x p /\ n = vip_net p) as H1 by (exact (router_trie_in c vs)).
  assert (forall x p, In x vs -> vip_of x p -> ip_ver (v_ip p) = ip_ver a -> exists q, In (vip_net p, q) (router_trie (ip_ver a) vs)) as H2 by (exact (router_trie_has c vs)).
  pose proof (trie_get_spec (router_trie (ip_ver a) vs) a A) as T.
  assert (forall n v, In (n, v) (router_trie (ip_ver a) vs) -> good_net n) as Gt.
  { intros n [id p] I. destruct (H1 _ _ _ I) as (x & Ix & _ & Ip & ->). apply vip_net_good. eauto. }
  specialize (T Gt). destruct (trie_get a _) as [[n [v p]]|]; cbn [option_map snd].
  - destruct T as (I & J & B & L). destruct (H1 _ _ _ I) as (x & Ix & Ex & Ip & ->). split; [eauto|]. split; [|split; [exact B|]].
    + apply subnets_in. exists x, p. split; [exact Ix|]. split; [exact Ip|]. split; [|reflexivity]. symmetry. exact (proj1 B).
    + intros m Im Bm. apply subnets_in in Im as (y & q & Iy & Iq & Ev & ->). apply L; [|exact Bm].
      destruct (H2 y q Iy Iq Ev) as [z Iz]. apply in_map_iff. exists (vip_net q, z). auto.
  - intros x p Ix Ip B. destruct (H2 x p Ix Ip) as [z Iz]; [symmetry; exact (proj1 B)|].
    apply (T (vip_net p)); [|exact B]. apply in_map_iff. exists (vip_net p, z). auto.
Qed.
Print Assumptions C50_router_lookup.

Definition ex_vips : list vlan :=
  [vv 100 [mkVip (ip4 10 0 0 254) 8]; vv 200 [mkVip (ip4 10 1 0 1) 16; mkVip (ip4 10 1 2 1) 24]].
Example router_vip_map_ex :
  router_vip_map ex_vips (ip4 10 1 2 77) = Some (200, mkVip (ip4 10 1 2 1) 24) /\
  router_vip_map ex_vips (ip4 10 7 2 77) = Some (100, mkVip (ip4 10 0 0 254) 8) /\
  router_vip_map ex_vips (ip4 11 7 2 77) = None /\ (forall x p, In x ex_vips -> vip_of x p -> good_vip p).
Proof.
  split; [reflexivity|]. split; [reflexivity|]. split; [reflexivity|].
  intros x p [<-|[<-|[]]] I; cbn in I; repeat destruct I as [<-|I]; try destruct I; (split; [left; cbn; lia|cbn; lia]).
Qed.

(** A VLAN's lookup returns a VIP whose subnet contains the address, and nothing
    only if there is none; it is the longest if the VLAN's subnets are disjoint. *)
Theorem C50_vlan_lookup : forall x a,
  good_ip a -> (forall p, vip_of x p -> good_vip p) ->
  match vlan_vip_map x a with
  | Some p => vip_of x p /\ belongs a (vip_net p) /\
      ((forall p q, vip_of x p -> vip_of x q -> vip_net p = vip_net q \/ disjoint (vip_net p) (vip_net q)) ->
       longest a (vip_net p) (map vip_net (vl_vips x)))
  | None => forall p, vip_of x p -> ~ belongs a (vip_net p)
  end.
Proof.
  intros x a A G. unfold vlan_vip_map. destruct (find _ _) as [p|] eqn:F.
  - apply find_some in F as [I E]. apply ip_in_net_spec in E; [|exact A|now apply vip_net_good, G].
    split; [exact I|]. split; [exact E|]. intros D. split; [now apply in_map|]. split; [exact E|].
    intros m Im Bm. apply in_map_iff in Im as (q & <- & Iq). destruct (D p q I Iq) as [->|Q]; [lia|]. exfalso. apply (Q a). auto.
  - intros p I B. pose proof (find_none _ _ F p I) as N. cbn in N. assert (ip_in_net a (vip_net p) = true); [|congruence].
    apply ip_in_net_spec; [exact A|now apply vip_net_good, G|exact B].
Qed.
Print Assumptions C50_vlan_lookup.
Example vlan_vip_map_ex : vlan_vip_map (vv 100 [mkVip (ip4 10 0 0 254) 24; mkVip (ip4 172 16 0 1) 12]) (ip4 172 17 2 3) = Some (mkVip (ip4 172 16 0 1) 12).
Proof. reflexivity. Qed.

(** Finding: with overlapping subnets, which a VLAN outside of routers may have,
    the first VIP in set order is returned, not the longest. *)
Theorem C50_vlan_longest_refuted : exists x a p q,
  (forall p, vip_of x p -> good_vip p) /\ good_ip a /\ vip_of x q /\
  vlan_vip_map x a = Some p /\ belongs a (vip_net q) /\ v_len p < v_len q.
Proof.
  exists (vv 100 [mkVip (ip4 10 0 0 254) 8; mkVip (ip4 10 1 2 1) 24]), (ip4 10 1 2 77), (mkVip (ip4 10 0 0 254) 8), (mkVip (ip4 10 1 2 1) 24).
  split; [|split; [left; cbn; lia|split; [right; now left|split; [reflexivity|split; [split; [reflexivity|vm_compute; split; discriminate || reflexivity]|reflexivity]]]]].
  intros p I; cbn in I; repeat destruct I as [<-|I]; try destruct I; (split; [left; cbn; lia|cbn; lia]).
Qed.
