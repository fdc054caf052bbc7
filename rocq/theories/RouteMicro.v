(** * Every routing event is a sequence of small steps *)
From Coq Require Import ZArith List Bool Lia Permutation.
From Verif Require Import PyBase PyBaseProofs OpenFlow TableModel IpModel IpSpec IpProofs RouteModel RouteSpec RouteRib.
Import ListNotations.
Open Scope Z_scope.

(** ** VLANs, VIPs and routers *)

Lemma get_vlan_conf c v : configured c v -> vl_id (get_vlan c v) = v /\ In (get_vlan c v) (rc_vlans c).
Proof.
  intros H. unfold get_vlan. apply in_map_iff in H as (x & E & I).
  destruct (find _ (rc_vlans c)) as [y|] eqn:F.
  - apply find_some in F as [F1 F2]. apply Z.eqb_eq in F2. auto.
  - pose proof (find_none _ _ F x I) as N. cbn in N. apply Z.eqb_neq in N. contradiction.
Qed.
Lemma get_vlan_unconf c v : ~ configured c v -> get_vlan c v = no_vlan v.
Proof.
  intros H. unfold get_vlan. destruct (find _ (rc_vlans c)) as [y|] eqn:F; [|reflexivity].
  apply find_some in F as [F1 F2]. apply Z.eqb_eq in F2. exfalso. apply H. apply in_map_iff. eauto.
Qed.
Lemma configured_dec c v : {configured c v} + {~ configured c v}.
Proof. apply in_dec, Z.eq_dec. Qed.
Lemma get_vlan_vip c v p : In p (vl_vips (get_vlan c v)) -> configured c v /\ vl_id (get_vlan c v) = v /\ In (get_vlan c v) (rc_vlans c).
Proof.
  intros I. destruct (configured_dec c v) as [H|H]; [split; [exact H|now apply get_vlan_conf]|].
  rewrite (get_vlan_unconf c v H) in I. destruct I.
Qed.
Lemma get_vlan_id c v : vl_id (get_vlan c v) = v.
Proof. destruct (configured_dec c v) as [H|H]; [now apply get_vlan_conf|]. now rewrite (get_vlan_unconf c v H). Qed.

(** A known address of version [rc_ver] on a subnet of [v]. *)
Record linked (c : rconf) (v : Z) (a : ip) : Prop := {
  lk_ip : my_ip c a; lk_conf : configured c v; lk_link : on_link c v a
}.

Section Cfg.
  Variable c : rconf.
  Hypothesis K : route_cfg c.

  Lemma vlan_vip_map_linked v a p : my_ip c a -> vlan_vip_map (get_vlan c v) a = Some p ->
    linked c v a /\ In p (vl_vips (get_vlan c v)) /\ belongs a (vip_net p).
  Proof.
    intros A F. unfold vlan_vip_map in F. apply find_some in F as [I B].
    destruct (get_vlan_vip c v p I) as (C & E & J).
    assert (belongs a (vip_net p)) as Bl.
    { apply ip_in_net_spec; [apply A|apply vip_net_good, (rk_vips c K _ _ J I)|exact B]. }
    split; [|auto]. constructor; auto. exists (get_vlan c v), p. auto.
  Qed.
  Lemma vip_subnet_linked v a : my_ip c a -> ip_in_vip_subnet (get_vlan c v) a = true -> linked c v a.
  Proof.
    intros A. unfold ip_in_vip_subnet. destruct (vlan_vip_map _ a) as [p|] eqn:E; [|discriminate].
    intros _. now apply (vlan_vip_map_linked v a p).
  Qed.
  Lemma linked_vip_map v a : linked c v a -> exists p, vlan_vip_map (get_vlan c v) a = Some p.
  Proof.
    intros [A C (x & p & I & E & J & B)]. unfold vlan_vip_map.
    assert (get_vlan c v = x) as ->.
    { destruct (get_vlan_conf c v C) as [E' I']. subst v.
      assert (NoDup (map vl_id (rc_vlans c))) as N by apply K.
      eapply (NoDup_map_inj_in _ _ vl_id); eauto. }
    destruct (find _ (vl_vips x)) as [q|] eqn:F; [eauto|].
    pose proof (find_none _ _ F p J) as Nn. cbn in Nn.
    assert (ip_in_net a (vip_net p) = true); [|congruence].
    apply ip_in_net_spec; [apply A|apply vip_net_good, (rk_vips c K _ _ I J)|exact B].
  Qed.

  Lemma router_trie_in vs : forall n id p, In (n, (id, p)) (router_trie (rc_ver c) vs) ->
    exists x, In x vs /\ vl_id x = id /\ In p (vl_vips x) /\ n = vip_net p.
  Proof.
    unfold router_trie.
    assert (forall vs' t, (forall n id p, In (n, (id, p)) t -> exists x, In x vs /\ vl_id x = id /\ In p (vl_vips x) /\ n = vip_net p) ->
      (forall x, In x vs' -> In x vs) ->
      forall n id p, In (n, (id, p)) (fold_left (fun t v => fold_left (fun t p =>
        if ip_ver (v_ip p) =? rc_ver c then trie_put (vip_net p) (vl_id v, p) t else t) (vl_vips v) t) vs' t) ->
      exists x, In x vs /\ vl_id x = id /\ In p (vl_vips x) /\ n = vip_net p) as H.
    { induction vs' as [|y vs' IH]; intros t Ht Hs n id p; cbn [fold_left]; [apply Ht|].
      apply IH; [|intros; apply Hs; now right]. clear n id p.
      assert (forall ps t, (forall n id p, In (n, (id, p)) t -> exists x, In x vs /\ vl_id x = id /\ In p (vl_vips x) /\ n = vip_net p) ->
        (forall q, In q ps -> In q (vl_vips y)) ->
        forall n id p, In (n, (id, p)) (fold_left (fun t p => if ip_ver (v_ip p) =? rc_ver c then trie_put (vip_net p) (vl_id y, p) t else t) ps t) ->
        exists x, In x vs /\ vl_id x = id /\ In p (vl_vips x) /\ n = vip_net p) as G.
      { clear t Ht. induction ps as [|q ps IHp]; intros t Ht Hq n id p; cbn [fold_left]; [apply Ht|].
        apply IHp; [|intros; apply Hq; now right]. clear n id p. intros n id p.
        destruct (ip_ver (v_ip q) =? rc_ver c); [|apply Ht]. unfold trie_put.
        clear IHp. revert Ht. induction t as [|[n1 v1] t IHt]; intros Ht.
        - cbn. intros [E|[]]. injection E as <- <- <-. exists y. split; [apply Hs; now left|]. split; [reflexivity|]. split; [apply Hq; now left|reflexivity].
        - cbn [dict_put]. destruct (net_eqb (vip_net q) n1) eqn:E.
          + intros [X|X]; [|apply Ht; now right]. injection X as <- <- <-.
            apply net_eqb_eq in E. exists y. split; [apply Hs; now left|]. split; [reflexivity|]. split; [apply Hq; now left|congruence].
          + intros [X|X]; [apply Ht; left; exact X|]. apply IHt; [intros; apply Ht; now right|exact X]. }
      intros n id p. apply (G (vl_vips y) t); auto. }
    intros n id p. apply (H vs []); [intros ? ? ? []|auto].
  Qed.

  Lemma router_vip_map_linked vs a v p : my_ip c a -> (forall u, In u vs -> configured c u) ->
    router_vip_map (map (get_vlan c) vs) a = Some (v, p) -> linked c v a /\ In v vs /\ belongs a (vip_net p).
  Proof.
    intros A C. unfold router_vip_map. destruct A as [A1 A2]. rewrite A2.
    pose proof (trie_get_spec (router_trie (rc_ver c) (map (get_vlan c) vs)) a A1) as T.
    destruct (trie_get a _) as [[n [v' p']]|]; cbn [option_map snd]; [|discriminate].
    intros E. injection E as -> ->.
    destruct T as (I & (_ & B & _)).
    { intros n0 [i0 p0] I. destruct (router_trie_in _ _ _ _ I) as (x & Ix & _ & J & ->).
      apply in_map_iff in Ix as (u & <- & Iu). apply vip_net_good, (rk_vips c K (get_vlan c u)); [|exact J].
      apply get_vlan_conf. auto. }
    destruct (router_trie_in _ _ _ _ I) as (x & Ix & E & J & ->).
    apply in_map_iff in Ix as (u & <- & Iu). rewrite get_vlan_id in E. subst u.
    split; [|auto]. constructor; [split; auto|auto|]. exists (get_vlan c v), p.
    destruct (get_vlan_conf c v (C v Iu)). auto.
  Qed.

  Lemma router_for_vlan_in v vs : router_for_vlan c v = Some vs -> In vs (rc_routers c) /\ In v vs.
  Proof.
    unfold router_for_vlan. intros F. apply find_some in F as [I M]. split; [exact I|].
    now apply (mem_spec Z Z.eqb Z.eqb_eq).
  Qed.

  Lemma router_vlan_linked v gw v' : my_ip c gw -> router_vlan_for_gw c v gw = Some v' ->
    linked c v' gw /\ (v' = v \/ exists r, In r (rc_routers c) /\ In v r /\ In v' r).
  Proof.
    intros A. unfold router_vlan_for_gw. destruct (router_for_vlan c v) as [vs|] eqn:R.
    - destruct (router_vip_map _ gw) as [[u p]|] eqn:M; cbn [option_map fst]; [|discriminate].
      intros E; injection E as ->. destruct (router_for_vlan_in v vs R) as [I J].
      destruct (router_vip_map_linked vs gw v' p A) as (L & J' & _); [intros; eapply (rk_routers c K); eauto|exact M|].
      split; [exact L|]. right. eauto.
    - destruct (vlan_vip_map _ gw) as [p|] eqn:M; [|discriminate]. intros E; injection E as <-.
      split; [|auto]. now apply (vlan_vip_map_linked v gw p).
  Qed.

  (** ** Small steps *)

  (** What a step does to the FIB: writes, deletes, or nothing. *)
  Inductive kind := KW | KD (host : bool) | KO.

  Definition adds_if (v : Z) (dst : net) (e : option Z) : list ofmsg :=
    match e with Some x => add_resolved_route c v dst x false | None => [] end.

  Definition update_msgs (s : rst) (v eth : Z) (g : ip) : list ofmsg :=
    match cached_eth (s v) g with
    | Some e => if e =? eth then []
                else flat_map (fun d => add_resolved_route c v d eth true) (dsts_for_gw (s v) g)
    | None => flat_map (fun d => add_resolved_route c v d eth false) (dsts_for_gw (s v) g)
    end.

  (** [api dst gw]: the step may add the route [dst] via [gw] although it is not
      the host route of [gw].  [L v g]: [g] may be a gateway of VLAN [v]. *)
  Variable L : Z -> ip -> Prop.
  Variable api : rst -> net -> ip -> Prop.
  Hypothesis L_linked : forall v a, linked c v a -> L v a.

  Inductive micro : kind -> rst -> list ofmsg -> rst -> Prop :=
  | mi_add : forall s v gw dst, linked c v gw -> my_net c dst ->
      dict_get net_eqb dst (r_routes (s v)) <> Some gw -> dst = host_net gw \/ api s dst gw ->
      micro KW s (adds_if v dst (cached_eth (s v) gw)) (upd s v (rib_add dst gw (s v)))
  | mi_del : forall b s v dst r, rib_del dst (s v) = Some r -> (b = true -> exists h, L v h /\ dst = host_net h) ->
      micro (KD b) s (del_route_flows c v dst) (upd s v r)
  | mi_del_quiet : forall s v h r, L v h -> rib_del (host_net h) (s v) = Some r ->
      micro KO s [] (upd s v r)
  | mi_neigh : forall s v g n, L v g /\ 0 <= nh_retries n -> nh_eth n = None \/ nh_eth n = cached_eth (s v) g ->
      micro KO s [] (upd s v (put_neigh g n (s v)))
  | mi_forget : forall s v g,
      micro KO s [] (upd s v (set_neigh (dict_del ip_eqb g (r_neigh (s v))) (s v)))
  | mi_update : forall s v port eth g now, linked c v g ->
      micro KW s (update_msgs s v eth g) (upd s v (put_neigh g (new_nexthop (Some eth) (Some port) now) (s v)))
  | mi_hole : forall s v v' h e now, linked c v h -> linked c v' h ->
      v' = v \/ (exists r, In r (rc_routers c) /\ In v r /\ In v' r) ->
      micro KW s
        (blackhole_flows c e v h ++
         match dict_get net_eqb (host_net h) (r_routes (s v')) with
         | Some g => if ip_eqb g h then [] else adds_if v' (host_net h) (cached_eth (s v') h)
         | None => adds_if v' (host_net h) (cached_eth (s v') h)
         end)
        (let s1 := match dict_get net_eqb (host_net h) (r_routes (s v')) with
                   | Some g => if ip_eqb g h then s else upd s v' (rib_add (host_net h) h (s v'))
                   | None => upd s v' (rib_add (host_net h) h (s v'))
                   end in
         upd s1 v (put_neigh h (new_nexthop None None now) (s1 v)))
  | mi_todo : forall s v a b,
      micro KO s [] (upd s v (set_todo_hosts b (set_todo_routes a (s v))))
  | mi_same : forall s s', (forall x, s' x = s x) -> micro KO s [] s'
  | mi_out : forall s ps d, micro KO s [PacketOut ps d] s.

  Inductive micros (P : kind -> Prop) : rst -> list ofmsg -> rst -> Prop :=
  | mis_nil : forall s, micros P s [] s
  | mis_cons : forall k s ms s1 ms2 s2, micro k s ms s1 -> P k -> micros P s1 ms2 s2 ->
      micros P s (ms ++ ms2) s2.

  Lemma micros_one (P : kind -> Prop) k s ms s' : micro k s ms s' -> P k -> micros P s ms s'.
  Proof. intros M H. rewrite <- (app_nil_r ms). eapply mis_cons; eauto. constructor. Qed.
  Lemma micros_app P s m1 s1 m2 s2 : micros P s m1 s1 -> micros P s1 m2 s2 -> micros P s (m1 ++ m2) s2.
  Proof.
    intros H. revert m2 s2. induction H; intros m s' H'; cbn [app]; [exact H'|].
    rewrite <- app_assoc. eapply mis_cons; eauto.
  Qed.
  Lemma micros_weaken (P Q : kind -> Prop) s ms s' : (forall k, P k -> Q k) -> micros P s ms s' -> micros Q s ms s'.
  Proof. intros H M. induction M; econstructor; eauto. Qed.
  Lemma micros_inv (P : kind -> Prop) (I : rst -> Prop) : (forall k s ms s', micro k s ms s' -> I s -> I s') ->
    forall s ms s', micros P s ms s' -> I s -> I s'.
  Proof. intros H s ms s' M. induction M; eauto. Qed.

  Definition any (_ : kind) : Prop := True.
  Definition quiet (k : kind) : Prop := k = KO.
  Definition writing (k : kind) : Prop := match k with KD _ => False | _ => True end.
  (** only routes to connected hosts are deleted *)
  Definition expiring (k : kind) : Prop := match k with KW | KD false => False | _ => True end.
  Definition deleting (k : kind) : Prop := k <> KW.

  (** ** What always holds of the RIBs *)

  Record base (s : rst) : Prop := {
    ba_rib : forall v, rib_ok (s v);
    ba_gws : forall v g, In g (r_route_gws (s v)) \/ In g (r_host_gws (s v)) -> L v g;
    ba_neigh : forall v g n, dict_get ip_eqb g (r_neigh (s v)) = Some n -> L v g /\ 0 <= nh_retries n;
    ba_net : forall v g d, In d (dsts_for_gw (s v) g) -> my_net c d
  }.

  (** One VLAN's part of it. *)
  Record base1 (v : Z) (r : rib) : Prop := {
    b1_rib : rib_ok r;
    b1_gws : forall g, In g (r_route_gws r) \/ In g (r_host_gws r) -> L v g;
    b1_neigh : forall g n, dict_get ip_eqb g (r_neigh r) = Some n -> L v g /\ 0 <= nh_retries n;
    b1_net : forall g d, In d (dsts_for_gw r g) -> my_net c d
  }.
  Lemma base_base1 s : base s <-> forall v, base1 v (s v).
  Proof.
    split.
    - intros [A B C D] v. constructor; eauto.
    - intros H. constructor; intros v; destruct (H v); eauto.
  Qed.
  Lemma base_upd s v r : base s -> base1 v r -> base (upd s v r).
  Proof.
    rewrite !base_base1. intros H R x. unfold upd. destruct (Z.eqb_spec x v) as [->|]; auto.
  Qed.

  Lemma update_gw_types_gws_in g r x :
    In x (r_route_gws (update_gw_types g r)) \/ In x (r_host_gws (update_gw_types g r)) ->
    x = g \/ In x (r_route_gws r) \/ In x (r_host_gws r).
  Proof.
    unfold update_gw_types. destruct (is_host_fib_route r g); cbn [r_route_gws r_host_gws];
      rewrite (set_add_in ip_eqb ip_eqb_eq), (set_remove_in ip_eqb ip_eqb_eq); tauto.
  Qed.

  Lemma rib_add_base v dst gw r : base1 v r -> L v gw -> my_net c dst -> base1 v (rib_add dst gw r).
  Proof.
    intros [A B C D] Lg N. constructor.
    - now apply rib_add_ok.
    - intros g H. apply update_gw_types_gws_in in H as [->|H]; [exact Lg|]. now apply B.
    - intros g n. rewrite rib_add_neigh. apply C.
    - intros g d. rewrite rib_add_dsts. destruct (ip_eqb gw g) eqn:E; [|apply D].
      rewrite (set_add_in net_eqb net_eqb_eq). intros [->|H]; [exact N|]. eapply D; eauto.
  Qed.
  Lemma rib_del_base v dst r r' : base1 v r -> rib_del dst r = Some r' -> base1 v r'.
  Proof.
    intros [A B C D] E. pose proof (rib_del_spec dst r A) as S.
    destruct (dict_get net_eqb dst (r_routes r)) as [g|] eqn:G; [|congruence].
    destruct S as (r'' & E' & O & _ & Dd & Nn). rewrite E in E'. injection E' as <-.
    constructor.
    - exact O.
    - intros x H. unfold rib_del in E. rewrite G in E. destruct (dict_get ip_eqb g (r_gws r)) as [l|] eqn:Gl; [|discriminate].
      destruct (mem net_eqb dst l) eqn:M; [|discriminate]. injection E as <-.
      apply update_gw_types_gws_in in H. cbn [r_route_gws r_host_gws] in H. destruct H as [->|H]; [|now apply B].
      apply B. apply or_comm. apply (ro_used r A). intros Z0. pose proof (ro_filed r A dst g G) as F. rewrite Z0 in F. destruct F.
    - intros x n. rewrite Nn. apply C.
    - intros x d. rewrite Dd. destruct (ip_eqb g x); [|apply D].
      rewrite (set_remove_in net_eqb net_eqb_eq). intros [_ H]. eapply D; eauto.
  Qed.
  Lemma base1_neigh v r n : base1 v r -> NoDup (map fst n) -> (forall g x, dict_get ip_eqb g n = Some x -> L v g /\ 0 <= nh_retries x) -> base1 v (set_neigh n r).
  Proof.
    intros [A B C D] Nd H. constructor; auto. apply (rib_ok_same r); auto.
  Qed.
  Lemma put_neigh_base v g n r : base1 v r -> L v g /\ 0 <= nh_retries n -> base1 v (put_neigh g n r).
  Proof.
    intros B Lg. apply base1_neigh; [exact B|apply (dict_put_nodup ip_eqb ip_eqb_eq), B|].
    intros x y. rewrite ip_get_put. destruct (ip_eqb g x) eqn:E; [|apply B].
    apply ip_eqb_eq in E as <-. intros X; injection X as <-. exact Lg.
  Qed.
  Lemma base1_todo v a b r : base1 v r -> base1 v (set_todo_hosts b (set_todo_routes a r)).
  Proof. intros [A B C D]. constructor; auto. apply (rib_ok_same r); auto. apply A. Qed.

  Lemma my_host a : my_ip c a -> my_net c (host_net a).
  Proof. intros [A B]. split; [now apply host_net_good|exact B]. Qed.

  Lemma micro_base k s ms s' : micro k s ms s' -> base s -> base s'.
  Proof.
    intros M B. pose proof (proj1 (base_base1 s) B) as B1. destruct M.
    - apply base_upd; auto. apply rib_add_base; auto.
    - apply base_upd; auto. eapply rib_del_base; eauto.
    - apply base_upd; auto. eapply rib_del_base; eauto.
    - apply base_upd; auto. now apply put_neigh_base.
    - apply base_upd; auto. apply base1_neigh; auto.
      + apply (dict_del_nodup ip_eqb), B1.
      + intros x y. rewrite ip_get_del. destruct (ip_eqb g x); [discriminate|apply B1].
    - apply base_upd; auto. apply put_neigh_base; auto. split; [auto|cbn; lia].
    - set (s1 := match dict_get net_eqb (host_net h) (r_routes (s v')) with
                   | Some g => if ip_eqb g h then s else upd s v' (rib_add (host_net h) h (s v'))
                   | None => upd s v' (rib_add (host_net h) h (s v'))
                   end).
      assert (base (upd s v' (rib_add (host_net h) h (s v')))) as B2.
      { apply base_upd; auto. apply rib_add_base; auto. apply my_host, H. }
      assert (base s1) as B3.
      { subst s1. destruct (dict_get _ _ _) as [g|]; [destruct (ip_eqb g h)|]; auto. }
      apply base_upd; [exact B3|]. apply put_neigh_base; [|split; [auto|cbn; lia]]. now apply base_base1.
    - apply base_upd; auto. now apply base1_todo.
    - apply base_base1. intros v. rewrite H. apply B1.
    - exact B.
  Qed.
  Definition micros_base P := micros_inv P base micro_base.

  (** ** The operations as small steps *)

  Lemma upd_id s v r : s v = r -> forall x, upd s v r x = s x.
  Proof. intros E x. unfold upd. destruct (Z.eqb_spec x v) as [->|]; congruence. Qed.
  Lemma upd_upd s v r r' x : upd (upd s v r) v r' x = upd s v r' x.
  Proof. unfold upd. destruct (x =? v); reflexivity. Qed.
  Lemma upd_at s v r : upd s v r v = r.
  Proof. unfold upd. now rewrite Z.eqb_refl. Qed.

  Lemma micros_same (P : kind -> Prop) s ms s1 s2 : P KO -> micros P s ms s1 -> (forall x, s2 x = s1 x) -> micros P s ms s2.
  Proof.
    intros H M E. rewrite <- (app_nil_r ms). eapply micros_app; [exact M|]. eapply micros_one; [now apply mi_same|exact H].
  Qed.

  Lemma outs_micros (P : kind -> Prop) s (l : list (list Z * Z)) : P KO -> micros P s (map (fun q => PacketOut (fst q) (snd q)) l) s.
  Proof.
    intros H. induction l as [|q l IH]; cbn [map]; [constructor|].
    change (PacketOut (fst q) (snd q) :: ?m) with ([PacketOut (fst q) (snd q)] ++ m).
    eapply mis_cons; [apply mi_out|exact H|exact IH].
  Qed.

  Lemma no_vip_net v n : is_faucet_vip_net v n = false.
  Proof.
    unfold is_faucet_vip_net. replace (find _ (vl_vips v)) with (@None vip); [reflexivity|].
    symmetry. induction (vl_vips v); cbn; auto.
  Qed.

  Lemma add_route_micros s v gw dst s' ms : my_ip c gw -> my_net c dst -> dst = host_net gw \/ api s dst gw ->
    add_route c s v gw dst = (s', ms) -> micros writing s ms s'.
  Proof.
    intros A N Q. unfold add_route. destruct (router_vlan_for_gw c v gw) as [v'|] eqn:R.
    2:{ intros E; injection E as <- <-. constructor. }
    rewrite no_vip_net. destruct (router_vlan_linked v gw v' A R) as [Lk _].
    destruct (dict_get net_eqb dst (r_routes (s v'))) as [g|] eqn:G.
    - destruct (ip_eqb g gw) eqn:E0; intros E; injection E as <- <-; [constructor|].
      refine (micros_one _ _ _ _ _ (mi_add s v' gw dst _ _ _ _) _); auto; [|solve [discriminate|exact Logic.I]]. rewrite G. intros X; injection X as <-. now rewrite ip_eqb_refl in E0.
    - intros E; injection E as <- <-. refine (micros_one _ _ _ _ _ (mi_add s v' gw dst _ _ _ _) _); auto; [congruence|exact Logic.I].
  Qed.

  Lemma update_nexthop_micros s now v port eth gw s' ms : linked c v gw ->
    update_nexthop c s now v port eth gw = (s', ms) -> micros writing s ms s'.
  Proof.
    intros A E. injection E as <- <-. refine (micros_one _ _ _ _ _ (mi_update s v port eth gw now A) _). solve [discriminate|exact Logic.I].
  Qed.

  Lemma del_route_micros s v dst s' ms : del_route c s v dst = Some (s', ms) -> micros deleting s ms s'.
  Proof.
    unfold del_route. rewrite no_vip_net. destruct (dict_get _ _ _) as [g|].
    - destruct (rib_del dst (s v)) as [r|] eqn:R; [|discriminate]. intros E; injection E as <- <-.
      refine (micros_one _ _ _ _ _ (mi_del false s v dst r R ltac:(discriminate)) _). discriminate.
    - intros E; injection E as <- <-. constructor.
  Qed.
  Lemma del_route_total s v dst : base s -> exists s' ms, del_route c s v dst = Some (s', ms).
  Proof.
    intros B. unfold del_route. rewrite no_vip_net. pose proof (rib_del_spec dst (s v) (ba_rib s B v)) as S.
    destruct (dict_get _ _ _) as [g|]; [|eauto]. destruct S as (r & -> & _). eauto.
  Qed.

  Lemma expire_micros s v gw n s' ms : L v gw -> expire_gateway c s v gw n = Some (s', ms) -> micros expiring s ms s'.
  Proof.
    intros Lg. unfold expire_gateway.
    set (s1 := upd s v _). unfold del_route. rewrite no_vip_net.
    change ms with ([] ++ ms). destruct (dict_get _ _ _) as [g|].
    - destruct (rib_del (host_net gw) (s1 v)) as [r|] eqn:R; [|discriminate]. intros E; injection E as <- <-.
      eapply mis_cons; [apply mi_forget|solve [discriminate|reflexivity|assumption|exact Logic.I]|]. fold s1. destruct (nh_port n).
      + eapply micros_one; [apply (mi_del true s1 v (host_net gw) r R); eauto|solve [discriminate|reflexivity|assumption|exact Logic.I]].
      + eapply micros_one; [now apply (mi_del_quiet s1 v gw r)|solve [discriminate|reflexivity|assumption|exact Logic.I]].
    - intros E; injection E as <- <-. eapply mis_cons; [apply mi_forget|solve [discriminate|reflexivity|assumption|exact Logic.I]|]. fold s1. destruct (nh_port n); constructor.
  Qed.
  Lemma expire_total s v gw n : base s -> exists s' ms, expire_gateway c s v gw n = Some (s', ms).
  Proof.
    intros B. unfold expire_gateway.
    destruct (del_route_total (upd s v (set_neigh (dict_del ip_eqb gw (r_neigh (s v))) (s v))) v (host_net gw)) as (s' & ms & ->); [|eauto].
    eapply micro_base; [apply mi_forget|exact B].
  Qed.

  Lemma resolve_gateway_micros e now s v gw n r ms : L v gw /\ 0 <= nh_retries n -> nh_eth n = cached_eth (s v) gw \/ nh_eth n = None ->
    resolve_gateway c e now v gw n (s v) = (r, ms) -> micros quiet s ms (upd s v r).
  Proof.
    intros Lg En. unfold resolve_gateway. destruct (vlan_vip_map _ gw) as [p|].
    - intros E; injection E as <- <-. change (micros quiet s ?m ?x) with (micros quiet s ([] ++ m) x).
      eapply mis_cons; [apply (mi_neigh s v gw (next_retry (re_jitter e gw) now (rc_max_backoff c) n)); [split; [apply Lg|cbn [next_retry nh_retries]; destruct Lg; lia]|cbn [next_retry nh_eth]; tauto]|solve [discriminate|reflexivity|assumption|exact Logic.I]|].
      destruct (_ && _); [destruct (nh_port n)|]; try now apply outs_micros.
      eapply micros_one; [apply mi_out|solve [discriminate|reflexivity|assumption|exact Logic.I]].
    - intros E; injection E as <- <-. eapply micros_one; [apply mi_same, upd_id; reflexivity|reflexivity].
  Qed.

  Lemma resolve_only_micros e now s v gw n s' ms : base s -> dict_get ip_eqb gw (r_neigh (s v)) = Some n ->
    resolve_only c e now s v gw n = Some (s', ms) -> micros quiet s ms s'.
  Proof.
    intros B G. unfold resolve_only. destruct (resolve_gateway c e now v gw n (s v)) as [r m] eqn:E.
    intros X; injection X as <- <-. eapply resolve_gateway_micros; [|left|exact E].
    - eapply ba_neigh; eauto.
    - unfold cached_eth. now rewrite G.
  Qed.
  Lemma resolve_expire_micros e now s v gw n s' ms : base s -> dict_get ip_eqb gw (r_neigh (s v)) = Some n ->
    resolve_expire c e now s v gw n = Some (s', ms) -> micros expiring s ms s'.
  Proof.
    intros B G. unfold resolve_expire. destruct (nh_dead _ n).
    - apply expire_micros. eapply (ba_neigh s B v gw n); eauto.
    - intros E. eapply micros_weaken; [|eapply resolve_only_micros; eauto]. intros k ->; solve [discriminate|exact Logic.I].
  Qed.

  Section Loop.
    Variable P : kind -> Prop.
    Variable now : Z.
    Variable h : rst -> Z -> ip -> nexthop -> option (rst * list ofmsg).
    Variable v : Z.
    Hypothesis Hm : forall s gw n s' ms, base s -> dict_get ip_eqb gw (r_neigh (s v)) = Some n -> h s v gw n = Some (s', ms) -> micros P s ms s'.
    Hypothesis Ht : forall s gw n, base s -> exists s' ms, h s v gw n = Some (s', ms).
    Lemma loop_micros gws : forall k s s' ms tr, base s -> resolve_loop c now h v gws k s = Some (s', ms, tr) -> micros P s ms s'.
    Proof.
      induction gws as [|gw rest IH]; intros k s s' ms tr B; cbn [resolve_loop].
      - intros E; injection E as <- <- <-. constructor.
      - destruct (k =? 0). { intros E; injection E as <- <- <-. constructor. }
        destruct (dict_get _ gw _) as [n|] eqn:G; [|now apply IH].
        destruct (resolution_due _ _ n); [|now apply IH].
        destruct (h s v gw n) as [[s1 m1]|] eqn:H1; [|discriminate].
        destruct (resolve_loop c now h v rest _ s1) as [[[s2 m2] t2]|] eqn:H2; [|discriminate].
        intros E; injection E as <- <- <-. pose proof (Hm _ _ _ _ _ B G H1) as M.
        eapply micros_app; [exact M|]. eapply IH; [|exact H2]. eapply micros_base; eauto.
    Qed.
    Lemma loop_total gws : forall k s, base s -> exists s' ms tr, resolve_loop c now h v gws k s = Some (s', ms, tr).
    Proof.
      induction gws as [|gw rest IH]; intros k s B; cbn [resolve_loop]; [eauto|].
      destruct (k =? 0); [eauto|]. destruct (dict_get _ gw _) as [n|] eqn:G; [|now apply IH].
      destruct (resolution_due _ _ n); [|now apply IH].
      destruct (Ht s gw n B) as (s1 & m1 & H1). rewrite H1.
      destruct (IH (match m1 with [] => k | _ => k - 1 end) s1) as (s2 & m2 & t2 & H2).
      { eapply micros_base; [eapply Hm; eauto|exact B]. }
      rewrite H2. eauto.
    Qed.
  End Loop.

  Lemma note_unknown_micros now v gws : forall s, (forall g, In g gws -> L v g) ->
    micros quiet s [] (upd s v (note_unknown now gws (s v))).
  Proof.
    unfold note_unknown. induction gws as [|g gws IH]; intros s H; cbn [fold_left].
    - eapply micros_one; [apply mi_same, upd_id; reflexivity|reflexivity].
    - destruct (dict_get ip_eqb g (r_neigh (s v))) as [n|].
      + apply IH. intros; apply H; now right.
      + set (r1 := put_neigh g (new_nexthop None None now) (s v)).
        change (@nil ofmsg) with (@nil ofmsg ++ @nil ofmsg).
        eapply mis_cons; [apply (mi_neigh s v g (new_nexthop None None now)); [split; [apply H; now left|cbn; lia]|now left]|solve [discriminate|reflexivity|assumption|exact Logic.I]|].
        fold r1. eapply micros_same; [reflexivity|apply (IH (upd s v r1)); intros; apply H; now right|].
        intros x. rewrite upd_at. symmetry. apply upd_upd.
  Qed.

  Lemma set_todo_routes_eq a r : set_todo_routes a r = set_todo_hosts (r_todo_hosts r) (set_todo_routes a r).
  Proof. reflexivity. Qed.
  Lemma set_todo_hosts_eq a r : set_todo_hosts a r = set_todo_hosts a (set_todo_routes (r_todo_routes r) r).
  Proof. reflexivity. Qed.

  Lemma unresolved_micros e now v gws s r l : (forall g, In g gws -> L v g) -> unresolved_nexthops c e now gws (s v) = (r, l) ->
    (forall a, micros quiet s [] (upd s v (set_todo_routes a r))) /\ (forall a, micros quiet s [] (upd s v (set_todo_hosts a r))).
  Proof.
    intros H E. unfold unresolved_nexthops in E. injection E as <- _.
    set (nf := filter (due c now (s v)) gws).
    assert (micros quiet s [] (upd s v (note_unknown now nf (s v)))) as M.
    { apply note_unknown_micros. intros g I. apply filter_In in I as [I _]. auto. }
    assert (forall a b, micros quiet s [] (upd s v (set_todo_hosts b (set_todo_routes a (note_unknown now nf (s v)))))) as G.
    { intros a b. change (@nil ofmsg) with (@nil ofmsg ++ @nil ofmsg).
      eapply micros_app; [exact M|]. eapply micros_same; [reflexivity|eapply micros_one; [apply (mi_todo _ v a b)|solve [discriminate|reflexivity|assumption|exact Logic.I]]|].
      intros x. rewrite upd_at. symmetry. apply upd_upd. }
    split; intros a.
    - rewrite set_todo_routes_eq. apply G.
    - rewrite set_todo_hosts_eq. apply G.
  Qed.

  Lemma resolve_gateways_micros e now all v s s' ms tr : base s -> resolve_gateways c e now all v s = Some (s', ms, tr) ->
    micros quiet s ms s'.
  Proof.
    intros B. unfold resolve_gateways.
    destruct (if all then _ else _) as [s1 gws] eqn:E. intros H.
    assert (micros quiet s [] s1) as M.
    { destruct all.
      - destruct (unresolved_nexthops c e now (r_route_gws (s v)) (s v)) as [r l] eqn:U. injection E as <- _.
        eapply unresolved_micros; [|exact U]. intros g I. apply (ba_gws s B). now left.
      - destruct (r_todo_routes (s v)) as [|g t]; injection E as <- _; [constructor|].
        rewrite set_todo_routes_eq. eapply micros_one; [apply (mi_todo s v)|solve [discriminate|reflexivity|assumption|exact Logic.I]]. }
    change ms with ([] ++ ms). eapply micros_app; [exact M|].
    eapply loop_micros; [|eapply micros_base; eauto|exact H]. intros; eapply resolve_only_micros; eauto.
  Qed.
  Lemma resolve_gateways_total e now all v s : base s -> exists s' ms tr, resolve_gateways c e now all v s = Some (s', ms, tr).
  Proof.
    intros B. unfold resolve_gateways.
    destruct (if all then _ else _) as [s1 gws] eqn:E.
    assert (micros quiet s [] s1) as M.
    { destruct all.
      - destruct (unresolved_nexthops c e now (r_route_gws (s v)) (s v)) as [r l] eqn:U. injection E as <- _.
        eapply unresolved_micros; [|exact U]. intros g I. apply (ba_gws s B). now left.
      - destruct (r_todo_routes (s v)) as [|g t]; injection E as <- _; [constructor|].
        rewrite set_todo_routes_eq. eapply micros_one; [apply (mi_todo s v)|solve [discriminate|reflexivity|assumption|exact Logic.I]]. }
    apply (loop_total quiet); [intros; eapply resolve_only_micros; eauto| |eapply micros_base; eauto].
    intros s0 gw n _. unfold resolve_only. destruct (resolve_gateway c e now v gw n (s0 v)). eauto.
  Qed.

  Lemma resolve_expire_hosts_micros e now all v s s' ms tr : base s -> resolve_expire_hosts c e now all v s = Some (s', ms, tr) ->
    micros expiring s ms s'.
  Proof.
    intros B. unfold resolve_expire_hosts.
    destruct (if all then _ else _) as [s1 gws] eqn:E. intros H.
    assert (micros quiet s [] s1) as M.
    { destruct all.
      - destruct (unresolved_nexthops c e now (r_host_gws (s v)) (s v)) as [r l] eqn:U. injection E as <- _.
        eapply unresolved_micros; [|exact U]. intros g I. apply (ba_gws s B). now right.
      - destruct (r_todo_hosts (s v)) as [|g t]; injection E as <- _; [constructor|].
        rewrite set_todo_hosts_eq. eapply micros_one; [apply (mi_todo s v)|solve [discriminate|reflexivity|assumption|exact Logic.I]]. }
    change ms with ([] ++ ms). eapply micros_app; [eapply micros_weaken; [|exact M]; intros k ->; solve [discriminate|exact Logic.I]|].
    eapply loop_micros; [|eapply micros_base; eauto|exact H]. intros; eapply resolve_expire_micros; eauto.
  Qed.
  Lemma resolve_expire_hosts_total e now all v s : base s -> exists s' ms tr, resolve_expire_hosts c e now all v s = Some (s', ms, tr).
  Proof.
    intros B. unfold resolve_expire_hosts.
    destruct (if all then _ else _) as [s1 gws] eqn:E.
    assert (micros quiet s [] s1) as M.
    { destruct all.
      - destruct (unresolved_nexthops c e now (r_host_gws (s v)) (s v)) as [r l] eqn:U. injection E as <- _.
        eapply unresolved_micros; [|exact U]. intros g I. apply (ba_gws s B). now right.
      - destruct (r_todo_hosts (s v)) as [|g t]; injection E as <- _; [constructor|].
        rewrite set_todo_hosts_eq. eapply micros_one; [apply (mi_todo s v)|solve [discriminate|reflexivity|assumption|exact Logic.I]]. }
    apply (loop_total expiring); [intros; eapply resolve_expire_micros; eauto| |eapply micros_base; eauto].
    intros s0 gw n B0. unfold resolve_expire. destruct (nh_dead _ n); [now apply expire_total|].
    destruct (resolve_gateway c e now v gw n (s0 v)). eauto.
  Qed.

  (** ** Packets *)

  Lemma learn_micros e now p s s' ms : my_ip c (rp_src p) -> learn_from_pkt c e now p s = (s', ms) -> micros writing s ms s'.
  Proof.
    intros A. unfold learn_from_pkt. destruct (ip_in_vip_subnet _ _) eqn:V; cbn [andb].
    2:{ intros E; injection E as <- <-. constructor. }
    destruct (stateful_gw _ _ && rp_ip p); [|intros E; injection E as <- <-; constructor].
    unfold add_host_fib_route. destruct (add_route _ _ _ _ _) as [s1 m1] eqn:E1. cbn [app].
    destruct (update_nexthop _ _ _ _ _ _ _) as [s2 m2] eqn:E2. intros E; injection E as <- <-.
    pose proof (vip_subnet_linked _ _ A V) as Lk.
    eapply micros_app.
    - eapply add_route_micros; [exact A|apply my_host, A|now left|exact E1].
    - eapply update_nexthop_micros; [exact Lk|exact E2].
  Qed.

  Lemma router_trie_has vs x p : In x vs -> In p (vl_vips x) -> ip_ver (v_ip p) = rc_ver c ->
    exists q, In (vip_net p, q) (router_trie (rc_ver c) vs).
  Proof.
    intros Ix Ip Ev. unfold router_trie.
    set (f1 := fun (v : vlan) t p => if ip_ver (v_ip p) =? rc_ver c then trie_put (vip_net p) (vl_id v, p) t else t).
    assert (forall (n n' : net) (y : Z * vip) t, (exists q, In (n, q) t) -> exists q, In (n, q) (trie_put n' y t)) as Kp.
    { intros n n' y t [q H]. unfold trie_put. induction t as [|[a b] t IH]; [destruct H|]. cbn [dict_put].
      destruct H as [X|H].
      - injection X as -> ->. destruct (net_eqb n' n) eqn:E; [exists y; left; apply net_eqb_eq in E; congruence|exists q; now left].
      - destruct (net_eqb n' a); [exists q; now right|]. destruct (IH H) as [z Hz]. exists z. now right. }
    assert (forall v ps t, (exists q, In (vip_net p, q) t) -> exists q, In (vip_net p, q) (fold_left (f1 v) ps t)) as K1.
    { intros v ps. induction ps as [|q ps IH]; intros t H; cbn [fold_left]; [exact H|]. apply IH. unfold f1. destruct (_ =? _); auto. }
    assert (forall vs t, (exists q, In (vip_net p, q) t) -> exists q, In (vip_net p, q) (fold_left (fun t v => fold_left (f1 v) (vl_vips v) t) vs t)) as K2.
    { intros us. induction us as [|v us IH]; intros t H; cbn [fold_left]; auto. }
    assert (forall ps t v, In p ps -> exists q, In (vip_net p, q) (fold_left (f1 v) ps t)) as K3.
    { induction ps as [|q ps IH]; intros t v I; [destruct I|]. destruct I as [->|I]; cbn [fold_left]; [|now apply IH].
      apply K1. unfold f1. rewrite Ev, Z.eqb_refl. exists (vl_id v, p). unfold trie_put.
      clear -p. induction t as [|[a b] t IH]; [now left|]. cbn [dict_put]. destruct (net_eqb (vip_net p) a) eqn:E.
      - left. apply net_eqb_eq in E. congruence.
      - now right. }
    change (exists q, In (vip_net p, q) (fold_left (fun t v => fold_left (f1 v) (vl_vips v) t) vs [])).
    generalize (@nil (net * (Z * vip))) as t.
    induction vs as [|v vs IH]; intros t; cbn [fold_left]; [destruct Ix|].
    destruct Ix as [->|Ix]; [apply K2, K3, Ip|apply IH, Ix].
  Qed.

  Lemma vip_net_ver p : n_ver (vip_net p) = ip_ver (v_ip p).
  Proof. reflexivity. Qed.
  Lemma linked_router_vlan v a : linked c v a -> exists v', router_vlan_for_gw c v a = Some v'.
  Proof.
    intros Lk. unfold router_vlan_for_gw. destruct (router_for_vlan c v) as [vs|] eqn:R.
    - destruct (router_for_vlan_in v vs R) as [I J]. destruct (linked_vip_map v a Lk) as [p Hp].
      destruct (vlan_vip_map_linked v a p (lk_ip c v a Lk) Hp) as (_ & Ip & Bl).
      destruct (lk_ip c v a Lk) as [A1 A2].
      assert (ip_ver (v_ip p) = rc_ver c) as Ev. { destruct Bl as [Bl _]. rewrite vip_net_ver in Bl. congruence. }
      unfold router_vip_map. rewrite A2.
      pose proof (trie_get_spec (router_trie (rc_ver c) (map (get_vlan c) vs)) a A1) as T.
      destruct (trie_get a _) as [[n [v' p']]|]; cbn [option_map snd fst]; [eauto|]. exfalso.
      destruct (router_trie_has (map (get_vlan c) vs) (get_vlan c v) p) as [q Hq]; [now apply in_map|exact Ip|exact Ev|].
      eapply T; [|apply (in_map fst) in Hq; exact Hq|exact Bl].
      intros n0 [i0 p0] I0. destruct (router_trie_in _ _ _ _ I0) as (x & Ix & _ & J0 & ->).
      apply in_map_iff in Ix as (u & <- & Iu). apply vip_net_good, (rk_vips c K (get_vlan c u)); [|exact J0].
      apply get_vlan_conf. eapply (rk_routers c K); eauto.
    - destruct (linked_vip_map v a Lk) as [p ->]. eauto.
  Qed.

  Lemma proactive_micros e now p s s' ms : my_ip c (rp_src p) -> my_ip c (rp_dst p) ->
    proactive c e now p s = (s', ms) -> micros writing s ms s'.
  Proof.
    intros As Ad. unfold proactive. destruct (rc_proactive c); [|intros E; injection E as <- <-; constructor].
    destruct (match router_for_vlan c (rp_vlan p) with None => _ | Some _ => _ end) as [[v q]|] eqn:V.
    2:{ intros E; injection E as <- <-. constructor. }
    destruct (_ && _); [|intros E; injection E as <- <-; constructor].
    assert (linked c v (rp_dst p)) as Lk.
    { destruct (router_for_vlan c (rp_vlan p)) as [vs|] eqn:R.
      - destruct (router_for_vlan_in _ _ R) as [I J].
        eapply router_vip_map_linked; [exact Ad|intros; eapply (rk_routers c K); eauto|exact V].
      - destruct (vlan_vip_map _ _) as [q'|] eqn:M; [|discriminate]. injection V as <- <-.
        eapply vlan_vip_map_linked; eauto. }
    destruct (learn_from_pkt c e now p s) as [s1 m1] eqn:E1.
    pose proof (learn_micros e now p s s1 m1 As E1) as M1.
    unfold add_host_fib_route, add_route. destruct (linked_router_vlan v (rp_dst p) Lk) as [v' R]. rewrite R, no_vip_net.
    destruct (router_vlan_linked v (rp_dst p) v' Ad R) as [Lk' Sh].
    pose proof (mi_hole s1 v v' (rp_dst p) e now Lk Lk' Sh) as H2. cbv zeta in H2.
    set (h := rp_dst p) in *. set (g0 := dict_get net_eqb (host_net h) (r_routes (s1 v'))) in *.
    set (s2 := match g0 with
                   | Some g => if ip_eqb g h then s1 else upd s1 v' (rib_add (host_net h) h (s1 v'))
                   | None => upd s1 v' (rib_add (host_net h) h (s1 v'))
                   end) in *.
    set (m2 := match g0 with
         | Some g => if ip_eqb g h then [] else adds_if v' (host_net h) (cached_eth (s1 v') h)
         | None => adds_if v' (host_net h) (cached_eth (s1 v') h)
         end) in *.
    assert (match g0 with
        | Some g => if ip_eqb g h then (s1, [])
                    else (upd s1 v' (rib_add (host_net h) h (s1 v')),
                          match cached_eth (s1 v') h with
                          | Some e => add_resolved_route c v' (host_net h) e false
                          | None => []
                          end)
        | None => (upd s1 v' (rib_add (host_net h) h (s1 v')),
                   match cached_eth (s1 v') h with
                   | Some e => add_resolved_route c v' (host_net h) e false
                   | None => []
                   end)
        end = (s2, m2)) as ->.
    { subst s2 m2. destruct g0 as [g|]; [destruct (ip_eqb g h)|]; reflexivity. }
    set (s3 := upd s2 v _) in *.
    destruct (mem ip_eqb h _).
    - intros E; injection E as <- <-. eapply micros_app; [exact M1|]. eapply micros_one; [exact H2|solve [discriminate|exact Logic.I]].
    - destruct (resolve_gateway c e now v h (new_nexthop None None now) (s3 v)) as [r m3] eqn:E3.
      intros E; injection E as <- <-. eapply micros_app; [exact M1|]. eapply mis_cons; [exact H2|solve [discriminate|reflexivity|assumption|exact Logic.I]|].
      eapply micros_weaken; [|exact (resolve_gateway_micros e now s3 v h (new_nexthop None None now) r m3 (conj (L_linked v h Lk) (Z.le_refl 0)) (or_intror eq_refl) E3)].
      intros k ->; solve [discriminate|exact Logic.I].
  Qed.

  Lemma vip_response_micros e now p t s s' ms : my_ip c (rp_src p) -> vip_response c e now p t s = (s', ms) -> micros writing s ms s'.
  Proof.
    intros A. unfold vip_response. destruct (is_faucet_vip _ t); cbn [andb].
    2:{ intros E; injection E as <- <-. constructor. }
    destruct (ip_in_vip_subnet _ _) eqn:V.
    2:{ intros E; injection E as <- <-. constructor. }
    destruct (stateful_gw _ _).
    2:{ intros E; injection E as <- <-. eapply micros_one; [apply mi_out|solve [discriminate|reflexivity|assumption|exact Logic.I]]. }
    unfold add_host_fib_route. destruct (add_route _ _ _ _ _) as [s1 m1] eqn:E1. cbn [app].
    destruct (update_nexthop _ _ _ _ _ _ _) as [s2 m2] eqn:E2. intros E; injection E as <- <-.
    pose proof (vip_subnet_linked _ _ A V) as Lk.
    eapply micros_app.
    - eapply add_route_micros; [exact A|apply my_host, A|now left|exact E1].
    - eapply micros_app; [eapply update_nexthop_micros; [exact Lk|exact E2]|].
      eapply micros_one; [apply mi_out|solve [discriminate|reflexivity|assumption|exact Logic.I]].
  Qed.

  Lemma handler_micros e now p s s' ms : my_ip c (rp_src p) ->
    match rp_kind p with PRequest t | PAdvert t => my_ip c t | _ => True end ->
    handler c e now p s = (s', ms) -> micros writing s ms s'.
  Proof.
    intros A T. unfold handler. destruct (rp_kind p) as [t|t| | |].
    - destruct (_ && _); [intros E; injection E as <- <-; constructor|]. now apply vip_response_micros.
    - destruct (_ && _); [intros E; injection E as <- <-; constructor|]. unfold gw_advert.
      destruct (ip_in_vip_subnet _ t) eqn:V; cbn [andb].
      2:{ intros E; injection E as <- <-. constructor. }
      destruct (stateful_gw _ t).
      2:{ intros E; injection E as <- <-. constructor. }
      intros E. eapply update_nexthop_micros; [|exact E]. now apply vip_subnet_linked.
    - unfold echo. destruct (_ && _).
      2:{ intros E; injection E as <- <-. constructor. }
      destruct (cached_eth _ _).
      { intros E; injection E as <- <-. eapply micros_one; [apply mi_out|solve [discriminate|reflexivity|assumption|exact Logic.I]]. }
      destruct (learn_from_pkt c e now p s) as [s1 m1] eqn:E1. intros E; injection E as <- <-.
      change (micros writing s ([PacketOut [rp_port p] (rp_reply p)] ++ m1) s1).
      eapply mis_cons; [apply mi_out|solve [discriminate|reflexivity|assumption|exact Logic.I]|]. eapply learn_micros; eauto.
    - intros E; injection E as <- <-. destruct (filter _ _); [constructor|]. eapply micros_one; [apply mi_out|solve [discriminate|reflexivity|assumption|exact Logic.I]].
    - intros E; injection E as <- <-. constructor.
  Qed.

  Lemma control_plane_micros e now p s s' ms : my_ip c (rp_src p) -> my_ip c (rp_dst p) ->
    match rp_kind p with PRequest t | PAdvert t => my_ip c t | _ => True end ->
    control_plane c e now p s = (s', ms) -> micros writing s ms s'.
  Proof.
    intros A D T. unfold control_plane. destruct (rp_complete p); [|now apply proactive_micros].
    destruct (if rp_ip p && rp_ttl p then _ else _) as [s1 m1] eqn:E1.
    assert (micros writing s m1 s1) as M1.
    { destruct (rp_ip p && rp_ttl p).
      - injection E1 as <- <-. destruct (ip_in_vip_subnet _ _); [|constructor]. eapply micros_one; [apply mi_out|solve [discriminate|reflexivity|assumption|exact Logic.I]].
      - destruct (_ || _); [eapply handler_micros; eauto|]. injection E1 as <- <-. constructor. }
    destruct m1 as [|x m1]; [|intros E; injection E as <- <-; exact M1].
    destruct (rp_ip p && negb (rp_ttl p)); [|intros E; injection E as <- <-; exact M1].
    intros E. change ms with ([] ++ ms). eapply micros_app; [exact M1|]. now apply (proactive_micros e now p).
  Qed.

  (** ** Events *)

  (** The writes of an event come first, its deletions after them. *)
  Definition staged (s : rst) (ms : list ofmsg) (s' : rst) : Prop :=
    exists m1 s1 m2, ms = m1 ++ m2 /\ micros writing s m1 s1 /\ micros deleting s1 m2 s'.

  Lemma staged_any s ms s' : staged s ms s' -> micros any s ms s'.
  Proof.
    intros (m1 & s1 & m2 & -> & A & B). eapply micros_app; (eapply micros_weaken; [|eassumption]); intros k _; exact Logic.I.
  Qed.
  Lemma staged_w s ms s' : micros writing s ms s' -> staged s ms s'.
  Proof. intros H. exists ms, s', []. rewrite app_nil_r. repeat split; auto. constructor. Qed.
  Lemma staged_d s ms s' : micros deleting s ms s' -> staged s ms s'.
  Proof. intros H. exists [], s, ms. repeat split; auto. constructor. Qed.

  Lemma each_vlan_micros P (f : Z -> rst -> option (rst * list ofmsg * list ip)) : (forall v s s' ms tr, base s -> f v s = Some (s', ms, tr) -> micros P s ms s') ->
    forall vs s0 m0 s s' ms, base s -> micros P s0 m0 s ->
      fold_left (fun acc v => match acc with
                          | None => None
                          | Some (s, ms) => match f (vl_id v) s with
                                            | None => None
                                            | Some (s', ms', _) => Some (s', ms ++ ms')
                                            end
                          end) vs (Some (s, m0)) = Some (s', ms) -> micros P s0 ms s'.
  Proof.
    intros Hf. induction vs as [|v vs IH]; intros s0 m0 s s' ms B M; cbn [fold_left].
    - intros E; injection E as <- <-. exact M.
    - destruct (f (vl_id v) s) as [[[s1 m1] t1]|] eqn:F.
      + pose proof (Hf _ _ _ _ _ B F) as M1. apply IH; [eapply micros_base; eauto|]. eapply micros_app; eauto.
      + intros E. exfalso. revert E. clear. induction vs; cbn; [discriminate|auto].
  Qed.
  Lemma each_vlan_total P (f : Z -> rst -> option (rst * list ofmsg * list ip)) : (forall v s s' ms tr, base s -> f v s = Some (s', ms, tr) -> micros P s ms s') ->
    (forall v s, base s -> exists s' ms tr, f v s = Some (s', ms, tr)) ->
    forall vs s m0, base s -> exists s' ms,
      fold_left (fun acc v => match acc with
                          | None => None
                          | Some (s, ms) => match f (vl_id v) s with
                                            | None => None
                                            | Some (s', ms', _) => Some (s', ms ++ ms')
                                            end
                          end) vs (Some (s, m0)) = Some (s', ms).
  Proof.
    intros Hm Ht. induction vs as [|v vs IH]; intros s m0 B; cbn [fold_left]; [eauto|].
    destruct (Ht (vl_id v) s B) as (s1 & m1 & t1 & F). rewrite F. apply IH. eapply micros_base; eauto.
  Qed.

  Lemma expire_list_micros v l : forall s0 m0 s s' ms, (forall q, In q l -> L v (fst q)) -> micros expiring s0 m0 s ->
    fold_left (fun acc q => match acc with
                          | None => None
                          | Some (s, ms) => match expire_gateway c s v (fst q) (snd q) with
                                            | None => None
                                            | Some (s', ms') => Some (s', ms ++ ms')
                                            end
                          end) l (Some (s, m0)) = Some (s', ms) -> micros expiring s0 ms s'.
  Proof.
    induction l as [|q l IH]; intros s0 m0 s s' ms HL M; cbn [fold_left].
    - intros E; injection E as <- <-. exact M.
    - destruct (expire_gateway c s v (fst q) (snd q)) as [[s1 m1]|] eqn:F.
      + apply IH; [intros; apply HL; now right|]. eapply micros_app; [exact M|].
        eapply expire_micros; [|exact F]. apply HL; now left.
      + intros E. exfalso. revert E. clear. induction l; cbn; [discriminate|auto].
  Qed.
  Lemma expire_list_total v l : forall s m0, base s -> (forall q, In q l -> L v (fst q)) -> exists s' ms,
    fold_left (fun acc q => match acc with
                          | None => None
                          | Some (s, ms) => match expire_gateway c s v (fst q) (snd q) with
                                            | None => None
                                            | Some (s', ms') => Some (s', ms ++ ms')
                                            end
                          end) l (Some (s, m0)) = Some (s', ms).
  Proof.
    induction l as [|q l IH]; intros s m0 B HL; cbn [fold_left]; [eauto|].
    destruct (expire_total s v (fst q) (snd q) B) as (s1 & m1 & F). rewrite F.
    apply IH; [|intros; apply HL; now right]. eapply micros_base; [|exact B].
    eapply expire_micros; [|exact F]. apply HL; now left.
  Qed.

  Lemma neigh_L s v q : base s -> In q (r_neigh (s v)) -> L v (fst q).
  Proof.
    intros B I. destruct q as [g n]. cbn. apply (ba_neigh s B v g n).
    apply (dict_in_get ip_eqb ip_eqb_eq); [apply (ba_rib s B v)|exact I].
  Qed.

  Lemma port_down_as_each port s : expire_port_nexthops c port s =
    each_vlan (fun v s => option_map (fun r => (r, [])) (expire_list c v (filter (on_port port) (r_neigh (s v))) s))
              (filter (fun v => mem Z.eqb port (vl_ports v)) (rc_vlans c)) s.
  Proof.
    unfold expire_port_nexthops, each_vlan. generalize (Some (s, @nil ofmsg)).
    induction (filter _ (rc_vlans c)) as [|v vs IH]; intros o; cbn [fold_left]; [reflexivity|].
    rewrite IH. f_equal. destruct o as [[s1 m1]|]; [|reflexivity].
    destruct (expire_list _ _ _ _) as [[s2 m2]|]; reflexivity.
  Qed.

  Definition api_event (s : rst) (ev : revent) : Prop :=
    match ev with RAdd _ gw dst => dst = host_net gw \/ api s dst gw | _ => True end.

  Lemma port_down_one port : (forall v s s' ms (tr : list ip), base s ->
      option_map (fun r => (r, [])) (expire_list c v (filter (on_port port) (r_neigh (s v))) s) = Some (s', ms, tr) -> micros expiring s ms s').
  Proof.
    intros v s s' ms tr B. destruct (expire_list c v _ s) as [[s1 m1]|] eqn:F; cbn [option_map]; [|discriminate].
    intros E; injection E as <- <- <-. unfold expire_list in F.
    eapply expire_list_micros; [|constructor|exact F]. intros q I. apply filter_In in I as [I _]. now apply (neigh_L s).
  Qed.

  Definition pieces (D : kind -> Prop) (s : rst) (ms : list ofmsg) (s' : rst) : Prop :=
    exists m1 s1 m2, ms = m1 ++ m2 /\ micros writing s m1 s1 /\ micros D s1 m2 s'.
  Definition deletes_of (ev : revent) : kind -> Prop := match ev with RDel _ _ => deleting | _ => expiring end.
  Lemma pieces_w (D : kind -> Prop) s ms s' : micros writing s ms s' -> pieces D s ms s'.
  Proof. intros H. exists ms, s', []. rewrite app_nil_r. repeat split; auto. constructor. Qed.
  Lemma pieces_d (D : kind -> Prop) s ms s' : micros D s ms s' -> pieces D s ms s'.
  Proof. intros H. exists [], s, ms. repeat split; auto. constructor. Qed.
  Lemma expiring_deleting k : expiring k -> deleting k.
  Proof. intros H ->. exact H. Qed.

  Theorem step_pieces e ev s s' ms : base s -> event_ok c ev -> api_event s ev -> ev <> RConnect ->
    route_step c e ev s = Some (s', ms) -> pieces (deletes_of ev) s ms s'.
  Proof.
    intros B Ok Ap Ne. destruct ev as [v gw dst|v dst|now|now|port|now p|]; cbn [route_step].
    - intros E. injection E as E. destruct Ok as [O1 O2]. apply pieces_w. now apply (add_route_micros s v gw dst).
    - intros E. apply pieces_d. now apply (del_route_micros s v dst).
    - intros E. apply pieces_d. unfold each_vlan in E. eapply micros_weaken; [|eapply each_vlan_micros; [|exact B|constructor|exact E]].
      + intros k H. exact H.
      + intros v s0 s1 m0 tr B0 F. eapply micros_weaken; [|eapply resolve_gateways_micros; eauto]. intros k ->; solve [discriminate|exact Logic.I].
    - intros E. apply pieces_d. unfold each_vlan in E. eapply each_vlan_micros; [|exact B|constructor|exact E].
      intros v s0 s1 m0 tr B0 F. eapply resolve_expire_hosts_micros; eauto.
    - intros E. apply pieces_d. rewrite port_down_as_each in E. unfold each_vlan in E.
      exact (each_vlan_micros expiring _ (port_down_one port) _ s [] s s' ms B (mis_nil _ s) E).
    - destruct Ok as (As & Ad & At). unfold router_rcv_packet. destruct (vl_vips _) as [|x l].
      { intros E; injection E as <- <-. apply pieces_w. constructor. }
      destruct (if _ || _ then _ else _) as [s1 m1] eqn:E1.
      assert (micros writing s m1 s1) as M1.
      { destruct (_ || _); [|injection E1 as <- <-; constructor]. eapply control_plane_micros; eauto. }
      destruct m1 as [|y m1]; [|intros E; injection E as <- <-; now apply pieces_w].
      destruct (rp_ttl p). { intros E; injection E as <- <-. now apply pieces_w. }
      destruct (learn_from_pkt c e now p s1) as [s2 m2] eqn:E2.
      pose proof (learn_micros _ _ _ _ _ _ As E2) as M2.
      assert (base s2) as B2. { eapply micros_base; [exact M2|]. eapply micros_base; eauto. }
      destruct (resolve_gateways c e now false (rp_vlan p) s2) as [[[s3 m3] t3]|] eqn:E3; [|discriminate].
      pose proof (resolve_gateways_micros _ _ _ _ _ _ _ _ B2 E3) as M3.
      destruct (resolve_expire_hosts c e now false (rp_vlan p) s3) as [[[s4 m4] t4]|] eqn:E4; [|discriminate].
      intros E; injection E as <- <-. exists m2, s2, (m3 ++ m4). split; [reflexivity|]. split.
      + change m2 with ([] ++ m2). eapply micros_app; eauto.
      + eapply micros_app; [eapply micros_weaken; [|exact M3]; intros k ->; solve [discriminate|exact Logic.I]|].
        eapply resolve_expire_hosts_micros; [|exact E4]. eapply micros_base; eauto.
    - congruence.
  Qed.

  Theorem step_staged e ev s s' ms : base s -> event_ok c ev -> api_event s ev -> ev <> RConnect ->
    route_step c e ev s = Some (s', ms) -> staged s ms s'.
  Proof.
    intros B Ok Ap Ne E. destruct (step_pieces e ev s s' ms B Ok Ap Ne E) as (m1 & s1 & m2 & -> & M1 & M2).
    exists m1, s1, m2. split; [reflexivity|]. split; [exact M1|]. eapply micros_weaken; [|exact M2].
    intros k. destruct ev; auto; apply expiring_deleting.
  Qed.

  Theorem step_total e ev s : base s -> event_ok c ev -> exists s' ms, route_step c e ev s = Some (s', ms).
  Proof.
    intros B Ok. destruct ev as [v gw dst|v dst|now|now|port|now p|]; cbn [route_step].
    - destruct (add_route c s v gw dst). eauto.
    - now apply del_route_total.
    - eapply each_vlan_total; [intros; eapply resolve_gateways_micros; eauto|intros; now apply resolve_gateways_total|exact B].
    - eapply each_vlan_total; [intros; eapply resolve_expire_hosts_micros; eauto|intros; now apply resolve_expire_hosts_total|exact B].
    - rewrite port_down_as_each. eapply each_vlan_total; [apply port_down_one| |exact B].
      intros v s0 B0. destruct (expire_list_total v (filter (on_port port) (r_neigh (s0 v))) s0 [] B0) as (s1 & m1 & F).
      + intros q I. apply filter_In in I as [I _]. now apply (neigh_L s0).
      + unfold expire_list. rewrite F. cbn. eauto.
    - destruct Ok as (As & Ad & At). unfold router_rcv_packet. destruct (vl_vips _) as [|x l]; [eauto|].
      destruct (if _ || _ then _ else _) as [s1 m1] eqn:E1.
      assert (micros writing s m1 s1) as M1.
      { destruct (_ || _); [|injection E1 as <- <-; constructor]. eapply control_plane_micros; eauto. }
      destruct m1 as [|y m1]; [|eauto]. destruct (rp_ttl p); [eauto|].
      destruct (learn_from_pkt c e now p s1) as [s2 m2] eqn:E2.
      pose proof (learn_micros _ _ _ _ _ _ As E2) as M2.
      assert (base s2) as B2. { eapply micros_base; [exact M2|]. eapply micros_base; eauto. }
      destruct (resolve_gateways_total e now false (rp_vlan p) s2 B2) as (s3 & m3 & t3 & E3). rewrite E3.
      pose proof (resolve_gateways_micros _ _ _ _ _ _ _ _ B2 E3) as M3.
      destruct (resolve_expire_hosts_total e now false (rp_vlan p) s3) as (s4 & m4 & t4 & E4); [eapply micros_base; eauto|].
      rewrite E4. eauto.
    - eauto.
  Qed.

  Lemma reset_base s : base s -> base (fun v => reset_caches (s v)).
  Proof.
    intros B. apply base_base1. intros v. destruct (proj1 (base_base1 s) B v) as [A B' C D]. constructor; auto.
    - now apply reset_caches_ok.
    - discriminate.
  Qed.
End Cfg.
