(** * The routes there are, are the routes asked for *)
From Coq Require Import ZArith List Bool Lia Permutation.
From Verif Require Import PyBase PyBaseProofs OpenFlow TableModel ReorderModel IpModel IpSpec IpProofs RouteModel RouteSpec RouteFib RouteRib RouteMicro RouteShape RouteInv
  RouteCalm.
Import ListNotations.
Open Scope Z_scope.

Section Wanted.
  Variable c : rconf.
  Hypothesis K : route_cfg c.
  Hypothesis One : one_router c.
  Hypothesis SA : subnets_apart c.
  Variable static : Z -> list (net * ip).
  Hypothesis So : static_ok c static.
  Hypothesis Sl : forall v d g, In (d, g) (static v) -> on_link c v g.
  Let L := linked c.
  Let api (_ : rst) (_ : net) (_ : ip) := False.

  Lemma LL v a : linked c v a -> L v a.
  Proof. auto. Qed.

  Lemma on_link_configured v a : on_link c v a -> configured c v.
  Proof. intros (x & p & I & <- & _). apply in_map_iff. eauto. Qed.

  Lemma gateway_vlan_spec u gw v : my_ip c gw -> (router_vlan_for_gw c u gw = Some v <-> gateway_vlan c u gw v).
  Proof.
    intros A.
    assert (forall v, router_vlan_for_gw c u gw = Some v -> gateway_vlan c u gw v) as F.
    { intros x H. destruct (router_vlan_linked c K u gw x A H) as [Lk _]. split; [apply Lk|].
      unfold router_vlan_for_gw in H. destruct (router_for_vlan c u) as [vs|] eqn:R.
      - destruct (router_for_vlan_in c u vs R) as [I J].
        destruct (router_vip_map _ gw) as [[y p]|] eqn:M; cbn [option_map fst] in H; [|discriminate]. injection H as ->.
        destruct (router_vip_map_linked c K vs gw x p A) as (_ & J' & _); [intros; eapply (rk_routers c K); eauto|exact M|]. left. eauto.
      - destruct (vlan_vip_map _ gw) as [p|]; [|discriminate]. injection H as <-. right. split; [reflexivity|].
        intros r I J. pose proof (find_none _ _ R r I) as N. cbn in N. apply (mem_spec _ Z.eqb Z.eqb_eq) in J. congruence. }
    split; [apply F|]. intros [O H].
    assert (exists v', router_vlan_for_gw c u gw = Some v') as [v' E].
    { assert (linked c v gw) as Lk. { constructor; auto. eapply on_link_configured; eauto. }
      destruct (linked_router_vlan c K v gw Lk) as [v' E]. destruct H as [(r & I & J & J')|[-> N]]; [|eauto]. exists v'.
      unfold router_vlan_for_gw in *.
      assert (forall x, In x r -> router_for_vlan c x = Some r) as Rf.
      { intros x Hx. unfold router_for_vlan. destruct (find _ (rc_routers c)) as [r'|] eqn:Fi.
        - destruct (router_for_vlan_in c x r' Fi) as [I1 I2]. f_equal. eapply One; eauto.
        - pose proof (find_none _ _ Fi r I) as N. cbn in N. apply (mem_spec _ Z.eqb Z.eqb_eq) in Hx. congruence. }
      rewrite (Rf v J') in E. now rewrite (Rf u J). }
    destruct (F v' E) as [O' H'].
    assert (v' = v) as <-; [|exact E].
    assert (exists x, routed_from c v x /\ routed_from c v' x) as (x & X1 & X2).
    { unfold routed_from. destruct (_ && _); [exists (rc_global c); auto|].
      destruct H as [(r & I & J & J')|[-> N]].
      - destruct H' as [(r' & I' & J1 & J1')|[-> N']]; [|exfalso; now apply (N' r I)]. exists u. split; right; eauto.
      - destruct H' as [(r' & I' & J1 & J1')|[-> N']]; [exfalso; now apply (N r' I')|]. exists u. auto. }
    symmetry. eapply SA; eauto using on_link_configured.
  Qed.

  (** What the small steps leave alone. *)
  Definition other_dst (v : Z) (d : net) : Prop := forall h, on_link c v h -> d <> host_net h.

  Lemma micro_kept k s ms s' v d : micro c L api k s ms s' -> k <> KD false -> base c L s -> other_dst v d -> rget d (s' v) = rget d (s v).
  Proof.
    intros M Nk B Od.
    assert (forall h x, linked c x h -> x = v -> d <> host_net h) as Nh.
    { intros h x [_ _ O] ->. now apply Od. }
    destruct M; try (match goal with |- dict_get _ _ (r_routes (upd s ?x ?r v)) = _ => destruct (upd_cases s x r v) as [[-> ->]|[_ ->]]; reflexivity end).
    - destruct H2 as [->|[]]. destruct (upd_cases s v0 (rib_add (host_net gw) gw (s v0)) v) as [[-> ->]|[_ ->]]; [|reflexivity].
      rewrite rib_add_routes. destruct (net_eqb _ d) eqn:E; [|reflexivity]. apply net_eqb_eq in E. exfalso. eapply Nh; eauto.
    - destruct b; [|congruence]. destruct (H0 eq_refl) as (h & Lh & ->).
      destruct (upd_cases s v0 r v) as [[-> ->]|[_ ->]]; [|reflexivity].
      pose proof (rib_del_spec (host_net h) (s v0) (ba_rib c L s B v0)) as S.
      destruct (rget (host_net h) (s v0)) as [g|]; [|congruence]. destruct S as (r' & E & _ & R & _). rewrite H in E. injection E as <-.
      rewrite R. destruct (net_eqb _ d) eqn:E; [|reflexivity]. apply net_eqb_eq in E. exfalso. eapply Nh; eauto.
    - destruct (upd_cases s v0 r v) as [[-> ->]|[_ ->]]; [|reflexivity].
      pose proof (rib_del_spec (host_net h) (s v0) (ba_rib c L s B v0)) as S.
      destruct (rget (host_net h) (s v0)) as [g|]; [|congruence]. destruct S as (r' & E & _ & R & _). rewrite H0 in E. injection E as <-.
      rewrite R. destruct (net_eqb _ d) eqn:E; [|reflexivity]. apply net_eqb_eq in E. exfalso. eapply Nh; eauto.
    - assert (rget d (hole_state s v' h v) = rget d (s v)) as X.
      { assert (rget d (upd s v' (rib_add (host_net h) h (s v')) v) = rget d (s v)) as Y.
        { destruct (upd_cases s v' (rib_add (host_net h) h (s v')) v) as [[-> ->]|[_ ->]]; [|reflexivity].
          rewrite rib_add_routes. destruct (net_eqb _ d) eqn:E; [|reflexivity]. apply net_eqb_eq in E. exfalso. eapply Nh; eauto. }
        unfold hole_state. destruct (rget _ (s v')) as [g|]; [destruct (ip_eqb g h)|]; auto. }
      fold (hole_state s v' h). cbv zeta. destruct (upd_cases (hole_state s v' h) v0 (put_neigh h (new_nexthop None None now) (hole_state s v' h v0)) v) as [[-> ->]|[_ ->]]; exact X.
    - now rewrite H.
    - reflexivity.
  Qed.
  Lemma micros_kept (P : kind -> Prop) s ms s' v d : (forall k, P k -> k <> KD false) -> micros c L api P s ms s' -> base c L s -> other_dst v d -> rget d (s' v) = rget d (s v).
  Proof.
    intros HP M. induction M as [s|k s ms s1 ms2 s2 M1 Hk M2 IH]; intros B Od; [reflexivity|].
    rewrite IH; auto; [|eapply micro_base; eauto]. eapply micro_kept; eauto.
  Qed.

  Lemma other_event_kept e ev s s' ms v d : base c L s -> event_ok c ev -> (forall v gw dst, ev <> RAdd v gw dst) -> (forall v dst, ev <> RDel v dst) -> ev <> RConnect ->
    route_step c e ev s = Some (s', ms) -> other_dst v d -> rget d (s' v) = rget d (s v).
  Proof.
    intros B Ok Na Nd Nc E Od.
    destruct (step_pieces c K L api LL e ev s s' ms B Ok) as (m1 & s1 & m2 & -> & M1 & M2); auto.
    { destruct ev; cbn; auto. congruence. }
    rewrite (micros_kept (deletes_of ev) s1 m2 s' v d); auto.
    - eapply micros_kept; eauto. intros k Hk ->. exact Hk.
    - intros k Hk ->. destruct ev; cbn in Hk; try congruence.
    - eapply micros_base; eauto.
  Qed.

  Lemma start_linked : base c L (start static).
  Proof.
    apply start_base; [exact So|]. intros v d g I. constructor; [apply (so_good c static So v d g I)| |eapply Sl; eauto].
    destruct (in_dec Z.eq_dec v (map vl_id (rc_vlans c))) as [H|H]; [exact H|]. rewrite (so_conf c static So v H) in I. destruct I.
  Qed.

  Lemma step_linked e ev s s' ms : base c L s -> event_ok c ev -> route_step c e ev s = Some (s', ms) -> base c L s'.
  Proof.
    intros B Ok E. destruct (match ev with RConnect => true | _ => false end) eqn:Ec.
    - destruct ev; try discriminate. cbn [route_step] in E. injection E as <- <-. now apply reset_base.
    - destruct (step_staged c K L (fun _ _ _ => True) LL e ev s s' ms B Ok) as (m1 & s1 & m2 & -> & M1 & M2); auto.
      + destruct ev; cbn; auto.
      + intros ->. discriminate.
      + eapply micros_base; [| exact M2|eapply micros_base; [|exact M1|exact B]]; auto.
  Qed.

  Theorem history_linked P evs w : rreach c static P evs w -> base c L (rw_st w).
  Proof.
    intros R. induction R; cbn [rw_st]; auto; [apply start_linked|eapply step_linked; eauto|].
    eapply (step_linked e RConnect); eauto. exact Logic.I.
  Qed.

  Lemma add_route_get s v gw dst s' ms : add_route c s v gw dst = (s', ms) -> forall x d,
    rget d (s' x) = match router_vlan_for_gw c v gw with
                    | Some v' => if (x =? v') && net_eqb dst d then Some gw else rget d (s x)
                    | None => rget d (s x)
                    end.
  Proof.
    unfold add_route. destruct (router_vlan_for_gw c v gw) as [v'|]; [|intros E; injection E as <- <-; reflexivity].
    rewrite no_vip_net. intros E x d.
    assert (rget d (upd s v' (rib_add dst gw (s v')) x) = if (x =? v') && net_eqb dst d then Some gw else rget d (s x)) as U.
    { destruct (upd_cases s v' (rib_add dst gw (s v')) x) as [[-> ->]|[N ->]].
      - rewrite rib_add_routes, Z.eqb_refl. reflexivity.
      - apply Z.eqb_neq in N. now rewrite N. }
    destruct (dict_get net_eqb dst _) as [g|] eqn:G; [destruct (ip_eqb g gw) eqn:Eg|]; injection E as <- <-; auto.
    apply ip_eqb_eq in Eg as ->. destruct (Z.eqb_spec x v') as [->|N]; [|reflexivity]. cbn [andb].
    destruct (net_eqb dst d) eqn:En; [|reflexivity]. apply net_eqb_eq in En as <-. exact G.
  Qed.

  Lemma del_route_get s v dst s' ms : base c L s -> del_route c s v dst = Some (s', ms) -> forall x d,
    rget d (s' x) = if (x =? v) && net_eqb dst d then None else rget d (s x).
  Proof.
    intros B. unfold del_route. rewrite no_vip_net. pose proof (rib_del_spec dst (s v) (ba_rib c L s B v)) as S.
    destruct (dict_get net_eqb dst (r_routes (s v))) as [g|] eqn:G.
    - destruct S as (r & -> & _ & R & _). intros E; injection E as <- <-. intros x d.
      destruct (upd_cases s v r x) as [[-> ->]|[N ->]].
      + rewrite R, Z.eqb_refl. reflexivity.
      + apply Z.eqb_neq in N. now rewrite N.
    - intros E; injection E as <- <-. intros x d. destruct (Z.eqb_spec x v) as [->|N]; [|reflexivity]. cbn [andb].
      destruct (net_eqb dst d) eqn:En; [|reflexivity]. apply net_eqb_eq in En as <-. exact G.
  Qed.

  Lemma wants_add v d evs u gw d' g : my_ip c gw -> (wants c static v d (RAdd u gw d' :: evs) g <->
    (if (match router_vlan_for_gw c u gw with Some v' => v =? v' | None => false end) && net_eqb d' d then gw = g else wants c static v d evs g)).
  Proof.
    intros A. pose proof (gateway_vlan_spec u gw v A) as S.
    assert ((match router_vlan_for_gw c u gw with Some v' => v =? v' | None => false end) = true <-> gateway_vlan c u gw v) as S'.
    { rewrite <- S. destruct (router_vlan_for_gw c u gw) as [v'|]; [rewrite Z.eqb_eq; split; congruence|split; discriminate]. }
    destruct (match router_vlan_for_gw c u gw with Some v' => v =? v' | None => false end); cbn [andb].
    - assert (gateway_vlan c u gw v) as G by (now apply S'). destruct (net_eqb d' d) eqn:E.
      + apply net_eqb_eq in E as ->. split; [|intros <-; now constructor]. intros W. inversion W as [|? ? ? G'|? ? ? W' N]; subst; [reflexivity|].
        exfalso. apply N. left. eauto.
      + split.
        * intros W. inversion W; subst; [now rewrite net_eqb_refl in E|assumption].
        * intros W. apply wt_before; [exact W|]. intros [(u' & g' & X & _)|X]; [|discriminate]. injection X as _ _ <-. now rewrite net_eqb_refl in E.
    - split.
      + intros W. inversion W; subst; [|assumption]. exfalso. assert (false = true) by (now apply S'). discriminate.
      + intros W. apply wt_before; [exact W|]. intros [(u' & g' & X & G)|X]; [|discriminate]. injection X as <- <- <-.
        assert (false = true) by (now apply S'). discriminate.
  Qed.
  Lemma wants_del v d evs u d' g : wants c static v d (RDel u d' :: evs) g <-> (if (v =? u) && net_eqb d' d then False else wants c static v d evs g).
  Proof.
    destruct (Z.eqb_spec v u) as [->|N]; cbn [andb]; [destruct (net_eqb d' d) eqn:E|].
    - apply net_eqb_eq in E as ->. split; [|tauto]. intros W. inversion W; subst. apply H3. now right.
    - split; [intros W; now inversion W|]. intros W. apply wt_before; [exact W|]. intros [(u' & g' & X & _)|X]; [discriminate|].
      injection X as <-. now rewrite net_eqb_refl in E.
    - split; [intros W; now inversion W|]. intros W. apply wt_before; [exact W|]. intros [(u' & g' & X & _)|X]; [discriminate|].
      injection X as <- _. congruence.
  Qed.
  Lemma wants_other v d evs ev g : (forall v gw dst, ev <> RAdd v gw dst) -> (forall v dst, ev <> RDel v dst) ->
    (wants c static v d (ev :: evs) g <-> wants c static v d evs g).
  Proof.
    intros Na Nd. split; [intros W; inversion W; subst; [exfalso; eapply Na; eauto|assumption]|]. intros W. apply wt_before; [exact W|].
    intros [(u & gw & -> & _)| ->]; [eapply Na; eauto|eapply Nd; eauto].
  Qed.
  Lemma wants_nil v d g : wants c static v d [] g <-> gateway_of d (map (fun q => OAdd (fst q) (snd q)) (static v)) None = Some g.
  Proof. split; [intros W; now inversion W|apply wt_static]. Qed.

  Lemma static_as_ops l : forall r, fold_left (fun r q => rib_add (fst q) (snd q) r) l r = fold_left run_op (map (fun q => OAdd (fst q) (snd q)) l) r.
  Proof. induction l as [|[d g] l IH]; intros r; cbn [fold_left map]; [reflexivity|]. apply IH. Qed.

  Theorem history_wanted P evs w v d g : rreach c static P evs w -> (forall h, on_link c v h -> d <> host_net h) ->
    (route (rw_st w v) d g <-> wants c static v d evs g).
  Proof.
    intros R Od. rewrite route_get; [|apply (ba_rib c L _ (history_linked P evs w R))].
    revert g. induction R as [s0|evs w e ev s ms sh ub out R IH Eo Ok Hp Ne St Hsh Ro|evs w e s ms sh ub out s0 R IH St Hsh Ro|evs w R IH|evs w f l1 l2 R IH El Hh]; intros g; cbn [rw_st] in *; auto.
    - rewrite wants_nil. unfold start, static_rib. rewrite static_as_ops.
      destruct (run_ops (map (fun q => OAdd (fst q) (snd q)) (static v)) empty_rib empty_rib_ok) as [_ X]. rewrite X. reflexivity.
    - pose proof (history_linked P evs w R) as B. specialize (IH g). destruct ev as [u gw dst|u dst|now|now|port|now p|].
      + cbn [route_step] in St. assert (add_route c (rw_st w) u gw dst = (s, ms)) as E by congruence. destruct Ok as [A _].
        rewrite (wants_add v d evs u gw dst g A), (add_route_get _ _ _ _ _ _ E).
        destruct (router_vlan_for_gw c u gw) as [v'|]; [|exact IH]. destruct ((v =? v') && _); [split; congruence|exact IH].
      + rewrite (wants_del v d evs u dst g). rewrite (del_route_get _ _ _ _ _ B St). destruct (_ && _); [split; [discriminate|tauto]|exact IH].
      + rewrite wants_other by discriminate.
        rewrite (other_event_kept e (RResolve now) (rw_st w) s ms v d); auto; discriminate.
      + rewrite wants_other by discriminate. rewrite (other_event_kept e (RExpire now) (rw_st w) s ms v d); auto; discriminate.
      + rewrite wants_other by discriminate. rewrite (other_event_kept e (RPortDown port) (rw_st w) s ms v d); auto; discriminate.
      + rewrite wants_other by discriminate. rewrite (other_event_kept e (RPacket now p) (rw_st w) s ms v d); auto; discriminate.
      + congruence.
    - rewrite wants_other by discriminate. cbn [route_step] in St. injection St as <- <-. apply IH.
  Qed.
End Wanted.
