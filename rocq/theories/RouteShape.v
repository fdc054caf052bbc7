(** * What the FIB table holds *)
From Coq Require Import ZArith List Bool Lia Permutation.
From Verif Require Import PyBase PyBaseProofs OpenFlow TrimModel TableModel ReorderModel ReorderSpec ReorderProofs BatchProofs
  IpModel IpSpec IpProofs RouteModel RouteSpec RouteFib RouteRib RouteMicro.
Import ListNotations.
Open Scope Z_scope.

(** The entry for packets in VLAN [u] to [d]. *)
Definition entry (c : rconf) (u : Z) (d : net) (inst : list instruction) (hard : Z) : flow :=
  flow_of (tb_write (rc_fib c) FAdd (route_priority d) (route_match c u d) inst hard 0).
Definition miss (c : rconf) : flow := flow_of (tb_drop (rc_fib c) (rc_lowest c) [] 0).

(** [cond v d e]: packets to [d] may be forwarded to MAC [e] in VLAN [v]. *)
Inductive fibent (c : rconf) (cond : Z -> net -> Z -> Prop) : flow -> Prop :=
| fe_miss : fibent c cond (miss c)
| fe_vip : forall u d, 0 <= u <= 0xfff -> my_net c d -> fibent c cond (entry c u d [Goto (rc_vip_table c)] 0)
| fe_hole : forall u d hard, 0 <= u <= 0xfff -> my_net c d -> fibent c cond (entry c u d [] hard)
| fe_fwd : forall v u d e, configured c v -> In u (routed_vlans c v) -> my_net c d -> cond v d e ->
    fibent c cond (entry c u d (nexthop_inst c v e) 0).

Definition unconditional (_ : Z) (_ : net) (_ : Z) : Prop := True.

(** ** The VLANs routed together *)

Lemma routed_vlans_spec c v u : In u (routed_vlans c v) <-> routed_from c v u.
Proof.
  unfold routed_vlans, routed_from, global_routing.
  assert (match rc_routers c with [_] => true | _ => false end = (Z.of_nat (length (rc_routers c)) =? 1)) as ->.
  { destruct (rc_routers c) as [|a [|b l]]; try reflexivity. cbn [length]. symmetry. apply Z.eqb_neq. lia. }
  destruct (_ && _). { split; [intros [<-|[]]; reflexivity|intros ->; now left]. }
  assert (forall vs a x, In x (fold_left (fun a x => set_add Z.eqb x a) vs a) <-> In x a \/ In x vs) as F1.
  { induction vs as [|y vs IH]; intros a x; cbn [fold_left]; [cbn [In]; tauto|].
    rewrite IH, (set_add_in Z.eqb Z.eqb_eq). cbn [In]. split; [intros [[->|H]|H]; auto|intros [H|[->|H]]; auto]. }
  assert (forall rs a, In u (fold_left (fun acc vs => if mem Z.eqb v vs then fold_left (fun a x => set_add Z.eqb x a) vs acc else acc) rs a)
            <-> In u a \/ exists r, In r rs /\ In v r /\ In u r) as F2.
  { induction rs as [|r rs IH]; intros a; cbn [fold_left].
    - split; [auto|intros [H|(r & [] & _)]; exact H].
    - rewrite IH. destruct (mem Z.eqb v r) eqn:M.
      + apply (mem_spec Z Z.eqb Z.eqb_eq) in M. rewrite F1. split.
        * intros [[H|H]|(x & A & B)]; [auto|right; exists r; cbn; auto|right; exists x; cbn; tauto].
        * intros [H|(x & [->|A] & B & C)]; [auto|auto|right; eauto].
      + split.
        * intros [H|(x & A & B)]; [auto|right; exists x; cbn; tauto].
        * intros [H|(x & [->|A] & B & C)]; [auto| |right; eauto].
          apply (mem_spec Z Z.eqb Z.eqb_eq) in B. congruence. }
  rewrite F2. cbn [In]. split; [intros [[->|[]]|H]; auto|intros [->|H]; auto].
Qed.

Lemma routed_vid c v u : route_cfg c -> configured c v -> In u (routed_vlans c v) -> 0 <= u <= 0xfff.
Proof.
  intros K C H. apply routed_vlans_spec in H. unfold routed_from in H. destruct (_ && _).
  - subst. apply K.
  - destruct H as [->|(r & A & _ & B)].
    + pose proof (rk_vids c K v C). lia.
    + pose proof (rk_vids c K u (rk_routers c K r u A B)). lia.
Qed.

(** ** The messages of small steps *)

Section Msgs.
  Variable c : rconf.
  Hypothesis K : route_cfg c.
  Variable L : Z -> ip -> Prop.
  Variable api : rst -> net -> ip -> Prop.
  Let t := tb_id (rc_fib c).
  Let ck := tb_cookie (rc_fib c).

  (** The adds: [A u d inst hard] holds of each. *)
  Definition adds_are (A : Z -> net -> list instruction -> Z -> Prop) (ms : list ofmsg) : Prop :=
    forall x, In x ms -> match x with
      | FlowMod w => match fm_cmd w with
                     | FAdd => exists u d inst hard, x = fib_add c u d inst hard /\ A u d inst hard
                     | FDeleteStrict => exists u d, w = tb_del (rc_fib c) FDeleteStrict (route_priority d) (route_match c u d) OFPP_ANY
                     | _ => False
                     end
      | PacketOut _ _ => True
      | _ => False
      end.
  Lemma adds_are_app A m1 m2 : adds_are A m1 -> adds_are A m2 -> adds_are A (m1 ++ m2).
  Proof. intros H1 H2 x I. apply in_app_iff in I as [I|I]; [exact (H1 x I)|exact (H2 x I)]. Qed.
  Lemma adds_are_nil A : adds_are A [].
  Proof. intros x []. Qed.
  Lemma adds_are_weaken (A B : Z -> net -> list instruction -> Z -> Prop) ms : (forall u d i h, A u d i h -> B u d i h) -> adds_are A ms -> adds_are B ms.
  Proof.
    intros H M x I. specialize (M x I). destruct x; auto. destruct (fm_cmd fm); auto.
    destruct M as (u & d & i & h & E & X). exists u, d, i, h. auto.
  Qed.
  Lemma adds_one_table A ms : adds_are A ms -> forall x, In x ms -> one_table t ck x.
  Proof.
    intros H x I. specialize (H x I). destruct x; cbn; auto; try contradiction.
    destruct (fm_cmd fm) eqn:E; try contradiction.
    - destruct H as (u & d & i & h & X & _). injection X as ->. cbn. auto.
    - destruct H as (u & d & ->). cbn. repeat split; auto.
  Qed.
  Lemma dels_are A v d : adds_are A (del_route_flows c v d).
  Proof. intros x I. apply in_map_iff in I as (u & <- & _). cbn. eauto. Qed.
  Lemma maps_are (A : Z -> net -> list instruction -> Z -> Prop) d i h l : (forall u, In u l -> A u d i h) ->
    adds_are A (map (fun u => fib_add c u d i h) l).
  Proof. intros H x I. apply in_map_iff in I as (u & <- & I). cbn. exists u, d, i, h. auto. Qed.

  (** What the adds of a small step from [s] to [s'] are. *)
  Definition step_add (s s' : rst) (u : Z) (d : net) (i : list instruction) (h : Z) : Prop :=
    my_net c d /\
    ((i = [] /\ 0 <= u <= 0xfff) \/
     exists v g e, i = nexthop_inst c v e /\ h = 0 /\ linked c v g /\ In u (routed_vlans c v) /\
       (d = host_net g \/ dict_get net_eqb d (r_routes (s' v)) = Some g \/ In d (dsts_for_gw (s v) g)) /\
       (cached_eth (s' v) g = Some e \/ cached_eth (s' v) g = None)).

  Lemma add_resolved_are (A : Z -> net -> list instruction -> Z -> Prop) v d e b : (forall u, In u (routed_vlans c v) -> A u d (nexthop_inst c v e) 0) ->
    adds_are A (add_resolved_route c v d e b).
  Proof.
    intros H. unfold add_resolved_route. apply adds_are_app; [|now apply maps_are].
    destruct b; [apply dels_are|apply adds_are_nil].
  Qed.

  Lemma micro_adds k s ms s' : micro c L api k s ms s' -> base c L s -> adds_are (step_add s s') ms.
  Proof.
    intros M B. destruct M.
    - unfold adds_if. destruct (cached_eth (s v) gw) as [e|] eqn:Ec; [|apply adds_are_nil].
      apply add_resolved_are. intros u Hu. split; [assumption|]. right. exists v, gw, e. repeat split; auto; try apply H.
      + right; left. rewrite upd_at, rib_add_routes, net_eqb_refl. reflexivity.
      + left. rewrite upd_at. rewrite (cached_same (s v)); [exact Ec|apply rib_add_neigh].
    - apply dels_are.
    - apply adds_are_nil.
    - apply adds_are_nil.
    - apply adds_are_nil.
    - unfold update_msgs.
      assert (forall b, adds_are (step_add s (upd s v (put_neigh g (new_nexthop (Some eth) (Some port) now) (s v))))
                (flat_map (fun d => add_resolved_route c v d eth b) (dsts_for_gw (s v) g))) as G.
      { intros b x I. apply in_flat_map in I as (d & Id & I). revert x I. apply add_resolved_are.
        intros u Hu. split; [eapply ba_net; eauto|]. right. exists v, g, eth. repeat split; auto; try apply H.
        left. rewrite upd_at, cached_put, ip_eqb_refl. reflexivity. }
      destruct (cached_eth (s v) g) as [e|]; [destruct (e =? eth)|]; try apply G. apply adds_are_nil.
    - apply adds_are_app.
      + apply maps_are. intros u Hu. split; [apply my_host, H|]. left. split; [reflexivity|].
        eapply routed_vid; eauto. apply H.
      + assert (adds_are (step_add s (let s1 := match dict_get net_eqb (host_net h) (r_routes (s v')) with
                   | Some g => if ip_eqb g h then s else upd s v' (rib_add (host_net h) h (s v'))
                   | None => upd s v' (rib_add (host_net h) h (s v'))
                   end in
            upd s1 v (put_neigh h (new_nexthop None None now) (s1 v)))) (adds_if c v' (host_net h) (cached_eth (s v') h))) as G.
        { cbv zeta. set (s1 := match dict_get _ _ _ with None => _ | _ => _ end).
          unfold adds_if. destruct (cached_eth (s v') h) as [e0|] eqn:Ec; [|apply adds_are_nil].
          apply add_resolved_are. intros u Hu. split; [apply my_host, H|]. right. exists v', h, e0. repeat split; auto; try apply H0.
          assert (cached_eth (s1 v') h = Some e0) as Ec1.
          { assert (cached_eth (upd s v' (rib_add (host_net h) h (s v')) v') h = Some e0) as X.
            { rewrite upd_at, (cached_same (s v')); [exact Ec|apply rib_add_neigh]. }
            subst s1. destruct (dict_get _ _ _) as [g|]; [destruct (ip_eqb g h)|]; assumption. }
          destruct (Z.eq_dec v' v) as [->|Ne].
          - right. rewrite upd_at, cached_put, ip_eqb_refl. reflexivity.
          - left. unfold upd at 1. apply Z.eqb_neq in Ne. rewrite Ne. exact Ec1. }
        destruct (dict_get _ _ _) as [g|]; [destruct (ip_eqb g h)|]; try apply G; apply adds_are_nil.
    - apply adds_are_nil.
    - apply adds_are_nil.
    - intros x [<-|[]]. exact Logic.I.
  Qed.

  Lemma step_add_shape s s' u d i h : step_add s s' u d i h -> fibent c unconditional (entry c u d i h).
  Proof.
    intros (N & [(-> & U)|(v & g & e & -> & -> & Lk & Hu & _)]).
    - now apply fe_hole.
    - apply fe_fwd; auto; try apply Lk; exact Logic.I.
  Qed.

  Definition shaped (cond : Z -> net -> Z -> Prop) (ms : list ofmsg) : Prop := adds_are (fun u d i h => fibent c cond (entry c u d i h)) ms.
  Lemma micros_shaped P s ms s' : (forall v a, linked c v a -> L v a) -> micros c L api P s ms s' -> base c L s -> shaped unconditional ms.
  Proof.
    intros HL M. induction M; intros B; [apply adds_are_nil|].
    apply adds_are_app.
    - eapply adds_are_weaken; [|eapply micro_adds; eauto]. intros. eapply step_add_shape; eauto.
    - apply IHM. eapply micro_base; eauto.
  Qed.

  (** ** Connecting *)

  Lemma vip_flows_shaped cond x p : In x (rc_vlans c) -> In p (vl_vips x) -> ip_ver (v_ip p) = rc_ver c ->
    shaped cond (vip_flows c x p).
  Proof.
    intros Ix Ip Ev. pose proof (rk_vips c K x p Ix Ip) as G.
    assert (configured c (vl_id x)) as C by (apply in_map; exact Ix).
    pose proof (rk_vids c K _ C) as Hv. pose proof (rk_global c K) as Hg.
    assert (my_net c (vip_net p)) as N1. { split; [now apply vip_net_good|exact Ev]. }
    assert (forall a, ip_ver a = rc_ver c -> good_ip a -> my_net c (host_net a)) as N2 by (intros; apply my_host; split; auto).
    unfold vip_flows. set (u0 := if global_routing c then rc_global c else vl_id x).
    assert (0 <= u0 <= 0xfff) as U0 by (unfold u0; destruct (global_routing c); lia).
    change (fib_add c ?u ?d ?i ?h :: ?m) with ([fib_add c u d i h] ++ m).
    apply adds_are_app; [|apply adds_are_app].
    - apply (maps_are _ _ _ _ [u0]). intros u [<-|[]]. apply fe_vip; [exact U0|]. apply N2; [exact Ev|apply G].
    - destruct (_ && _); [|apply adds_are_nil]. apply maps_are. intros u Hu. apply fe_vip; [|exact N1].
      destruct (global_routing c) eqn:Eg; [destruct Hu as [<-|[]]; exact Hg|]. eapply routed_vid; eauto.
    - destruct (_ =? _); [|apply adds_are_nil]. apply (maps_are _ _ _ _ [u0]). intros u [<-|[]]. apply fe_vip; [exact U0|].
      assert (good_ip (broadcast (vip_net p)) /\ ip_ver (broadcast (vip_net p)) = rc_ver c) as [A B]; [|now apply N2].
      split; [|exact Ev]. pose proof (vip_net_good p G) as (V & Ln & Z0 & Up & _).
      unfold broadcast, good_ip. cbn [ip_ver ip_val].
      change width with bits. set (n := vip_net p) in *.
      assert (0 < 2 ^ (bits (n_ver n) - n_len n)) by (apply Z.pow_pos_nonneg; lia).
      destruct V as [V|V]; rewrite V in *; unfold bits in *.
      + left. split; [reflexivity|]. change (4 =? 4) with true in *. cbv iota in *. lia.
      + right. split; [reflexivity|]. change (6 =? 4) with false in *. cbv iota in *. lia.
  Qed.

  Lemma connect_rest cond x : In x (connect_flows c) -> x = wipe_fib c \/
    (exists w, x = FlowMod w /\ fm_cmd w = FAdd /\ fibent c cond (flow_of w)).
  Proof.
    unfold connect_flows. intros [<-|[<-|I]]; [now left| |].
    - right. eexists. repeat split. apply fe_miss.
    - right. apply in_flat_map in I as (y & Iy & I). apply in_flat_map in I as (p & Ip & I).
      apply filter_In in Ip as [Ip Ev]. apply Z.eqb_eq in Ev.
      pose proof (vip_flows_shaped cond y p Iy Ip Ev x I) as S.
      assert (exists u d i h, x = fib_add c u d i h) as (u & d & i & h & ->).
      { unfold vip_flows in I. destruct I as [<-|I]; [eauto 6|]. apply in_app_iff in I as [I|I].
        - destruct (_ && _); [|destruct I]. apply in_map_iff in I as (u & <- & _). eauto 6.
        - destruct (_ =? _); [|destruct I]. destruct I as [<-|[]]. eauto 6. }
      destruct (S : exists u' d' i' h', fib_add c u d i h = fib_add c u' d' i' h' /\ fibent c cond (entry c u' d' i' h'))
        as (u' & d' & i' & h' & E & S').
      eexists. split; [reflexivity|]. split; [reflexivity|]. change (fibent c cond (entry c u d i h)).
      apply (f_equal (fun m => match m with FlowMod w => flow_of w | _ => miss c end)) in E.
      change (entry c u d i h = entry c u' d' i' h') in E. rewrite E. exact S'.
  Qed.
End Msgs.
