(** * Frames in tunnels, from end to end *)
From Coq Require Import ZArith List Bool Lia Permutation.
From Verif Require Import PyBase PyBaseProofs OpenFlow SlotProofs TableModel AclModel AclSpec StackModel StackSpec StackProofs StackFloodProofs StackRoleProofs StackNextProofs TunnelModel TunnelSpec TunnelProofs TunnelWalkProofs.
Import ListNotations.
Open Scope Z_scope.

Lemma tag_it : forall live tid pcp n pk, perform live [OVids [tid]; OSet [(VlanPcp, pcp)]; OPort n; OPop 1] pk = ([(n, tagged tid pcp pk)], pk).
Proof. intros live tid pcp n [i tags h]. reflexivity. Qed.
Lemma perform_app : forall live a b pk, perform live (a ++ b) pk =
  (fst (perform live a pk) ++ fst (perform live b (snd (perform live a pk))), snd (perform live b (snd (perform live a pk)))).
Proof.
  intros live. induction a as [|i a IH]; intros b pk; [cbn; destruct (perform live b pk); reflexivity|]. cbn [app perform].
  match goal with |- context [match ?x with (_, _) => _ end] => destruct x as [now p'] end. rewrite IH. destruct (perform live a p') as [l p'']. cbn. rewrite app_assoc. reflexivity.
Qed.
Lemma exit_sound : forall d, exit_ok d -> Forall item_sound (td_exit d).
Proof. intros d H. exact H. Qed.

Section Net.
  Variables (f : fabric) (root : Z) (ls : list tacl) (cf : Z -> tconf) (sw : Z -> switch).
  Hypothesis N : tunnel_net f root ls cf sw.
  Notation first := (fun x => tb_id (tc_table (cf x))).
  Let AG := tn_agreed _ _ _ _ _ N.
  Let RUN := tn_running _ _ _ _ _ N.
  Let NUM := tn_numbers _ _ _ _ _ N.
  Let IDS := tn_ids _ _ _ _ _ N.
  Let MEAN := tn_meaning _ _ _ _ _ N.
  Let ONEWAY := tn_one_way _ _ _ _ _ N.
  Let STATE := tn_state _ _ _ _ _ N.

  Lemma node_named : forall x y, joined f x y -> exists t, In t f /\ sn_name t = x.
  Proof.
    intros x y J. assert (I : In x (names f)). { destruct J as [x I|x p y q z (s & t & I & E & _) _]; [exact I|]. unfold names. rewrite <- E. apply in_map. exact I. }
    unfold names in I. apply in_map_iff in I as (t & E & I). eauto.
  Qed.

  Section Way.
    Variables (l : tacl) (d : tdest) (s : tsource).
    Hypothesis L : In l ls.
    Hypothesis D : In d (tl_dests l).
    Hypothesis S : In s (tl_sources l).

    Lemma fwd_held : forall t items, In t f -> fwd_rules (cf (sn_name t)) t d s = items -> fwd_updated t d s = true -> sn_name t <> ts_dp s ->
      Forall no_failover items ->
      forall e, at_slot (first (sn_name t)) OVERRIDE_PRIORITY (tunnel_match (td_id d) (if td_reverse d then PCP_TUNNEL_REVERSE_DIRECTION_FLAG else PCP_TUNNEL_FLAG)) e ->
      (In e (sw_flows (sw (sn_name t))) <-> e = tunnel_flow (cf (sn_name t)) items (td_id d) (td_reverse d)).
    Proof.
      intros t items I E F NS SO. destruct (STATE t I) as (w & U & EW). rewrite <- EW, <- E.
      apply (fwd_slot (cf (sn_name t)) (map sp_no (sn_ports t)) ls (sn_name t) t w U IDS MEAN ONEWAY l d s L D S F NS).
      rewrite E. apply tunnel_no_group. exact SO.
    Qed.
    Lemma rev_held : forall t items, In t f -> rev_rules (cf (sn_name t)) t d s = items -> rev_updated t d s = true ->
      (forall l' s', In l' ls -> In d (tl_dests l') -> In s' (tl_sources l') -> s' = s) ->
      Forall no_failover items ->
      forall e, at_slot (first (sn_name t)) OVERRIDE_PRIORITY (tunnel_match (td_id d) PCP_TUNNEL_REVERSE_DIRECTION_FLAG) e ->
      (In e (sw_flows (sw (sn_name t))) <-> e = tunnel_flow (cf (sn_name t)) items (td_id d) true).
    Proof.
      intros t items I E F ONE SO. destruct (STATE t I) as (w & U & EW). rewrite <- EW, <- E.
      apply (rev_slot (cf (sn_name t)) (map sp_no (sn_ports t)) ls (sn_name t) t w U IDS MEAN ONEWAY l d s L D S F ONE).
      rewrite E. apply tunnel_no_group. exact SO.
    Qed.

    (** On the way. *)
    Lemma fwd_transit : forall t h, In t f -> sn_name t <> ts_dp s -> sn_name t <> td_dp d -> is_in_path t (ts_dp s) (td_dp d) = true ->
      default_port_towards t (td_dp d) = Some h -> 0 < sp_no h ->
      forall e, at_slot (first (sn_name t)) OVERRIDE_PRIORITY (tunnel_match (td_id d) (if td_reverse d then PCP_TUNNEL_REVERSE_DIRECTION_FLAG else PCP_TUNNEL_FLAG)) e ->
      (In e (sw_flows (sw (sn_name t))) <-> e = tunnel_flow (cf (sn_name t)) [OPort (sp_no h)] (td_id d) (td_reverse d)).
    Proof.
      intros t h I NS ND IP DP P.
      assert (FP : fwd_port t d s = Some (sp_no h)).
      { unfold fwd_port, tunnel_outport. rewrite IP, DP. cbn. destruct (Z.eqb_spec (sn_name t) (td_dp d)); [contradiction|reflexivity]. }
      apply fwd_held; auto.
      - unfold fwd_rules, source_rules. rewrite FP. destruct (Z.eqb_spec (sn_name t) (ts_dp s)); [contradiction|]. destruct (Z.eqb_spec (sn_name t) (td_dp d)); [contradiction|reflexivity].
      - unfold fwd_updated. rewrite FP. cbn. destruct (Z.eqb_spec (sp_no h) 0); [lia|reflexivity].
      - repeat constructor.
    Qed.
    Lemma rev_transit : td_bidir d = true -> (forall l' s', In l' ls -> In d (tl_dests l') -> In s' (tl_sources l') -> s' = s) ->
      forall t h, In t f -> sn_name t <> ts_dp s -> is_in_path t (td_dp d) (ts_dp s) = true ->
      default_port_towards t (ts_dp s) = Some h -> 0 < sp_no h ->
      forall e, at_slot (first (sn_name t)) OVERRIDE_PRIORITY (tunnel_match (td_id d) PCP_TUNNEL_REVERSE_DIRECTION_FLAG) e ->
      (In e (sw_flows (sw (sn_name t))) <-> e = tunnel_flow (cf (sn_name t)) [OPort (sp_no h)] (td_id d) true).
    Proof.
      intros B ONE t h I NS IP DP P.
      assert (FP : rev_port t d s = Some (sp_no h)).
      { unfold rev_port, tunnel_outport. rewrite IP, DP. cbn. destruct (Z.eqb_spec (sn_name t) (ts_dp s)); [contradiction|reflexivity]. }
      apply rev_held; auto.
      - unfold rev_rules, reverse_rules. rewrite FP. destruct (Z.eqb_spec (sn_name t) (ts_dp s)); [contradiction|]. destruct (Z.eqb_spec (sn_name t) (td_dp d)); reflexivity.
      - unfold rev_updated. rewrite FP, B. cbn. destruct (Z.eqb_spec (sp_no h) 0); [lia|]. destruct (none (ts_port s)); reflexivity.
      - repeat constructor.
    Qed.

    Lemma joined_shortest : forall s0 x y, In s0 f -> joined f x y -> x <> y -> exists z r, shortest_path (sn_graph s0) x y = x :: z :: r.
    Proof.
      intros s0 x y I J NE. apply (joined_path f root AG s0 I) in J. assert (OK := graph_ok_of f root AG s0 I).
      destruct (connected_path _ OK x y J) as (r & E). assert (CP := shortest_path_chosen _ OK _ _ _ E ltac:(discriminate)).
      destruct (path_inv _ _ _ _ (proj1 CP) NE) as (z & r' & E' & _). exists z, r'. congruence.
    Qed.

    (** From the first hop to the last switch. *)
    Lemma way : forall (rv : bool) live a b ta, In ta f -> sn_name ta = a -> joined f a b -> a <> b ->
      (forall t h, In t f -> sn_name t <> a -> sn_name t <> b -> is_in_path t a b = true -> default_port_towards t b = Some h -> 0 < sp_no h ->
        forall e, at_slot (first (sn_name t)) OVERRIDE_PRIORITY (tunnel_match (td_id d) (if rv then PCP_TUNNEL_REVERSE_DIRECTION_FLAG else PCP_TUNNEL_FLAG)) e ->
        (In e (sw_flows (sw (sn_name t))) <-> e = tunnel_flow (cf (sn_name t)) [OPort (sp_no h)] (td_id d) rv)) ->
      exists p y q n, default_port_towards ta b = Some p /\ In p (sn_ports ta) /\ is_in_path ta a b = true /\ link_up f a p y q /\ distance f a b (Datatypes.S n) /\
      forall pk r, pk_tags pk = (td_id d, if rv then PCP_TUNNEL_REVERSE_DIRECTION_FLAG else PCP_TUNNEL_FLAG) :: r ->
        exists te k, In te f /\ sn_name te = b /\ In k (sn_ports te) /\ is_in_path te a b = true /\
          transits f sw live first n y (entering (sp_no q) pk) b (entering (sp_no k) pk).
    Proof.
      intros rv live a b ta I NA J NE SLOT. destruct (joined_shortest ta a b I J NE) as (z & r & E). subst a.
      destruct (next_hop f root AG RUN ta I ta b z r I E) as (h & t' & q & DP & PH & DH & It' & Nt' & Iq & Dq & LK & EZ).
      assert (OK := graph_ok_of f root AG ta I). assert (CP := shortest_path_chosen _ OK _ _ _ E ltac:(discriminate)).
      assert (ND := StackProofs.chosen_nodup _ _ _ _ CP). apply NoDup_cons_iff in ND as [ND1 ND2].
      exists h, z, q, (length (z :: r) - 1)%nat. split; [exact DP|]. split; [exact PH|]. split.
      { unfold is_in_path. rewrite E. apply (mem_spec _ Z.eqb Z.eqb_eq). left. reflexivity. }
      split; [exact LK|]. split.
      { assert (DI := shortest_distance f root AG ta I _ _ _ E ltac:(discriminate)). cbn [length] in *. rewrite !Nat.sub_succ, !Nat.sub_0_r in *. exact DI. }
      intros pk r0 TG.
      destruct (carry f root cf sw live ls AG RUN NUM IDS ta I STATE (sn_name ta) b (td_id d) rv (IDS l d L D) SLOT (z :: r) t' (sn_name ta) q (entering (sp_no q) pk) r0) as (te & k & Ite & Nte & Ik & TR).
      - exact It'.
      - rewrite Nt'. exact EZ.
      - discriminate.
      - intros y Y. rewrite E. right. exact Y.
      - exact ND1.
      - exact Iq.
      - exact Dq.
      - exact ND1.
      - reflexivity.
      - exact TG.
      - exists te, k. split; [exact Ite|]. split; [exact Nte|]. split; [exact Ik|]. split.
        + unfold is_in_path. rewrite (shortest_same f root AG ta I te Ite), E, Nte. apply (mem_spec _ Z.eqb Z.eqb_eq). apply (path_last_in _ _ _ _ (proj1 CP)).
        + rewrite Nt' in TR. exact TR.
    Qed.

    (** ** Entering the tunnel, and leaving it *)
    Hypothesis EXIT : exit_ok d.
    Hypothesis PORT : td_port d <> Some 0.

    (** The destination. *)
    Lemma fwd_end : forall live t pk k r, In t f -> sn_name t = td_dp d -> td_dp d <> ts_dp s -> is_in_path t (ts_dp s) (td_dp d) = true ->
      In k (sn_ports t) -> pk_in pk = sp_no k -> pk_tags pk = (td_id d, pcp_of d) :: r ->
      forall es, walk (sw (sn_name t)) live (first (sn_name t)) pk es <->
        handed_over (sw (sn_name t)) live (cf (sn_name t)) d (if td_maintain d then pk else popped 1 pk) es.
    Proof.
      intros live t pk k r I ND NE IP K PI TG.
      assert (FP : fwd_port t d s = td_port d). { unfold fwd_port, tunnel_outport. rewrite IP. cbn. rewrite ND, Z.eqb_refl. reflexivity. }
      assert (FU : fwd_updated t d s = true).
      { unfold fwd_updated. rewrite FP. destruct (td_port d) as [n|]; cbn; [|rewrite ND, Z.eqb_refl; reflexivity]. destruct (Z.eqb_spec n 0); [subst; contradiction PORT; reflexivity|reflexivity]. }
      assert (FR : fwd_rules (cf (sn_name t)) t d s = ((if td_maintain d then [] else [OPop 1]) ++ td_exit d) ++ [leave (td_port d) (tc_output (cf (sn_name t)))]).
      { unfold fwd_rules, source_rules. rewrite FP, ND, Z.eqb_refl. destruct (Z.eqb_spec (td_dp d) (ts_dp s)); [contradiction|]. rewrite app_assoc. reflexivity. }
      set (items := (if td_maintain d then [] else [OPop 1]) ++ td_exit d) in *.
      assert (SI : Forall item_sound items). { apply Forall_app. split; [destruct (td_maintain d); repeat constructor|exact EXIT]. }
      assert (PF : forall l', perform live (items ++ l') pk = perform live (td_exit d ++ l') (if td_maintain d then pk else popped 1 pk)).
      { intros l'. unfold items. destruct (td_maintain d); [reflexivity|]. cbn [app perform]. destruct (perform live (td_exit d ++ l') (popped 1 pk)); reflexivity. }
      assert (HELD := fwd_held t _ I FR FU ltac:(congruence)). unfold handed_over. destruct (td_port d) as [n|] eqn:EP; cbn [leave] in *.
      - assert (SO : Forall item_sound (items ++ [OPort n])) by (apply Forall_app; split; [exact SI|repeat constructor]).
        destruct (tunnel_exec (group_lookup (sw (sn_name t))) live (cf (sn_name t)) (items ++ [OPort n]) (td_id d) (td_reverse d) pk SO) as (q & EX).
        intros es. rewrite (tagged_walk f cf sw (fun _ => live) ls IDS STATE t (td_id d) (td_reverse d) _ pk r _ q None I
          (HELD ltac:(eapply Forall_impl; [|exact SO]; intros y [_ Y]; exact Y)) (IDS l d L D) ltac:(left; rewrite PI; apply in_map; exact K) TG EX es).
        cbn [then_]. rewrite PF. split; [intros (es' & -> & ->); apply app_nil_r|intros ->; exists []; rewrite app_nil_r; auto].
      - assert (EX := tunnel_exec_goto (group_lookup (sw (sn_name t))) live (cf (sn_name t)) items (tc_output (cf (sn_name t))) (td_id d) (td_reverse d) pk SI).
        intros es. rewrite (tagged_walk f cf sw (fun _ => live) ls IDS STATE t (td_id d) (td_reverse d) _ pk r _ _ _ I
          (HELD ltac:(apply Forall_app; split; [eapply Forall_impl; [|exact SI]; intros y [_ Y]; exact Y|repeat constructor])) (IDS l d L D) ltac:(left; rewrite PI; apply in_map; exact K) TG EX es).
        cbn [then_]. assert (PF' := PF []). rewrite !app_nil_r in PF'. rewrite PF'. reflexivity.
    Qed.

    Theorem through : forall live r i pk, ts_dp s <> td_dp d -> joined f (ts_dp s) (td_dp d) ->
      (forall t, In t f -> sn_name t = ts_dp s -> ~ In (pk_in pk) (map sp_no (sn_ports t))) ->
      only_tunnel r (td_id d) -> first_at r i (rules_at (cf (ts_dp s)) l s) -> alone (cf (ts_dp s)) ls l s -> fields_once r -> (ts_port s = None -> any_port r) ->
      decides_at (sw (ts_dp s)) (first (ts_dp s)) s r i pk ->
      exists p y q n k, link_up f (ts_dp s) p y q /\
        (forall es, walk (sw (ts_dp s)) (live (ts_dp s)) (first (ts_dp s)) pk es <->
          exists es', then_ (sw (ts_dp s)) (live (ts_dp s)) (goes_on (cf (ts_dp s)) r) pk es' /\ es = (sp_no p, tagged (td_id d) (pcp_of d) pk) :: es') /\
        transmit (pk_in pk) (sp_no p, tagged (td_id d) (pcp_of d) pk) = Some (sp_no p, tagged (td_id d) (pcp_of d) pk) /\
        distance f (ts_dp s) (td_dp d) (Datatypes.S n) /\
        transits f sw live first n y (entering (sp_no q) (tagged (td_id d) (pcp_of d) pk)) (td_dp d) (entering k (tagged (td_id d) (pcp_of d) pk)) /\
        forall es, walk (sw (td_dp d)) (live (td_dp d)) (first (td_dp d)) (entering k (tagged (td_id d) (pcp_of d) pk)) es <->
          handed_over (sw (td_dp d)) (live (td_dp d)) (cf (td_dp d)) d (entering k (emerging d pk)) es.
    Proof.
      intros live r i pk NE J NST O FA AL OR NP DEC. destruct (node_named _ _ J) as (ta & Ia & Na).
      destruct (way (td_reverse d) live (ts_dp s) (td_dp d) ta Ia Na J NE) as (p & y & q & n & DP & PH & IP & LK & DI & GO).
      { intros t h I A B C E P. exact (fwd_transit t h I A B C E P). }
      assert (NP0 := NUM ta p Ia PH).
      assert (FP : fwd_port ta d s = Some (sp_no p)).
      { unfold fwd_port, tunnel_outport. rewrite IP, DP. cbn. destruct (Z.eqb_spec (sn_name ta) (td_dp d)); [congruence|reflexivity]. }
      assert (FU : fwd_updated ta d s = true). { unfold fwd_updated. rewrite FP. cbn. destruct (Z.eqb_spec (sp_no p) 0); [lia|reflexivity]. }
      assert (FR : fwd_rules (cf (ts_dp s)) ta d s = [OVids [td_id d]; OSet [(VlanPcp, pcp_of d)]; OPort (sp_no p); OPop 1]).
      { unfold fwd_rules, source_rules. rewrite FP, Na, Z.eqb_refl. destruct (Z.eqb_spec (ts_dp s) (td_dp d)); [contradiction|reflexivity]. }
      assert (SO : Forall item_sound (fwd_rules (cf (ts_dp s)) ta d s)).
      { rewrite FR. repeat constructor; try exact (proj1 (IDS l d L D)); try exact (proj2 (IDS l d L D)). }
      destruct (GO (tagged (td_id d) (pcp_of d) pk) (pk_tags pk) eq_refl) as (te & k & Ite & Nte & Ik & IPe & TR).
      exists p, y, q, n, (sp_no k). split; [exact LK|]. split.
      { destruct (STATE ta Ia) as (w & U & EW). rewrite Na in U, EW. intros es. rewrite <- EW in DEC |- *.
        rewrite (src_walk (cf (ts_dp s)) (map sp_no (sn_ports ta)) ls (ts_dp s) ta w U Na MEAN (tn_once _ _ _ _ _ N) (live (ts_dp s)) l d s r i pk L D S eq_refl FU O AL FA OR NP SO DEC es).
        rewrite FR, tag_it. reflexivity. }
      split.
      { cbn. destruct (Z.eqb_spec (sp_no p) OFPP_IN_PORT) as [X|_]; [unfold OFPP_IN_PORT, OFPP_MAX in *; lia|].
        destruct (Z.eqb_spec (sp_no p) (pk_in pk)) as [X|_]; [|reflexivity]. exfalso. apply (NST ta Ia Na). rewrite <- X. apply in_map. exact PH. }
      split; [exact DI|]. split; [exact TR|].
      rewrite <- Nte. intros es. assert (NDS : td_dp d <> ts_dp s) by congruence. rewrite (fwd_end (live (sn_name te)) te (entering (sp_no k) (tagged (td_id d) (pcp_of d) pk)) k (pk_tags pk) Ite Nte NDS IPe Ik eq_refl eq_refl es).
      unfold emerging. destruct (td_maintain d); reflexivity.
    Qed.

    (** Source and destination on one switch. *)
    Theorem through_one : forall live r i pk n, ts_dp s = td_dp d -> In (ts_dp s) (names f) -> td_port d = Some n ->
      only_tunnel r (td_id d) -> first_at r i (rules_at (cf (ts_dp s)) l s) -> alone (cf (ts_dp s)) ls l s -> fields_once r -> (ts_port s = None -> any_port r) ->
      decides_at (sw (ts_dp s)) (first (ts_dp s)) s r i pk ->
      forall es, walk (sw (ts_dp s)) live (first (ts_dp s)) pk es <->
        exists es', then_ (sw (ts_dp s)) live (goes_on (cf (ts_dp s)) r) (emerging d (snd (perform live (td_exit d) pk))) es' /\
          es = fst (perform live (td_exit d) pk) ++ (n, emerging d (snd (perform live (td_exit d) pk))) :: es'.
    Proof.
      intros live r i pk n E IN EP O FA AL OR NP DEC. unfold names in IN. apply in_map_iff in IN as (ta & Na & Ia).
      assert (IP : is_in_path ta (ts_dp s) (td_dp d) = true).
      { unfold is_in_path. assert (J : joined f (ts_dp s) (td_dp d)). { rewrite <- E, <- Na. constructor. apply in_map. exact Ia. }
        apply (joined_path f root AG ta Ia) in J. destruct (connected_path _ (graph_ok_of f root AG ta Ia) _ _ J) as (r' & ->). apply (mem_spec _ Z.eqb Z.eqb_eq). left. congruence. }
      assert (FP : fwd_port ta d s = Some n). { unfold fwd_port, tunnel_outport. rewrite IP. cbn. rewrite Na, E, Z.eqb_refl. exact EP. }
      assert (FU : fwd_updated ta d s = true). { unfold fwd_updated. rewrite FP. cbn. destruct (Z.eqb_spec n 0); [subst; contradiction|reflexivity]. }
      assert (FR : fwd_rules (cf (ts_dp s)) ta d s = td_exit d ++ (if td_maintain d then [OVids [td_id d]; OSet [(VlanPcp, pcp_of d)]] else []) ++ [OPort n]).
      { unfold fwd_rules, source_rules. rewrite FP, Na, E, Z.eqb_refl. reflexivity. }
      assert (SO : Forall item_sound (fwd_rules (cf (ts_dp s)) ta d s)).
      { rewrite FR. apply Forall_app. split; [exact EXIT|]. destruct (td_maintain d); repeat constructor; try exact (proj1 (IDS l d L D)); try exact (proj2 (IDS l d L D)). }
      destruct (STATE ta Ia) as (w & U & EW). rewrite Na in U, EW. intros es. rewrite <- EW in DEC |- *.
      rewrite (src_walk (cf (ts_dp s)) (map sp_no (sn_ports ta)) ls (ts_dp s) ta w U Na MEAN (tn_once _ _ _ _ _ N) live l d s r i pk L D S eq_refl FU O AL FA OR NP SO DEC es).
      rewrite FR, perform_app. cbn [fst snd]. unfold emerging.
      assert (PP : forall p0, perform live ((if td_maintain d then [OVids [td_id d]; OSet [(VlanPcp, pcp_of d)]] else []) ++ [OPort n]) p0 =
        ([(n, if td_maintain d then tagged (td_id d) (pcp_of d) p0 else p0)], if td_maintain d then tagged (td_id d) (pcp_of d) p0 else p0)) by (intros p0; destruct (td_maintain d); reflexivity).
      rewrite PP. cbn [fst snd]. setoid_rewrite <- app_assoc. reflexivity.
    Qed.

    (** ** The way back *)
    Hypothesis BOTH : td_bidir d = true.
    Hypothesis ONLY : forall l' s', In l' ls -> In d (tl_dests l') -> In s' (tl_sources l') -> s' = s.
    Hypothesis SPORT : ts_port s <> Some 0.

    Lemma rev_end : forall live t pk r, In t f -> sn_name t = ts_dp s -> is_in_path t (td_dp d) (ts_dp s) = true ->
      (In (pk_in pk) (map sp_no (sn_ports t)) \/ not_overridden (sw (sn_name t)) (first (sn_name t)) pk) -> pk_tags pk = (td_id d, PCP_TUNNEL_REVERSE_DIRECTION_FLAG) :: r ->
      forall es, walk (sw (sn_name t)) live (first (sn_name t)) pk es <-> handed_back (sw (sn_name t)) live (cf (sn_name t)) s (popped 1 pk) es.
    Proof.
      intros live t pk r I NS IP PI TG.
      assert (FP : rev_port t d s = ts_port s). { unfold rev_port, tunnel_outport. rewrite IP. cbn. rewrite NS, Z.eqb_refl. reflexivity. }
      assert (FU : rev_updated t d s = true).
      { unfold rev_updated. rewrite FP, BOTH, andb_true_r. destruct (ts_port s) as [n|]; cbn; [|rewrite NS, Z.eqb_refl; reflexivity]. destruct (Z.eqb_spec n 0); [subst; contradiction SPORT; reflexivity|reflexivity]. }
      assert (FR : rev_rules (cf (sn_name t)) t d s = [OPop 1] ++ [leave (ts_port s) (tc_output (cf (sn_name t)))]).
      { unfold rev_rules, reverse_rules. rewrite FP, NS, Z.eqb_refl. destruct (Z.eqb_spec (ts_dp s) (td_dp d)); reflexivity. }
      assert (HELD := rev_held t _ I FR FU ONLY). unfold handed_back. destruct (ts_port s) as [n|] eqn:EP; cbn [leave] in *.
      - destruct (tunnel_exec (group_lookup (sw (sn_name t))) live (cf (sn_name t)) ([OPop 1] ++ [OPort n]) (td_id d) true pk ltac:(repeat constructor)) as (q & EX).
        intros es. rewrite (tagged_walk f cf sw (fun _ => live) ls IDS STATE t (td_id d) true _ pk r _ q None I
          (HELD ltac:(repeat constructor)) (IDS l d L D) PI TG EX es).
        cbn. split; [intros (es' & -> & ->); reflexivity|intros ->; exists []; auto].
      - assert (EX := tunnel_exec_goto (group_lookup (sw (sn_name t))) live (cf (sn_name t)) [OPop 1] (tc_output (cf (sn_name t))) (td_id d) true pk ltac:(repeat constructor)).
        intros es. rewrite (tagged_walk f cf sw (fun _ => live) ls IDS STATE t (td_id d) true _ pk r _ _ _ I
          (HELD ltac:(repeat constructor)) (IDS l d L D) PI TG EX es).
        cbn. split; [intros (es' & W & ->); exact W|intros W; exists es; auto].
    Qed.

    Theorem back : forall live pk r, ts_dp s <> td_dp d -> joined f (td_dp d) (ts_dp s) ->
      (forall t, In t f -> sn_name t = td_dp d -> ~ In (pk_in pk) (map sp_no (sn_ports t))) ->
      not_overridden (sw (td_dp d)) (first (td_dp d)) pk -> pk_tags pk = (td_id d, PCP_TUNNEL_REVERSE_DIRECTION_FLAG) :: r ->
      exists n k, distance f (td_dp d) (ts_dp s) n /\
        transits f sw live first n (td_dp d) pk (ts_dp s) (entering k pk) /\
        forall es, walk (sw (ts_dp s)) (live (ts_dp s)) (first (ts_dp s)) (entering k pk) es <->
          handed_back (sw (ts_dp s)) (live (ts_dp s)) (cf (ts_dp s)) s (entering k (popped 1 pk)) es.
    Proof.
      intros live pk r NE J NST NO TG. destruct (node_named _ _ J) as (ta & Ia & Na). assert (NE' : td_dp d <> ts_dp s) by congruence.
      destruct (way true live (td_dp d) (ts_dp s) ta Ia Na J NE') as (p & y & q & n & DP & PH & IP & LK & DI & GO).
      { intros t h I A B C E P. exact (rev_transit BOTH ONLY t h I B C E P). }
      assert (NP0 := NUM ta p Ia PH). destruct (GO pk r TG) as (te & k & Ite & Nte & Ik & IPe & TR). exists (Datatypes.S n), (sp_no k). split; [exact DI|]. split.
      - apply (transits_on f sw live first n (td_dp d) pk p y q (ts_dp s) (entering (sp_no k) pk) LK); [| |exact TR].
        + destruct (tunnel_exec (group_lookup (sw (sn_name ta))) (live (sn_name ta)) (cf (sn_name ta)) [OPort (sp_no p)] (td_id d) true pk) as (q1 & EX); [repeat constructor|].
          assert (NS : sn_name ta <> ts_dp s) by congruence.
          assert (TW := tagged_walk f cf sw live ls IDS STATE ta (td_id d) true [OPort (sp_no p)] pk r _ q1 None Ia (rev_transit BOTH ONLY ta p Ia NS IP DP ltac:(lia)) (IDS l d L D) ltac:(right; rewrite Na; exact NO) TG EX).
          rewrite Na in TW. intros es. rewrite (TW es). cbn. split; [intros (es' & -> & ->); reflexivity|intros ->; exists []; auto].
        + cbn. destruct (Z.eqb_spec (sp_no p) OFPP_IN_PORT) as [X|_]; [unfold OFPP_IN_PORT, OFPP_MAX in *; lia|].
          destruct (Z.eqb_spec (sp_no p) (pk_in pk)) as [X|_]; [|reflexivity]. exfalso. apply (NST ta Ia Na). rewrite <- X. apply in_map. exact PH.
      - rewrite <- Nte. intros es. apply (rev_end (live (sn_name te)) te (entering (sp_no k) pk) r Ite Nte IPe); [left; cbn; apply in_map; exact Ik|exact TG].
    Qed.
  End Way.
End Net.
