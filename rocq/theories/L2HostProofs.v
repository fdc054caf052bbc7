(** * The destination rules and the host cache agree *)
From Coq Require Import ZArith List Bool Lia Permutation.
From Verif Require Import PyBase PyBaseProofs OpenFlow TrimModel TrimProofs TableModel ReorderModel ReorderSpec ReorderProofs
  BatchProofs SlotProofs FloodModel FloodSpec FloodProofs FloodRulesModel FloodRulesProofs HostCacheModel HostCacheProofs LearnModel
  L2Model L2Spec L2PortSpec L2Proofs L2PortProofs L2PortInv L2HostSpec.
Import ListNotations.
Open Scope Z_scope.

(** ** The host cache *)
Lemma add_found : forall mac p t c c', add_cache_host mac p t c = Some c' -> forall m,
  cached_host c' m = if m =? mac then Some {| e_mac := mac; e_port := p; e_time := t |} else cached_host c m.
Proof.
  intros mac p t c c' H m. unfold add_cache_host in H.
  destruct (cached_host c mac) as [old|] eqn:E.
  - destruct (by_port_remove _ _); [|discriminate]. injection H as <-. unfold cached_host. simpl. apply (dict_get_put _ zs).
  - injection H as <-. unfold cached_host. simpl. apply (dict_get_put _ zs).
Qed.
Lemma expire_found : forall l c c', expire_each l c = Some c' -> forall m,
  (forall e, cached_host c' m = Some e -> cached_host c m = Some e) /\
  (forall e, In e l -> e_mac e = m -> cached_host c' m = None).
Proof.
  induction l as [|x l IH]; intros c c' H m; cbn [expire_each] in H.
  - injection H as <-. split; auto. intros e [].
  - destruct (expire_cache_host (e_mac x) c) as [c1|] eqn:E; [|discriminate].
    assert (K : cached_host c1 m = if m =? e_mac x then None else cached_host c m).
    { unfold expire_cache_host in E. destruct (cached_host c (e_mac x)) as [y|] eqn:F.
      - destruct (by_port_remove _ _); [|discriminate]. injection E as <-. unfold cached_host. simpl. apply (dict_get_del _ zs).
      - injection E as <-. destruct (Z.eqb_spec m (e_mac x)); [subst; auto|auto]. }
    destruct (IH c1 c' H m) as [A B]. split.
    + intros e He. apply A in He. rewrite K in He. destruct (m =? e_mac x); [discriminate|auto].
    + intros e [<-|He] Em; [|eauto]. subst m. rewrite Z.eqb_refl in K.
      destruct (cached_host c' (e_mac x)) as [y|] eqn:Y; auto. specialize (A y eq_refl). congruence.
Qed.
Lemma expiry_found : forall perm now timeout c c' ex, expire_cache_hosts perm now timeout c = Some (c', ex) -> forall m,
  (forall e, cached_host c' m = Some e -> cached_host c m = Some e) /\
  (cached_host c m <> None -> cached_host c' m = None -> ex <> []) /\
  (forall e, In e ex -> e_mac e = m -> cached_host c' m = None).
Proof.
  intros perm now timeout c c' ex H m. unfold expire_cache_hosts in H. cbv zeta in H.
  destruct (match hc_oldest c with None => true | Some o => o <? now - timeout end).
  - destruct (expire_each _ c) as [c1|] eqn:E; [|discriminate]. injection H as <- <-.
    change (cached_host {| hc_hosts := hc_hosts c1; hc_ports := hc_ports c1; hc_stale := hc_stale c1; hc_oldest := Some (oldest_after now c1) |} m)
      with (cached_host c1 m).
    destruct (expire_found _ _ _ E m) as [A B]. split; [exact A|]. split; [|exact B].
    intros N Z0 X. rewrite X in E. injection E as <-. contradiction.
  - injection H as <- <-. split; [auto|]. split; [intros; contradiction|intros e []].
Qed.

Section Host.
  Variable cfg : dconf.
  Hypothesis V : valid_cfg cfg.

  Local Notation tv := (tb_id (d_tvlan cfg)).
  Local Notation ts := (tb_id (d_tsrc cfg)).
  Local Notation th := (tb_id (d_thp cfg)).
  Local Notation td := (tb_id (d_tdst cfg)).
  Local Notation tf := (tb_id (d_tflood cfg)).

  Definition out_table (t : Z) : Prop := t = td \/ t = th.

  (** ** Messages that leave the output tables alone *)
  Definition quiet (m : ofmsg) : Prop :=
    match m with
    | FlowMod w => fm_cmd w <> FModify /\ (is_flow_write m = true -> ~ out_table (fm_table w))
    | _ => True
    end.

  Lemma quiet_keeps : forall sh ub ms out s, (forall l, Permutation (sh l) l) -> valve_flowreorder sh ub ms = Some out ->
    Forall quiet ms -> forall f, In f (sw_flows (apply_msgs out s)) -> out_table (f_table f) -> In f (sw_flows s).
  Proof.
    intros sh ub ms out s Hsh R Q. rewrite Forall_forall in Q.
    apply (reorder_inv (fun f => out_table (f_table f) -> In f (sw_flows s)) sh ub ms out s Hsh R).
    - intros w Hw C T. destruct (Q _ Hw) as [_ B]. exfalso. apply B; [simpl; rewrite C; reflexivity|exact T].
    - intros w f Hw C S _ T. destruct (Q _ Hw) as [_ B]. exfalso. apply B; [simpl; rewrite C; reflexivity|].
      apply wslot_spec in S as [S _]. rewrite <- S. exact T.
    - intros w Hw. apply (Q _ Hw).
    - auto.
  Qed.

  Lemma not_out : ~ out_table tv /\ ~ out_table ts /\ ~ out_table tf.
  Proof. destruct (tables_distinct cfg V) as (A & B & C & D & E & F & G & H & I & J). unfold out_table. intuition congruence. Qed.


  (** Messages that touch the output tables only to delete the rules that output
      to one of the ports [ps]. *)
  Definition calm (ps : pconf -> Prop) (m : ofmsg) : Prop :=
    match m with
    | FlowMod w => fm_cmd w <> FModify /\
        (out_table (fm_table w) \/ fm_table w = OFPTT_ALL ->
         fm_cmd w = FDelete /\ fm_table w <> OFPTT_ALL /\
         exists p, ps p /\ In p (d_ports cfg) /\ nonempty (port_vlans p) = true /\ fm_out_port w = pc_num p)
    | MeterMod MDelete _ _ => False
    | _ => True
    end.
  Lemma calm_quiet : forall ps ms, Forall (calm ps) ms -> Forall quiet ms.
  Proof.
    intros ps ms. apply Forall_impl. intros [w| | | | | | |]; simpl; auto. intros [A B]. split; auto.
    intros W T. destruct B as [C _]; auto. rewrite C in W. discriminate.
  Qed.
  Lemma calm_mono : forall (ps qs : pconf -> Prop) ms, (forall p, ps p -> qs p) -> Forall (calm ps) ms -> Forall (calm qs) ms.
  Proof.
    intros ps qs ms H. apply Forall_impl. intros [w| | | | | |[] |]; simpl; auto. intros [A B]. split; auto.
    intros T. destruct (B T) as (C & D & p & E). split; auto. split; auto. exists p. intuition.
  Qed.

  (** Messages that leave a flow in place. *)
  Definition spares (f : flow) (m : ofmsg) : Prop :=
    match m with
    | FlowMod w => match fm_cmd w with
                   | FAdd | FModifyStrict => wslot w f = false
                   | FModify => False
                   | FDelete | FDeleteStrict => del_hits w f = false
                   end
    | MeterMod MDelete _ _ => False
    | _ => True
    end.
  Definition groupless (f : flow) : Prop := forall g, ~ In (GroupAct g) (flow_actions f).
  Lemma spares_keeps : forall sh ub ms out s f, (forall l, Permutation (sh l) l) -> valve_flowreorder sh ub ms = Some out ->
    Forall (spares f) ms -> groupless f -> In f (sw_flows s) -> In f (sw_flows (apply_msgs out s)).
  Proof.
    intros sh ub ms out s f Hsh R Sp Gl. rewrite Forall_forall in Sp.
    assert (S : forall m, In m out -> spares f m).
    { intros m Hm. destruct (reorder_invents_nothing_lemma sh ub ms out m Hsh R Hm) as [->|X]; [exact I|auto]. }
    clear Sp R. revert s. induction out as [|m out IH]; intros s Hf; [exact Hf|].
    change (apply_msgs (m :: out) s) with (apply_msgs out (apply_msg m s)).
    apply IH; [intros x Hx; apply S; right; auto|]. specialize (S m (or_introl eq_refl)). clear IH.
    assert (NG : forall h, (forall a, h a = true -> exists g, a = GroupAct g) -> existsb h (flow_actions f) = false).
    { intros h Hh. destruct (existsb h _) eqn:E; auto. apply existsb_exists in E as [a [A B]]. apply Hh in B as [g ->].
      destruct (Gl g); auto. }
    destruct m as [w|gc g|[] id b| | | | |]; simpl in S |- *; auto; try contradiction.
    - unfold apply_flowmod. unfold wslot in S. destruct (fm_cmd w); try contradiction; rewrite ?in_app_iff, ?filter_In, ?in_map_iff, ?S; auto.
      exists f. rewrite S. auto.
    - destruct gc; simpl; [destruct (existsb _ _); auto|auto|].
      destruct (g_id g =? OFPG_ALL); simpl; apply filter_In; (split; [auto|]); apply negb_true_iff; [|unfold uses_group]; apply NG;
        intros [] X; try discriminate; eauto.
    - destruct (existsb _ _); auto.
  Qed.
  (** What [calm] messages do to a rule of the output tables. *)
  Lemma calm_spares : forall ps f ms, Forall (calm ps) ms -> out_table (f_table f) ->
    (forall p, ps p -> In p (d_ports cfg) -> nonempty (port_vlans p) = true -> outputs_to (pc_num p) f = false) ->
    Forall (spares f) ms.
  Proof.
    intros ps f ms C T O. revert C. apply Forall_impl. intros [w|gc g|[] id b| | | | |] C; try exact I; try contradiction.
    destruct C as [C1 C2]. simpl.
    assert (N : fm_table w <> f_table f -> wslot w f = false).
    { intros N. destruct (wslot w f) eqn:E; auto. apply wslot_spec in E as [E _]. congruence. }
    destruct (Z.eq_dec (fm_table w) OFPTT_ALL) as [A|A].
    { destruct C2 as [_ [X _]]; auto. contradiction. }
    destruct (Z.eq_dec (fm_table w) (f_table f)) as [E|E].
    - rewrite E in C2. destruct C2 as (B & _ & p & P1 & P2 & P3 & P4); auto. rewrite B. unfold del_hits, out_sel. rewrite B, P4.
      rewrite (O p P1 P2 P3). destruct (vc_range cfg V p P2) as [_ X]. destruct (Z.eqb_spec (pc_num p) OFPP_ANY) as [Y|Y].
      { exfalso. rewrite Y in X. revert X. unfold OFPP_ANY, OFPP_MAX. lia. }
      cbn [orb andb]. rewrite andb_false_r. reflexivity.
    - destruct (fm_cmd w) eqn:Cm; auto; unfold del_hits, table_sel; rewrite Cm;
        (destruct (Z.eqb_spec (fm_table w) OFPTT_ALL); [contradiction|]); (destruct (Z.eqb_spec (f_table f) (fm_table w)); [congruence|]); reflexivity.
  Qed.

  Lemma write_quiet : forall t cmd prio m i h idle, cmd <> FModify -> ~ out_table (tb_id t) -> quiet (FlowMod (tb_write t cmd prio m i h idle)).
  Proof. intros. split; auto. Qed.
  Lemma del_quiet : forall t cmd prio m o, cmd = FDelete \/ cmd = FDeleteStrict -> quiet (FlowMod (tb_del t cmd prio m o)).
  Proof. intros t cmd prio m o [-> | ->]; (split; [discriminate|discriminate]). Qed.

  Definition plain_table (t : table) : Prop := ~ out_table (tb_id t) /\ tb_id t <> OFPTT_ALL.
  Lemma plain_tables : plain_table (d_tvlan cfg) /\ plain_table (d_tsrc cfg) /\ plain_table (d_tflood cfg).
  Proof.
    destruct not_out as (A & B & C).
    assert (X : forall tb, In tb [d_tvlan cfg; d_tsrc cfg; d_thp cfg; d_tdst cfg; d_tflood cfg] -> tb_id tb <> OFPTT_ALL) by apply (vc_all cfg V).
    (split; [|split]); (split; [assumption|apply X; simpl; auto 6]).
  Qed.
  Lemma write_calm : forall ps t cmd prio m i h idle, cmd <> FModify -> plain_table t -> calm ps (FlowMod (tb_write t cmd prio m i h idle)).
  Proof. intros ps t cmd prio m i h idle C [A B]. split; auto. intros [T|T]; contradiction. Qed.
  Lemma del_calm : forall ps t cmd prio m o, cmd <> FModify -> plain_table t -> calm ps (FlowMod (tb_del t cmd prio m o)).
  Proof. intros ps t cmd prio m o C [A B]. split; auto. intros [T|T]; contradiction. Qed.
  Lemma del_out_calm : forall (ps : pconf -> Prop) t prio m p, ps p -> In p (d_ports cfg) -> nonempty (port_vlans p) = true -> tb_id t <> OFPTT_ALL ->
    calm ps (FlowMod (tb_del t FDelete prio m (pc_num p))).
  Proof. intros ps t prio m p A B C D. split; [discriminate|]. intros _. split; auto. split; auto. exists p. auto. Qed.

  Ltac qt := first [apply del_calm; [congruence || discriminate | solve [apply plain_tables]]
    | apply write_calm; [congruence || discriminate | solve [apply plain_tables]]].
  Ltac fq := repeat match goal with
    | |- Forall _ [] => apply Forall_nil
    | |- Forall _ (_ :: _) => apply Forall_cons
    | |- Forall _ (_ ++ _) => apply Forall_app; split
    end.

  Section Calm.
  Variable ps : pconf -> Prop.
  Lemma flood_calm : forall cmd cold v, cmd = FAdd \/ cmd = FModifyStrict ->
    Forall (calm ps) (flood_rules (d_tflood cfg) (d_mode cfg) (any_restricted cfg) cmd cold v).
  Proof.
    intros cmd cold v Hc. destruct plain_tables as (_ & _ & T).
    assert (NM : cmd <> FModify) by (destruct Hc; congruence).
    unfold flood_rules. apply Forall_app; split.
    - unfold multiout_flood_rules. apply Forall_flat_map, Forall_forall. intros c _. unfold mask_flood_rules.
      apply Forall_app; split.
      + destruct (d_mode cfg); fq; qt.
      + apply Forall_flat_map, Forall_forall. intros q _. unfold port_rule.
        destruct (nonempty _); [|constructor].
        destruct (d_mode cfg); try (destruct (same_as_vlan v c q)); try (destruct cold); fq; qt.
    - destruct (d_mode cfg); [constructor|constructor|]. unfold group_flood_rules. cbv zeta. unfold group_add.
      apply Forall_app; split; [repeat constructor|]. apply Forall_app; split; [repeat constructor|].
      apply Forall_map, Forall_forall. intros c _. qt.
  Qed.
  Lemma add_vlans_calm : forall st cold vids, Forall (calm ps) (add_vlans cfg st cold vids).
  Proof.
    intros st cold vids. apply Forall_flat_map, Forall_forall. intros vid _. destruct (find_vlan cfg vid); [|constructor].
    unfold add_vlan. fq; [destruct (d_drop_spoof cfg); fq; qt|qt|apply flood_calm; auto].
  Qed.
  Lemma update_vlans_calm : forall st vids, Forall (calm ps) (update_vlans cfg st vids).
  Proof.
    intros st vids. apply Forall_flat_map, Forall_forall. intros vid _. destruct (find_vlan cfg vid); [|constructor].
    apply flood_calm; auto.
  Qed.
  Lemma switch_add_calm : forall p, Forall (calm ps) (switch_add_port cfg p).
  Proof.
    intros p. unfold switch_add_port. destruct (nonempty _); [|constructor]. fq.
    - apply Forall_map, Forall_forall. intros; qt.
    - destruct (pc_native p); [|destruct (pc_count_miss p)]; fq; qt.
    - destruct (_ =? _); fq; qt.
  Qed.
  Lemma managers_add_calm : forall p, Forall (calm ps) (managers_add_port cfg p).
  Proof.
    intros p. unfold managers_add_port, lldp_add_port, outonly_add_port. fq; [apply switch_add_calm| |];
      [destruct (pc_lldp p)|destruct (pc_output_only p)]; fq; qt.
  Qed.
  Lemma switch_del_calm : forall p, ps p -> In p (d_ports cfg) -> Forall (calm ps) (switch_del_port cfg p).
  Proof.
    intros p Hps Hp.
    assert (X : forall tb, In tb [d_tvlan cfg; d_tsrc cfg; d_thp cfg; d_tdst cfg; d_tflood cfg] -> tb_id tb <> OFPTT_ALL) by apply (vc_all cfg V).
    unfold switch_del_port, del_host_flows. destruct (nonempty _) eqn:Nv; [|constructor]. fq; try qt.
    - apply del_out_calm; auto. apply X; simpl; auto 6.
    - destruct (has_hairpin cfg); fq. apply del_out_calm; auto. apply X; simpl; auto 6.
    - destruct (pc_native p); [|destruct (pc_count_miss p)]; fq; qt.
    - apply Forall_map, Forall_forall. intros; qt.
    - destruct (_ =? _); fq; qt.
  Qed.
  Lemma managers_del_calm : forall p, ps p -> In p (d_ports cfg) -> Forall (calm ps) (managers_del_port cfg p).
  Proof.
    intros p Hps Hp. unfold managers_del_port, lldp_del_port, outonly_del_port. fq; [apply switch_del_calm; auto| |];
      [destruct (pc_lldp p)|destruct (pc_output_only p)]; fq; qt.
  Qed.

  Lemma lacp_update_calm : forall st p up now pkt cold st' ms, ps p -> In p (d_ports cfg) ->
    lacp_update cfg st p up now pkt cold = (st', ms) -> Forall (calm ps) ms /\ ds_learn st' = ds_learn st.
  Proof.
    intros st p up now pkt cold st' ms Hps Hp H.
    assert (A : forall st1, Forall (calm ps) (enable_forwarding cfg p :: add_vlans cfg st1 false (port_vlans p))).
    { intros. fq; [qt|apply add_vlans_calm]. }
    assert (B : forall st1, Forall (calm ps) (disable_forwarding cfg p ::
      (if cold then [] else switch_del_port cfg p ++ switch_add_port cfg p ++ add_vlans cfg st1 false (port_vlans p)))).
    { intros. apply Forall_cons; [qt|]. destruct cold; fq;
      [apply switch_del_calm|apply switch_add_calm|apply add_vlans_calm]; auto. }
    unfold lacp_update in H.
    destruct (actor_eq_dec _ _); [destruct (role_eq_dec _ _)|]; injection H as <- <-;
      (split; [auto; destruct (is_sel _ && is_up _); auto|destruct cold; reflexivity]).
  Qed.

  Lemma ports_add_calm : forall cold st l st' ms, (forall p, In p l -> ps p /\ In p (d_ports cfg)) ->
    ports_add cfg cold st l = (st', ms) -> Forall (calm ps) ms /\ ds_learn st' = ds_learn st.
  Proof.
    intros cold st l st' ms Hl H. unfold ports_add in H.
    destruct (ports_add_each cfg cold st l) as [st1 ms1] eqn:E. injection H as <- <-.
    assert (K : Forall (calm ps) ms1 /\ ds_learn st1 = ds_learn st).
    { revert st st1 ms1 E. induction l as [|p l IH]; intros st st1 ms1 E; simpl in E.
      - injection E as <- <-. split; constructor.
      - destruct (port_add_one cfg cold st p) as [sa ma] eqn:Ea.
        destruct (ports_add_each cfg cold sa l) as [sb mb] eqn:Eb. injection E as <- <-.
        destruct (IH (fun q Hq => Hl q (or_intror Hq)) _ _ _ Eb) as [I1 I2]. rewrite I2.
        assert (X : Forall (calm ps) ma /\ ds_learn sa = ds_learn st).
        { destruct (Hl p (or_introl eq_refl)) as [P1 P2].
          unfold port_add_one in Ea. destruct (port_running _ _); [|injection Ea as <- <-; split; constructor].
          destruct (pc_lacp p =? 0); [injection Ea as <- <-; split; [apply managers_add_calm|reflexivity]|].
          destruct (lacp_update _ _ _ _ _ _ _) as [sc mc] eqn:Ec. injection Ea as <- <-.
          apply lacp_update_calm in Ec as [C1 C2]; auto. split; [|rewrite C2; reflexivity]. apply Forall_app; split; auto. apply managers_add_calm. }
        destruct X as [X1 X2]. split; auto. apply Forall_app; auto. }
    destruct K as [K1 K2]. split; auto. apply Forall_app; split; auto. destruct cold; [constructor|apply add_vlans_calm].
  Qed.

  Lemma ports_delete_calm : forall st l st' ms, (forall p, In p l -> ps p /\ In p (d_ports cfg)) ->
    ports_delete cfg true None st l = Some (st', ms) -> Forall (calm ps) ms /\ ds_learn st' = ds_learn st.
  Proof.
    intros st l st' ms Hl H. unfold ports_delete in H.
    destruct (ports_delete_each cfg true None st l) as [[st1 ms1]|] eqn:E; [|discriminate]. injection H as <- <-.
    assert (K : Forall (calm ps) ms1 /\ ds_learn st1 = ds_learn st).
    { revert st st1 ms1 E. generalize (flat_map port_vlans l). intros _. induction l as [|p l IH]; intros st st1 ms1 E; cbn [ports_delete_each] in E.
      - injection E as <- <-. split; constructor.
      - destruct (port_delete_one cfg true None st p) as [[sa ma]|] eqn:Ea; [|discriminate].
        destruct (ports_delete_each cfg true None sa l) as [[sb mb]|] eqn:Eb; [|discriminate]. injection E as <- <-.
        destruct (IH (fun q Hq => Hl q (or_intror Hq)) _ _ _ Eb) as [I1 I2]. rewrite I2.
        assert (X : Forall (calm ps) ma /\ ds_learn sa = ds_learn st).
        { destruct (Hl p (or_introl eq_refl)) as [P1 P2]. unfold port_delete_one in Ea. cbv zeta in Ea. destruct (pc_lacp p =? 0).
          - injection Ea as <- <-. split; [apply managers_del_calm; auto|reflexivity].
          - injection Ea as Ea. apply lacp_update_calm in Ea; [destruct Ea as [C1 C2]|exact P1|exact P2]. split; [auto|rewrite C2; reflexivity]. }
        destruct X as [X1 X2]. split; auto. apply Forall_app; auto. }
    destruct K as [K1 K2]. split; auto. apply Forall_app; split; auto. apply update_vlans_calm.
  Qed.

  Lemma lacp_expire_calm : forall now l st st' ms, (forall p, In p l -> ps p /\ In p (d_ports cfg)) ->
    lacp_expire_each cfg st now l = (st', ms) -> Forall (calm ps) ms /\ ds_learn st' = ds_learn st.
  Proof.
    intros now. induction l as [|p l IH]; intros st st' ms Hl H; cbn [lacp_expire_each] in H.
    - injection H as <- <-. split; constructor.
    - destruct (lacp_update cfg st p false (Some now) false false) as [s1 m1] eqn:E1.
      destruct (lacp_expire_each cfg s1 now l) as [s2 m2] eqn:E2. injection H as <- <-.
      destruct (Hl p (or_introl eq_refl)) as [P1 P2].
      apply lacp_update_calm in E1 as [A1 A2]; auto. apply IH in E2 as [B1 B2]; [|intros q Hq; apply Hl; right; auto].
      split; [apply Forall_app; auto|congruence].
  Qed.
  End Calm.

  Lemma deletes_quiet : forall hs, Forall (fun h => match h with MDelHost _ _ => True | _ => False end) hs ->
    Forall quiet (flat_map (host_ofmsgs cfg) hs).
  Proof.
    intros hs H. rewrite Forall_forall in H. apply Forall_flat_map, Forall_forall. intros h Hh. specialize (H h Hh).
    destruct h; try contradiction. cbn [host_ofmsgs]. fq; try (apply del_quiet; auto). destruct (has_hairpin cfg); fq; apply del_quiet; auto.
  Qed.

  (** ** What learning a host does *)
  Lemma together_refl : forall n, together cfg n n.
  Proof. intros; left; auto. Qed.
  Lemma together_sym : forall n m, together cfg n m -> together cfg m n.
  Proof. intros n m [->|(p & q & A & B & C & D & E & F)]; [left; auto|]. right. exists q, p. repeat split; auto; congruence. Qed.
  Lemma together_trans : forall n m k, together cfg n m -> together cfg m k -> together cfg n k.
  Proof.
    intros n m k [->|(p & q & A & B & C & D & E & F)]; [auto|]. intros [<-|(p' & q' & A' & B' & C' & D' & E' & F')]; [right; eauto 12|].
    assert (p' = q) by (eapply nums_inj; eauto; congruence). subst p'. right. exists p, q'. repeat split; auto; congruence.
  Qed.
  Lemma lag_together : forall n m, port_attr cfg pc_lacp 0 n <> 0 -> port_attr cfg pc_lacp 0 n = port_attr cfg pc_lacp 0 m ->
    together cfg n m.
  Proof.
    intros n m N E. unfold port_attr in *. destruct (find_port cfg n) as [p|] eqn:P; [|contradiction].
    destruct (find_port cfg m) as [q|] eqn:Q; [|congruence]. apply find_port_in in P as [P <-]. apply find_port_in in Q as [Q <-].
    right. exists p, q. auto 10.
  Qed.

  Definition found (l : lstate) (v mac : Z) : option entry := cached_host (s_cache l v) mac.
  Definition frame_same (l l' : lstate) : Prop := s_upd l' = s_upd l /\ s_expired l' = s_expired l /\ s_cold l' = s_cold l.
  (** The host is confirmed on, or moves to, port [n]. *)
  Record moved (l : lstate) (now v n mac : Z) (l' : lstate) (hs : list host_msg) : Prop := {
    mv_frame : frame_same l l';
    mv_found : forall v' m, found l' v' m =
      if (v' =? v) && (m =? mac) then Some {| e_mac := mac; e_port := n; e_time := now |} else found l v' m;
    mv_msgs : exists del refresh, hs = learn_flows (learn_cfg cfg) n v mac del refresh (learn_host_timeouts (learn_cfg cfg) n mac) /\
      (del = false -> match found l v mac with Some x => together cfg n (e_port x) | None => delete_default l v None = false end) /\
      (refresh = true -> exists x u, found l v mac = Some x /\ together cfg n (e_port x) /\ s_upd l n = Some u /\ u <= e_time x) /\
      (del = true -> refresh = false)
  }.
  Definition minor (h : host_msg) : Prop :=
    match h with MFilter _ _ | MBanPort _ | MBanVlan _ => True | _ => False end.

  Lemma add_found2 : forall l v mac p t c, add_cache_host mac p t (s_cache l v) = Some c -> forall v' m,
    found (with_cache l v c) v' m =
      if (v' =? v) && (m =? mac) then Some {| e_mac := mac; e_port := p; e_time := t |} else found l v' m.
  Proof.
    intros l v mac p t c H v' m. unfold found, with_cache. cbn [s_cache]. unfold upd.
    destruct (Z.eqb_spec v' v) as [->|N]; [|reflexivity]. cbn [andb]. apply (add_found _ _ _ _ _ H).
  Qed.

  Lemma learn_result : no_loop_protection cfg -> forall l now v n mac l' hs,
    vlan_rcv_packet (learn_cfg cfg) l now v n mac = Some (l', hs) ->
    (l' = l /\ Forall minor hs) \/ moved l now v n mac l' hs.
  Proof.
    intros NL l now v n mac l' hs H.
    assert (Lp : c_loop (learn_cfg cfg) n = false).
    { unfold learn_cfg, c_loop, port_attr. destruct (find_port cfg n) as [p|] eqn:E; auto. apply NL. eapply find_port_in; eauto. }
    unfold vlan_rcv_packet in H.
    assert (B : Forall minor (ban_rules (learn_cfg cfg) l v n mac)).
    { unfold ban_rules. destruct (cached_host _ _); [constructor|].
      apply Forall_app; split; destruct (_ && _); repeat constructor. }
    destruct (ban_rules (learn_cfg cfg) l v n mac) as [|b bs]; [|injection H as <- <-; left; split; auto].
    clear B. unfold learn_host, learn_host_on_vlan_ports in H. cbv zeta in H.
    assert (LC : forall e a b, loop_protect_check (learn_cfg cfg) l now e n a b = 
       {| ck_exit := false; ck_msgs := []; ck_update := true; ck_delete := a; ck_refresh := b; ck_ban := None |}).
    { intros e a b. unfold loop_protect_check. rewrite Lp. reflexivity. }
    assert (Fin : forall del refresh, match add_cache_host mac n now (s_cache l v) with
        | Some c => Some (with_cache l v c, ck_msgs (learn_check (learn_cfg cfg) v mac n del refresh)) | None => None end = Some (l', hs) ->
        (del = false -> match found l v mac with Some x => together cfg n (e_port x) | None => delete_default l v None = false end) ->
        (refresh = true -> exists x u, found l v mac = Some x /\ together cfg n (e_port x) /\ s_upd l n = Some u /\ u <= e_time x) ->
        (del = true -> refresh = false) -> moved l now v n mac l' hs).
    { intros del refresh X A B C. destruct (add_cache_host mac n now (s_cache l v)) as [c|] eqn:E; [|discriminate].
      injection X as <- <-. constructor; [repeat split|apply add_found2; auto|].
      exists del, refresh. split; [reflexivity|auto]. }
    fold (found l v mac) in H. destruct (found l v mac) as [x|] eqn:E.
    - unfold perm_learn_check at 1 in H. destruct (c_perm (learn_cfg cfg) (e_port x)) eqn:P.
      { unfold perm_learn_check in H. rewrite P in H. cbn [ck_exit ck_update ck_ban ck_msgs] in H. injection H as <- <-.
        left. split; auto. destruct (_ =? _); repeat constructor. }
      unfold perm_learn_check in H. rewrite P in H. cbn [ck_exit ck_delete ck_refresh delete_default] in H.
      unfold learn_cache_check in H. 
      set (lag := negb (c_lacp (learn_cfg cfg) n =? 0) && (c_lacp (learn_cfg cfg) n =? c_lacp (learn_cfg cfg) (e_port x))) in *.
      assert (Tg : (e_port x =? n) || lag = true -> together cfg n (e_port x)).
      { intros X. apply orb_true_iff in X as [X|X]; [apply Z.eqb_eq in X; left; auto|].
        apply andb_true_iff in X as [X1 X2]. apply negb_true_iff, Z.eqb_neq in X1. apply Z.eqb_eq in X2. apply lag_together; auto. }
      destruct ((e_port x =? n) || lag) eqn:Sp.
      + specialize (Tg eq_refl). destruct (s_upd l n) as [u|] eqn:Uu.
        * destruct (Z.leb_spec u (e_time x)).
          -- destruct (_ && true); cbn [ck_exit ck_update ck_ban ck_msgs ck_delete ck_refresh] in H.
             { left. injection H as <- <-. split; [reflexivity|constructor]. }
             rewrite LC in H. cbn [ck_exit ck_update ck_ban ck_msgs ck_delete ck_refresh learn_check] in H. right.
             apply (Fin false true); [auto|auto| |discriminate]. intros _. exists x, u. auto.
          -- rewrite andb_false_r in H. cbn [ck_exit ck_update ck_ban ck_msgs ck_delete ck_refresh] in H.
             rewrite LC in H. cbn [ck_exit ck_update ck_ban ck_msgs ck_delete ck_refresh learn_check] in H. right.
             apply (Fin false false); auto; discriminate.
        * rewrite andb_false_r in H. cbn [ck_exit ck_update ck_ban ck_msgs ck_delete ck_refresh] in H.
          rewrite LC in H. cbn [ck_exit ck_update ck_ban ck_msgs ck_delete ck_refresh learn_check] in H. right.
          apply (Fin false false); auto; discriminate.
      + cbn [ck_exit ck_update ck_ban ck_msgs ck_delete ck_refresh] in H.
        rewrite LC in H. cbn [ck_exit ck_update ck_ban ck_msgs ck_delete ck_refresh learn_check] in H. right.
        apply (Fin true false); auto; discriminate.
    - cbn [perm_learn_check ck_exit ck_delete ck_refresh learn_cache_check] in H. rewrite LC in H.
      cbn [ck_exit ck_update ck_ban ck_msgs ck_delete ck_refresh learn_check] in H. right.
      apply (Fin (delete_default l v None) false); auto; discriminate.
  Qed.

  Lemma expire_result : forall now vids l l' hs, hosts_expire_each cfg l now vids = Some (l', hs) ->
    s_upd l' = s_upd l /\ s_cold l' = s_cold l /\
    (forall v, s_expired l' v = s_expired l v \/ s_expired l' v = Some now) /\
    (forall v m e, found l' v m = Some e -> found l v m = Some e) /\
    (forall v m, found l v m <> None -> found l' v m = None -> s_expired l' v = Some now) /\
    (forall v m, In (MDelHost v m) hs -> found l' v m = None).
  Proof.
    intros now. induction vids as [|v vids IH]; intros l l' hs H; cbn [hosts_expire_each] in H.
    - injection H as <- <-. repeat split; auto. intros v m N N'. contradiction. intros v m [].
    - destruct (state_expire_vlan (learn_cfg cfg) l now v) as [[l1 h1]|] eqn:E; [|discriminate].
      destruct (hosts_expire_each cfg l1 now vids) as [[l2 h2]|] eqn:E2; [|discriminate]. injection H as <- <-.
      destruct (IH _ _ _ E2) as (I1 & I2 & I3 & I4 & I5 & I6).
      unfold state_expire_vlan, expire_hosts_from_vlan in E.
      destruct (expire_cache_hosts _ _ _ _) as [[c ex]|] eqn:X; [|discriminate]. injection E as <- <-.
      pose proof (expiry_found _ _ _ _ _ _ X) as EF. cbn [s_upd s_cold s_expired with_cache] in *.
      assert (F1 : forall v' m, found {| s_cache := upd v c (s_cache l); s_upd := s_upd l; s_ban := s_ban l;
          s_expired := match ex with [] => s_expired l | _ :: _ => upd v (Some now) (s_expired l) end; s_cold := s_cold l |} v' m
          = if v' =? v then cached_host c m else found l v' m).
      { intros v' m. unfold found. cbn [s_cache]. unfold upd. destruct (v' =? v); reflexivity. }
      split; [exact I1|]. split; [exact I2|]. split; [|split; [|split]].
      + intros v'. destruct (I3 v') as [A|A]; auto. rewrite A. destruct ex as [|y ys]; auto. unfold upd. destruct (v' =? v); auto.
      + intros v' m e A. apply I4 in A. rewrite F1 in A. destruct (Z.eqb_spec v' v) as [->|]; auto. apply (EF m); auto.
      + intros v' m A B. destruct (cached_host c m) as [y|] eqn:Y; [| ].
        * apply (I5 v' m); auto. rewrite F1. destruct (v' =? v); congruence.
        * destruct (Z.eqb_spec v' v) as [->|N].
          -- destruct (I3 v) as [Q|Q]; auto. rewrite Q. destruct ex as [|z zs].
             ++ exfalso. apply (proj1 (proj2 (EF m))); auto.
             ++ unfold upd. rewrite Z.eqb_refl. reflexivity.
          -- apply (I5 v' m); auto. rewrite F1. destruct (Z.eqb_spec v' v); congruence.
      + intros v' m Hi. apply in_app_iff in Hi as [Hi|Hi]; [|auto]. destruct (d_idle_dst cfg); [destruct Hi|].
        apply in_map_iff in Hi as [e [Ee He]]. injection Ee as <- <-.
        pose proof (proj2 (proj2 (EF (e_mac e))) e He eq_refl) as N.
        destruct (found l2 v (e_mac e)) as [y|] eqn:Y; auto. apply I4 in Y. rewrite F1, Z.eqb_refl in Y. congruence.
  Qed.

  (** ** The rules of a host in the output tables *)
  Definition dst_write (v mac n : Z) (w : flowmod) : Prop :=
    exists i h, In (FlowMod w) (host_ofmsgs cfg h) /\
      (h = MDst v n mac i \/ h = MDstNonExt v n mac i \/ (h = MHairpin v n mac i /\ has_hairpin cfg = true)).
  Inductive host_flow (v mac n : Z) (f : flow) : Prop :=
  | HF_dst : forall p i pcps, find_port cfg n = Some p -> pcps = [] \/ (exists k, pcps = [exact VlanPcp k]) ->
      f_table f = td -> f_prio f = HOST_PRIORITY -> f_match f = exact EthDst mac :: vlan_item v :: pcps ->
      f_inst f = trim [Apply (output_port cfg p v false (has_externals cfg))] -> f_hard f = 0 -> f_idle f = i -> host_flow v mac n f
  | HF_hairpin : forall p i, find_port cfg n = Some p -> has_hairpin cfg = true ->
      f_table f = th -> f_prio f = HOST_PRIORITY -> f_match f = [exact InPort n; exact EthDst mac; vlan_item v] ->
      f_inst f = trim [Apply (output_port cfg p v true false)] -> f_hard f = 0 -> f_idle f = i -> host_flow v mac n f.
  Definition miss_fm (t nx : table) : flowmod := tb_add t (d_lowest cfg) [] [goto nx].
  Definition miss_flow (f : flow) : Prop :=
    f = flow_of (miss_fm (d_tdst cfg) (d_tflood cfg)) \/
    (has_hairpin cfg = true /\ f = flow_of (miss_fm (d_thp cfg) (d_tdst cfg))).

  Lemma dst_write_flow : forall v mac n w, dst_write v mac n w -> host_flow v mac n (flow_of w) /\ fm_cmd w = FAdd.
  Proof.
    intros v mac n w (i & h & Hw & [->|[->|[-> Hh]]]); cbn [host_ofmsgs] in Hw; (destruct (find_port cfg n) as [p|] eqn:E; [|destruct Hw]);
      destruct Hw as [Hw|[]]; injection Hw as <-; (split; [|reflexivity]).
    - apply (HF_dst v mac n _ p i (if has_externals cfg then [exact VlanPcp PCP_EXT_PORT_FLAG] else [])); auto.
      destruct (has_externals cfg); eauto.
    - apply (HF_dst v mac n _ p i [exact VlanPcp 0]); eauto.
    - eapply HF_hairpin; eauto; reflexivity.
  Qed.
  Lemma host_flow_out : forall v mac n f, host_flow v mac n f -> out_table (f_table f) /\ f_prio f = HOST_PRIORITY.
  Proof. intros v mac n f [p i pcps _ _ A B _ _ _ _|p i _ _ A B _ _ _ _]; unfold out_table; auto. Qed.

  (** *** The batch *)
  Local Notation LC := (learn_cfg cfg).
  Lemma learn_msgs : forall n v mac del refresh t m, In m (flat_map (host_ofmsgs cfg) (learn_flows LC n v mac del refresh t)) ->
    (del = true /\ In m (host_ofmsgs cfg (MDelHost v mac))) \/
    (exists h i, In m (host_ofmsgs cfg (MSrc v n mac h i))) \/
    (exists w, m = FlowMod w /\ dst_write v mac n w).
  Proof.
    intros n v mac del refresh [[a b] c] m H. apply in_flat_map in H as [h [Hh Hm]]. unfold learn_flows in Hh.
    assert (K : h = MDst v n mac c \/ h = MDstNonExt v n mac c \/ (h = MHairpin v n mac c /\ has_hairpin cfg = true) -> exists w, m = FlowMod w /\ dst_write v mac n w).
    { intros X. assert (exists w, m = FlowMod w) as [w ->].
      { destruct X as [->|[->|[-> Hh']]]; cbn [host_ofmsgs] in Hm; (destruct (find_port cfg n); [|destruct Hm]); destruct Hm as [<-|[]]; eauto. }
      exists w. split; auto. exists c, h. auto. }
    apply in_app_iff in Hh as [Hh|Hh]; [destruct del; [|destruct Hh]; destruct Hh as [<-|[]]; auto|].
    apply in_app_iff in Hh as [[<-|[]]|Hh]; [eauto|]. right; right.
    destruct (_ && _); [destruct Hh|]. apply in_app_iff in Hh as [[<-|[]]|Hh]; [auto|].
    apply in_app_iff in Hh as [Hh|Hh].
    - destruct (_ && _); [|destruct Hh]. destruct Hh as [<-|[]]; auto.
    - destruct (c_hairpin _ _) eqn:Ch; [|destruct Hh]. destruct Hh as [<-|[]]. apply K. right; right. split; auto.
      cbn [c_hairpin learn_cfg] in Ch. unfold port_attr in Ch. destruct (find_port cfg n) as [p|] eqn:Ep; [|discriminate].
      apply existsb_exists. exists p. split; auto. apply find_port_in in Ep. tauto.
  Qed.
  Lemma learn_dst_unique : forall n v mac del refresh t w w',
    In (FlowMod w) (flat_map (host_ofmsgs cfg) (learn_flows LC n v mac del refresh t)) ->
    In (FlowMod w') (flat_map (host_ofmsgs cfg) (learn_flows LC n v mac del refresh t)) ->
    fm_cmd w = FAdd -> fm_cmd w' = FAdd -> same_flow_slot w w' -> w = w'.
  Proof.
    intros n v mac del refresh [[a b] c] w w' H H' C C' (S1 & S2 & S3).
    pose proof (tables_distinct cfg V) as T.
    assert (K : forall x, In (FlowMod x) (flat_map (host_ofmsgs cfg) (learn_flows LC n v mac del refresh (a, b, c))) -> fm_cmd x = FAdd ->
      In (FlowMod x) (host_ofmsgs cfg (MSrc v n mac b a)) \/
      In (FlowMod x) (host_ofmsgs cfg (MDst v n mac c)) \/
      (has_externals cfg = true /\ In (FlowMod x) (host_ofmsgs cfg (MDstNonExt v n mac c))) \/
      In (FlowMod x) (host_ofmsgs cfg (MHairpin v n mac c))).
    { clear. intros x H C. apply in_flat_map in H as [h [Hh Hm]]. unfold learn_flows in Hh.
      apply in_app_iff in Hh as [Hh|Hh].
      { exfalso. destruct del; [|destruct Hh]. destruct Hh as [<-|[]]. cbn [host_ofmsgs] in Hm.
        apply in_app_iff in Hm as [[Hm|[Hm|[]]]|Hm]; [injection Hm as <-; discriminate|injection Hm as <-; discriminate|].
        destruct (has_hairpin cfg); [|destruct Hm]. destruct Hm as [Hm|[]]; injection Hm as <-; discriminate. }
      apply in_app_iff in Hh as [[<-|[]]|Hh]; [auto|]. right.
      destruct (_ && _); [destruct Hh|]. apply in_app_iff in Hh as [[<-|[]]|Hh]; [auto|].
      apply in_app_iff in Hh as [Hh|Hh].
      - cbn [c_externals learn_cfg] in Hh. destruct (has_externals cfg); cbn [andb] in Hh; [|destruct Hh].
        destruct (negb _); [|destruct Hh]. destruct Hh as [<-|[]]; auto.
      - destruct (c_hairpin _ _); [|destruct Hh]. destruct Hh as [<-|[]]; auto. }
    apply K in H; auto. apply K in H'; auto. clear K. cbn [host_ofmsgs] in H, H'.
    destruct (find_port cfg n) as [p|]; [|cbn [In] in H, H'; destruct H as [H|[H|[[_ H]|H]]]; try contradiction; destruct H as [H|[]];
      destruct H' as [H'|[H'|[[_ H']|H']]]; try contradiction; destruct H' as [H'|[]]; congruence].
    destruct H as [[H|[]]|[[H|[]]|[[X [H|[]]]|[H|[]]]]]; injection H as <-;
    destruct H' as [[H'|[]]|[[H'|[]]|[[X' [H'|[]]]|[H'|[]]]]]; injection H' as <-; cbn [fm_table fm_prio fm_match tb_write] in S1, S2, S3;
      try reflexivity; try (exfalso; intuition congruence); exfalso; rewrite ?X, ?X' in S3; try discriminate S3.
  Qed.
  Lemma learn_clean : forall n v mac del refresh t,
    let ms := flat_map (host_ofmsgs cfg) (learn_flows LC n v mac del refresh t) in
    clean_batch ms /\ forall w, In (FlowMod w) ms -> is_flow_write (FlowMod w) = true -> fm_cmd w = FAdd.
  Proof.
    intros n v mac del refresh t ms.
    assert (Del : forall m, In m (host_ofmsgs cfg (MDelHost v mac)) -> exists d, m = FlowMod d /\ fm_cmd d = FDelete /\ fm_prio d = 0 /\ fm_table d <> OFPTT_ALL).
    { intros m Hm. cbn [host_ofmsgs] in Hm.
      assert (A : forall tb, In tb [d_tvlan cfg; d_tsrc cfg; d_thp cfg; d_tdst cfg; d_tflood cfg] -> tb_id tb <> OFPTT_ALL) by apply (vc_all cfg V).
      apply in_app_iff in Hm as [[<-|[<-|[]]]|Hm].
      - eexists; split; [reflexivity|]. split; [reflexivity|]. split; [reflexivity|]. apply A. simpl; auto.
      - eexists; split; [reflexivity|]. split; [reflexivity|]. split; [reflexivity|]. apply A. simpl; auto.
      - destruct (has_hairpin cfg); [|destruct Hm]. destruct Hm as [<-|[]].
        eexists; split; [reflexivity|]. split; [reflexivity|]. split; [reflexivity|]. apply A. simpl; auto. }
    apply clean_of.
    - intros m Hm. apply learn_msgs in Hm as [[_ Hm]|[(h & i & Hm)|(w & -> & Hm)]].
      + right; left. destruct (Del m Hm) as (d & -> & D1 & _ & D2). exists d. split; auto. split; auto. intros; contradiction.
      + left. destruct Hm as [<-|[]]. eexists; split; reflexivity.
      + left. apply dst_write_flow in Hm as [_ Hm]. eauto.
    - intros w w'. apply learn_dst_unique.
    - intros d w Hd Hw Cd Cw (_ & S2 & _).
      assert (P1 : fm_prio d = 0).
      { apply learn_msgs in Hd as [[_ Hm]|[(h & i & Hm)|(x & E & Hm)]].
        - destruct (Del _ Hm) as (d' & E & _ & D1 & _). injection E as <-. auto.
        - destruct Hm as [E|[]]. injection E as <-. discriminate Cd.
        - injection E as <-. apply dst_write_flow in Hm as [_ Hm]. congruence. }
      assert (P2 : fm_prio w > 0).
      { apply learn_msgs in Hw as [[_ Hm]|[(h & i & Hm)|(x & E & Hm)]].
        - destruct (Del _ Hm) as (d' & E & D & _). injection E as <-. congruence.
        - destruct Hm as [E|[]]. injection E as <-. cbn [fm_prio tb_write]. unfold HOST_PRIORITY. lia.
        - injection E as <-. apply dst_write_flow in Hm as [Hm _]. apply host_flow_out in Hm as [_ Hm]. cbn [flow_of f_prio] in Hm.
          rewrite Hm. unfold HOST_PRIORITY. lia. }
      lia.
  Qed.
  Lemma del_host_hits : forall v mac n f, host_flow v mac n f ->
    exists m, In m (host_ofmsgs cfg (MDelHost v mac)) /\ is_delete m = true /\ del_flow m f = true.
  Proof.
    intros v mac n f H.
    assert (Ic : forall i, item_covers i i = true).
    { intros [fl [a b]]. simpl. rewrite Z.land_diag, !Z.eqb_refl. unfold field_eqb. destruct (field_eq_dec fl fl); [reflexivity|congruence]. }
    destruct H as [p i pcps _ _ A B C D _ _|p i _ Hh A B C D _ _].
    - eexists. split; [right; left; reflexivity|]. split; [reflexivity|]. simpl. unfold del_hits. cbn [fm_cmd tb_del fm_table fm_match].
      unfold table_sel, out_sel. cbn [fm_out_port fm_out_group tb_del]. rewrite A, Z.eqb_refl, orb_true_r, C. cbn [covers forallb existsb].
      rewrite !Ic, !orb_true_r. reflexivity.
    - eexists. split; [cbn [host_ofmsgs]; apply in_app_iff; right; rewrite Hh; left; reflexivity|]. split; [reflexivity|].
      simpl. unfold del_hits. cbn [fm_cmd tb_del fm_table fm_match].
      unfold table_sel, out_sel. cbn [fm_out_port fm_out_group tb_del]. rewrite A, Z.eqb_refl, orb_true_r, C. cbn [covers forallb existsb].
      rewrite !Ic, !orb_true_r. reflexivity.
  Qed.
End Host.
