(** * After every history, the rules of a learned host stay in place *)
From Coq Require Import ZArith List Bool Lia Permutation.
From Verif Require Import PyBase PyBaseProofs OpenFlow TrimModel TrimProofs TableModel ReorderModel ReorderSpec ReorderProofs
  BatchProofs SlotProofs FloodModel FloodSpec FloodProofs FloodRulesModel FloodRulesProofs HostCacheModel HostCacheProofs LearnModel
  L2Model L2Spec L2PortSpec L2HostSpec L2Proofs L2PortProofs L2PortInv L2HostProofs L2HostInv.
Import ListNotations.
Open Scope Z_scope.

Lemma trim_actions_sub : forall acts a, In a (flat_map inst_actions (trim [Apply acts])) -> In a acts.
Proof.
  intros acts a H. unfold trim, trim_inst in H. cbn [existsb is_apply is_goto orb trim_list trim_one negb andb] in H.
  destruct (negb (has_recirc acts)).
  - unfold trim_actions in H. cbv zeta in H. destruct (trim_loop_prefix acts) as (tail & E & _).
    destruct (trim_loop acts) as [|b l] eqn:T; [destruct H|]. cbn [app flat_map inst_actions] in H. rewrite app_nil_r in H.
    rewrite E. apply in_app_iff; auto.
  - destruct acts as [|b l]; [destruct H|]. cbn [app flat_map inst_actions] in H. rewrite app_nil_r in H. exact H.
Qed.

Section Keep.
  Variable cfg : dconf.
  Hypothesis V : valid_cfg cfg.
  Hypothesis NL : no_loop_protection cfg.

  Local Notation tv := (tb_id (d_tvlan cfg)).
  Local Notation ts := (tb_id (d_tsrc cfg)).
  Local Notation th := (tb_id (d_thp cfg)).
  Local Notation td := (tb_id (d_tdst cfg)).
  Local Notation tf := (tb_id (d_tflood cfg)).
  Local Notation out_table := (out_table cfg).
  Local Notation miss_flow := (L2HostProofs.miss_flow cfg).

  (** The destination rules of a host on port [p]. *)
  Definition dst_fm (p : pconf) (v mac : Z) (k : list match_item) : flowmod :=
    tb_write (d_tdst cfg) FAdd HOST_PRIORITY (exact EthDst mac :: vlan_item v :: k)
      [Apply (output_port cfg p v false (has_externals cfg))] 0 0.
  Definition base_key : list match_item := if has_externals cfg then [exact VlanPcp PCP_EXT_PORT_FLAG] else [].
  Definition dst_key (p : pconf) (k : list match_item) : Prop :=
    k = base_key \/ (has_externals cfg = true /\ pc_ext p = false /\ k = [exact VlanPcp 0]).
  Definition installed (s : switch) (v mac n : Z) : Prop :=
    exists p, find_port cfg n = Some p /\ forall k, dst_key p k -> In (flow_of (dst_fm p v mac k)) (sw_flows s).

  Lemma dst_groupless : forall p v mac k, groupless (flow_of (dst_fm p v mac k)).
  Proof.
    intros p v mac k g H. apply trim_actions_sub in H. unfold output_port in H. apply in_app_iff in H as [H|H].
    - destruct (native_is v p).
      + destruct H as [H|H]; [discriminate|]. apply in_map_iff in H as [x [H _]]. discriminate.
      + apply in_app_iff in H as [H|H]; [apply in_map_iff in H as [x [H _]]; discriminate|].
        destruct (has_externals cfg); [|destruct H]. destruct H as [H|[]]. discriminate.
    - destruct H as [H|[]]. discriminate.
  Qed.
  Lemma dst_outputs : forall p v mac k n, outputs_to n (flow_of (dst_fm p v mac k)) = true -> n = pc_num p \/ In n (pc_mirror p).
  Proof.
    intros p v mac k n H. apply existsb_exists in H as [a [H A]]. apply trim_actions_sub in H. unfold output_port in H.
    apply in_app_iff in H as [H|H].
    - assert (X : In a (mirror_acts p) -> n = pc_num p \/ In n (pc_mirror p)).
      { intros X. apply in_map_iff in X as [x [<- Hx]]. simpl in A. apply Z.eqb_eq in A. subst; auto. }
      destruct (native_is v p).
      + destruct H as [<-|H]; [discriminate|auto].
      + apply in_app_iff in H as [H|H]; [auto|].
        destruct (has_externals cfg); [|destruct H]. destruct H as [<-|[]]. discriminate.
    - destruct H as [<-|[]]. simpl in A. apply Z.eqb_eq in A. auto.
  Qed.
  Lemma dst_out : forall p v mac k, out_table (f_table (flow_of (dst_fm p v mac k))).
  Proof. intros. left; reflexivity. Qed.
  Lemma miss_plain : forall f, miss_flow f -> groupless f /\ (forall n, outputs_to n f = false) /\ out_table (f_table f).
  Proof.
    intros f [->|[_ ->]]; (split; [intros g []|split; [reflexivity|]]); [left|right]; reflexivity.
  Qed.

  Lemma vlan_item_inj : forall v w, find_vlan cfg v <> None -> find_vlan cfg w <> None -> vlan_item v = vlan_item w -> v = w.
  Proof.
    intros v w A B E.
    assert (R : forall x, find_vlan cfg x <> None -> 0 < x < 4096).
    { intros x X. destruct (find_vlan cfg x) as [y|] eqn:Y; [|contradiction]. apply find_vlan_in in Y as [Y <-]. apply (vc_vrange cfg V); auto. }
    apply R in A. apply R in B. unfold vlan_item in E.
    destruct (Z.eqb_spec v OFPVID_NONE) as [X|X]; [exfalso; unfold OFPVID_NONE in X; lia|].
    destruct (Z.eqb_spec w OFPVID_NONE) as [Y|Y]; [exfalso; unfold OFPVID_NONE in Y; lia|].
    unfold exact in E. injection E as E. apply vid_present_inj_lemma; auto; lia.
  Qed.
  Lemma exact_covers : forall f x y, item_covers (exact f x) (exact f y) = true -> x = y.
  Proof.
    intros f x y H. unfold exact, item_covers in H. apply andb_true_iff in H as [_ H]. apply Z.eqb_eq in H.
    rewrite !Z.land_m1_r in H. congruence.
  Qed.
  Lemma vlan_item_exact : forall v, find_vlan cfg v <> None -> vlan_item v = exact VlanVid (vid_present v).
  Proof.
    intros v A. destruct (find_vlan cfg v) as [y|] eqn:Y; [|contradiction]. apply find_vlan_in in Y as [Y <-].
    pose proof (vc_vrange cfg V y Y). unfold vlan_item. destruct (Z.eqb_spec (vc_vid y) OFPVID_NONE) as [X|X]; auto.
    exfalso. unfold OFPVID_NONE in X. lia.
  Qed.
  Lemma host_covers : forall mac v mac' v' k, find_vlan cfg v <> None -> find_vlan cfg v' <> None ->
    (k = [] \/ exists c, k = [exact VlanPcp c]) ->
    covers [exact EthDst mac; vlan_item v] (exact EthDst mac' :: vlan_item v' :: k) = true -> mac = mac' /\ v = v'.
  Proof.
    intros mac v mac' v' k A B K H. rewrite (vlan_item_exact v A), (vlan_item_exact v' B) in H.
    cbn [covers forallb existsb] in H. apply andb_true_iff in H as [H1 H2]. apply andb_true_iff in H2 as [H2 _].
    assert (D : forall f g x y, f <> g -> item_covers (exact f x) (exact g y) = false).
    { intros f g x y N. unfold exact, item_covers, field_eqb. destruct (field_eq_dec f g); [contradiction|reflexivity]. }
    assert (K1 : existsb (item_covers (exact EthDst mac)) k = false).
    { destruct K as [->|[c ->]]; cbn [existsb]; rewrite ?D by discriminate; reflexivity. }
    assert (K2 : existsb (item_covers (exact VlanVid (vid_present v))) k = false).
    { destruct K as [->|[c ->]]; cbn [existsb]; rewrite ?D by discriminate; reflexivity. }
    rewrite K1, (D EthDst VlanVid), !orb_false_r in H1 by discriminate.
    rewrite K2, (D VlanVid EthDst), orb_false_r, orb_false_l in H2 by discriminate.
    apply exact_covers in H1. apply exact_covers in H2. split; auto.
    apply vlan_item_inj; auto. rewrite (vlan_item_exact v A), (vlan_item_exact v' B). congruence.
  Qed.
  Lemma key_form : forall p k, dst_key p k -> k = [] \/ exists c, k = [exact VlanPcp c].
  Proof. intros p k [->|(_ & _ & ->)]; [unfold base_key; destruct (has_externals cfg)|]; eauto. Qed.

  (** Forgetting another host leaves the rule. *)
  Lemma forget_spares : forall p v mac k v' mac', find_vlan cfg v <> None -> find_vlan cfg v' <> None -> dst_key p k ->
    (v', mac') <> (v, mac) -> Forall (spares (flow_of (dst_fm p v mac k))) (host_ofmsgs cfg (MDelHost v' mac')).
  Proof.
    intros p v mac k v' mac' A B K N. destruct (tables_distinct cfg V) as (T1 & T2 & T3 & T4 & T5 & T6 & T7 & T8 & T9 & T10).
    assert (Al : forall tb, In tb [d_tvlan cfg; d_tsrc cfg; d_thp cfg; d_tdst cfg; d_tflood cfg] -> tb_id tb <> OFPTT_ALL) by apply (vc_all cfg V).
    assert (Other : forall tb prio m o, In tb [d_tvlan cfg; d_tsrc cfg; d_thp cfg; d_tdst cfg; d_tflood cfg] -> td <> tb_id tb ->
      spares (flow_of (dst_fm p v mac k)) (FlowMod (tb_del tb FDelete prio m o))).
    { intros tb prio m o Hi Ne. simpl. unfold del_hits, table_sel. cbn [fm_cmd fm_table tb_del f_table flow_of dst_fm tb_write].
      destruct (Z.eqb_spec (tb_id tb) OFPTT_ALL); [destruct (Al tb Hi); auto|]. destruct (Z.eqb_spec td (tb_id tb)); [contradiction|]. reflexivity. }
    cbn [host_ofmsgs]. apply Forall_app; split.
    - apply Forall_cons; [apply Other; [simpl; auto|congruence]|]. apply Forall_cons; [|constructor].
      simpl. unfold del_hits. cbn [fm_cmd fm_table fm_match tb_del f_table f_match flow_of dst_fm tb_write].
      destruct (covers _ _) eqn:C; [|rewrite andb_false_r; reflexivity].
      exfalso. apply (host_covers mac' v' mac v k B A (key_form p k K)) in C as [-> ->]. apply N; auto.
    - destruct (has_hairpin cfg); [|constructor]. apply Forall_cons; [|constructor]. apply Other; [simpl; auto|congruence].
  Qed.
  Lemma forget_spares_miss : forall f v mac, miss_flow f -> Forall (spares f) (host_ofmsgs cfg (MDelHost v mac)).
  Proof.
    intros f v mac Hf. assert (M : f_match f = []) by (destruct Hf as [->|[_ ->]]; reflexivity).
    assert (X : forall tb i j o, spares f (FlowMod (tb_del tb FDelete 0 [i; j] o))).
    { intros. simpl. unfold del_hits. cbn [fm_cmd fm_match tb_del]. rewrite M. cbn [covers forallb existsb]. rewrite andb_false_r. reflexivity. }
    cbn [host_ofmsgs]. apply Forall_app; split; [repeat (apply Forall_cons; [apply X|]); constructor|].
    destruct (has_hairpin cfg); repeat constructor; apply X.
  Qed.
  Lemma minor_spares : forall f hs, out_table (f_table f) -> Forall minor hs -> Forall (spares f) (flat_map (host_ofmsgs cfg) hs).
  Proof.
    intros f hs T Mi. apply Forall_flat_map. revert Mi. apply Forall_impl. intros h Hh.
    assert (N : ts <> f_table f) by (destruct (not_out cfg V) as (_ & X & _); intros E; apply X; rewrite E; exact T).
    assert (Y : forall w, fm_cmd w = FAdd -> fm_table w = ts -> spares f (FlowMod w)).
    { intros w C E. simpl. rewrite C. destruct (wslot w f) eqn:S; auto. apply wslot_spec in S as [S _]. congruence. }
    destruct h; try contradiction; cbn [host_ofmsgs]; (apply Forall_cons; [|apply Forall_nil]); apply Y; reflexivity.
  Qed.

  (** ** The invariant *)
  Definition valid_entry (l : lstate) (e : entry) : Prop := forall u, s_upd l (e_port e) = Some u -> u <= e_time e.
  Definition plain_port (n : Z) : Prop := port_attr cfg pc_lacp 0 n = 0.
  Record keepinv (evs : list cevent) (l : lstate) (s : switch) : Prop := {
    ki_from : forall v mac e, found l v mac = Some e ->
      In (CPacketIn (e_time e) (e_port e) v mac) evs /\ find_vlan cfg v <> None /\ find_port cfg (e_port e) <> None;
    ki_upd : connected evs = true -> forall v mac e u, found l v mac = Some e -> s_upd l (e_port e) = Some u ->
      u <= e_time e \/ exists r d b, In (CPortStatus u (e_port e) r d b) evs;
    ki_rule : connected evs = true -> d_idle_dst cfg = false -> forall v mac e, found l v mac = Some e ->
      valid_entry l e -> plain_port (e_port e) -> installed s v mac (e_port e);
    ki_miss : forall f, miss_flow f -> In f (sw_flows s);
    ki_past : forall n u, s_upd l n = Some u -> exists ev, In ev evs /\ ev_time ev = u
  }.

  (** *** Connecting and disconnecting set the time of every port *)
  Definition restamped (now : Z) (l l' : lstate) : Prop := forall n, s_upd l' n = s_upd l n \/ s_upd l' n = Some now.
  Lemma restamped_trans : forall now a b c, restamped now a b -> restamped now b c -> restamped now a c.
  Proof. intros now a b c A B n. destruct (B n) as [X|X]; auto. rewrite X. apply A. Qed.
  Lemma status_restamped : forall st n up now, restamped now (ds_learn st) (ds_learn (set_port_status cfg st n up now)).
  Proof. intros st n up now m. destruct (proj1 (set_status_upd cfg st n up now) m) as [X|[_ X]]; auto. Qed.
  Lemma cold_restamped : forall ups now st, restamped now (ds_learn st) (ds_learn (cold_status cfg ups now st)).
  Proof.
    intros ups now st. unfold cold_status. revert st. induction (filter configured (d_ports cfg)) as [|p ps IH]; intros st; cbn [fold_left].
    - intros n; auto.
    - eapply restamped_trans; [apply status_restamped|apply IH].
  Qed.
  Lemma connect_restamped : forall st now ups st' ms, datapath_connect cfg st now ups = (st', ms) -> restamped now (ds_learn st) (ds_learn st').
  Proof.
    intros st now ups st' ms H. unfold datapath_connect in H. cbv zeta in H. destruct (ports_add cfg true _ _) as [s2 m2] eqn:E.
    apply (ports_add_calm cfg V (fun _ => True)) in E as [_ E].
    2:{ intros q Hq. split; auto. apply filter_In in Hq as [Hq _]. apply filter_In in Hq. tauto. }
    injection H as <- _. cbn [set_running set_learn ds_learn]. intros n. cbn [s_upd]. rewrite E. apply cold_restamped.
  Qed.
  Lemma clear_upd : forall p vids l l', clear_vlans l p vids = Some l' -> s_upd l' = s_upd l.
  Proof.
    intros p. induction vids as [|v vids IH]; intros l l' H; cbn [clear_vlans] in H.
    - injection H as <-. auto.
    - destruct (clear_cache_hosts_on_port p (s_cache l v)) as [c|] eqn:E; [|discriminate]. apply IH in H. exact H.
  Qed.
  Lemma disconnect_restamped : forall st now st', datapath_disconnect cfg st now = Some st' -> restamped now (ds_learn st) (ds_learn st').
  Proof.
    intros st now st' H. unfold datapath_disconnect, ports_delete in H.
    destruct (ports_delete_each cfg false (Some now) (set_running st false) (d_ports cfg)) as [[s1 m1]|] eqn:E; [|discriminate].
    injection H as ->. change (ds_learn st) with (ds_learn (set_running st false)).
    revert E. generalize (set_running st false) as st0. clear st. intros st0. revert st0 st' m1.
    generalize (d_ports cfg) as ps. induction ps as [|p ps IH]; intros st0 st' m1 E; cbn [ports_delete_each] in E.
    - injection E as <- <-. intros n; auto.
    - destruct (port_delete_one cfg false (Some now) st0 p) as [[sa ma]|] eqn:Ea; [|discriminate].
      destruct (ports_delete_each cfg false (Some now) sa ps) as [[sb mb]|] eqn:Eb; [|discriminate]. injection E as <- <-.
      apply IH in Eb. eapply restamped_trans; [|exact Eb]. clear IH Eb.
      unfold port_delete_one in Ea. cbv zeta in Ea.
      pose proof (status_restamped (set_phys st0 (pc_num p) false) (pc_num p) false now) as S.
      destruct (pc_lacp p =? 0).
      + destruct (clear_vlans _ _ _) as [l|] eqn:Cv; [|discriminate]. injection Ea as <- <-. cbn [set_learn ds_learn].
        apply clear_upd in Cv. intros n. rewrite Cv. apply S.
      + injection Ea as Ea. assert (G : ds_learn sa = ds_learn (set_port_status cfg (set_phys st0 (pc_num p) false) (pc_num p) false now)).
        { unfold lacp_update in Ea. destruct (actor_eq_dec _ _); [destruct (role_eq_dec _ _)|]; injection Ea as <- <-; reflexivity. }
        rewrite G. exact S.
  Qed.

  (** *** The batches keep the rules *)
  Lemma calm_installed : forall sh ub ms out s v mac n ps, (forall l, Permutation (sh l) l) -> valve_flowreorder sh ub ms = Some out ->
    Forall (calm cfg ps) ms -> (forall p, find_port cfg n = Some p -> ~ ps p) -> installed s v mac n -> installed (apply_msgs out s) v mac n.
  Proof.
    intros sh ub ms out s v mac n ps Hsh R C N (p & P & H). exists p. split; auto. intros k K.
    apply (spares_keeps sh ub ms out s); auto; [|apply dst_groupless].
    apply (calm_spares cfg V ps); auto; [apply dst_out|].
    intros q Q1 Q2 Q3. destruct (outputs_to _ _) eqn:O; auto. exfalso. apply find_port_in in P as Pp. destruct Pp as [Pi Pn].
    apply dst_outputs in O as [O|O].
    - assert (q = p) by (apply (nums_inj cfg V); auto). subst q. apply (N p P Q1).
    - apply (vc_mirrors cfg V p) in O as [_ O]; auto. rewrite (O q Q2 eq_refl) in Q3. discriminate.
  Qed.

  Lemma learn_written : forall n v mac del t p k, find_port cfg n = Some p -> dst_key p k -> snd t = 0 ->
    In (FlowMod (dst_fm p v mac k)) (flat_map (host_ofmsgs cfg) (learn_flows (learn_cfg cfg) n v mac del false t)).
  Proof.
    intros n v mac del [[a b] c] p k P K T. cbn [snd] in T. subst c. apply in_flat_map. unfold learn_flows.
    assert (X : c_loop_ext (learn_cfg cfg) n = pc_ext p) by (cbn [c_loop_ext learn_cfg]; unfold port_attr; rewrite P; reflexivity).
    destruct K as [->|(K1 & K2 & ->)].
    - exists (MDst v n mac 0). split; [|cbn [host_ofmsgs]; rewrite P; left; reflexivity].
      apply in_app_iff; right. apply in_app_iff; right. cbn [andb]. apply in_app_iff; left. left; auto.
    - exists (MDstNonExt v n mac 0). split; [|cbn [host_ofmsgs]; rewrite P; left; reflexivity].
      apply in_app_iff; right. apply in_app_iff; right. cbn [andb]. apply in_app_iff; right. apply in_app_iff; left.
      cbn [c_externals learn_cfg] in *. rewrite X, K1, K2. left; auto.
  Qed.

  Lemma dst_write_form : forall v mac n w p, dst_write cfg v mac n w -> find_port cfg n = Some p ->
    (exists i k, w = tb_write (d_tdst cfg) FAdd HOST_PRIORITY (exact EthDst mac :: vlan_item v :: k)
       [Apply (output_port cfg p v false (has_externals cfg))] 0 i) \/ fm_table w = th.
  Proof.
    intros v mac n w p (i & h & Hw & Hh) P.
    destruct Hh as [->|[->|[-> _]]]; cbn [host_ofmsgs] in Hw; rewrite P in Hw; destruct Hw as [Hw|[]]; injection Hw as <-; [left|left|right; reflexivity];
      eexists _, _; reflexivity.
  Qed.

  Lemma change_keep : forall evs l l' ms ev sh ub out s, (forall l, Permutation (sh l) l) ->
    valve_flowreorder sh ub ms = Some out -> in_order Z.lt (ev :: evs) -> connected (ev :: evs) = connected evs ->
    change cfg (connected evs) ev l l' ms -> keepinv evs l s -> keepinv (ev :: evs) l' (apply_msgs out s).
  Proof.
    intros evs l l' ms ev sh ub out s Hsh R [Ord _] Cn Ch [KF KU KR KM KP].
    assert (New : forall v mac e, found l v mac = Some e -> e_time e < ev_time ev).
    { intros v mac e Hf. destruct (KF _ _ _ Hf) as [Hi _]. apply (Ord _ Hi). }
    destruct Ch as [Fo Ex Co St Q|hs -> Mi ->|v n mac hs Mv Ms Ee Fp Fv Mn On|m1 hs Co Eu Ex F1 F2 -> Q Dq].
    - assert (U : forall v mac e, found l v mac = Some e -> valid_entry l' e -> s_upd l' (e_port e) = s_upd l (e_port e)).
      { intros v mac e Hf Ve. destruct (St (e_port e)) as [X|[X _]]; auto. apply Ve in X. specialize (New _ _ _ Hf). lia. }
      constructor.
      + intros v mac e Hf. rewrite Fo in Hf. destruct (KF _ _ _ Hf) as (A & B & C). split; [right; auto|auto].
      + rewrite Cn. intros On v mac e u Hf Hu. rewrite Fo in Hf. destruct (St (e_port e)) as [X|[X (now & r & d & b & E)]].
        * rewrite X in Hu. destruct (KU On _ _ _ _ Hf Hu) as [Y|(r & d & b & Y)]; auto. right. exists r, d, b. right; auto.
        * right. rewrite Hu in X. injection X as ->. rewrite E. exists r, d, b. left. reflexivity.
      + rewrite Cn. intros On Idle v mac e Hf Ve Pl. rewrite Fo in Hf.
        apply (calm_installed sh ub ms out s v mac _ _ Hsh R Q).
        * intros p P [X|X].
          -- unfold plain_port, port_attr in Pl. rewrite P in Pl. contradiction.
          -- apply find_port_in in P as [_ P]. rewrite P in X. apply Ve in X. specialize (New _ _ _ Hf). lia.
        * apply KR; auto. intros u Hu. apply Ve. rewrite (U v mac); auto.
      + intros f Hf. destruct (miss_plain f Hf) as (M1 & M2 & M3). apply (spares_keeps sh ub ms out s); auto.
        apply (calm_spares cfg V _ f ms Q); auto.
      + intros n u Hu. destruct (St n) as [X|[X _]].
        * rewrite X in Hu. destruct (KP _ _ Hu) as (x & Y & Z). exists x. split; [right; auto|auto].
        * exists ev. split; [left; auto|]. congruence.
    - constructor.
      + intros v mac e Hf. destruct (KF _ _ _ Hf) as (A & B & C). split; [right; auto|auto].
      + rewrite Cn. intros On v mac e u Hf Hu. destruct (KU On _ _ _ _ Hf Hu) as [Y|(r & d & b & Y)]; auto. right. exists r, d, b. right; auto.
      + rewrite Cn. intros On Idle v mac e Hf Ve Pl. destruct (KR On Idle v mac e Hf Ve Pl) as (p & P & H). exists p. split; auto. intros k K.
        apply (spares_keeps sh ub _ out s _ Hsh R); auto; [|apply dst_groupless]. apply minor_spares; auto. apply dst_out.
      + intros f Hf. destruct (miss_plain f Hf) as (M1 & M2 & M3). apply (spares_keeps sh ub _ out s _ Hsh R); auto. apply minor_spares; auto.
      + intros n u Hu. destruct (KP _ _ Hu) as (x & Y & Z). exists x. split; [right; auto|auto].
    - destruct Mv as [(U1 & U2 & U3) Fo (del & refresh & Eh & P1 & P2 & P3)].
      rewrite Eh in Ms.
      destruct (learn_clean cfg V n v mac del refresh (learn_host_timeouts (learn_cfg cfg) n mac)) as [CB Adds].
      pose proof (learn_dst_unique cfg V n v mac del refresh (learn_host_timeouts (learn_cfg cfg) n mac)) as Uq.
      pose proof (learn_msgs cfg n v mac del refresh (learn_host_timeouts (learn_cfg cfg) n mac)) as Lm.
      pose proof (learn_written n v mac del (learn_host_timeouts (learn_cfg cfg) n mac)) as Lw.
      rewrite <- Ms in CB, Adds, Uq, Lm.
      destruct (find_port cfg n) as [pn|] eqn:Pn; [|contradiction].
      assert (Dt : d_idle_dst cfg = false -> snd (learn_host_timeouts (learn_cfg cfg) n mac) = 0).
      { intros I. unfold learn_host_timeouts. cbn [snd c_idle_dst learn_cfg]. rewrite I. reflexivity. }
      assert (DelT : forall m, In m (host_ofmsgs cfg (MDelHost v mac)) -> is_flow_write m = false).
      { intros m Hm. cbn [host_ofmsgs] in Hm. apply in_app_iff in Hm as [[<-|[<-|[]]]|Hm]; try reflexivity.
        destruct (has_hairpin cfg); [|destruct Hm]. destruct Hm as [<-|[]]. reflexivity. }
      (* every other rule is kept *)
      assert (Keep : forall f, In f (sw_flows s) -> out_table (f_table f) ->
        (forall w, In (FlowMod w) ms -> dst_write cfg v mac n w -> fm_table w = f_table f -> fm_prio w = f_prio f -> fm_match w = f_match f -> flow_of w = f) ->
        (del = true -> Forall (spares f) (host_ofmsgs cfg (MDelHost v mac))) -> In f (sw_flows (apply_msgs out s))).
      { intros f Hf T W D. apply (exact_kept sh ub ms out s CB Hsh R Adds f Hf).
        - intros w Hw Ww (A & B & C). destruct (Lm _ Hw) as [[_ X]|[(h & i & X)|(x & E & X)]].
          + apply DelT in X. congruence.
          + exfalso. destruct X as [X|[]]. injection X as <-. destruct (not_out cfg V) as (_ & Y & _). apply Y. rewrite <- A in T. exact T.
          + injection E as <-. apply W; auto.
        - intros m Hm Dm. destruct (Lm _ Hm) as [[E X]|[(h & i & X)|(x & E & X)]].
          + specialize (D E). rewrite Forall_forall in D. specialize (D m X). cbn [host_ofmsgs] in X.
            assert (exists w, m = FlowMod w /\ fm_cmd w = FDelete) as (w & -> & Cw).
            { apply in_app_iff in X as [[<-|[<-|[]]]|X]; [eauto|eauto|]. destruct (has_hairpin cfg); [|destruct X]. destruct X as [<-|[]]. eauto. }
            simpl in D. rewrite Cw in D. exact D.
          + destruct X as [<-|[]]. discriminate Dm.
          + subst m. apply dst_write_flow in X as [_ X]. simpl in Dm. rewrite X in Dm. discriminate. }
      constructor.
      + intros v' mac' e. rewrite Fo. destruct (Z.eqb_spec v' v) as [->|N]; [destruct (Z.eqb_spec mac' mac) as [->|N]|]; cbn [andb];
          try (intros Hf; destruct (KF _ _ _ Hf) as (A & B & C); split; [right; auto|auto]).
        intros E. injection E as <-. cbn [e_port e_time]. split; [left; exact Ee|]. split; auto. congruence.
      + rewrite Cn, U1. intros _ v' mac' e u. rewrite Fo. destruct ((v' =? v) && (mac' =? mac)).
        * intros E Hu. injection E as <-. cbn [e_port e_time] in *. left. destruct (KP _ _ Hu) as (x & X & <-).
          pose proof (Ord _ X). lia.
        * intros Hf Hu. destruct (KU On _ _ _ _ Hf Hu) as [Y|(r & d & b & Y)]; auto. right. exists r, d, b. right; auto.
      + rewrite Cn. intros _ Idle v' mac' e Hf Ve Pl. unfold valid_entry in Ve. rewrite U1 in Ve. rewrite Fo in Hf.
        destruct (Z.eqb_spec v' v) as [->|N]; [destruct (Z.eqb_spec mac' mac) as [->|N]|]; cbn [andb] in Hf.
        * injection Hf as <-. cbn [e_port e_time] in *. exists pn. split; auto. intros k K.
          destruct refresh eqn:Rf.
          -- destruct (P2 eq_refl) as (x & u & X1 & X2 & X3 & X4).
             assert (e_port x = n) as Xn.
             { destruct X2 as [X2|(p & q & Q1 & Q2 & Q3 & Q4 & Q5 & _)]; auto. exfalso. apply Q5.
               unfold plain_port, port_attr in Pl. rewrite Pn in Pl. apply find_port_in in Pn as [I1 I2].
               assert (p = pn) by (apply (nums_inj cfg V); auto; congruence). subst p. exact Pl. }
             destruct (KR On Idle v mac x X1) as (p & Q1 & Q2).
             { intros y Y. rewrite Xn, X3 in Y. injection Y as <-. exact X4. }
             { rewrite Xn. exact Pl. }
             rewrite Xn, Pn in Q1. injection Q1 as <-. apply Keep; auto; [apply dst_out| |].
             ++ intros w Hw Dw Tw Pw Mw. destruct (dst_write_form _ _ _ _ _ Dw Pn) as [(i & k' & Ew)|T2].
                ** assert (Ed : w = dst_fm pn v mac k); [|rewrite Ed; reflexivity].
                   assert (k' = k).
                   { rewrite Ew in Mw. cbn [fm_match tb_write f_match flow_of dst_fm] in Mw. congruence. }
                   subst k'. assert (i = 0); [|subst i; exact Ew].
                   assert (Li : fm_idle w = 0).
                   { clear - Hw Ms Dt Idle Ew Pn. specialize (Dt Idle). rewrite Ms in Hw. apply in_flat_map in Hw as [h [Hh Hm]]. unfold learn_flows in Hh.
                     destruct (learn_host_timeouts _ _ _) as [[a b] c]. cbn [snd] in Dt. subst c.
                     apply in_app_iff in Hh as [Hh|Hh]; [destruct del; [|destruct Hh]; destruct Hh as [<-|[]]|].
                     - exfalso. cbn [host_ofmsgs] in Hm. apply in_app_iff in Hm as [[Hm|[Hm|[]]]|Hm]; try (injection Hm as Hm; rewrite <- Hm in Ew; apply (f_equal fm_cmd) in Ew; discriminate Ew).
                       destruct (has_hairpin cfg); [|destruct Hm]. destruct Hm as [Hm|[]]; injection Hm as Hm; rewrite <- Hm in Ew; apply (f_equal fm_cmd) in Ew; discriminate Ew.
                     - apply in_app_iff in Hh as [[<-|[]]|Hh].
                       + exfalso. destruct Hm as [Hm|[]]. injection Hm as Hm. rewrite <- Hm in Ew. apply (f_equal fm_prio) in Ew. discriminate Ew.
                       + destruct (_ && _); [destruct Hh|]. apply in_app_iff in Hh as [[<-|[]]|Hh].
                         * cbn [host_ofmsgs] in Hm. rewrite Pn in Hm. destruct Hm as [Hm|[]]. injection Hm as <-. reflexivity.
                         * apply in_app_iff in Hh as [Hh|Hh]; (destruct (_ : bool) in Hh; [|destruct Hh]); destruct Hh as [<-|[]];
                             cbn [host_ofmsgs] in Hm; rewrite Pn in Hm; destruct Hm as [Hm|[]]; injection Hm as <-; reflexivity. }
                   rewrite Ew in Li. exact Li.
                ** exfalso. destruct (tables_distinct cfg V) as (B1 & B2 & B3 & B4 & B5 & B6 & B7 & B8 & B9 & B10).
                   rewrite T2 in Tw. cbn [flow_of f_table dst_fm tb_write fm_table] in Tw. congruence.
             ++ intros E. specialize (P3 E). discriminate.
          -- assert (Hw : In (FlowMod (dst_fm pn v mac k)) ms) by (rewrite Ms; apply Lw; auto).
             apply (exact_written sh ub ms out s CB Hsh R (dst_fm pn v mac k) Hw eq_refl).
             intros w' Hw' Ww' Sl. rewrite (Uq _ _ Hw Hw' eq_refl (Adds w' Hw' Ww') Sl). reflexivity.
        * destruct (KR On Idle v mac' e Hf Ve Pl) as (p & Q1 & Q2). exists p. split; auto. intros k K. apply Keep; auto; [apply dst_out| |].
          -- intros w Hw Dw Tw Pw Mw. exfalso. destruct (dst_write_form _ _ _ _ _ Dw Pn) as [(i & k' & Ew)|T2].
             ++ rewrite Ew in Mw. cbn [fm_match tb_write f_match flow_of dst_fm] in Mw. injection Mw as Mw _. congruence.
             ++ destruct (tables_distinct cfg V) as (B1 & B2 & B3 & B4 & B5 & B6 & B7 & B8 & B9 & B10).
                rewrite T2 in Tw. cbn [flow_of f_table dst_fm tb_write fm_table] in Tw. congruence.
          -- intros _. apply forget_spares; auto. congruence.
        * destruct (KR On Idle v' mac' e Hf Ve Pl) as (p & Q1 & Q2). exists p. split; auto. intros k K. apply Keep; auto; [apply dst_out| |].
          -- intros w Hw Dw Tw Pw Mw. exfalso. destruct (dst_write_form _ _ _ _ _ Dw Pn) as [(i & k' & Ew)|T2].
             ++ rewrite Ew in Mw. cbn [fm_match tb_write f_match flow_of dst_fm] in Mw. apply N. symmetry. apply vlan_item_inj; auto; [apply (KF _ _ _ Hf)|congruence].
             ++ destruct (tables_distinct cfg V) as (B1 & B2 & B3 & B4 & B5 & B6 & B7 & B8 & B9 & B10).
                rewrite T2 in Tw. cbn [flow_of f_table dst_fm tb_write fm_table] in Tw. congruence.
          -- intros _. apply forget_spares; auto; [apply (KF _ _ _ Hf)|congruence].
      + intros f Hf. destruct (miss_plain f Hf) as (M1 & M2 & M3). apply Keep; auto.
        * intros w Hw Dw Tw Pw Mw. exfalso. apply dst_write_flow in Dw as [Dw _]. apply host_flow_out in Dw as [_ Dw].
          cbn [flow_of f_prio] in Dw. rewrite Pw in Dw. destruct (vc_prios cfg V) as [[_ X] _].
          assert (f_prio f = d_lowest cfg) by (destruct Hf as [->|[_ ->]]; reflexivity). unfold HOST_PRIORITY, LOW_PRIORITY in *. lia.
        * intros _. apply forget_spares_miss; auto.
      + rewrite U1. intros m u Hu. destruct (KP _ _ Hu) as (x & Y & Z). exists x. split; [right; auto|auto].
    - assert (Sp : forall f, groupless f -> out_table (f_table f) -> In f (sw_flows s) ->
        (forall p, disturbed ev l' p -> In p (d_ports cfg) -> nonempty (port_vlans p) = true -> outputs_to (pc_num p) f = false) ->
        (forall v m, found l' v m = None -> find_vlan cfg v <> None -> Forall (spares f) (host_ofmsgs cfg (MDelHost v m))) ->
        In f (sw_flows (apply_msgs out s))).
      { intros f G T Hf A B. apply (spares_keeps sh ub _ out s _ Hsh R); auto. apply Forall_app; split.
        - apply (calm_spares cfg V _ f m1 Q); auto.
        - apply Forall_flat_map. revert Dq. apply Forall_impl. intros h (v & m & -> & D1 & D2). auto. }
      constructor.
      + intros v mac e Hf. apply F1 in Hf. destruct (KF _ _ _ Hf) as (A & B & C). split; [right; auto|auto].
      + rewrite Cn, Eu. intros On v mac e u Hf Hu. apply F1 in Hf. destruct (KU On _ _ _ _ Hf Hu) as [Y|(r & d & b & Y)]; auto. right. exists r, d, b. right; auto.
      + rewrite Cn. intros On Idle v mac e Hf Ve Pl. unfold valid_entry in Ve. rewrite Eu in Ve. pose proof Hf as Hf'. apply F1 in Hf.
        destruct (KR On Idle v mac e Hf Ve Pl) as (p & P & H). exists p. split; auto. intros k K. apply Sp; auto; [apply dst_groupless|apply dst_out| |].
        * intros q Q1 Q2 Q3. destruct (outputs_to _ _) eqn:O; auto. exfalso. apply find_port_in in P as Pp. destruct Pp as [Pi Pn].
          apply dst_outputs in O as [O|O].
          -- assert (q = p) by (apply (nums_inj cfg V); auto). subst q. destruct Q1 as [Q1|Q1].
             ++ unfold plain_port, port_attr in Pl. rewrite P in Pl. contradiction.
             ++ rewrite Pn, Eu in Q1. apply Ve in Q1. specialize (New _ _ _ Hf). lia.
          -- apply (vc_mirrors cfg V p) in O as [_ O]; auto. rewrite (O q Q2 eq_refl) in Q3. discriminate.
        * intros v' m' N Fv. apply forget_spares; auto; [apply (KF _ _ _ Hf)|]. intros E. injection E as -> ->. congruence.
      + intros f Hf. destruct (miss_plain f Hf) as (M1 & M2 & M3). apply Sp; auto. intros. apply forget_spares_miss; auto.
      + rewrite Eu. intros m u Hu. destruct (KP _ _ Hu) as (x & Y & Z). exists x. split; [right; auto|auto].
  Qed.

  Lemma connect_keep : forall evs st now ups st' ms sh ub out s0, (forall l, Permutation (sh l) l) ->
    datapath_connect cfg st now ups = (st', ms) -> valve_flowreorder sh ub ms = Some out ->
    (forall n u, s_upd (ds_learn st) n = Some u -> exists ev, In ev evs /\ ev_time ev = u) ->
    keepinv (CConnect now ups :: evs) (ds_learn st') (apply_msgs out s0).
  Proof.
    intros evs st now ups st' ms sh ub out s0 Hsh H R P.
    destruct (connect_flows cfg V _ _ _ _ _ _ _ _ s0 Hsh H R) as (_ & A & _ & B).
    apply connect_restamped in H. constructor; auto.
    - intros v mac e X. rewrite A in X. discriminate.
    - intros _ v mac e u X. rewrite A in X. discriminate.
    - intros _ _ v mac e X. rewrite A in X. discriminate.
    - intros n u X. destruct (H n) as [Y|Y].
      + rewrite Y in X. destruct (P n u X) as (ev & E1 & E2). exists ev. split; [right; auto|auto].
      + exists (CConnect now ups). split; [left; auto|]. simpl. congruence.
  Qed.

  Lemma keep_reach : forall (F : packet -> Prop) evs w, (forall pk, F pk -> ~ foreign_control cfg pk) -> reach cfg F evs w ->
    in_order Z.lt evs -> keepinv evs (ds_learn (w_ctl w)) (w_sw w).
  Proof.
    intros F evs w HF H. induction H as [now ups sh ub out s0 Hsh R|evs w now ups sh ub out s0 H IH Hsh R
      |evs w ev st ms sh ub out H IH Sent St Hsh R|evs w live pk es H IH Hk Fk Wk|evs w f l1 l2 H IH E Tm]; intros Ord; cbn [w_ctl w_sw] in *.
    - destruct (datapath_connect cfg dstate_init now ups) as [st' ms] eqn:D. eapply connect_keep; eauto. intros n u X. discriminate X.
    - destruct (datapath_connect cfg (w_ctl w) now ups) as [st' ms] eqn:D. eapply connect_keep; eauto.
      apply (ki_past _ _ _ (IH (in_order_tail _ _ _ Ord))).
    - specialize (IH (in_order_tail _ _ _ Ord)).
      assert (Gen : match ev with CConnect _ _ | CDisconnect _ => False | _ => True end -> keepinv (ev :: evs) (ds_learn st) (apply_msgs out (w_sw w))).
      { intros Ne. eapply change_keep; eauto; [destruct ev; try contradiction; reflexivity|].
        rewrite <- (wi_run _ _ _ _ (reach_inv cfg V F evs w H)). apply event_change; auto.
        intros now n vid mac ->. destruct Sent as [q [pcp [r [Hq [<- [Ht _]]]]]].
        apply (proj2 (iso_inv cfg V F evs w HF H) q Hq vid pcp r Ht). }
      destruct ev as [now ups|now|now n r d b|now n vid mac|now n sync|now]; try (apply Gen; exact I); [destruct Sent|].
      cbn [cstep] in St. destruct (datapath_disconnect cfg (w_ctl w) now) as [st1|] eqn:D; [|discriminate]. injection St as -> <-.
      destruct (disconnect_found cfg _ _ _ D) as [A B]. apply disconnect_restamped in D. destruct IH as [KF KU KR KM KP]. constructor.
      + intros v mac e X. apply B in X. destruct (KF _ _ _ X) as (Y1 & Y2 & Y3). split; [right; auto|auto].
      + discriminate.
      + discriminate.
      + intros f Hf. destruct (miss_plain f Hf) as (M1 & M2 & M3). apply (spares_keeps sh ub [] out (w_sw w) f Hsh R); auto.
      + intros n u X. destruct (D n) as [Y|Y].
        * rewrite Y in X. destruct (KP n u X) as (ev & E1 & E2). exists ev. split; [right; auto|auto].
        * exists (CDisconnect now). split; [left; auto|]. simpl. congruence.
    - auto.
    - specialize (IH Ord). destruct IH as [KF KU KR KM KP].
      assert (K : forall g, In g (sw_flows (w_sw w)) -> f_hard g = 0 -> f_idle g = 0 -> In g (l1 ++ l2)).
      { intros g Hg A B. rewrite E in Hg. apply in_app_iff in Hg. apply in_app_iff. destruct Hg as [Hg|[Hg|Hg]]; auto. subst g. destruct Tm; contradiction. }
      constructor; auto.
      + intros On Idle v mac e X Y Z. destruct (KR On Idle v mac e X Y Z) as (p & P & Hk). exists p. split; auto.
        
      + intros g Hg. apply K; auto; destruct Hg as [->|[_ ->]]; reflexivity.
  Qed.
End Keep.
