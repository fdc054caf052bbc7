(** * Reloading: the invariant, and what it means for frames *)
From Coq Require Import ZArith List Bool Lia Permutation.
From Verif Require Import PyBase PyBaseProofs OpenFlow TrimModel TrimProofs TableModel ReorderModel ReorderSpec ReorderProofs
  BatchProofs SlotProofs FloodModel FloodSpec FloodProofs FloodRulesModel FloodRulesProofs HostCacheModel LearnModel
  L2Model L2Spec L2HostSpec L2PortSpec L2Proofs L2PortProofs L2PortInv L2ReloadModel L2ReloadSpec L2ReloadProofs.
From Verif Require L2HostProofs L2HostKeep.
Import ListNotations.
Open Scope Z_scope.

Section Forms.
  Variable cfg : dconf.
  Hypothesis V : valid_cfg cfg.
  Local Notation tv := (tb_id (d_tvlan cfg)).
  Local Notation ts := (tb_id (d_tsrc cfg)).
  Local Notation th := (tb_id (d_thp cfg)).
  Local Notation td := (tb_id (d_tdst cfg)).
  Local Notation tf := (tb_id (d_tflood cfg)).

  Lemma vrule_inst : forall f, vrule cfg f -> inst_ok cfg (f_table f) (f_match f) (f_inst f).
  Proof.
    intros f H. destruct H as [|p f Hp H|p Hp L].
    - exact (drop_good cfg (d_tvlan cfg) (d_lowest cfg) [] 0).
    - destruct (add_covers cfg p f H) as [w [Hw ->]]. destruct (add_writes cfg p w Hw) as [_ C].
      pose proof (managers_add_good cfg V p Hp) as G. rewrite Forall_forall in G. specialize (G _ Hw). simpl in G. rewrite C in G. exact G.
    - exact (drop_good cfg (d_tvlan cfg) (d_high cfg) [exact InPort (pc_num p)] 0).
  Qed.
  Lemma vlan_member : forall p vid, In p (d_ports cfg) -> In vid (port_vlans p) -> member cfg vid (pc_num p).
  Proof.
    intros p vid Hp H. unfold port_vlans in H. destruct (pc_native p) as [w|] eqn:N.
    - destruct H as [->|H]; [right|left]; exists p; auto.
    - left. exists p; auto.
  Qed.
  Lemma drule_inst : forall f, f_table f = td -> drule cfg f -> inst_ok cfg (f_table f) (f_match f) (f_inst f).
  Proof.
    intros f T [E|(p & vid & ext & Hp & Hv & Hm & E)]; rewrite T, E.
    - apply (ok_miss cfg V (f_match f)).
    - intros g live pk es pk' nx Hg Hk Mt He. destruct (trim_apply g live (output_port cfg p vid false ext) pk) as [p' X].
      rewrite He in X. injection X as -> -> ->.
      destruct (tables_distinct cfg V) as (T1 & T2 & T3 & T4 & T5 & T6 & T7 & T8 & T9 & T0).
      (split; [|split; [|split; [|split]]]); intros; try (exfalso; congruence). split; auto.
      pose proof (vids_range cfg V p vid Hp Hv) as Rv.
      assert (Mv : item_matches pk (vlan_item vid) = true) by (unfold matches in Mt; rewrite forallb_forall in Mt; auto).
      apply (proj1 (vlan_item_match pk vid v pcp r Rv (proj2 Hk _ _ _ H) H)) in Mv. subst v.
      eapply output_wire; eauto; [apply vlan_member; auto|discriminate].
  Qed.
  Lemma hrule_inst : forall f, f_table f = th -> hrule cfg f -> inst_ok cfg (f_table f) (f_match f) (f_inst f).
  Proof.
    intros f T [E|(p & vid & ext & m & Hp & Hv & Hh & Hm & Hvi & E)]; rewrite T, E.
    - apply (ok_miss cfg V (f_match f)).
    - rewrite Hm. intros g live pk es pk' nx Hg Hk Mt He. destruct (trim_apply g live (output_port cfg p vid true ext) pk) as [p' X].
      rewrite He in X. injection X as -> -> ->.
      apply in_port_match in Mt as [Hi Mt].
      destruct (tables_distinct cfg V) as (T1 & T2 & T3 & T4 & T5 & T6 & T7 & T8 & T9 & T0).
      (split; [|split; [|split; [|split]]]); intros; try (exfalso; congruence). split; auto.
      pose proof (vids_range cfg V p vid Hp Hv) as Rv.
      assert (Mv : item_matches pk (vlan_item vid) = true) by (unfold matches in Mt; rewrite forallb_forall in Mt; auto).
      apply (proj1 (vlan_item_match pk vid v pcp r Rv (proj2 Hk _ _ _ H) H)) in Mv. subst v.
      eapply output_wire; eauto. apply vlan_member; auto.
  Qed.

  Lemma good_write : forall m w, m = FlowMod w -> fm_cmd w = FAdd -> msg_good cfg m -> tv_w cfg m -> df cfg m -> flow_good cfg (flow_of w).
  Proof.
    intros m w -> C G T D. simpl in G. rewrite C in G. split; [exact G|].
    assert (W : is_flow_write (FlowMod w) = true) by (simpl; rewrite C; reflexivity).
    destruct T as [_ T]. destruct (D W) as (_ & _ & X). split; [|exact X]. intros E. apply T; auto.
  Qed.

  Lemma ports_add_reg : forall cold st l st' ms, (forall p, In p l -> In p (d_ports cfg)) ->
    ports_add cfg cold st l = (st', ms) -> regular cfg ms /\ ds_running st' = ds_running st.
  Proof.
    intros cold st l st' ms Hl H. unfold ports_add in H.
    destruct (ports_add_each cfg cold st l) as [st1 ms1] eqn:E. injection H as <- <-.
    assert (K : regular cfg ms1 /\ ds_running st1 = ds_running st).
    { revert st st1 ms1 E. induction l as [|p l IH]; intros st st1 ms1 E; simpl in E.
      - injection E as <- <-. split; auto. apply regular_nil.
      - destruct (port_add_one cfg cold st p) as [sa ma] eqn:Ea.
        destruct (ports_add_each cfg cold sa l) as [sb mb] eqn:Eb. injection E as <- <-.
        apply (port_add_tv cfg V) in Ea; [|apply Hl; left; auto]. destruct Ea as (A1 & _ & _ & _ & A5 & _).
        apply IH in Eb as [B1 B2]; [|intros q Hq; apply Hl; right; auto]. split; [apply regular_app; auto|congruence]. }
    destruct K as [K1 K2]. split; auto. apply regular_app; auto. destruct cold; [apply regular_nil|].
    apply other_regular; auto. apply add_vlans_other; auto.
  Qed.

  Lemma managers_del_only : forall p, Forall (fun m => is_flow_write m = false) (managers_del_port cfg p).
  Proof.
    intros p. unfold managers_del_port, switch_del_port, del_host_flows, lldp_del_port, outonly_del_port.
    repeat (apply Forall_app; split).
    - destruct (nonempty _); [|constructor]. repeat (apply Forall_app; split); try (repeat constructor).
      + destruct (has_hairpin cfg); repeat constructor.
      + destruct (pc_native p), (pc_count_miss p); repeat constructor.
      + apply Forall_map, Forall_forall. reflexivity.
      + destruct (_ =? _); repeat constructor.
    - destruct (pc_lldp p); repeat constructor.
    - destruct (pc_output_only p); repeat constructor.
  Qed.
  Lemma managers_del_reg : forall p, regular cfg (managers_del_port cfg p).
  Proof.
    intros p. destruct (managers_del_split cfg V p) as [l [-> O]]. apply regular_app; [apply other_regular; auto|].
    eapply own_regular; auto. apply del_tv_own.
  Qed.

  (** the messages that take down ports that are not in LAGs *)
  Lemma ports_delete_plain : forall keep now st l st' ms, (forall p, In p l -> pc_lacp p = 0) ->
    ports_delete cfg keep now st l = Some (st', ms) ->
    ds_running st' = ds_running st /\
    exists vids, ms = flat_map (managers_del_port cfg) l ++ update_vlans cfg st' vids.
  Proof.
    intros keep now st l st' ms Hl H. unfold ports_delete in H.
    destruct (ports_delete_each cfg keep now st l) as [[st1 ms1]|] eqn:E; [|discriminate]. injection H as <- <-.
    assert (K : ms1 = flat_map (managers_del_port cfg) l /\ ds_running st1 = ds_running st).
    { revert st st1 ms1 E. generalize (flat_map port_vlans l). intros _.
      induction l as [|p l IH]; intros st st1 ms1 E; cbn [ports_delete_each] in E.
      - injection E as <- <-. auto.
      - destruct (port_delete_one cfg keep now st p) as [[sa ma]|] eqn:Ea; [|discriminate].
        destruct (ports_delete_each cfg keep now sa l) as [[sb mb]|] eqn:Eb; [|discriminate]. injection E as <- <-.
        apply IH in Eb as [-> B2]; [|intros q Hq; apply Hl; right; auto]. rewrite B2. cbn [flat_map].
        unfold port_delete_one in Ea. cbv zeta in Ea. rewrite (Hl p (or_introl eq_refl)) in Ea. cbn [Z.eqb] in Ea.
        assert (X : forall o, ds_running (match o with Some t => set_port_status cfg (set_phys st (pc_num p) false) (pc_num p) false t
             | None => set_phys st (pc_num p) false end) = ds_running st).
        { intros [t|]; [|reflexivity]. unfold set_port_status. destruct (find_port _ _); reflexivity. }
        destruct keep.
        + injection Ea as <- <-. split; [reflexivity|apply X].
        + destruct (clear_vlans _ _ _); [|discriminate]. injection Ea as <- <-. split; [reflexivity|]. apply X. }
    destruct K as [-> K]. split; auto. eauto.
  Qed.
End Forms.

Lemma trim_keeps_output : forall acts n k, In (Output n k) acts -> In (Output n k) (flat_map inst_actions (trim [Apply acts])).
Proof.
  intros acts n k H. unfold trim, trim_inst. cbn [existsb is_apply is_goto orb trim_list trim_one negb andb].
  destruct (negb (has_recirc acts)).
  - unfold trim_actions. cbv zeta. destruct (trim_loop_prefix acts) as (tail & E & N).
    assert (X : In (Output n k) (trim_loop acts)).
    { rewrite E in H. apply in_app_iff in H as [H|H]; auto. exfalso.
      assert (Y : existsb is_out_or_group tail = true) by (apply existsb_exists; exists (Output n k); auto). congruence. }
    destruct (trim_loop acts) as [|b l] eqn:T; [destruct X|]. cbn [app flat_map inst_actions]. rewrite app_nil_r. exact X.
  - destruct acts as [|b l]; [destruct H|]. cbn [app flat_map inst_actions]. rewrite app_nil_r. exact H.
Qed.

Section Reload.
  Variables (xp xv : list Z) (cfg : dconf) (ps : list pconf) (vs : list vconf).
  Local Notation cfg' := (reconf cfg ps vs).
  Hypothesis V : valid_cfg cfg.
  Hypothesis V' : valid_cfg cfg'.
  Hypothesis Gt : gentle xp xv cfg cfg'.
  Hypothesis Hp : has_hairpin cfg' = has_hairpin cfg.

  Local Notation tv := (tb_id (d_tvlan cfg)).
  Local Notation ts := (tb_id (d_tsrc cfg)).
  Local Notation th := (tb_id (d_thp cfg)).
  Local Notation td := (tb_id (d_tdst cfg)).
  Local Notation tf := (tb_id (d_tflood cfg)).
  Local Notation gone := (deleted_ports cfg cfg').
  Local Notation changed := (changed_ports xp xv cfg cfg').
  Local Notation vgone := (deleted_vids cfg cfg').
  Local Notation vchanged := (changed_vids xp xv cfg cfg').

  Definition del_flood (vid : Z) : flowmod := tb_del (d_tflood cfg) FDelete 0 [vlan_item vid] OFPP_ANY.
  Record batch_ok (ms : list ofmsg) : Prop := {
    bo_add : forall w, In (FlowMod w) ms -> fm_cmd w = FAdd -> flow_good cfg' (flow_of w);
    bo_mod : forall w, In (FlowMod w) ms -> fm_cmd w = FModifyStrict ->
        fm_table w = tf /\ exists c, (c = cfg \/ c = cfg') /\ inst_ok c tf (fm_match w) (fm_inst w) /\ frule c (flow_of w);
    bo_none : forall w, In (FlowMod w) ms -> fm_cmd w <> FModify;
    bo_cookie : forall w, In (FlowMod w) ms -> is_flow_write (FlowMod w) = true -> fm_cookie w = tb_cookie (d_tvlan cfg);
    bo_all : forall w, In (FlowMod w) ms -> is_delete (FlowMod w) = true -> fm_table w <> OFPTT_ALL;
    bo_quiet : forall w, In (FlowMod w) ms -> is_flow_write (FlowMod w) = true -> fm_table w <> td /\ fm_table w <> th;
    bo_ports : forall p, In p (d_ports cfg) -> In (pc_num p) gone \/ In (pc_num p) changed -> incl (managers_del_port cfg p) ms;
    bo_vlans : forall vid, In vid vgone \/ In vid vchanged -> In (FlowMod (del_flood vid)) ms
  }.

  (** what deleting a port's VLAN table rules amounts to *)
  Lemma deletes_each : forall p f, pc_lacp p = 0 -> port_flow cfg p f ->
    exists d, In (FlowMod d) (managers_del_port cfg p) /\ is_delete (FlowMod d) = true /\ del_hits d f = true /\
      fm_match d = f_match f /\ fm_prio d = f_prio f /\ fm_table d = f_table f.
  Proof.
    intros p f L0 H. destruct (managers_del_split cfg V p) as [l [El _]].
    assert (Y : exists d, In (FlowMod d) (del_tv cfg p) /\ is_delete (FlowMod d) = true /\ del_hits d f = true /\
      fm_match d = f_match f /\ fm_prio d = f_prio f /\ fm_table d = f_table f).
    2:{ destruct Y as [d [A B]]. exists d. split; auto. rewrite El. apply in_app_iff; auto. }
    unfold del_tv.
    destruct H as [f [vid Hv|vid Hv|N C NE]|L NE|L|L].
    - eexists. split; [|split; [|split; [apply del_hits_own; [reflexivity|reflexivity]|repeat split; reflexivity]]]; [|reflexivity].
      apply in_app_iff; left.
      unfold switch_del_tv. rewrite (vlans_nonempty p vid) by (apply in_tagged; auto).
      apply in_app_iff; right. apply in_app_iff; left. apply in_map_iff. exists vid. split; [reflexivity|auto].
    - eexists. split; [|split; [|split; [apply del_hits_own; [reflexivity|reflexivity]|repeat split; reflexivity]]]; [|reflexivity].
      apply in_app_iff; left.
      unfold switch_del_tv. rewrite (vlans_nonempty p vid) by (apply in_native; auto).
      apply in_app_iff; left. rewrite Hv. left. reflexivity.
    - eexists. split; [|split; [|split; [apply del_hits_own; [reflexivity|reflexivity]|repeat split; reflexivity]]]; [|reflexivity].
      apply in_app_iff; left.
      unfold switch_del_tv. rewrite NE. apply in_app_iff; left. rewrite N, C. left. reflexivity.
    - contradiction.
    - eexists. split; [|split; [|split; [apply del_hits_own; [reflexivity|reflexivity]|repeat split; reflexivity]]]; [|reflexivity].
      apply in_app_iff; right. apply in_app_iff; left.
      unfold lldp_del_port. rewrite L. left. reflexivity.
    - eexists. split; [|split; [|split; [apply del_hits_own; [reflexivity|reflexivity]|repeat split; reflexivity]]]; [|reflexivity].
      apply in_app_iff; right. apply in_app_iff; right.
      unfold outonly_del_port. rewrite L. left. reflexivity.
  Qed.

  Lemma port_flow_kept : forall p f, port_flow cfg p f -> port_flow cfg' p f.
  Proof.
    assert (P : forall p vid push, push_flow cfg' p vid push = push_flow cfg p vid push).
    { intros. unfold push_flow, port_vlan_rule. rewrite (gt_ext xp xv cfg cfg' Gt). reflexivity. }
    intros p f [f0 [vid Hv|vid Hv|N C NE]|L NE|L|L].
    - rewrite <- P. apply PF_entry, EF_tagged; auto.
    - rewrite <- P. apply PF_entry, EF_native; auto.
    - apply PF_entry. apply (EF_miss cfg'); auto.
    - apply (PF_lacp cfg'); auto.
    - apply (PF_lldp cfg'); auto.
    - apply (PF_out cfg'); auto.
  Qed.

  Section Batch.
    Variables (sh : list ofmsg -> list ofmsg) (ub : bool) (ms out : list ofmsg) (s : switch).
    Hypothesis Hsh : forall l, Permutation (sh l) l.
    Hypothesis R : valve_flowreorder sh ub ms = Some out.
    Hypothesis B : batch_ok ms.

    Lemma tf_key : forall w vid, In (FlowMod w) ms -> is_flow_write (FlowMod w) = true -> flowmodkey w <> flowmodkey (del_flood vid).
    Proof.
      intros w vid Hw Ww E. unfold flowmodkey in E. injection E as E1 _ E2 E3.
      assert (X : exists c, frule c (flow_of w)).
      { simpl in Ww. destruct (fm_cmd w) eqn:C; try discriminate Ww.
        - exists cfg'. apply (bo_add ms B w Hw C). exact E3.
        - exfalso. apply (bo_none ms B w Hw C).
        - destruct (bo_mod ms B w Hw C) as (_ & c & _ & _ & X). eauto. }
      destruct X as [c [[_ X]|(v & _ & _ & X)]]; cbn in X.
      - apply (X vid). exact E1.
      - lia.
    Qed.
    Lemma flood_sent : forall vid f, In vid vgone \/ In vid vchanged -> f_table f = tf -> In (vlan_item vid) (f_match f) ->
      In (FlowMod (del_flood vid)) out /\ del_hits (del_flood vid) f = true.
    Proof.
      intros vid f Hv Tf Hm. split.
      - apply (delete_sent sh ub ms out (del_flood vid) R); [apply (bo_vlans ms B); auto|reflexivity|apply (bo_all ms B)|].
        intros w Hw Ww. apply tf_key; auto.
      - unfold del_hits, del_flood. cbn [fm_cmd tb_del fm_table fm_match].
        assert (T : table_sel tf f = true) by (unfold table_sel; rewrite Tf, Z.eqb_refl; apply orb_true_r).
        rewrite T. assert (C : covers [vlan_item vid] (f_match f) = true).
        { unfold covers. cbn [forallb]. rewrite andb_true_r. apply existsb_exists. exists (vlan_item vid). split; auto. apply item_covers_refl. }
        rewrite C. reflexivity.
    Qed.
    Lemma flood_stays : forall f, f_table f = tf -> flow_good cfg f ->
      (forall vid, In (FlowMod (del_flood vid)) out -> del_hits (del_flood vid) f = false) -> flow_good cfg' f.
    Proof.
      intros f Tf [I [_ (_ & _ & Fr)]] ND. specialize (Fr Tf).
      destruct (tables_distinct cfg V) as (T1 & T2 & T3 & T4 & T5 & T6 & T7 & T8 & T9 & T0).
      assert (K : inst_ok cfg' (f_table f) (f_match f) (f_inst f) /\ frule cfg' f).
      { destruct Fr as [[E Nm]|(vid & Hv & Hm & Pp)].
        - split; [rewrite E; apply ok_empty|left; auto].
        - assert (N1 : ~ In vid vgone) by (intros X; destruct (flood_sent vid f (or_introl X) Tf Hm) as [D1 D3]; rewrite ND in D3; auto; discriminate).
          assert (N2 : ~ In vid vchanged) by (intros X; destruct (flood_sent vid f (or_intror X) Tf Hm) as [D1 D3]; rewrite ND in D3; auto; discriminate).
          split.
          + rewrite Tf in *. apply (flood_kept xp xv cfg ps vs V V' Gt _ _ vid); auto.
          + right. exists vid. split; auto. apply (vlan_kept xp xv cfg ps vs V V' vid Hv N1 N2). }
      destruct K as [K1 K2]. split; [exact K1|]. split; [cbn; intros X; exfalso; congruence|].
      split; [|split]; cbn; intros X; try (exfalso; congruence). exact K2.
    Qed.

    Lemma out_hits : forall p vid f ext, In p (d_ports cfg) -> f_table f = td ->
      f_inst f = trim [Apply (output_port cfg p vid false ext)] -> nonempty (port_vlans p) = true ->
      (In (pc_num p) gone \/ In (pc_num p) changed) ->
      exists d, In (FlowMod d) out /\ is_delete (FlowMod d) = true /\ del_hits d f = true.
    Proof.
      intros p vid f ext H Tf E NE X. exists (tb_del (d_tdst cfg) FDelete 0 [] (pc_num p)). split; [|split; [reflexivity|]].
      - apply (delete_sent sh ub ms out _ R); [|reflexivity|apply (bo_all ms B)|].
        + apply (bo_ports ms B p H X). unfold managers_del_port, switch_del_port. rewrite NE. unfold del_host_flows.
          apply in_app_iff; left. apply in_app_iff; left. apply in_app_iff; left. right; left; reflexivity.
        + intros w Hw Ww Ek. unfold flowmodkey in Ek. injection Ek as _ _ _ Et. destruct (bo_quiet ms B w Hw Ww). contradiction.
      - unfold del_hits. cbn [fm_cmd tb_del fm_table fm_match].
        assert (T : table_sel td f = true) by (unfold table_sel; rewrite Tf, Z.eqb_refl; apply orb_true_r).
        rewrite T. cbn [covers forallb andb]. unfold out_sel. cbn [fm_out_port fm_out_group tb_del].
        assert (O : outputs_to (pc_num p) f = true).
        { apply existsb_exists. exists (FloodModel.out (pc_num p)). split; [|cbn; apply Z.eqb_refl].
          unfold flow_actions. rewrite E. apply trim_keeps_output. unfold output_port. apply in_app_iff; right. left; reflexivity. }
        rewrite O, orb_true_r. reflexivity.
    Qed.

    Lemma survives : forall f, flow_good cfg f ->
      (forall d, In (FlowMod d) out -> is_delete (FlowMod d) = true -> del_hits d f = false) ->
      (forall w, In (FlowMod w) ms -> is_flow_write (FlowMod w) = true -> wslot w f = false) -> flow_good cfg' f.
    Proof.
      intros f G ND NW. assert (G' := G). destruct G as [I [Vr (Dr & Hr & Fr)]].
      destruct (tables_distinct cfg V) as (T1 & T2 & T3 & T4 & T5 & T6 & T7 & T8 & T9 & T0).
      destruct (Z.eq_dec (f_table f) tf) as [Tf|Nf]; [apply flood_stays; auto|].
      destruct (Z.eq_dec (f_table f) tv) as [Tv|Nv].
      { assert (K : vrule cfg' f).
        { specialize (Vr Tv). destruct Vr as [|p f H F|p H L].
          - apply (VR_default cfg').
          - destruct (in_dec pconf_eq_dec p (d_ports cfg')) as [Y|N]; [apply (VR_port cfg' p); auto; apply port_flow_kept; auto|].
            exfalso. pose proof (not_kept xp xv cfg ps vs V V' p H N) as X.
            pose proof (lag_stays xp xv cfg ps vs V V' Gt p H X) as L.
            destruct (deletes_each p f L F) as (d & D1 & D2 & D3 & D4 & D5 & D6).
            apply (bo_ports ms B p H X) in D1.
            assert (S : In (FlowMod d) out).
            { apply (delete_sent sh ub ms out d R D1 D2 (bo_all ms B)). intros w Hw Ww Ek. unfold flowmodkey in Ek.
              injection Ek as E1 _ E2 E3. specialize (NW w Hw Ww).
              assert (Z0 : wslot w f = true) by (apply wslot_spec; repeat split; congruence). congruence. }
            rewrite (ND d S D2) in D3. discriminate.
          - apply (VR_block cfg' p); auto. apply (gt_lag xp xv cfg cfg' Gt p H L). }
        split; [apply vrule_inst; auto|]. split; [auto|]. split; [|split]; cbn; intros X; exfalso; congruence. }
      destruct (Z.eq_dec (f_table f) ts) as [Ts|Ns].
      { split; [rewrite Ts in *; apply (src_kept xp xv cfg ps vs V Gt Hp); auto|].
        split; [cbn; intros X; exfalso; congruence|]. split; [|split]; cbn; intros X; exfalso; congruence. }
      destruct (Z.eq_dec (f_table f) td) as [Td|Nd].
      { assert (K : drule cfg' f).
        { specialize (Dr Td). destruct Dr as [E|(p & vid & ext & H & Hv & Hm & E)]; [left; exact E|].
          destruct (in_dec pconf_eq_dec p (d_ports cfg')) as [Y|N]; [right; exists p, vid, ext; auto|].
          exfalso. pose proof (not_kept xp xv cfg ps vs V V' p H N) as X.
          destruct (out_hits p vid f ext H Td E (vlans_nonempty p vid Hv) X) as (d & D1 & D2 & D3).
          rewrite (ND d D1 D2) in D3. discriminate. }
        split; [apply (drule_inst cfg' V'); auto|]. split; [cbn; intros X; exfalso; congruence|].
        split; [|split]; cbn; intros X; try (exfalso; congruence). exact K. }
      destruct (Z.eq_dec (f_table f) th) as [Th|Nh].
      { assert (K : hrule cfg' f).
        { specialize (Hr Th). destruct Hr as [E|(p & vid & ext & m & H & Hv & Hh & Hm & Hvi & E)]; [left; exact E|].
          right. exists p, vid, ext, m. split; auto. apply (gt_hairpin xp xv cfg cfg' Gt p H Hh). }
        split; [apply (hrule_inst cfg' V'); auto|]. split; [cbn; intros X; exfalso; congruence|].
        split; [|split]; cbn; intros X; try (exfalso; congruence). exact K. }
      split; [|split; [cbn; intros X; exfalso; congruence|split; [|split]; cbn; intros X; exfalso; congruence]].
      intros g live pk es pk' nx Hg Hk Mt Ex.
      (split; [|split; [|split; [|split]]]); cbn; intros; exfalso; congruence.
    Qed.

    Lemma reload_keeps : sw_inv cfg s -> sw_inv cfg' (apply_msgs out s).
    Proof.
      intros [SF SG]. split; [|intros M; destruct (gt_mode xp xv cfg cfg' Gt M)].
      intros f Hf.
      destruct (batch_sources sh ub ms out s (tb_cookie (d_tvlan cfg)) Hsh R (bo_none ms B) (bo_cookie ms B) f Hf)
        as [(w & Hw & C & ->)|(g & Hg & ND & [(w & Hw & C & Sl & ->)|(-> & NW)])].
      - apply (bo_add ms B w Hw C).
      - destruct (bo_mod ms B w Hw C) as (Tw & c & Hc & I & Fr). apply wslot_spec in Sl as (S1 & S2 & S3).
        destruct (tables_distinct cfg V) as (T1 & T2 & T3 & T4 & T5 & T6 & T7 & T8 & T9 & T0).
        assert (G : flow_good c (with_inst (fm_inst w) g)).
        { assert (Tc : f_table g = tb_id (d_tflood c) /\ tb_id (d_tflood c) = tf /\ tb_id (d_tdst c) = td /\ tb_id (d_thp c) = th /\ tb_id (d_tvlan c) = tv)
            by (destruct Hc as [-> | ->]; cbn; repeat split; congruence).
          destruct Tc as (Tc & C1 & C2 & C3 & C4).
          split; [cbn; rewrite Tc, C1, S3; exact I|]. split; [cbn; intros X; exfalso; congruence|].
          split; [|split]; cbn; intros X; try (exfalso; congruence).
          destruct Fr as [[F1 F2]|(vid & F1 & F2 & F3)]; cbn in *.
          * left. split; auto. cbn. intros vid E. apply (F2 vid). congruence.
          * right. exists vid. cbn. split; auto. split; congruence. }
        destruct Hc as [-> | ->]; [|exact G]. apply flood_stays; [cbn; congruence|exact G|].
        intros vid D1. exact (ND (del_flood vid) D1 eq_refl).
      - apply survives; auto.
    Qed.
  End Batch.

  (** ** The batch of a reload *)
  Definition mok (m : ofmsg) : Prop :=
    match m with
    | FlowMod w =>
        (fm_cmd w = FAdd -> flow_good cfg' (flow_of w)) /\
        (fm_cmd w = FModifyStrict -> fm_table w = tf /\ exists c, (c = cfg \/ c = cfg') /\
           inst_ok c tf (fm_match w) (fm_inst w) /\ frule c (flow_of w)) /\
        fm_cmd w <> FModify /\
        (is_flow_write m = true -> fm_cookie w = tb_cookie (d_tvlan cfg) /\ fm_table w <> td /\ fm_table w <> th) /\
        (is_delete m = true -> fm_table w <> OFPTT_ALL)
    | _ => True
    end.
  Lemma mok_ok : forall ms, Forall mok ms ->
    (forall p, In p (d_ports cfg) -> In (pc_num p) gone \/ In (pc_num p) changed -> incl (managers_del_port cfg p) ms) ->
    (forall vid, In vid vgone \/ In vid vchanged -> In (FlowMod (del_flood vid)) ms) -> batch_ok ms.
  Proof.
    intros ms H A C. rewrite Forall_forall in H.
    constructor; auto; intros w Hw; destruct (H _ Hw) as (H1 & H2 & H3 & H4 & H5); auto; intros X; apply H4; auto.
  Qed.

  Lemma new_mok : forall ms, Forall (msg_good cfg') ms -> regular cfg' ms -> Forall (df cfg') ms ->
    Forall (L2HostProofs.quiet cfg') ms -> Forall mok ms.
  Proof.
    intros ms G [Tw Tdl] D Q. rewrite Forall_forall in *. intros m Hm.
    specialize (G m Hm). specialize (Tw m Hm). specialize (Tdl m Hm). specialize (D m Hm). specialize (Q m Hm).
    destruct m as [w| | | | | | |]; try exact I. split; [|split; [|split; [|split]]].
    - intros C. apply (good_write cfg' (FlowMod w) w); auto.
    - intros C. destruct D as (_ & D1 & D2); [simpl; rewrite C; reflexivity|]. specialize (D1 C).
      split; [exact D1|]. exists cfg'. split; auto. simpl in G. rewrite C in G. 
      split; [assert (X : fm_table w = tf) by exact D1; rewrite <- X; exact G|]. apply D2. exact D1.
    - apply Tw.
    - intros Wr. destruct D as (D & _ & _); auto. split; [exact D|]. split; intros E; apply (proj2 Q); auto; unfold L2HostProofs.out_table; [left; exact E|right; exact E].
    - apply Tdl.
  Qed.
  Lemma del_mok : forall p, Forall mok (managers_del_port cfg p).
  Proof.
    intros p. pose proof (managers_del_only cfg p) as O. destruct (managers_del_reg cfg V p) as [R1 R2].
    rewrite Forall_forall in *. intros m Hm. specialize (O m Hm). specialize (R1 m Hm). specialize (R2 m Hm).
    destruct m as [w| | | | | | |]; try exact I. simpl in O. split; [|split; [|split; [|split]]].
    - intros C. rewrite C in O. discriminate O.
    - intros C. rewrite C in O. discriminate O.
    - apply R1.
    - simpl. intros C. rewrite O in C. discriminate C.
    - apply R2.
  Qed.
  Lemma update_mok : forall st vids, Forall mok (update_vlans cfg st vids).
  Proof.
    intros st vids.
    assert (NA : Forall (fun m => match m with FlowMod w => fm_cmd w <> FAdd | _ => True end) (update_vlans cfg st vids)).
    { apply Forall_flat_map, Forall_forall. intros vid _. destruct (find_vlan cfg vid) as [v|]; [|constructor].
      unfold flood_rules, multiout_flood_rules, mask_flood_rules, port_rule.
      apply Forall_app; split.
      - apply Forall_flat_map, Forall_forall. intros c _. apply Forall_app; split.
        + destruct (d_mode cfg); repeat constructor; discriminate.
        + apply Forall_flat_map, Forall_forall. intros q _. destruct (nonempty _); [|constructor].
          destruct (d_mode cfg); try (destruct (same_as_vlan _ _ _)); repeat constructor; discriminate.
      - destruct (d_mode cfg) eqn:M; [constructor|constructor|]. destruct (gt_mode xp xv cfg cfg' Gt M). }
    pose proof (update_vlans_good cfg V st vids) as G. pose proof (update_vlans_other cfg V st vids) as O.
    pose proof (update_vlans_df cfg V st vids) as D.
    pose proof (L2HostProofs.calm_quiet cfg _ _ (L2HostProofs.update_vlans_calm cfg V (fun _ => True) st vids)) as Q.
    rewrite Forall_forall in *. intros m Hm.
    specialize (NA m Hm). specialize (G m Hm). specialize (O m Hm). specialize (D m Hm). specialize (Q m Hm).
    destruct m as [w| | | | | | |]; try exact I. split; [|split; [|split; [|split]]].
    - contradiction.
    - intros C. destruct D as (_ & D1 & D2); [simpl; rewrite C; reflexivity|]. specialize (D1 C).
      split; [exact D1|]. exists cfg. split; auto. simpl in G. rewrite C in G.
      split; [assert (X : fm_table w = tf) by exact D1; rewrite <- X; exact G|]. apply D2. exact D1.
    - apply O.
    - intros Wr. destruct D as (D & _ & _); auto. split; [exact D|]. split; intros E; apply (proj2 Q); auto; unfold L2HostProofs.out_table; [left; exact E|right; exact E].
    - intros _. apply O.
  Qed.
  Lemma vlan_mok : forall c vids, d_tflood c = d_tflood cfg -> d_tsrc c = d_tsrc cfg -> Forall mok (flat_map (del_vlan_ofmsgs c) vids).
  Proof.
    intros c vids E1 E2. apply Forall_flat_map, Forall_forall. intros vid _. unfold del_vlan_ofmsgs. rewrite E1, E2.
    destruct (tables_other cfg V) as ((_ & A) & _ & _ & (_ & C) & _).
    repeat constructor; simpl; try discriminate; auto.
  Qed.

  Lemma ports_of_in : forall c ns p, In p (ports_of c ns) <-> In p (d_ports c) /\ In (pc_num p) ns.
  Proof. intros. unfold ports_of. rewrite filter_In, memZ_in. reflexivity. Qed.

  Lemma warm_ok : forall st st' ms, warm_reload xp xv cfg cfg' st = Some (st', ms) ->
    batch_ok ms /\ ds_running st' = ds_running st.
  Proof.
    intros st st' ms H. unfold warm_reload in H.
    destruct (ports_delete cfg false None st (ports_of cfg gone)) as [[st1 m1]|] eqn:E1; [|discriminate].
    destruct (ports_delete cfg false None st1 (ports_of cfg changed)) as [[st2 m2]|] eqn:E2; [|discriminate].
    unfold del_vlans in H.
    destruct (ports_add cfg' false _ (ports_of cfg' (filter _ (added_ports cfg cfg')))) as [st5 m5] eqn:E5.
    destruct (ports_add cfg' false st5 _) as [st6 m6] eqn:E6.
    assert (Hs : st' = fold_left reset_vlan vchanged st6) by congruence.
    assert (Hm : ms = m1 ++ m2 ++ flat_map (del_vlan_ofmsgs cfg) vgone ++ m5 ++ m6 ++ flat_map (del_vlan_ofmsgs cfg') vchanged ++
       add_vlans cfg' (fold_left reset_vlan vchanged st6) true vchanged) by congruence.
    clear H.
    assert (RR : forall l s0, ds_running (fold_left reset_vlan l s0) = ds_running s0) by (induction l; intros; simpl; [auto|rewrite IHl; reflexivity]).
    apply ports_delete_plain in E1 as [R1 [v1 X1]].
    2:{ intros p Hp1. apply ports_of_in in Hp1 as [P1 P2]. apply (lag_stays xp xv cfg ps vs V V' Gt p P1). auto. }
    apply ports_delete_plain in E2 as [R2 [v2 X2]].
    2:{ intros p Hp1. apply ports_of_in in Hp1 as [P1 P2]. apply (lag_stays xp xv cfg ps vs V V' Gt p P1). auto. }
    assert (S5 : forall p, In p (ports_of cfg' (filter (fun n => memZ n (ds_up (carry_over xp xv cfg cfg' st (fold_left reset_vlan vgone st2)))) (added_ports cfg cfg'))) -> In p (d_ports cfg'))
      by (intros p Y; apply ports_of_in in Y; tauto).
    assert (S6 : forall p, In p (ports_of cfg' (filter (fun n => memZ n (ds_up (carry_over xp xv cfg cfg' st (fold_left reset_vlan vgone st2)))) changed)) -> In p (d_ports cfg'))
      by (intros p Y; apply ports_of_in in Y; tauto).
    assert (N5 : Forall mok m5 /\ ds_running st5 = ds_running st2).
    { destruct (ports_add_reg cfg' V' _ _ _ _ _ S5 E5) as [A B]. split.
      - apply new_mok; [exact (ports_add_good cfg' V' _ _ _ _ _ S5 E5)|exact A|exact (ports_add_df cfg' V' _ _ _ _ _ E5)|].
        apply (L2HostProofs.calm_quiet cfg' (fun _ => True)).
        refine (proj1 (L2HostProofs.ports_add_calm cfg' V' (fun _ => True) _ _ _ _ _ _ E5)). intros p Y; split; [exact I|apply S5; exact Y].
      - rewrite B. cbn [carry_over ds_running]. apply RR. }
    assert (N6 : Forall mok m6 /\ ds_running st6 = ds_running st5).
    { destruct (ports_add_reg cfg' V' _ _ _ _ _ S6 E6) as [A B]. split; [|exact B].
      apply new_mok; [exact (ports_add_good cfg' V' _ _ _ _ _ S6 E6)|exact A|exact (ports_add_df cfg' V' _ _ _ _ _ E6)|].
      apply (L2HostProofs.calm_quiet cfg' (fun _ => True)).
      refine (proj1 (L2HostProofs.ports_add_calm cfg' V' (fun _ => True) _ _ _ _ _ _ E6)). intros p Y; split; [exact I|apply S6; exact Y]. }
    split.
    - apply mok_ok.
      + subst ms m1 m2. repeat (apply Forall_app; split); try apply update_mok; try apply vlan_mok; try reflexivity; try tauto.
        * apply Forall_flat_map, Forall_forall. intros p _. apply del_mok.
        * apply Forall_flat_map, Forall_forall. intros p _. apply del_mok.
        * apply new_mok; [apply add_vlans_good; auto|apply other_regular; auto; apply add_vlans_other; auto|apply add_vlans_df; auto|].
          apply (L2HostProofs.calm_quiet cfg' (fun _ => True)). apply L2HostProofs.add_vlans_calm; auto.
      + intros p P1 P2 m Hm0. subst ms m1 m2. rewrite !in_app_iff. destruct P2 as [P2|P2].
        * left. left. apply in_flat_map. exists p. split; auto. apply ports_of_in; auto.
        * right. left. left. apply in_flat_map. exists p. split; auto. apply ports_of_in; auto.
      + intros vid Hv. subst ms. rewrite !in_app_iff. destruct Hv as [Hv|Hv].
        * right; right; left. apply in_flat_map. exists vid. split; auto. left; reflexivity.
        * right; right; right; right; right; left. apply in_flat_map. exists vid. split; auto. left; reflexivity.
    - subst st'. rewrite RR. destruct N5, N6. congruence.
  Qed.
End Reload.

Lemma reload_inv : forall xp xv cfg ps vs st st' ms sh ub out s,
  valid_cfg cfg -> valid_cfg (reconf cfg ps vs) -> gentle xp xv cfg (reconf cfg ps vs) -> ds_running st = true ->
  reload_config xp xv cfg (reconf cfg ps vs) st = Some (st', Some ms) ->
  (forall l, Permutation (sh l) l) -> valve_flowreorder sh ub ms = Some out ->
  sw_inv cfg s -> sw_inv (reconf cfg ps vs) (apply_msgs out s).
Proof.
  intros xp xv cfg ps vs st st' ms sh ub out s V V' Gt Run H Hsh R I.
  unfold reload_config in H. destruct (restart_type xp xv cfg (reconf cfg ps vs)) eqn:RT.
  - injection H as <- <-. unfold restart_type in RT. destruct (_ || _) eqn:C in RT; [discriminate|].
    destruct (_ || _) eqn:W in RT; [discriminate|]. clear RT.
    apply orb_false_iff in C as [C _]. apply negb_false_iff, eqb_prop in C.
    apply orb_false_iff in W as [W W5]. apply orb_false_iff in W as [W W4]. apply orb_false_iff in W as [W W3].
    apply orb_false_iff in W as [W1 W2].
    assert (NE : forall A (l : list A), nonempty l = false -> l = []) by (intros A [|]; [auto|discriminate]).
    apply NE in W1, W2, W3, W4, W5.
    apply (reload_keeps xp xv cfg ps vs V V' Gt (eq_sym C) sh ub [] out s Hsh R); auto.
    apply mok_ok.
    + constructor.
    + intros p P1. rewrite W1, W2. intros [[]|[]].
    + intros vid. rewrite W4, W5. intros [[]|[]].
  - destruct (warm_reload xp xv cfg (reconf cfg ps vs) st) as [[st1 ms1]|] eqn:W; [|discriminate].
    unfold restart_type in RT. destruct (_ || _) eqn:C in RT; [discriminate|]. clear RT.
    apply orb_false_iff in C as [C _]. apply negb_false_iff, eqb_prop in C.
    destruct (warm_ok xp xv cfg ps vs V V' Gt st st1 ms1 W) as [B R1]. rewrite R1, Run in H. injection H as <- <-.
    apply (reload_keeps xp xv cfg ps vs V V' Gt (eq_sym C) sh ub ms1 out s Hsh R); auto.
  - discriminate.
Qed.

Lemma rreach_inv : forall cfg w, rreach gentle false cfg w ->
  valid_cfg cfg /\ sw_inv cfg (w_sw w) /\ forall q, In q (w_pins w) -> pin_ok cfg q.
Proof.
  intros cfg w R. induction R as
    [cfg st now ups sh ub out s0 V Hsh Hr|cfg w ps vs xp xv st ms sh ub out R (V & SI & PG) V' Gt Run Hc Hsh Hr
    |cfg w now ups sh ub out s0 R (V & SI & PG) Hsh Hr|cfg w ev st ms sh ub out R (V & SI & PG) HS Hc Hsh Hr
    |cfg w live pk es R (V & SI & PG) Hk Fk W|cfg w f l1 l2 R (V & SI & PG) E T]; cbn [w_sw w_pins].
  - split; auto. destruct (datapath_connect cfg st now ups) as [st' ms] eqn:E. simpl in Hr. split; [|intros q []].
    destruct (connect_good cfg V _ _ _ _ _ E) as [G [[d [Hd W]] Hg]]. destruct (connect_local cfg V _ _ _ _ _ E) as (_ & T & _).
    eapply flows_fresh; eauto. eapply connect_df; eauto.
  - split; auto. split; [|intros q []]. eapply reload_inv; eauto.
  - split; auto. destruct (datapath_connect cfg (w_ctl w) now ups) as [st' ms] eqn:E. simpl in Hr. split; [|exact PG].
    destruct (connect_good cfg V _ _ _ _ _ E) as [G [[d [Hd W]] Hg]]. destruct (connect_local cfg V _ _ _ _ _ E) as (_ & T & _).
    eapply flows_fresh; eauto. eapply connect_df; eauto.
  - split; auto. split; [|exact PG].
    assert (T : Forall (tv_w cfg) ms).
    { destruct (ds_running (w_ctl w)) eqn:Run.
      - destruct ev as [now ups|now|now n r d b|now n vid mac|now n sync|now];
          [destruct HS | | | | | ]; try (refine (proj1 (proj1 (proj2 (event_local cfg V (w_ctl w) _ st ms Run _ Hc)))); exact I).
        cbn [cstep] in Hc. destruct (datapath_disconnect cfg (w_ctl w) now); [|discriminate]. injection Hc as <- <-. constructor.
      - destruct ev as [now ups|now|now n r d b|now n vid mac|now n sync|now]; [destruct HS | | | | | ]; cbn [cstep] in Hc.
        + destruct (datapath_disconnect cfg (w_ctl w) now); [|discriminate]. injection Hc as <- <-. constructor.
        + rewrite Run in Hc. injection Hc as <- <-. constructor.
        + unfold rcv_vlan_packet in Hc. rewrite Run in Hc. injection Hc as <- <-. constructor.
        + unfold rcv_lacp in Hc. rewrite Run in Hc. injection Hc as <- <-. constructor.
        + unfold state_expire in Hc. rewrite Run in Hc. injection Hc as <- <-. constructor. }
    eapply flows_keep; eauto.
    + apply (step_good cfg V (w_ctl w) (w_pins w) ev st ms); auto.
    + apply (step_df cfg V (w_ctl w) (w_pins w) ev st ms); auto.
  - split; auto. split; auto. intros q Hq. apply in_app_iff in Hq as [Hq|Hq]; auto.
    eapply pins_walk; eauto. apply sw_inv_good; auto.
  - split; auto. destruct SI as [SF SG]. split; [|exact PG]. split; [|exact SG]. intros g Hg. apply SF. rewrite E.
    simpl in Hg. apply in_app_iff in Hg. apply in_app_iff. simpl. tauto.
Qed.

Lemma reload_isolation : forall cfg w live pk es, rreach gentle false cfg w -> frame_ok pk ->
  walk (w_sw w) live (tb_id (d_tvlan cfg)) pk es -> forall e, In e (wire (pk_in pk) es) -> may_leave cfg pk e.
Proof.
  intros cfg w live pk es R Hk W. destruct (rreach_inv cfg w R) as (V & SI & _).
  apply (isolation_walk cfg V (w_sw w) live); auto. apply sw_inv_good; auto.
Qed.
