(** * Reloading keeps every rule of the switch within the new configuration *)
From Coq Require Import ZArith List Bool Lia Permutation.
From Verif Require Import PyBase PyBaseProofs OpenFlow TrimModel TrimProofs TableModel ReorderModel ReorderSpec ReorderProofs
  BatchProofs SlotProofs FloodModel FloodSpec FloodProofs FloodRulesModel FloodRulesProofs HostCacheModel LearnModel
  L2Model L2Spec L2HostSpec L2PortSpec L2Proofs L2PortProofs L2PortInv L2ReloadModel L2ReloadSpec.
From Verif Require L2HostProofs.
Import ListNotations.
Open Scope Z_scope.

(** ** Where the flows of a switch come from after a batch *)

Definition slot_of (w : flowmod) : Z * Z * fmatch := (fm_table w, fm_prio w, fm_match w).
Definition mod_slots (l : list ofmsg) : list (Z * Z * fmatch) :=
  flat_map (fun m => match m with FlowMod w => [slot_of w] | _ => [] end) l.

Lemma mod_slots_in : forall l k, In k (mod_slots l) <-> exists w, In (FlowMod w) l /\ slot_of w = k.
Proof.
  intros l k. unfold mod_slots. rewrite in_flat_map. split.
  - intros [m [Hm H]]. destruct m as [w| | | | | | |]; try destruct H as [H|[]]; try destruct H; eauto.
  - intros [w [Hw E]]. exists (FlowMod w). split; auto. left; auto.
Qed.
Lemma mod_slots_app : forall a b, mod_slots (a ++ b) = mod_slots a ++ mod_slots b.
Proof. intros. apply flat_map_app. Qed.

Lemma writes_origin : forall l s,
  (forall x, In x l -> is_flow_write x = true) ->
  (forall w, In (FlowMod w) l -> fm_cmd w <> FModify) ->
  NoDup (mod_slots l) ->
  forall f, In f (sw_flows (apply_msgs l s)) ->
    (exists w, In (FlowMod w) l /\ fm_cmd w = FAdd /\ f = flow_of w) \/
    (exists g w, In g (sw_flows s) /\ In (FlowMod w) l /\ fm_cmd w = FModifyStrict /\ wslot w g = true /\ f = with_inst (fm_inst w) g) \/
    (In f (sw_flows s) /\ forall w, In (FlowMod w) l -> wslot w f = false).
Proof.
  induction l as [|x l IH] using rev_ind; intros s HW HM ND f Hf.
  { right; right. split; auto. intros w []. }
  rewrite mod_slots_app in ND. apply NoDup_app_iff_ in ND as [ND [_ DJ]].
  assert (I1 : forall y, In y l -> is_flow_write y = true) by (intros; apply HW, in_app_iff; auto).
  assert (I2 : forall w, In (FlowMod w) l -> fm_cmd w <> FModify) by (intros; apply HM, in_app_iff; auto).
  specialize (IH s I1 I2 ND).
  assert (Wx : is_flow_write x = true) by (apply HW, in_app_iff; right; left; auto).
  destruct x as [w| | | | | | |]; try discriminate.
  assert (Hx : In (FlowMod w) (l ++ [FlowMod w])) by (apply in_app_iff; right; left; auto).
  assert (Fr : forall w', In (FlowMod w') l -> slot_of w' <> slot_of w).
  { intros w' Hw' E. apply (DJ (slot_of w')); [apply mod_slots_in; eauto|]. rewrite E. left. reflexivity. }
  rewrite apply_msgs_app in Hf. cbn [apply_msgs fold_left] in Hf. change (fold_left (fun s0 m => apply_msg m s0) l s) with (apply_msgs l s) in Hf.
  assert (Cw : fm_cmd w = FAdd \/ fm_cmd w = FModifyStrict).
  { pose proof (HM w Hx). simpl in Wx. destruct (fm_cmd w); try discriminate; auto; congruence. }
  assert (K : In f (sw_flows (apply_msgs l s)) -> wslot w f = false ->
    (exists w0, In (FlowMod w0) (l ++ [FlowMod w]) /\ fm_cmd w0 = FAdd /\ f = flow_of w0) \/
    (exists g w0, In g (sw_flows s) /\ In (FlowMod w0) (l ++ [FlowMod w]) /\ fm_cmd w0 = FModifyStrict /\ wslot w0 g = true /\ f = with_inst (fm_inst w0) g) \/
    (In f (sw_flows s) /\ forall w0, In (FlowMod w0) (l ++ [FlowMod w]) -> wslot w0 f = false)).
  { intros H N. destruct (IH f H) as [[w0 [A B]]|[[g [w0 [A [B C]]]]|[A B]]].
    - left. exists w0. rewrite in_app_iff. auto.
    - right; left. exists g, w0. rewrite in_app_iff. auto.
    - right; right. split; auto. intros w0 H0. apply in_app_iff in H0 as [H0|[H0|[]]]; auto. injection H0 as <-; auto. }
  simpl in Hf. unfold apply_flowmod in Hf. destruct Cw as [C|C]; rewrite C in Hf.
  - apply in_app_iff in Hf as [Hf|[<-|[]]].
    + apply filter_In in Hf as [Hf N]. apply negb_true_iff in N. apply K; auto.
    + left. exists w. auto.
  - apply in_map_iff in Hf as [g [E Hg]]. destruct (same_slot (fm_table w) (fm_prio w) (fm_match w) g) eqn:Sl.
    2:{ subst g. apply K; auto. }
    apply (wslot_spec w g) in Sl. destruct Sl as (S1 & S2 & S3).
    destruct (IH g Hg) as [[w0 [A [B ->]]]|[[g0 [w0 [A [B [D [E0 ->]]]]]]|[A B]]].
    + exfalso. apply (Fr w0 A). unfold slot_of. cbn in S1, S2, S3. congruence.
    + exfalso. apply (Fr w0 B). apply (wslot_spec w0 g0) in E0 as (T1 & T2 & T3). unfold slot_of. cbn in S1, S2, S3. congruence.
    + right; left. exists g, w. repeat split; auto. apply (wslot_spec w g). auto.
Qed.

Section Origin.
  Variables (sh : list ofmsg -> list ofmsg) (ub : bool) (ms out : list ofmsg) (s : switch) (ck : Z).
  Hypothesis Hsh : forall l, Permutation (sh l) l.
  Hypothesis R : valve_flowreorder sh ub ms = Some out.
  Hypothesis NM : forall w, In (FlowMod w) ms -> fm_cmd w <> FModify.
  Hypothesis CK : forall w, In (FlowMod w) ms -> is_flow_write (FlowMod w) = true -> fm_cookie w = ck.

  Lemma p_adds_mods : forall x, In x (p_adds ms) -> exists w, x = FlowMod w /\ In (FlowMod w) ms /\ is_flow_write (FlowMod w) = true.
  Proof.
    intros x Hx. apply p_adds_sub in Hx as [Hx K]. apply kind_flow_write in K.
    destruct x as [w| | | | | | |]; try discriminate. eauto.
  Qed.

  Lemma slots_of_keys : forall l,
    (forall x, In x l -> exists w, x = FlowMod w /\ fm_cookie w = ck) ->
    NoDup (map none_flowmodkey l) -> NoDup (mod_slots l).
  Proof.
    induction l as [|x l IH]; intros H ND; [constructor|].
    destruct (H x (or_introl eq_refl)) as [w [-> Cw]]. cbn [map] in ND. inversion ND as [|a b N1 N2]; subst.
    cbn [mod_slots flat_map app]. constructor.
    - intros I. apply mod_slots_in in I as [w' [Hw' E]]. apply N1. apply in_map_iff. exists (FlowMod w'). split; auto.
      destruct (H (FlowMod w') (or_intror Hw')) as [w2 [E2 C2]]. injection E2 as <-. cbn. unfold flowmodkey. unfold slot_of in E.
      injection E as E3 E4 E5. congruence.
    - apply IH; auto. intros y Hy. apply H. right; auto.
  Qed.

  Lemma p_adds_slots : NoDup (mod_slots (p_adds ms)).
  Proof.
    apply slots_of_keys.
    - intros x Hx. destruct (p_adds_mods x Hx) as [w [-> [A B]]]. exists w. split; auto.
    - unfold p_adds, sort_flows. eapply Permutation_NoDup; [apply Permutation_map, py_sorted_perm|].
      apply (dict_of_vals_keys okey_eqb okey_eqb_spec).
  Qed.

  Lemma batch_sources : forall f, In f (sw_flows (apply_msgs out s)) ->
    (exists w, In (FlowMod w) ms /\ fm_cmd w = FAdd /\ f = flow_of w) \/
    (exists g, In g (sw_flows s) /\ (forall d, In (FlowMod d) out -> is_delete (FlowMod d) = true -> del_hits d g = false) /\
      ((exists w, In (FlowMod w) ms /\ fm_cmd w = FModifyStrict /\ wslot w g = true /\ f = with_inst (fm_inst w) g) \/
       (f = g /\ forall w, In (FlowMod w) ms -> is_flow_write (FlowMod w) = true -> wslot w g = false))).
  Proof.
    intros f Hf. destruct (reorder_pieces sh ub ms out R) as [d [Hd E]]. rewrite E in Hf.
    assert (Q : forall k x, k <> KFlowAddMod -> k <> KDelGlobal -> k <> KDelete ->
       In x (p_simple ms k) -> is_flow_write x = false /\ is_delete x = false).
    { intros k x K1 K2 K3 Hx. apply p_simple_kind in Hx as [_ K]. split.
      - destruct (is_flow_write x) eqn:Ex; auto. apply kind_flow_write in Ex. congruence.
      - destruct (is_delete x) eqn:Ex; auto. apply kind_delete in Ex. destruct Ex; congruence. }
    assert (Qp : forall x, In x (sh (dedupe_str (of_kind ms KPacketOut))) -> is_flow_write x = false /\ is_delete x = false).
    { intros x Hx. apply (perm_sub sh Hsh), dedupe_str_in, of_kind_in in Hx as [_ K]. split.
      - destruct (is_flow_write x) eqn:Ex; auto. apply kind_flow_write in Ex. congruence.
      - destruct (is_delete x) eqn:Ex; auto. apply kind_delete in Ex. destruct Ex; congruence. }
    assert (Dd : forall x, In x (p_dels ms d) -> is_delete x = true).
    { intros x Hx. apply (p_dels_kind _ _ _ Hd) in Hx as [_ K]. apply kind_delete; auto. }
    assert (Dg : forall x, In x (p_dg ms) -> is_delete x = true).
    { intros x Hx. unfold p_dg in Hx. apply simple_in, of_kind_in in Hx as [_ K]. apply kind_delete; auto. }
    assert (Da : forall x, In x (p_adds ms) -> is_delete x = false).
    { intros x Hx. destruct (p_adds_mods x Hx) as [w [-> [_ B]]]. simpl in *. destruct (fm_cmd w); auto; discriminate. }
    repeat rewrite apply_msgs_app in Hf. rewrite !apply_with_barrier in Hf.
    rewrite (no_flow_change (sh _)) in Hf by auto.
    rewrite (no_flow_change (p_simple ms KOther)) in Hf by (intros x Hx; apply (Q KOther); auto; discriminate).
    assert (Old : forall g, In g (sw_flows (apply_msgs (p_simple ms KMeterAdd) (apply_msgs (p_simple ms KGroupAdd)
        (apply_msgs (p_simple ms KTfm) (apply_msgs (p_dels ms d) (apply_msgs (p_dg ms) (apply_msgs (p_simple ms KConfig) s))))))) ->
      In g (sw_flows s) /\ (forall d, In (FlowMod d) out -> is_delete (FlowMod d) = true -> del_hits d g = false)).
    { intros g Hg.
      rewrite (no_flow_change (p_simple ms KMeterAdd)) in Hg by (intros x Hx; apply (Q KMeterAdd); auto; discriminate).
      rewrite (no_flow_change (p_simple ms KGroupAdd)) in Hg by (intros x Hx; apply (Q KGroupAdd); auto; discriminate).
      rewrite (no_flow_change (p_simple ms KTfm)) in Hg by (intros x Hx; apply (Q KTfm); auto; discriminate).
      rewrite (proj1 (apply_deletes (p_dels ms d) _ Dd) g), (proj1 (apply_deletes (p_dg ms) _ Dg) g) in Hg.
      rewrite (no_flow_change (p_simple ms KConfig)) in Hg by (intros x Hx; apply (Q KConfig); auto; discriminate).
      destruct Hg as [[A B] C]. split; auto. intros d0 Hx Dx. rewrite E in Hx.
      assert (X : In (FlowMod d0) (p_dg ms) \/ In (FlowMod d0) (p_dels ms d)).
      { rewrite !in_app_iff, !with_barrier_in in Hx.
        repeat (destruct Hx as [Hx|Hx]); try tauto;
          try (exfalso; match type of Hx with In _ (p_simple ms ?k) => destruct (Q k (FlowMod d0)) as [_ Y]; auto; try discriminate; congruence end);
          try (destruct Hx as [Hx _]; discriminate).
        - exfalso. rewrite Da in Dx by auto. discriminate.
        - exfalso. destruct (Qp _ Hx). congruence. }
      destruct X as [X|X]; [specialize (B _ X)|specialize (C _ X)]; auto. }
    apply writes_origin in Hf.
    - destruct Hf as [[w [A B]]|[[g [w [A [B C]]]]|[A B]]].
      + left. apply p_adds_sub in A as [A _]. eauto.
      + right. destruct (Old g A) as [O1 O2]. exists g. repeat split; auto. left. apply p_adds_sub in B as [B _]. exists w. tauto.
      + right. destruct (Old f A) as [O1 O2]. exists f. repeat split; auto. right. split; auto.
        intros w Hw Ww.
        assert (Hk : In (FlowMod w) (of_kind ms KFlowAddMod)) by (apply of_kind_in; split; auto; apply kind_flow_write; auto).
        destruct (dict_of_covers okey_eqb okey_eqb_spec none_flowmodkey _ _ Hk) as [y [Hy Ey]].
        change (In y (dedupe_key (of_kind ms KFlowAddMod))) in Hy.
        destruct y as [wy| | | | | | |]; try discriminate. specialize (B wy ltac:(unfold p_adds, sort_flows; apply py_sorted_in; exact Hy)).
        cbn in Ey. injection Ey as E1 _ E2 E3. rewrite <- B. unfold wslot. congruence.
    - intros x Hx. destruct (p_adds_mods x Hx) as [w [-> [_ B]]]. auto.
    - intros w Hw. apply p_adds_sub in Hw as [Hw _]. auto.
    - apply p_adds_slots.
  Qed.
End Origin.

(** ** The form of the rules a configuration installs *)
Section Rules.
  Variable cfg : dconf.
  Hypothesis V : valid_cfg cfg.

  Local Notation tv := (tb_id (d_tvlan cfg)).
  Local Notation ts := (tb_id (d_tsrc cfg)).
  Local Notation th := (tb_id (d_thp cfg)).
  Local Notation td := (tb_id (d_tdst cfg)).
  Local Notation tf := (tb_id (d_tflood cfg)).

  (** rules that output to the port of a host *)
  Definition drule (f : flow) : Prop :=
    f_inst f = trim [goto (d_tflood cfg)] \/
    exists p vid ext, In p (d_ports cfg) /\ In vid (port_vlans p) /\ In (vlan_item vid) (f_match f) /\
      f_inst f = trim [Apply (output_port cfg p vid false ext)].
  Definition hrule (f : flow) : Prop :=
    f_inst f = trim [goto (d_tdst cfg)] \/
    exists p vid ext r, In p (d_ports cfg) /\ In vid (port_vlans p) /\ hairpinning p = true /\
      f_match f = exact InPort (pc_num p) :: r /\ In (vlan_item vid) r /\
      f_inst f = trim [Apply (output_port cfg p vid true ext)].
  (** rules that flood *)
  Definition frule (f : flow) : Prop :=
    (f_inst f = trim [] /\ forall vid, f_match f <> [vlan_item vid]) \/
    exists vid, In vid (vlan_vids cfg) /\ In (vlan_item vid) (f_match f) /\ 0 < f_prio f.
  Definition rules_ok (f : flow) : Prop :=
    (f_table f = td -> drule f) /\ (f_table f = th -> hrule f) /\ (f_table f = tf -> frule f).

  Definition df (m : ofmsg) : Prop :=
    match m with
    | FlowMod w => is_flow_write m = true ->
        fm_cookie w = tb_cookie (d_tvlan cfg) /\
        (fm_cmd w = FModifyStrict -> fm_table w = tf) /\ rules_ok (flow_of w)
    | _ => True
    end.

  Lemma df_plain : forall t cmd prio m i h idle, t = d_tvlan cfg \/ t = d_tsrc cfg -> cmd <> FModifyStrict ->
    df (FlowMod (tb_write t cmd prio m i h idle)).
  Proof.
    intros t cmd prio m i h idle Ht Hc _. destruct (tables_distinct cfg V) as (A & B & C & D & E & F & G & H & I & J).
    split; [apply (vc_cookie cfg V); destruct Ht as [-> | ->]; simpl; auto|]. split; [contradiction|].
    unfold rules_ok. cbn. destruct Ht as [-> | ->]; (split; [|split]); intros X; exfalso; congruence.
  Qed.
  Lemma df_del : forall t cmd prio m o, cmd = FDelete \/ cmd = FDeleteStrict -> df (FlowMod (tb_del t cmd prio m o)).
  Proof. intros t cmd prio m o [-> | ->] X; discriminate X. Qed.
  Lemma df_flood : forall cmd prio m i vid, In vid (vlan_vids cfg) -> In (vlan_item vid) m -> 0 < prio ->
    df (FlowMod (tb_write (d_tflood cfg) cmd prio m i 0 0)).
  Proof.
    intros cmd prio m i vid Hv Hm Hp _. destruct (tables_distinct cfg V) as (A & B & C & D & E & F & G & H & I & J).
    split; [apply (vc_cookie cfg V); simpl; auto 6|]. split; [reflexivity|].
    split; [|split]; cbn; intros X; try (exfalso; congruence). right. exists vid. auto.
  Qed.

  Ltac fq := repeat match goal with
    | |- Forall _ [] => apply Forall_nil
    | |- Forall _ (_ :: _) => apply Forall_cons
    | |- Forall _ (_ ++ _) => apply Forall_app; split
    end.
  Ltac qt := first [apply df_del; solve [auto] | apply df_plain; [solve [auto] | discriminate]].

  Lemma class_prio_pos : forall r c, In c (flood_dsts r) -> 0 < class_prio c.
  Proof. intros [] c H; cbn in H; repeat (destruct H as [<-|H]; [reflexivity|]); destruct H. Qed.

  Lemma flood_df : forall cmd cold st v, In v (d_vlans cfg) ->
    Forall df (flood_rules (d_tflood cfg) (d_mode cfg) (any_restricted cfg) cmd cold (snap_vlan cfg st v)).
  Proof.
    intros cmd cold st v Hv.
    assert (Hvid : In (vc_vid v) (vlan_vids cfg)) by (apply in_map; auto).
    assert (M : forall c, In (vlan_item (vc_vid v)) (vlan_match (vc_vid v) c)) by (intros; apply in_app_iff; right; left; auto).
    assert (CP : forall c, In c (vlan_classes (any_restricted cfg) (snap_vlan cfg st v)) -> 0 < class_prio c).
    { intros c Hc. apply filter_In in Hc as [Hc _]. eapply class_prio_pos; eauto. }
    unfold flood_rules. apply Forall_app; split.
    - unfold multiout_flood_rules. apply Forall_flat_map, Forall_forall. intros c Hc. specialize (CP c Hc).
      unfold mask_flood_rules. apply Forall_app; split.
      + destruct (d_mode cfg); fq. apply (df_flood _ _ _ _ (vc_vid v)); auto; apply M.
      + apply Forall_flat_map, Forall_forall. intros q _. unfold port_rule.
        assert (X : df (flood_rule (d_tflood cfg) cmd (port_match (vc_vid v) (p_num q) c) (class_prio c + 1)
           (class_port_acts (snap_vlan cfg st v) c q))).
        { apply (df_flood _ _ _ _ (vc_vid v)); auto; [right; apply M|lia]. }
        destruct (nonempty _); [|constructor].
        destruct (d_mode cfg); try (destruct (same_as_vlan (snap_vlan cfg st v) c q)); try (destruct cold); fq; try exact X; apply df_del; auto.
    - destruct (d_mode cfg); [constructor|constructor|]. unfold group_flood_rules. cbv zeta. unfold group_add.
      apply Forall_app; split; [repeat constructor|]. apply Forall_app; split; [repeat constructor|].
      apply Forall_map, Forall_forall. intros c Hc. apply (df_flood _ _ _ _ (vc_vid v)); auto; apply M.
  Qed.
  Lemma add_vlans_df : forall st cold vids, Forall df (add_vlans cfg st cold vids).
  Proof.
    intros st cold vids. apply Forall_flat_map, Forall_forall. intros vid _. destruct (find_vlan cfg vid) as [v|] eqn:Ev; [|constructor].
    apply (find_vlan_in cfg) in Ev as [Hv _].
    unfold add_vlan. fq; [destruct (d_drop_spoof cfg); fq; qt|qt|apply flood_df; auto].
  Qed.
  Lemma update_vlans_df : forall st vids, Forall df (update_vlans cfg st vids).
  Proof.
    intros st vids. apply Forall_flat_map, Forall_forall. intros vid _. destruct (find_vlan cfg vid) as [v|] eqn:Ev; [|constructor].
    apply (find_vlan_in cfg) in Ev as [Hv _]. apply flood_df; auto.
  Qed.
  Lemma switch_add_df : forall p, Forall df (switch_add_port cfg p).
  Proof.
    intros p. unfold switch_add_port. destruct (nonempty _); [|constructor]. fq.
    - apply Forall_map, Forall_forall. intros; qt.
    - destruct (pc_native p); [|destruct (pc_count_miss p)]; fq; qt.
    - destruct (_ =? _); fq; qt.
  Qed.
  Lemma managers_add_df : forall p, Forall df (managers_add_port cfg p).
  Proof.
    intros p. unfold managers_add_port, lldp_add_port, outonly_add_port. fq; [apply switch_add_df| |];
      [destruct (pc_lldp p)|destruct (pc_output_only p)]; fq; qt.
  Qed.
  Lemma switch_del_df : forall p, Forall df (switch_del_port cfg p).
  Proof.
    intros p. unfold switch_del_port, del_host_flows. destruct (nonempty _) eqn:Nv; [|constructor]. fq; try qt.
    - destruct (has_hairpin cfg); fq. qt.
    - destruct (pc_native p); [|destruct (pc_count_miss p)]; fq; qt.
    - apply Forall_map, Forall_forall. intros; qt.
    - destruct (_ =? _); fq; qt.
  Qed.
  Lemma managers_del_df : forall p, Forall df (managers_del_port cfg p).
  Proof.
    intros p. unfold managers_del_port, lldp_del_port, outonly_del_port. fq; [apply switch_del_df; auto| |];
      [destruct (pc_lldp p)|destruct (pc_output_only p)]; fq; qt.
  Qed.
  Lemma lacp_update_df : forall st p up now pkt cold st' ms,
    lacp_update cfg st p up now pkt cold = (st', ms) -> Forall df ms.
  Proof.
    intros st p up now pkt cold st' ms H.
    assert (A : forall st1, Forall df (enable_forwarding cfg p :: add_vlans cfg st1 false (port_vlans p))).
    { intros. fq; [qt|apply add_vlans_df]. }
    assert (B : forall st1, Forall df (disable_forwarding cfg p ::
      (if cold then [] else switch_del_port cfg p ++ switch_add_port cfg p ++ add_vlans cfg st1 false (port_vlans p)))).
    { intros. apply Forall_cons; [qt|]. destruct cold; fq;
      [apply switch_del_df|apply switch_add_df|apply add_vlans_df]; auto. }
    unfold lacp_update in H.
    destruct (actor_eq_dec _ _); [destruct (role_eq_dec _ _)|]; injection H as <- <-; auto; destruct (is_sel _ && is_up _); auto.
  Qed.
  Lemma ports_add_df : forall cold st l st' ms, ports_add cfg cold st l = (st', ms) -> Forall df ms.
  Proof.
    intros cold st l st' ms H. unfold ports_add in H.
    destruct (ports_add_each cfg cold st l) as [st1 ms1] eqn:E. injection H as <- <-.
    assert (K : Forall df ms1).
    { revert st st1 ms1 E. induction l as [|p l IH]; intros st st1 ms1 E; simpl in E.
      - injection E as <- <-. constructor.
      - destruct (port_add_one cfg cold st p) as [sa ma] eqn:Ea.
        destruct (ports_add_each cfg cold sa l) as [sb mb] eqn:Eb. injection E as <- <-.
        apply Forall_app; split; [|eauto].
        unfold port_add_one in Ea. destruct (port_running _ _); [|injection Ea as <- <-; constructor].
        destruct (pc_lacp p =? 0); [injection Ea as <- <-; apply managers_add_df|].
        destruct (lacp_update _ _ _ _ _ _ _) as [sc mc] eqn:Ec. injection Ea as <- <-.
        apply Forall_app; split; [apply managers_add_df|]. eapply lacp_update_df; eauto. }
    apply Forall_app; split; auto. destruct cold; [constructor|apply add_vlans_df].
  Qed.
  Lemma ports_delete_df : forall keep now st l st' ms, ports_delete cfg keep now st l = Some (st', ms) -> Forall df ms.
  Proof.
    intros keep now st l st' ms H. unfold ports_delete in H.
    destruct (ports_delete_each cfg keep now st l) as [[st1 ms1]|] eqn:E; [|discriminate]. injection H as <- <-.
    apply Forall_app; split; [|apply update_vlans_df].
    generalize dependent ms1. generalize dependent st1. revert st. induction l as [|p l IH]; intros st st1 ms1 E; cbn [ports_delete_each] in E.
    - injection E as <- <-. constructor.
    - destruct (port_delete_one cfg keep now st p) as [[sa ma]|] eqn:Ea; [|discriminate].
      destruct (ports_delete_each cfg keep now sa l) as [[sb mb]|] eqn:Eb; [|discriminate]. injection E as <- <-.
      apply Forall_app; split; [|eauto].
      unfold port_delete_one in Ea. cbv zeta in Ea. destruct (pc_lacp p =? 0).
      + destruct keep; [injection Ea as <- <-; apply managers_del_df|].
        destruct (clear_vlans _ _ _); [|discriminate]. injection Ea as <- <-. apply managers_del_df.
      + injection Ea as Ea. eapply lacp_update_df; eauto.
  Qed.
  Lemma lacp_expire_df : forall now l st st' ms, lacp_expire_each cfg st now l = (st', ms) -> Forall df ms.
  Proof.
    intros now. induction l as [|p l IH]; intros st st' ms H; cbn [lacp_expire_each] in H.
    - injection H as <- <-. constructor.
    - destruct (lacp_update cfg st p false (Some now) false false) as [s1 m1] eqn:E1.
      destruct (lacp_expire_each cfg s1 now l) as [s2 m2] eqn:E2. injection H as <- <-.
      apply Forall_app; split; [eapply lacp_update_df; eauto|eauto].
  Qed.

  (** learning *)
  Definition host_ok (vid n : Z) (m : host_msg) : Prop :=
    match m with
    | MDst w k _ _ | MDstNonExt w k _ _ => w = vid /\ k = n
    | MHairpin w k _ _ => w = vid /\ k = n /\ port_attr cfg hairpinning false n = true
    | _ => True
    end.
  Lemma learn_ok : forall l now vid n mac l' hs,
    vlan_rcv_packet (learn_cfg cfg) l now vid n mac = Some (l', hs) -> Forall (host_ok vid n) hs.
  Proof.
    intros l now vid n mac l' hs H. unfold vlan_rcv_packet in H.
    assert (B : Forall (host_ok vid n) (ban_rules (learn_cfg cfg) l vid n mac)).
    { unfold ban_rules. destruct (cached_host _ _); [constructor|].
      apply Forall_app; split; destruct (_ && _); repeat constructor. }
    destruct (ban_rules (learn_cfg cfg) l vid n mac) as [|b bs]; [|injection H as <- <-; exact B].
    unfold learn_host in H.
    assert (K : Forall (host_ok vid n) (ck_msgs (learn_host_on_vlan_ports (learn_cfg cfg) l now n vid mac))).
    { unfold learn_host_on_vlan_ports.
      assert (P : forall e m p a b, Forall (host_ok vid n) (ck_msgs (perm_learn_check (learn_cfg cfg) e m p a b))).
      { intros e m p a b. unfold perm_learn_check. destruct e as [x|]; [|constructor]. destruct (c_perm _ _); [|constructor].
        simpl. destruct (_ =? _); repeat constructor. }
      assert (Q : forall e p a b, Forall (host_ok vid n) (ck_msgs (learn_cache_check (learn_cfg cfg) l now e p a b))).
      { intros e p a b. unfold learn_cache_check. destruct e as [x|]; [|constructor].
        repeat match goal with |- context [if ?c then _ else _] => destruct c end; constructor. }
      assert (R : forall e p a b, Forall (host_ok vid n) (ck_msgs (loop_protect_check (learn_cfg cfg) l now e p a b))).
      { intros e p a b. unfold loop_protect_check. destruct (_ && _); repeat constructor. }
      cbv zeta. destruct (ck_exit _); [apply P|]. destruct (ck_exit _); [apply Q|]. destruct (ck_exit _); [apply R|].
      unfold learn_check. cbn [ck_msgs]. unfold learn_flows. destruct (learn_host_timeouts _ _ _) as [[a b] c].
      apply Forall_app; split; [destruct (ck_delete _); repeat constructor|]. constructor; [simpl; auto|].
      destruct (_ && _); [constructor|]. constructor; [simpl; auto|]. apply Forall_app; split.
      - destruct (_ && _); repeat constructor.
      - destruct (c_hairpin _ _) eqn:Hh; repeat constructor. exact Hh. }
    destruct (ck_update _).
    - destruct (add_cache_host _ _ _ _); [|discriminate]. injection H as <- <-. exact K.
    - injection H as <- <-. exact K.
  Qed.

  Lemma member_vlan : forall p vid, In p (d_ports cfg) -> member cfg vid (pc_num p) -> In vid (port_vlans p).
  Proof.
    intros p vid Hp Hmem. unfold port_vlans.
    destruct Hmem as [[q [A [B C]]]|[q [A [B C]]]]; assert (q = p) by (apply (nums_inj cfg V); auto); subst q;
      [apply in_app_iff; auto|rewrite C; left; auto].
  Qed.

  Lemma host_df : forall vid n m, host_ok vid n m -> member cfg vid n -> Forall df (host_ofmsgs cfg m).
  Proof.
    intros vid n m Ho Hm. destruct (tables_distinct cfg V) as (A & B & C & D & E & F & G & H & I & J).
    destruct m as [w mac|w k mac h i|w k mac i|w k mac i|w k mac i|k|w|mac k]; cbn [host_ofmsgs]; simpl in Ho.
    - fq; try qt. destruct (has_hairpin cfg); fq. qt.
    - fq. qt.
    - destruct Ho as [-> ->]. destruct (find_port cfg n) as [p|] eqn:Ep; fq. apply find_port_in in Ep as [Hp <-].
      intros _. split; [apply (vc_cookie cfg V); simpl; auto|]. split; [discriminate|].
      unfold rules_ok. cbn [f_table flow_of fm_table tb_write]. (split; [|split]); intros X; try (exfalso; congruence).
      right. exists p, vid, (has_externals cfg). split; [exact Hp|]. split; [apply member_vlan; auto|]. split; [right; left; reflexivity|reflexivity].
    - destruct Ho as [-> ->]. destruct (find_port cfg n) as [p|] eqn:Ep; fq. apply find_port_in in Ep as [Hp <-].
      intros _. split; [apply (vc_cookie cfg V); simpl; auto|]. split; [discriminate|].
      unfold rules_ok. cbn [f_table flow_of fm_table tb_write]. (split; [|split]); intros X; try (exfalso; congruence).
      right. exists p, vid, (has_externals cfg). split; [exact Hp|]. split; [apply member_vlan; auto|]. split; [right; left; reflexivity|reflexivity].
    - destruct Ho as [-> [-> Hh]]. destruct (find_port cfg n) as [p|] eqn:Ep; fq. unfold port_attr in Hh. rewrite Ep in Hh.
      apply find_port_in in Ep as [Hp <-].
      intros _. split; [apply (vc_cookie cfg V); simpl; auto|]. split; [discriminate|].
      unfold rules_ok. cbn [f_table flow_of fm_table tb_write]. (split; [|split]); intros X; try (exfalso; congruence).
      right. exists p, vid, false. eexists. split; [exact Hp|]. split; [apply member_vlan; auto|]. split; [exact Hh|]. split; [reflexivity|].
      split; [right; left; reflexivity|reflexivity].
    - fq. qt.
    - fq. qt.
    - fq. qt.
  Qed.

  Lemma step_df : forall st pins ev st' ms, (forall q, In q pins -> pin_ok cfg q) ->
    (forall s, sent_by_switch (mkWorld st s pins) ev) ->
    cstep cfg st ev = Some (st', ms) -> Forall df ms.
  Proof.
    intros st pins ev st' ms HP HS H. destruct ev as [now ups|now|now n reason down blocked|now n vid mac|now n sync|now];
      cbn [cstep] in H.
    - destruct (HS empty_switch).
    - destruct (datapath_disconnect cfg st now); [|discriminate]. injection H as <- <-. constructor.
    - destruct (ds_running st); [|injection H as <- <-; constructor].
      unfold port_status_handler in H. cbv zeta in H.
      destruct (find_port cfg n) as [p|] eqn:E; [|injection H as <- <-; constructor].
      destruct (negb (pc_opstatus p)); [injection H as <- <-; constructor|].
      assert (K : forall b st1, (if eqb b (ds_phys st1 n)
           then if b && (blocked || down) then ports_delete cfg true None st1 [p] else Some (st1, [])
           else if b then Some (ports_add cfg false st1 [p]) else ports_delete cfg true None st1 [p]) = Some (st', ms) ->
           Forall df ms).
      { clear H. intros b st1 X. destruct (eqb b (ds_phys st1 n)).
        - destruct (b && (blocked || down)); [eapply ports_delete_df; eauto|injection X as <- <-; constructor].
        - destruct b; [|eapply ports_delete_df; eauto]. injection X as X. eapply ports_add_df; eauto. }
      destruct reason; try (eapply K; exact H). injection H as <- <-; constructor.
    - unfold rcv_vlan_packet in H. destruct (negb _); [injection H as <- <-; constructor|].
      destruct (find_port cfg n) as [p|] eqn:Ep; [|injection H as <- <-; constructor].
      destruct (find_vlan cfg vid) as [v|] eqn:Ev; [|injection H as <- <-; constructor].
      destruct (learnable_mac mac); [|injection H as <- <-; constructor].
      destruct (vlan_rcv_packet (learn_cfg cfg) (ds_learn st) now vid n mac) as [[l hs]|] eqn:E; [|discriminate].
      injection H as <- <-. apply learn_ok in E.
      destruct (HS empty_switch) as [q [pcp [r [Hq [<- [Ht _]]]]]]. simpl in Hq.
      pose proof (HP q Hq _ _ _ Ht) as M.
      rewrite Forall_forall in E. apply Forall_flat_map, Forall_forall. intros h Hh. specialize (E h Hh).
      eapply host_df; eauto.
    - injection H as H. unfold rcv_lacp in H. destruct (negb _); [injection H as <- <-; constructor|].
      destruct (find_port cfg n) as [p|] eqn:E; [|injection H as <- <-; constructor].
      destruct (pc_lacp p =? 0); [injection H as <- <-; constructor|].
      eapply lacp_update_df; eauto.
    - unfold state_expire in H. destruct (negb (ds_running st)); [injection H as <- <-; constructor|].
      destruct (lacp_expire_each cfg st now _) as [s1 m1] eqn:E1.
      destruct (hosts_expire_each cfg (ds_learn s1) now _) as [[l hs]|] eqn:E2; [|discriminate]. injection H as <- <-.
      apply Forall_app; split.
      + eapply lacp_expire_df; exact E1.
      + apply (expire_about cfg) in E2. rewrite Forall_forall in E2. apply Forall_flat_map, Forall_forall. intros h Hh.
        specialize (E2 h Hh). destruct h; try contradiction. cbn [host_ofmsgs]. fq; try qt. destruct (has_hairpin cfg); fq. qt.
  Qed.

  Lemma connect_df : forall st now ups st' ms, datapath_connect cfg st now ups = (st', ms) -> Forall df ms.
  Proof.
    intros st now ups st' ms H. unfold datapath_connect in H. cbv zeta in H.
    destruct (ports_add cfg true _ _) as [s2 m2] eqn:E.
    assert (E2 : ms = delete_all_msgs cfg ++ default_msgs cfg ++ init_msgs cfg ++ [ConfigMsg 0] ++ m2
                      ++ add_vlans cfg s2 true (map vc_vid (d_vlans cfg))) by congruence.
    clear H. subst ms. destruct (tables_distinct cfg V) as (A & B & C & D & E1 & F & G & H & I & J).
    assert (NV : forall i vid, i <> vlan_item vid -> [i] <> [vlan_item vid]) by (intros i vid N X; injection X; auto).
    fq.
    - unfold delete_all_msgs. apply Forall_cons; [qt|]. destruct (d_mode cfg); fq; simpl; auto.
    - unfold default_msgs. cbv zeta. fq; try qt.
      + destruct (has_hairpin cfg); fq. intros _. split; [apply (vc_cookie cfg V); simpl; auto|]. split; [discriminate|].
        (split; [|split]); cbn; intros X; try (exfalso; congruence). left; reflexivity.
      + intros _. split; [apply (vc_cookie cfg V); simpl; auto|]. split; [discriminate|].
        (split; [|split]); cbn; intros X; try (exfalso; congruence). left; reflexivity.
      + intros _. split; [apply (vc_cookie cfg V); simpl; auto 6|]. split; [discriminate|].
        (split; [|split]); cbn; intros X; try (exfalso; congruence). left; split; [reflexivity|]. cbn. discriminate.
    - unfold init_msgs. fq; try qt; [destruct (d_drop_bcast cfg); fq; qt|].
      unfold initialise_msgs. apply Forall_map, Forall_forall. intros dm _.
      intros _. split; [apply (vc_cookie cfg V); simpl; auto 6|]. split; [discriminate|].
      (split; [|split]); cbn; intros X; try (exfalso; congruence). left; split; [reflexivity|]. intros vid.
      cbn. apply NV. unfold vlan_item. destruct (vid =? OFPVID_NONE); discriminate.
    - simpl; auto.
    - eapply ports_add_df; eauto.
    - apply add_vlans_df.
  Qed.

  (** ** The invariant under one configuration *)
  Definition flow_good (f : flow) : Prop :=
    inst_ok cfg (f_table f) (f_match f) (f_inst f) /\ (f_table f = tv -> vrule cfg f) /\ rules_ok f.
  Definition sw_inv (s : switch) : Prop :=
    (forall f, In f (sw_flows s) -> flow_good f) /\
    (d_mode cfg = Grouped -> forall g, In g (sw_groups s) -> group_good cfg g).
  Lemma sw_inv_good : forall s, sw_inv s -> switch_good cfg s.
  Proof. intros s [A B]. split; auto. intros f Hf. apply (A f Hf). Qed.
  Lemma flows_keep : forall sh ub ms out s, (forall l, Permutation (sh l) l) -> valve_flowreorder sh ub ms = Some out ->
    Forall (msg_good cfg) ms -> Forall (tv_w cfg) ms -> Forall df ms -> sw_inv s -> sw_inv (apply_msgs out s).
  Proof.
    intros sh ub ms out s Hsh R G T D [SF SG].
    assert (SW : switch_good cfg s) by (split; auto; intros f Hf; apply (SF f Hf)).
    pose proof (batch_keeps cfg sh ub ms out s Hsh R G SW) as [K1 K2].
    split; [|exact K2]. intros f Hf. split; [apply K1; auto|]. split.
    - intros Tf. revert Hf Tf. apply (batch_vrules cfg sh ub ms out s Hsh R T). intros g Hg. apply (SF g Hg).
    - revert f Hf. rewrite Forall_forall in D, T.
      assert (S : forall w, In (FlowMod w) out -> In (FlowMod w) ms).
      { intros w Hw. destruct (reorder_invents_nothing_lemma sh ub ms out (FlowMod w) Hsh R Hw) as [E|E]; auto. discriminate. }
      apply (apply_msgs_inv rules_ok).
      + intros w Hw C. destruct (D _ (S _ Hw)) as (_ & _ & X); [simpl; rewrite C; reflexivity|exact X].
      + intros w f Hw C Sl Rf. destruct (D _ (S _ Hw)) as (_ & Y & X); [simpl; rewrite C; reflexivity|].
        apply wslot_spec in Sl as (S1 & S2 & S3). specialize (Y C). destruct (tables_distinct cfg V) as (_ & _ & _ & _ & _ & _ & _ & _ & I & J).
        split; [|split]; cbn; intros Tf; try (exfalso; congruence).
        destruct X as (_ & _ & X). specialize (X Y). destruct X as [[X1 X2]|(vid & X1 & X2 & X3)]; cbn in *.
        * left. split; auto. intros vid E. cbn in E. apply (X2 vid). congruence.
        * right. exists vid. cbn. split; auto. split; congruence.
      + intros w Hw. apply (T _ (S _ Hw)).
      + intros f Hf. apply (SF f Hf).
  Qed.
  Lemma flows_fresh : forall sh ub ms out s d, (forall l, Permutation (sh l) l) -> valve_flowreorder sh ub ms = Some out ->
    Forall (msg_good cfg) ms -> Forall (tv_w cfg) ms -> Forall df ms -> In (FlowMod d) ms -> wipes d ->
    (d_mode cfg = Grouped -> exists g, In (GroupMod GDelete g) ms /\ g_id g = OFPG_ALL) ->
    sw_inv (apply_msgs out s).
  Proof.
    intros sh ub ms out s d Hsh R G T D Hd W Hg.
    pose proof (batch_fresh_good cfg sh ub ms out s d Hsh R G Hd W Hg) as [K1 K2].
    split; [|exact K2].
    destruct (wipe_split sh ub ms out s d R Hd W) as [post [s1 [E1 [Eo [E2 P]]]]].
    rewrite Forall_forall in D, T.
    assert (S : forall w, In (FlowMod w) post -> In (FlowMod w) ms).
    { intros w Hw. destruct (reorder_invents_nothing_lemma sh ub ms out (FlowMod w) Hsh R (P _ Hw)) as [E|E]; auto. discriminate. }
    assert (RR : forall f, In f (sw_flows (apply_msgs out s)) -> (f_table f = tv -> vrule cfg f) /\ rules_ok f).
    { rewrite Eo. apply (apply_msgs_inv (fun f => (f_table f = tv -> vrule cfg f) /\ rules_ok f)).
      + intros w Hw C. destruct (D _ (S _ Hw)) as (_ & _ & X); [simpl; rewrite C; reflexivity|]. split; [|exact X].
        intros Tw. destruct (T _ (S _ Hw)) as [_ Y]. apply Y; auto. simpl. rewrite C. reflexivity.
      + intros w f Hw C Sl Rf. destruct (D _ (S _ Hw)) as (_ & Y & X); [simpl; rewrite C; reflexivity|].
        apply wslot_spec in Sl as (S1 & S2 & S3). specialize (Y C). destruct (tables_distinct cfg V) as (_ & _ & _ & TV & _ & _ & _ & _ & I & J).
        split; [cbn; intros Tf; exfalso; congruence|].
        split; [|split]; cbn; intros Tf; try (exfalso; congruence).
        destruct X as (_ & _ & X). specialize (X Y). destruct X as [[X1 X2]|(vid & X1 & X2 & X3)]; cbn in *.
        * left. split; auto. intros vid E. cbn in E. apply (X2 vid). congruence.
        * right. exists vid. cbn. split; auto. split; congruence.
      + intros w Hw. apply (T _ (S _ Hw)).
      + rewrite E1. intros f []. }
    intros f Hf. split; [apply K1; auto|]. apply RR; auto.
  Qed.
End Rules.

(** ** One reload *)
Section Reload.
  Variables (xp xv : list Z) (cfg : dconf) (ps : list pconf) (vs : list vconf).
  Local Notation cfg' := (reconf cfg ps vs).
  Hypothesis V : valid_cfg cfg.
  Hypothesis V' : valid_cfg cfg'.
  Hypothesis Gt : gentle xp xv cfg cfg'.
  Hypothesis Hp : has_hairpin cfg' = has_hairpin cfg.

  Local Notation tv := (tb_id (d_tvlan cfg)).
  Local Notation ts := (tb_id (d_tsrc cfg)).
  Local Notation th := (tb_id (d_thp cfg)).
  Local Notation td := (tb_id (d_tdst cfg)).
  Local Notation tf := (tb_id (d_tflood cfg)).
  Local Notation gone := (deleted_ports cfg cfg').
  Local Notation changed := (changed_ports xp xv cfg cfg').
  Local Notation vgone := (deleted_vids cfg cfg').
  Local Notation vchanged := (changed_vids xp xv cfg cfg').

  Lemma memZ_nums : forall c n, memZ n (port_nums c) = true <-> exists p, In p (d_ports c) /\ pc_num p = n.
  Proof.
    intros c n. rewrite memZ_in. unfold port_nums. rewrite in_map_iff. split; intros [p [A B]]; eauto.
  Qed.
  Lemma own_vlans : forall p q, own_conf p = own_conf q -> port_vlans p = port_vlans q.
  Proof.
    intros p q E. unfold port_vlans. change (pc_native p) with (pc_native (own_conf p)). change (pc_tagged p) with (pc_tagged (own_conf p)).
    rewrite E. reflexivity.
  Qed.
  Lemma own_mirror : forall p q, own_conf p = own_conf q -> pc_mirror p = pc_mirror q -> p = q.
  Proof.
    intros [] [] E M. unfold own_conf in E. cbn in *. subst. injection E; intros; subst. reflexivity.
  Qed.

  Lemma same_port_spec : forall p p', In p (d_ports cfg) -> In p' (d_ports cfg') -> pc_num p' = pc_num p ->
    same_port xp cfg cfg' (pc_num p) = true -> own_conf p = own_conf p'.
  Proof.
    intros p p' H H' E S. unfold same_port in S. rewrite (find_port_some cfg V p H) in S. rewrite <- E in S at 1.
    rewrite (find_port_some cfg' V' p' H') in S. apply andb_true_iff in S as [_ S]. destruct (pconf_eq_dec _ _); auto. discriminate.
  Qed.

  (** a port that is not in the new configuration as it was is one of those that
      are taken down *)
  Lemma not_kept : forall p, In p (d_ports cfg) -> ~ In p (d_ports cfg') -> In (pc_num p) gone \/ In (pc_num p) changed.
  Proof.
    intros p H N. destruct (memZ (pc_num p) (port_nums cfg')) eqn:M.
    - right. apply filter_In. assert (M' := M). apply memZ_nums in M' as [p' [H' E]]. split; [apply memZ_in; exact M|].
      destruct (memZ (pc_num p) (changed_ports0 xp xv cfg cfg')) eqn:C; [reflexivity|]. cbn [orb].
      assert (S : same_port xp cfg cfg' (pc_num p) = true).
      { destruct (same_port xp cfg cfg' (pc_num p)) eqn:S; auto. exfalso.
        assert (X : memZ (pc_num p) (changed_ports0 xp xv cfg cfg') = true); [|congruence].
        apply memZ_in. apply filter_In. split; [apply memZ_in; exact M|]. rewrite S.
        replace (memZ (pc_num p) (port_nums cfg)) with true; [reflexivity|]. symmetry. apply memZ_nums. eauto. }
      pose proof (same_port_spec p p' H H' E S) as Eo.
      unfold mirror_changed. rewrite (find_port_some cfg V p H). rewrite <- E at 1. rewrite (find_port_some cfg' V' p' H'), S.
      destruct (list_eq_dec Z.eq_dec (pc_mirror p) (pc_mirror p')) as [Em|Em]; [|reflexivity].
      exfalso. apply N. rewrite (own_mirror p p' Eo Em). exact H'.
    - left. apply filter_In. split; [apply in_map; auto|]. rewrite M. reflexivity.
  Qed.

  (** LAG ports are not taken down *)
  Lemma lag_stays : forall p, In p (d_ports cfg) -> In (pc_num p) gone \/ In (pc_num p) changed -> pc_lacp p = 0.
  Proof.
    intros p H X. destruct (Z.eq_dec (pc_lacp p) 0) as [L|L]; auto. exfalso.
    destruct (gt_lag xp xv cfg cfg' Gt p H L) as [H' [Nx Sv]].
    assert (S : same_port xp cfg cfg' (pc_num p) = true).
    { unfold same_port. rewrite (find_port_some cfg V p H), (find_port_some cfg' V' p H').
      destruct (memZ (pc_num p) xp) eqn:Mx; [apply memZ_in in Mx; contradiction|]. destruct (pconf_eq_dec _ _); [reflexivity|contradiction]. }
    destruct X as [X|X].
    - apply filter_In in X as [_ X]. replace (memZ (pc_num p) (port_nums cfg')) with true in X; [discriminate|].
      symmetry. apply memZ_nums. eauto.
    - apply filter_In in X as [_ X]. apply orb_true_iff in X as [X|X].
      + apply memZ_in in X. apply filter_In in X as [_ X]. rewrite S, andb_false_r in X. cbn [orb] in X.
        rewrite (find_port_some cfg' V' p H') in X. apply existsb_exists in X as [vid [Hv X]]. apply memZ_in in X.
        apply filter_In in X as [_ X]. destruct (Sv vid Hv) as [Nv Ev]. unfold same_vlan in X. rewrite Ev in X.
        destruct (find_vlan cfg vid) as [v|] eqn:F.
        * destruct (memZ vid xv) eqn:Mx; [apply memZ_in in Mx; contradiction|]. destruct (vconf_eq_dec v v); [discriminate|contradiction].
        * pose proof (vc_member cfg V p vid H Hv) as I. apply in_map_iff in I as [v [E I]]. pose proof (find_none _ _ F v I) as Y.
          simpl in Y. rewrite E, Z.eqb_refl in Y. discriminate.
      + unfold mirror_changed in X. rewrite (find_port_some cfg V p H), (find_port_some cfg' V' p H') in X.
        destruct (list_eq_dec Z.eq_dec (pc_mirror p) (pc_mirror p)); [|contradiction]. rewrite andb_false_r in X. discriminate.
  Qed.

  (** a VLAN that is not rebuilt keeps its members *)
  Lemma vlan_kept : forall vid, In vid (vlan_vids cfg) -> ~ In vid vgone -> ~ In vid vchanged ->
    In vid (vlan_vids cfg') /\
    forall p, In p (d_ports cfg) -> In vid (port_vlans p) ->
      exists p', In p' (d_ports cfg') /\ pc_num p' = pc_num p /\ In vid (port_vlans p').
  Proof.
    intros vid Hv N1 N2.
    assert (Hv' : memZ vid (vlan_vids cfg') = true).
    { destruct (memZ vid (vlan_vids cfg')) eqn:M; auto. exfalso. apply N1. apply filter_In. rewrite M. auto. }
    split; [apply memZ_in; auto|]. intros p H Hpv.
    assert (K : (memZ vid (changed_vids0 xv cfg cfg') || existsb (vlan_moved cfg cfg' vid) (changed_ports0 xp xv cfg cfg')
                     || existsb (on_port cfg vid) gone || existsb (on_port cfg' vid) (added_ports cfg cfg')) = false).
    { match goal with |- ?x = false => destruct x eqn:E; auto end. exfalso. apply N2. apply filter_In. split; [apply memZ_in; auto|exact E]. }
    apply orb_false_iff in K as [K _]. apply orb_false_iff in K as [K K3]. apply orb_false_iff in K as [_ K2].
    destruct (memZ (pc_num p) (port_nums cfg')) eqn:M.
    - assert (M' := M). apply memZ_nums in M' as [p' [H' E]]. exists p'. split; auto. split; auto.
      destruct (same_port xp cfg cfg' (pc_num p)) eqn:S.
      + rewrite <- (own_vlans p p'); auto. apply same_port_spec; auto.
      + assert (X : vlan_moved cfg cfg' vid (pc_num p) = false).
        { destruct (vlan_moved cfg cfg' vid (pc_num p)) eqn:X; auto. rewrite <- K2. symmetry. apply existsb_exists. exists (pc_num p). split; auto.
          apply filter_In. split; [apply memZ_in; auto|]. rewrite S.
          replace (memZ (pc_num p) (port_nums cfg)) with true; [reflexivity|]. symmetry. apply memZ_nums. eauto. }
        unfold vlan_moved in X. rewrite (find_port_some cfg V p H) in X. rewrite <- E in X at 1. rewrite (find_port_some cfg' V' p' H') in X.
        apply xorb_eq in X. apply memZ_in. rewrite <- X. apply memZ_in. auto.
    - exfalso. assert (X : existsb (on_port cfg vid) gone = true); [|congruence].
      apply existsb_exists. exists (pc_num p). split; [apply filter_In; split; [apply in_map; auto|rewrite M; reflexivity]|].
      unfold on_port. rewrite (find_port_some cfg V p H). apply memZ_in; auto.
  Qed.

  Lemma native_vlans : forall p vid, In p (d_ports cfg) -> pc_native p = Some vid -> In vid (port_vlans p).
  Proof. intros p vid _ E. unfold port_vlans. rewrite E. left; auto. Qed.

  Lemma out_ok_kept : forall vid h r e, In vid (vlan_vids cfg) -> ~ In vid vgone -> ~ In vid vchanged ->
    out_ok cfg vid h r e -> out_ok cfg' vid h r e.
  Proof.
    intros vid h r e Hv N1 N2 [A B]. destruct (vlan_kept vid Hv N1 N2) as [_ K]. split; auto.
    destruct B as [[[p [P1 [P2 P3]]] B]|[[[p [P1 [P2 P3]]] B]|[p [P1 [P2 P3]]]]].
    - left. split; [|exact B]. assert (Q : In vid (port_vlans p)) by (apply in_tagged; auto).
      destruct (K p P1 Q) as [p' [Q1 [Q2 Q3]]]. exists p'. split; auto. split; [congruence|].
      destruct (gt_tagging xp xv cfg cfg' Gt p p' vid P1 Q1 Q2 Q Q3) as [_ T].
      unfold port_vlans in Q3. destruct (pc_native p') as [w|] eqn:W; [|exact Q3]. destruct Q3 as [->|Q3]; [|exact Q3]. exfalso.
      specialize (T eq_refl). pose proof (vc_once cfg V p P1) as O. unfold port_vlans in O. rewrite T in O. inversion O; contradiction.
    - right; left. split; [|exact B]. assert (Q : In vid (port_vlans p)) by (apply in_native; auto).
      destruct (K p P1 Q) as [p' [Q1 [Q2 Q3]]]. exists p'. split; auto. split; [congruence|].
      apply (gt_tagging xp xv cfg cfg' Gt p p' vid P1 Q1 Q2 Q Q3); auto.
    - right; right. destruct (K p P1 P3) as [p' [Q1 [Q2 Q3]]]. exists p'. split; auto. split; auto.
      apply (gt_mirror xp xv cfg cfg' Gt p p' P1 Q1 Q2); auto.
  Qed.

  Lemma lookup_any : forall g, lookup_good cfg g.
  Proof. intros g M. destruct (gt_mode xp xv cfg cfg' Gt M). Qed.

  (** rules of the flood table *)
  Lemma flood_kept : forall m i vid, In vid (vlan_vids cfg) -> ~ In vid vgone -> ~ In vid vchanged -> In (vlan_item vid) m ->
    inst_ok cfg tf m i -> inst_ok cfg' tf m i.
  Proof.
    intros m i vid Hv N1 N2 Hm I g live pk es pk' nx Hg Hk Mt Ex.
    destruct (I g live pk es pk' nx (lookup_any g) Hk Mt Ex) as (_ & _ & _ & _ & X).
    destruct (tables_distinct cfg V) as (T1 & T2 & T3 & T4 & T5 & T6 & T7 & T8 & T9 & T0).
    assert (Rv : 0 < vid < 4096) by (apply in_map_iff in Hv as [v [<- Hv]]; apply (vc_vrange cfg V v Hv)).
    (split; [|split; [|split; [|split]]]); cbn; intros; try (exfalso; congruence).
    assert (Mv : item_matches pk (vlan_item vid) = true) by (unfold matches in Mt; rewrite forallb_forall in Mt; auto).
    apply (proj1 (vlan_item_match pk vid v pcp r Rv (proj2 Hk _ _ _ H) H)) in Mv. subst v.
    destruct (X vid pcp r H eq_refl) as [Y Z0]. split; auto. intros e He. apply out_ok_kept; auto.
  Qed.
  (** rules of the source table *)
  Lemma src_kept : forall m i, inst_ok cfg ts m i -> inst_ok cfg' ts m i.
  Proof.
    intros m i I g live pk es pk' nx Hg Hk Mt Ex.
    destruct (I g live pk es pk' nx (lookup_any g) Hk Mt Ex) as (_ & X & _).
    destruct (tables_distinct cfg V) as (T1 & T2 & T3 & T4 & T5 & T6 & T7 & T8 & T9 & T0).
    (split; [|split; [|split; [|split]]]); cbn; intros; try (exfalso; congruence).
    specialize (X eq_refl). unfold src_post in *. rewrite Hp. exact X.
  Qed.
End Reload.
