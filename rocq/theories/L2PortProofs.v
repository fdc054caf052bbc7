(** * The VLAN table: which port rules are installed after any history *)
From Coq Require Import ZArith List Bool Lia Permutation.
From Verif Require Import PyBase PyBaseProofs OpenFlow TrimModel TrimProofs TableModel ReorderModel ReorderSpec ReorderProofs BatchProofs SlotProofs FloodModel FloodSpec FloodProofs FloodRulesModel FloodRulesProofs HostCacheModel LearnModel L2Model L2Spec L2PortSpec L2Proofs.
Import ListNotations.
Open Scope Z_scope.

Lemma item_covers_refl : forall i, item_covers i i = true.
Proof.
  intros [f [v m]]. simpl. rewrite Z.land_diag, !Z.eqb_refl. unfold field_eqb. destruct (field_eq_dec f f); auto.
Qed.
Lemma covers_refl : forall m, covers m m = true.
Proof.
  intros m. apply forallb_forall. intros i Hi. apply existsb_exists. exists i. split; auto. apply item_covers_refl.
Qed.

Section Ports.
  Variable cfg : dconf.
  Hypothesis V : valid_cfg cfg.
  Local Notation tv := (tb_id (d_tvlan cfg)).
  Local Notation ts := (tb_id (d_tsrc cfg)).
  Local Notation th := (tb_id (d_thp cfg)).
  Local Notation td := (tb_id (d_tdst cfg)).
  Local Notation tf := (tb_id (d_tflood cfg)).

  (** ** The flows of the VLAN table *)
  Definition push_flow (p : pconf) (vid : Z) (push : bool) : flow :=
    match port_vlan_rule cfg p vid push with FlowMod w => flow_of w | _ => mkFlow 0 0 [] 0 [] 0 0 0 end.
  Definition miss_flow (p : pconf) : flow :=
    flow_of (tb_drop (d_tvlan cfg) LOW_PRIORITY [exact InPort (pc_num p); vlan_item OFPVID_NONE] 0).
  Definition lacp_flow (p : pconf) : flow := flow_of (tb_controller (d_tvlan cfg) (d_highest cfg) (lacp_match p) [] 124).
  Definition lldp_flow (p : pconf) : flow := flow_of (tb_controller (d_tvlan cfg) (d_highest cfg) (lldp_match p) [] 128).
  Definition outonly_flow (p : pconf) : flow := flow_of (tb_drop (d_tvlan cfg) (d_highest cfg) [exact InPort (pc_num p)] 0).
  Definition block_flow (p : pconf) : flow := flow_of (tb_drop (d_tvlan cfg) (d_high cfg) [exact InPort (pc_num p)] 0).
  Definition default_flow : flow := flow_of (tb_drop (d_tvlan cfg) (d_lowest cfg) [] 0).

  (** the rules that let frames of port [p] in *)
  Inductive entry_flow (p : pconf) : flow -> Prop :=
  | EF_tagged : forall vid, In vid (pc_tagged p) -> entry_flow p (push_flow p vid false)
  | EF_native : forall vid, pc_native p = Some vid -> entry_flow p (push_flow p vid true)
  | EF_miss : pc_native p = None -> pc_count_miss p = true -> nonempty (port_vlans p) = true -> entry_flow p (miss_flow p).
  Inductive port_flow (p : pconf) : flow -> Prop :=
  | PF_entry : forall f, entry_flow p f -> port_flow p f
  | PF_lacp : pc_lacp p <> 0 -> nonempty (port_vlans p) = true -> port_flow p (lacp_flow p)
  | PF_lldp : pc_lldp p = true -> port_flow p (lldp_flow p)
  | PF_out : pc_output_only p = true -> port_flow p (outonly_flow p).
  Inductive vrule : flow -> Prop :=
  | VR_default : vrule default_flow
  | VR_port : forall p f, In p (d_ports cfg) -> port_flow p f -> vrule f
  | VR_block : forall p, In p (d_ports cfg) -> pc_lacp p <> 0 -> vrule (block_flow p).

  Lemma in_native : forall p vid, pc_native p = Some vid -> In vid (port_vlans p).
  Proof. intros p vid H. unfold port_vlans. rewrite H. left; auto. Qed.
  Lemma in_tagged : forall p vid, In vid (pc_tagged p) -> In vid (port_vlans p).
  Proof. intros p vid H. unfold port_vlans. apply in_app_iff; auto. Qed.
  Lemma vlans_nonempty : forall p vid, In vid (port_vlans p) -> nonempty (port_vlans p) = true.
  Proof. intros p vid H. destruct (port_vlans p); auto; destruct H. Qed.

  Lemma add_writes : forall p w, In (FlowMod w) (managers_add_port cfg p) -> port_flow p (flow_of w) /\ fm_cmd w = FAdd.
  Proof.
    intros p w H. unfold managers_add_port in H. apply in_app_iff in H as [H|H].
    - unfold switch_add_port in H. destruct (nonempty (port_vlans p)) eqn:NE; [|destruct H].
      apply in_app_iff in H as [H|H]; [|apply in_app_iff in H as [H|H]].
      + apply in_map_iff in H as [vid [E H]]. unfold port_vlan_rule in E. injection E as <-.
        split; [|reflexivity]. apply PF_entry. apply (EF_tagged p vid); auto.
      + destruct (pc_native p) as [vid|] eqn:N.
        * destruct H as [H|[]]. unfold port_vlan_rule in H. injection H as <-. split; [|reflexivity].
          apply PF_entry. apply (EF_native p vid); auto.
        * destruct (pc_count_miss p) eqn:C; [|destruct H]. destruct H as [H|[]]. injection H as <-. split; [|reflexivity].
          apply PF_entry, EF_miss; auto.
      + destruct (Z.eqb_spec (pc_lacp p) 0) as [Z0|Z0]; [destruct H|]. destruct H as [H|[]]. injection H as <-. split; [|reflexivity].
        apply PF_lacp; auto.
    - apply in_app_iff in H as [H|H].
      + unfold lldp_add_port in H. destruct (pc_lldp p) eqn:L; [|destruct H]. destruct H as [H|[]]. injection H as <-.
        split; [|reflexivity]. apply PF_lldp; auto.
      + unfold outonly_add_port in H. destruct (pc_output_only p) eqn:L; [|destruct H]. destruct H as [H|[]]. injection H as <-.
        split; [|reflexivity]. apply PF_out; auto.
  Qed.
  Lemma add_covers : forall p f, port_flow p f -> exists w, In (FlowMod w) (managers_add_port cfg p) /\ f = flow_of w.
  Proof.
    intros p f H. unfold managers_add_port. destruct H as [f H|L NE|L|L].
    - assert (X : exists w, In (FlowMod w) (switch_add_port cfg p) /\ f = flow_of w).
      { unfold switch_add_port. destruct H as [vid Hv|vid Hv|N C NE].
        - rewrite (vlans_nonempty p vid) by (apply in_tagged; auto). eexists. split; [|reflexivity].
          apply in_app_iff; left. apply in_map_iff. exists vid. split; [reflexivity|auto].
        - rewrite (vlans_nonempty p vid) by (apply in_native; auto). rewrite Hv. eexists. split; [|reflexivity].
          apply in_app_iff; right. left. reflexivity.
        - rewrite NE, N, C. eexists. split; [|reflexivity]. apply in_app_iff; right. left. reflexivity. }
      destruct X as [w [A B]]. exists w. split; auto. apply in_app_iff; auto.
    - eexists. split; [|reflexivity]. apply in_app_iff; left. unfold switch_add_port. rewrite NE.
      apply in_app_iff; right. apply in_app_iff; right. destruct (Z.eqb_spec (pc_lacp p) 0); [contradiction|]. left; reflexivity.
    - eexists. split; [|reflexivity]. apply in_app_iff; right. apply in_app_iff; left. unfold lldp_add_port. rewrite L. left; reflexivity.
    - eexists. split; [|reflexivity]. apply in_app_iff; right. apply in_app_iff; right. unfold outonly_add_port. rewrite L. left; reflexivity.
  Qed.

  Lemma port_flow_form : forall p f, port_flow p f -> f_table f = tv /\ exists r, f_match f = exact InPort (pc_num p) :: r.
  Proof.
    intros p f [f0 [vid Hv|vid Hv|N C NE]|L NE|L|L]; (split; [reflexivity|eexists; reflexivity]).
  Qed.
  Lemma vrule_form : forall f, vrule f -> f_table f = tv /\
    (f = default_flow \/ exists p r, In p (d_ports cfg) /\ f_match f = exact InPort (pc_num p) :: r /\
       (port_flow p f \/ pc_lacp p <> 0 /\ f = block_flow p)).
  Proof.
    intros f [|p f0 Hp H|p Hp H].
    - split; [reflexivity|auto].
    - destruct (port_flow_form p f0 H) as [A [r B]]. split; auto. right. exists p, r. auto.
    - split; [reflexivity|]. right. exists p, []. auto.
  Qed.

  Lemma vlan_item_none : forall vid, 0 < vid < 4096 -> vlan_item vid <> vlan_item OFPVID_NONE.
  Proof. intros vid H E. rewrite vlan_item_eq in E by auto. unfold vlan_item in E. simpl in E. unfold exact, OFPVID_NONE in E. injection E. lia. Qed.

  Lemma port_slot : forall p f g, In p (d_ports cfg) -> port_flow p f -> port_flow p g ->
    f_prio f = f_prio g -> f_match f = f_match g -> f = g.
  Proof.
    intros p f g Hp Hf Hg EP EM.
    assert (VR := fun vid H => vids_range cfg V p vid Hp H).
    destruct Hf as [f [vid Hv|vid Hv|N C NE]|L NE|L|L]; destruct Hg as [g [vid' Hv'|vid' Hv'|N' C' NE']|L' NE'|L'|L'];
      try reflexivity; try discriminate EM;
      try (exfalso; cbn in EM; injection EM as EM; apply (vlan_item_none vid) in EM; auto using in_tagged; fail);
      try (exfalso; cbn in EM; injection EM as EM; symmetry in EM; apply (vlan_item_none vid') in EM; auto using in_tagged; fail);
      try congruence.
    - cbn in EM. injection EM as EM. apply vlan_item_inj in EM; auto using in_tagged. subst; reflexivity.
  Qed.

  Lemma not_block : forall p h, port_flow p h -> f_prio h = d_high cfg -> f_match h = [exact InPort (pc_num p)] -> False.
  Proof.
    intros p h H A B. pose proof (vc_prios cfg V) as [P1 P2].
    destruct H as [h [vid Hv|vid Hv|N C NE]|L NE|L|L]; cbn in A, B; try discriminate B; lia.
  Qed.
  Lemma kind_slot : forall f g, vrule f -> vrule g -> f_prio f = f_prio g -> f_match f = f_match g -> f = g.
  Proof.
    intros f g Hf Hg EP EM.
    destruct (vrule_form f Hf) as [_ [->|[p [r [Hp [Mp Kp]]]]]]; destruct (vrule_form g Hg) as [_ [->|[q [r' [Hq [Mq Kq]]]]]].
    - reflexivity.
    - rewrite <- EM in Mq. discriminate.
    - rewrite EM in Mp. discriminate.
    - assert (E : p = q).
      { rewrite EM, Mq in Mp. unfold exact in Mp. injection Mp as E _. symmetry in E. eapply nums_inj; eauto. }
      subst q. clear Mp Mq Hq. pose proof (vc_prios cfg V) as [P1 P2].
      assert (X : forall h, port_flow p h -> f_prio h = d_high cfg -> f_match h = [exact InPort (pc_num p)] -> False).
      { intros h H A B. destruct H as [h [vid Hv|vid Hv|N C NE]|L NE|L|L]; cbn in A, B; try discriminate B; lia. }
      destruct Kp as [Kp|[Lp ->]], Kq as [Kq|[Lq ->]].
      + eapply port_slot; eauto.
      + exfalso. apply (X f); auto.
      + exfalso. apply (X g); auto.
      + reflexivity.
  Qed.

  Lemma trim_goto : forall acts t, trim [Apply acts; Goto t] = match acts with [] => [] | _ => [Apply acts] end ++ [Goto t].
  Proof. intros [|a acts] t; reflexivity. Qed.
  Lemma push_plain : forall p vid push, any_group (push_flow p vid push) = false /\ any_meter (push_flow p vid push) = false.
  Proof.
    intros p vid push. unfold push_flow, port_vlan_rule. unfold any_group, any_meter, flow_actions.
    cbn [f_inst flow_of fm_inst tb_add tb_write]. unfold goto. rewrite trim_goto.
    set (acts := mirror_acts p ++ _).
    assert (A : existsb (fun a => match a with GroupAct _ => true | _ => false end) acts = false).
    { unfold acts. rewrite !existsb_app.
      assert (M : existsb (fun a => match a with GroupAct _ => true | _ => false end) (mirror_acts p) = false).
      { unfold mirror_acts. induction (pc_mirror p) as [|x l IH]; auto. }
      rewrite M. destruct push, (has_externals cfg), (pc_ext p); reflexivity. }
    destruct acts as [|a l]; [split; reflexivity|]. split; [|reflexivity].
    cbn [app flat_map inst_actions]. rewrite app_nil_r. exact A.
  Qed.

  Lemma trim_drop_plain : forall f, vrule f -> any_group f = false /\ any_meter f = false /\ forall n, uses_group n f = false /\ uses_meter n f = false.
  Proof.
    intros f H.
    assert (A : any_group f = false /\ any_meter f = false).
    { destruct H as [|p f Hp [f0 [vid Hv|vid Hv|N C NE]|L NE|L|L]|p Hp L]; try (split; reflexivity).
      - apply push_plain.
      - apply push_plain. }
    destruct A as [A B]. split; auto. split; auto. intros n. split.
    - destruct (uses_group n f) eqn:E; auto. rewrite <- A. symmetry. unfold uses_group in E. apply existsb_exists in E as [a [Ha E]].
      apply existsb_exists. exists a. split; auto. destruct a; auto; discriminate.
    - destruct (uses_meter n f) eqn:E; auto. rewrite <- B. symmetry. unfold uses_meter in E. apply existsb_exists in E as [a [Ha E]].
      apply existsb_exists. exists a. split; auto. destruct a; auto; discriminate.
  Qed.

  (** ** What a batch does to the rules of one port *)
  Definition tv_w (m : ofmsg) : Prop :=
    match m with
    | FlowMod w => fm_cmd w <> FModify /\
        (is_flow_write m = true -> fm_table w = tv -> fm_cmd w = FAdd /\ vrule (flow_of w))
    | _ => True
    end.
  Definition tv_d (m : ofmsg) : Prop :=
    match m with
    | FlowMod w => (is_delete m = true -> fm_table w <> OFPTT_ALL) /\
        (fm_table w = tv -> exists n r, fm_match w = exact InPort n :: r)
    | _ => True
    end.
  Definition about (n : Z) (m : ofmsg) : bool :=
    match m with
    | FlowMod w => (fm_table w =? tv) && match fm_match w with i :: _ => item_eqb i (exact InPort n) | [] => false end
    | _ => false
    end.
  Definition tvp (n : Z) (ms : list ofmsg) : list ofmsg := filter (about n) ms.

  Lemma item_eqb_eq : forall a b, item_eqb a b = true <-> a = b.
  Proof. intros a b. unfold item_eqb. destruct (item_eq_dec a b); split; auto; discriminate. Qed.
  Lemma about_spec : forall n w, about n (FlowMod w) = true <-> fm_table w = tv /\ exists r, fm_match w = exact InPort n :: r.
  Proof.
    intros n w. unfold about. rewrite andb_true_iff, Z.eqb_eq. split.
    - intros [A B]. split; auto. destruct (fm_match w) as [|i r]; [discriminate|]. apply item_eqb_eq in B as ->. eauto.
    - intros [A [r B]]. split; auto. rewrite B. apply item_eqb_eq; auto.
  Qed.

  Definition tv_rules (s : switch) : Prop := forall f, In f (sw_flows s) -> f_table f = tv -> vrule f.

  Lemma covers_in_port : forall n m r r', covers (exact InPort n :: r) (exact InPort m :: r') = true ->
    (forall x, ~ In (exact InPort x) r') -> n = m.
  Proof.
    intros n m r r' H N. unfold covers in H. cbn [forallb] in H. apply andb_true_iff in H as [H _].
    apply existsb_exists in H as [i [Hi H]]. destruct i as [f [v k]].
    unfold item_covers, exact in H. apply andb_true_iff in H as [H H3]. apply andb_true_iff in H as [H1 H2].
    unfold field_eqb in H1. destruct (field_eq_dec InPort f) as [<-|]; [|discriminate].
    apply Z.eqb_eq in H2, H3. rewrite land_m1 in H2. subst k. rewrite !land_m1 in H3. subst v.
    destruct Hi as [Hi|Hi]; [unfold exact in Hi; injection Hi; auto|]. exfalso. eapply N. exact Hi.
  Qed.
  Lemma vrule_tail : forall f n r, vrule f -> f_match f = exact InPort n :: r -> forall x, ~ In (exact InPort x) r.
  Proof.
    intros f n r H E x Hx.
    assert (VI : forall vid, vlan_item vid <> exact InPort x).
    { intros vid X. unfold vlan_item in X. destruct (vid =? OFPVID_NONE); discriminate. }
    destruct H as [|p f Hp [f0 [vid Hv|vid Hv|N C NE]|L NE|L|L]|p Hp L]; cbn in E; try discriminate E; injection E as E1 E2; subst r;
      cbn in Hx; repeat (destruct Hx as [Hx|Hx]; [try discriminate Hx; try (apply VI in Hx; exact Hx)|]); auto.
  Qed.

  Section Batch.
    Variables (sh : list ofmsg -> list ofmsg) (ub : bool) (ms out : list ofmsg) (s : switch).
    Hypothesis Hsh : forall l, Permutation (sh l) l.
    Hypothesis R : valve_flowreorder sh ub ms = Some out.
    Hypothesis HW : Forall tv_w ms.
    Hypothesis A : tv_rules s.

    Lemma writes_unique : forall f, vrule f -> forall w, In (FlowMod w) ms -> is_flow_write (FlowMod w) = true ->
      fm_at tv (f_prio f) (f_match f) w -> fm_cmd w = FAdd /\ flow_of w = f.
    Proof.
      intros f Hf w Hw Ww [T [P M]]. rewrite Forall_forall in HW. destruct (HW _ Hw) as [_ X].
      destruct (X Ww T) as [C K]. split; auto. apply kind_slot; auto.
    Qed.
    Lemma no_modify : forall w, In (FlowMod w) ms -> fm_cmd w <> FModify.
    Proof. intros w Hw. rewrite Forall_forall in HW. apply (HW _ Hw). Qed.

    Lemma batch_w : forall w, In (FlowMod w) ms -> is_flow_write (FlowMod w) = true -> fm_table w = tv ->
      In (flow_of w) (sw_flows (apply_msgs out s)).
    Proof.
      intros w Hw Ww T. assert (HW' := HW). rewrite Forall_forall in HW'. destruct (HW' _ Hw) as [_ X].
      destruct (X Ww T) as [C K].
      apply (slot_written sh ub ms out Hsh R no_modify s tv (fm_prio w) (fm_match w) (flow_of w)).
      - intros w' H1 H2 H3. apply (writes_unique (flow_of w)); auto.
      - exists w. split; auto. split; auto. split; auto.
      - split; auto.
      - reflexivity.
    Qed.

    Lemma batch_vrules : tv_rules (apply_msgs out s).
    Proof.
      assert (X := HW). rewrite Forall_forall in X.
      assert (S : forall w, In (FlowMod w) out -> In (FlowMod w) ms).
      { intros w Hw. destruct (reorder_invents_nothing_lemma sh ub ms out (FlowMod w) Hsh R Hw) as [E|E]; auto. discriminate. }
      refine (apply_msgs_inv (fun f => f_table f = tv -> vrule f) out s _ _ _ A).
      - intros w Hw C T. destruct (X _ (S _ Hw)) as [_ Y]. apply Y; auto. simpl. rewrite C. reflexivity.
      - intros w f Hw C Sl _ T. exfalso. destruct (X _ (S _ Hw)) as [_ Y]. apply wslot_spec in Sl as [E _]. simpl in T.
        destruct Y as [Y _]; [simpl; rewrite C; reflexivity|congruence|congruence].
      - intros w Hw. apply no_modify; auto.
    Qed.

    Hypothesis HD : Forall tv_d ms.

    Lemma batch_origin : forall f n r, f_table f = tv -> f_match f = exact InPort n :: r -> In f (sw_flows (apply_msgs out s)) ->
      In f (sw_flows s) \/ exists w, In (FlowMod w) (tvp n ms) /\ is_flow_write (FlowMod w) = true /\ f = flow_of w.
    Proof.
      intros f n r T M Hf. pose proof (batch_vrules f Hf T) as K.
      destruct (existsb (fun m => match m with FlowMod w => is_flow_write m && (fm_table w =? tv) && (fm_prio w =? f_prio f) && fmatch_eqb (fm_match w) (f_match f) | _ => false end) ms) eqn:E.
      - apply existsb_exists in E as [x [Hx E]]. destruct x as [w| | | | | | |]; try discriminate E.
        apply andb_true_iff in E as [E E4]. apply andb_true_iff in E as [E E3]. apply andb_true_iff in E as [E1 E2].
        apply Z.eqb_eq in E2, E3. unfold fmatch_eqb in E4. destruct (fmatch_eq_dec (fm_match w) (f_match f)) as [E4'|]; [|discriminate].
        right. exists w. split; [|split; auto].
        + apply filter_In. split; auto. apply about_spec. split; auto. exists r. congruence.
        + destruct (writes_unique f K w Hx E1) as [_ ->]; auto. split; auto.
      - left.
        apply (slot_unwritten sh ub ms out Hsh R no_modify s tv (f_prio f) (f_match f) f (writes_unique f K)) in Hf; [tauto| |split; auto].
        intros w Hw Ww [B1 [B2 B3]].
        assert (X : existsb (fun m => match m with FlowMod w => is_flow_write m && (fm_table w =? tv) && (fm_prio w =? f_prio f) && fmatch_eqb (fm_match w) (f_match f) | _ => false end) ms = true).
        { apply existsb_exists. exists (FlowMod w). split; auto. rewrite Ww. apply Z.eqb_eq in B1, B2. rewrite B1, B2.
          unfold fmatch_eqb. destruct (fmatch_eq_dec _ _); auto. }
        congruence.
    Qed.

    Lemma far_delete : forall f n r d, vrule f -> f_match f = exact InPort n :: r -> In (FlowMod d) ms ->
      del_hits d f = true -> In (FlowMod d) (tvp n ms) /\ is_delete (FlowMod d) = true.
    Proof.
      intros f n r d K M Hd H. assert (HD' := HD). rewrite Forall_forall in HD'. destruct (HD' _ Hd) as [D1 D2].
      assert (Dd : is_delete (FlowMod d) = true).
      { unfold del_hits in H. simpl. destruct (fm_cmd d); auto; discriminate. }
      assert (T : fm_table d = tv).
      { specialize (D1 Dd). destruct (vrule_form f K) as [Tf _].
        assert (TS : table_sel (fm_table d) f = true).
        { unfold del_hits in H. destruct (fm_cmd d); try discriminate H; repeat (apply andb_true_iff in H as [H _]); auto. }
        unfold table_sel in TS. destruct (Z.eqb_spec (fm_table d) OFPTT_ALL); [contradiction|]. simpl in TS. apply Z.eqb_eq in TS. congruence. }
      split; auto. apply filter_In. split; auto. apply about_spec. split; auto.
      destruct (D2 T) as [m [r' E]]. rewrite E. exists r'. f_equal.
      unfold del_hits in H. destruct (fm_cmd d) eqn:C; try discriminate H.
      - apply andb_true_iff in H as [H _]. apply andb_true_iff in H as [_ H]. rewrite E, M in H.
        apply covers_in_port in H; [congruence|]. eapply vrule_tail; eauto.
      - apply andb_true_iff in H as [H _]. apply andb_true_iff in H as [_ H]. unfold fmatch_eqb in H.
        destruct (fmatch_eq_dec _ _) as [X|]; [|discriminate]. rewrite M, E in X. injection X as ->. reflexivity.
    Qed.

    Lemma batch_keep : forall f n r, f_table f = tv -> f_match f = exact InPort n :: r -> In f (sw_flows s) ->
      (forall d, In (FlowMod d) (tvp n ms) -> del_hits d f = true -> False) -> In f (sw_flows (apply_msgs out s)).
    Proof.
      intros f n r T M Hf ND. pose proof (A f Hf T) as K.
      destruct (existsb (fun m => match m with FlowMod w => is_flow_write m && (fm_table w =? tv) && (fm_prio w =? f_prio f) && fmatch_eqb (fm_match w) (f_match f) | _ => false end) ms) eqn:E.
      - apply existsb_exists in E as [x [Hx E]]. destruct x as [w| | | | | | |]; try discriminate E.
        apply andb_true_iff in E as [E E4]. apply andb_true_iff in E as [E E3]. apply andb_true_iff in E as [E1 E2].
        apply Z.eqb_eq in E2, E3. unfold fmatch_eqb in E4. destruct (fmatch_eq_dec (fm_match w) (f_match f)) as [E4'|]; [|discriminate].
        destruct (writes_unique f K w Hx E1) as [_ <-]; [split; auto|]. apply batch_w; auto.
      - apply (slot_unwritten sh ub ms out Hsh R no_modify s tv (f_prio f) (f_match f) f (writes_unique f K)); [ |split; auto|].
        + intros w Hw Ww [B1 [B2 B3]].
          assert (X : existsb (fun m => match m with FlowMod w => is_flow_write m && (fm_table w =? tv) && (fm_prio w =? f_prio f) && fmatch_eqb (fm_match w) (f_match f) | _ => false end) ms = true).
          { apply existsb_exists. exists (FlowMod w). split; auto. rewrite Ww. apply Z.eqb_eq in B1, B2. rewrite B1, B2.
            unfold fmatch_eqb. destruct (fmatch_eq_dec _ _); auto. }
          congruence.
        + split; auto. intros x Hx Dx. apply (out_delete sh ub ms out Hsh R) in Hx; auto.
          destruct (trim_drop_plain f K) as [G1 [G2 G3]].
          destruct x as [d|c g|c i b| | | | |]; try discriminate Dx; simpl.
          * destruct (del_hits d f) eqn:H; auto. exfalso. apply (ND d); auto. eapply far_delete; eauto.
          * destruct c; auto. rewrite G1. destruct (G3 (g_id g)) as [-> _]. destruct (_ =? _); auto.
          * destruct c; auto. rewrite G2. destruct (G3 i) as [_ ->]. destruct (_ =? _); auto.
    Qed.

    Lemma batch_gone : forall f n r d, f_table f = tv -> f_match f = exact InPort n :: r ->
      In (FlowMod d) (tvp n ms) -> del_hits d f = true -> (forall m, In m (tvp n ms) -> is_flow_write m = false) ->
      ~ In f (sw_flows (apply_msgs out s)).
    Proof.
      intros f n r d T M Hd H NW Hf. pose proof (batch_vrules f Hf T) as K.
      apply (slot_unwritten sh ub ms out Hsh R no_modify s tv (f_prio f) (f_match f) f (writes_unique f K)) in Hf; [ | |split; auto].
      2:{ intros w Hw Ww [B1 [B2 B3]]. rewrite NW in Ww; [discriminate|]. apply filter_In. split; auto. apply about_spec. split; auto.
          exists r. congruence. }
      destruct Hf as [_ Hf]. apply filter_In in Hd as [Hd Ad].
      destruct (far_delete f n r d K M Hd H) as [_ Dd].
      assert (X : In (FlowMod d) out).
      { apply (delete_sent sh ub ms out d); auto.
        - intros g Hg Dg. assert (HD' := HD). rewrite Forall_forall in HD'. apply (HD' _ Hg); auto.
        - intros w Hw Ww Ek. rewrite NW in Ww; [discriminate|]. apply filter_In. split; auto. apply about_spec in Ad as [Td [r' Md]].
          apply about_spec. unfold flowmodkey in Ek. injection Ek as E1 _ _ E2. split; [congruence|]. exists r'. congruence. }
      specialize (Hf _ X Dd). simpl in Hf. congruence.
    Qed.
  End Batch.

  (** ** The messages of each event *)
  Definition other (m : ofmsg) : Prop :=
    match m with
    | FlowMod w => fm_cmd w <> FModify /\ fm_table w <> tv /\ fm_table w <> OFPTT_ALL
    | _ => True
    end.
  Lemma other_quiet : forall ms, Forall other ms ->
    Forall tv_w ms /\ Forall tv_d ms /\ (forall n, tvp n ms = []) /\
    (forall w, In (FlowMod w) ms -> is_flow_write (FlowMod w) = true -> fm_table w <> tv).
  Proof.
    intros ms H. rewrite Forall_forall in H. split; [|split; [|split]].
    - apply Forall_forall. intros [w| | | | | | |] Hw; simpl; auto. destruct (H _ Hw) as [A [B _]]. tauto.
    - apply Forall_forall. intros [w| | | | | | |] Hw; simpl; auto. destruct (H _ Hw) as [A [B C]]. tauto.
    - intros n. unfold tvp. induction ms as [|m ms IH]; auto. cbn [filter].
      rewrite IH by (intros; apply H; right; auto).
      destruct (about n m) eqn:E; auto. destruct m as [w| | | | | | |]; try discriminate E. apply about_spec in E as [E _].
      destruct (H (FlowMod w) (or_introl eq_refl)) as [_ [X _]]. contradiction.
    - intros w Hw _. apply (H _ Hw).
  Qed.

  Lemma tables_other : (ts <> tv /\ ts <> OFPTT_ALL) /\ (th <> tv /\ th <> OFPTT_ALL) /\
    (td <> tv /\ td <> OFPTT_ALL) /\ (tf <> tv /\ tf <> OFPTT_ALL) /\ tv <> OFPTT_ALL.
  Proof.
    destruct (tables_distinct cfg V) as (A & B & C & D & _).
    pose proof (vc_all cfg V) as X.
    repeat split; try (intros E; symmetry in E; contradiction); apply X; simpl; tauto.
  Qed.

  Lemma flood_other : forall cmd cold v, cmd = FAdd \/ cmd = FModifyStrict ->
    Forall other (flood_rules (d_tflood cfg) (d_mode cfg) (any_restricted cfg) cmd cold v).
  Proof.
    intros cmd cold v Hc. destruct tables_other as (_ & _ & _ & [T1 T2] & _).
    assert (NM : cmd <> FModify) by (destruct Hc; congruence).
    unfold flood_rules. apply Forall_app; split.
    - unfold multiout_flood_rules. apply Forall_flat_map, Forall_forall. intros c _. unfold mask_flood_rules.
      apply Forall_app; split.
      + destruct (d_mode cfg); repeat constructor; simpl; auto.
      + apply Forall_flat_map, Forall_forall. intros q _. unfold port_rule.
        destruct (nonempty _); [|constructor].
        destruct (d_mode cfg); try (destruct (same_as_vlan v c q)); try (destruct cold); repeat constructor; simpl; auto; discriminate.
    - destruct (d_mode cfg); [constructor|constructor|]. unfold group_flood_rules. cbv zeta. unfold group_add.
      apply Forall_app; split; [repeat constructor|]. apply Forall_app; split; [repeat constructor|].
      apply Forall_map, Forall_forall. intros c _. simpl. auto.
  Qed.
  Lemma add_vlans_other : forall st cold vids, Forall other (add_vlans cfg st cold vids).
  Proof.
    intros st cold vids. destruct tables_other as ([T1 T2] & _).
    apply Forall_flat_map, Forall_forall. intros vid _. destruct (find_vlan cfg vid); [|constructor].
    unfold add_vlan. apply Forall_app; split; [|apply Forall_app; split].
    - destruct (d_drop_spoof cfg); repeat constructor; simpl; auto; discriminate.
    - repeat constructor; simpl; auto; discriminate.
    - apply flood_other; auto.
  Qed.
  Lemma update_vlans_other : forall st vids, Forall other (update_vlans cfg st vids).
  Proof.
    intros st vids. apply Forall_flat_map, Forall_forall. intros vid _. destruct (find_vlan cfg vid); [|constructor].
    apply flood_other; auto.
  Qed.
  Lemma del_host_other : forall p, Forall other (del_host_flows cfg p).
  Proof.
    intros p. destruct tables_other as ([T1 T2] & [T3 T4] & [T5 T6] & _). unfold del_host_flows.
    apply Forall_app; split; [|destruct (has_hairpin cfg)]; repeat constructor; simpl; auto; discriminate.
  Qed.
  Lemma host_other : forall hs, Forall other (flat_map (host_ofmsgs cfg) hs).
  Proof.
    intros hs. destruct tables_other as ([T1 T2] & [T3 T4] & [T5 T6] & _).
    apply Forall_flat_map, Forall_forall. intros h _.
    destruct h as [vid mac|vid n mac h i|vid n mac i|vid n mac i|vid n mac i|n|vid|mac n]; unfold host_ofmsgs;
      try (destruct (find_port cfg n)); try (apply Forall_app; split); try (destruct (has_hairpin cfg));
      repeat constructor; simpl; auto; discriminate.
  Qed.

  (** the deletes of a port in the VLAN table *)
  Definition switch_del_tv (p : pconf) : list ofmsg :=
    if nonempty (port_vlans p) then
      (match pc_native p, pc_count_miss p with
        | None, false => []
        | _, _ => [FlowMod (tb_del (d_tvlan cfg) FDelete LOW_PRIORITY
                    [exact InPort (pc_num p); vlan_item OFPVID_NONE] OFPP_ANY)]
        end)
      ++ map (fun vid => FlowMod (tb_del (d_tvlan cfg) FDelete LOW_PRIORITY
                    [exact InPort (pc_num p); vlan_item vid] OFPP_ANY)) (pc_tagged p)
      ++ (if pc_lacp p =? 0 then []
          else [FlowMod (tb_del (d_tvlan cfg) FDelete (d_highest cfg) (lacp_match p) OFPP_ANY)])
    else [].

  (** messages about one port's rules *)
  Definition own (p : pconf) (m : ofmsg) : Prop :=
    match m with
    | FlowMod w => fm_table w = tv /\ (exists r, fm_match w = exact InPort (pc_num p) :: r) /\
        fm_cmd w <> FModify /\ (is_flow_write m = true -> fm_cmd w = FAdd /\ vrule (flow_of w))
    | _ => False
    end.
  Lemma own_quiet : forall p ms, Forall (own p) ms -> Forall tv_w ms /\ Forall tv_d ms /\
    tvp (pc_num p) ms = ms /\ forall n, n <> pc_num p -> tvp n ms = [].
  Proof.
    intros p ms H. rewrite Forall_forall in H.
    assert (TA : tv <> OFPTT_ALL) by apply tables_other.
    split; [|split; [|split]].
    - apply Forall_forall. intros [w| | | | | | |] Hw; simpl; auto. destruct (H _ Hw) as [A [B [C D]]]. auto.
    - apply Forall_forall. intros [w| | | | | | |] Hw; simpl; auto. destruct (H _ Hw) as [A [B [C D]]]. split; [congruence|].
      intros _. destruct B as [r B]. eauto.
    - unfold tvp. induction ms as [|m ms IH]; auto. cbn [filter].
      assert (X := H m (or_introl eq_refl)). destruct m as [w| | | | | | |]; try contradiction.
      destruct X as [T0 [[r B] _]].
      assert (E : about (pc_num p) (FlowMod w) = true) by (apply about_spec; eauto). rewrite E. f_equal. apply IH.
      intros; apply H; right; auto.
    - intros n N. unfold tvp. induction ms as [|m ms IH]; auto. cbn [filter].
      assert (X := H m (or_introl eq_refl)). destruct m as [w| | | | | | |]; try contradiction.
      destruct X as [T0 [[r B] _]].
      destruct (about n (FlowMod w)) eqn:E; [|apply IH; intros; apply H; right; auto].
      exfalso. apply about_spec in E as [_ [r' E]]. rewrite B in E. unfold exact in E. injection E. auto.
  Qed.

  Lemma add_own : forall p, In p (d_ports cfg) -> Forall (own p) (managers_add_port cfg p).
  Proof.
    intros p Hp. apply Forall_forall. intros m Hm.
    assert (X : exists w, m = FlowMod w).
    { unfold managers_add_port, switch_add_port, lldp_add_port, outonly_add_port in Hm.
      rewrite !in_app_iff in Hm. destruct Hm as [Hm|[Hm|Hm]].
      - destruct (nonempty _); [|destruct Hm]. rewrite !in_app_iff in Hm. destruct Hm as [Hm|[Hm|Hm]].
        + apply in_map_iff in Hm as [vid [<- _]]. eexists; reflexivity.
        + destruct (pc_native p); [destruct Hm as [<-|[]]; eexists; reflexivity|].
          destruct (pc_count_miss p); [destruct Hm as [<-|[]]; eexists; reflexivity|destruct Hm].
        + destruct (pc_lacp p =? 0); [destruct Hm|destruct Hm as [<-|[]]; eexists; reflexivity].
      - destruct (pc_lldp p); [destruct Hm as [<-|[]]; eexists; reflexivity|destruct Hm].
      - destruct (pc_output_only p); [destruct Hm as [<-|[]]; eexists; reflexivity|destruct Hm]. }
    destruct X as [w ->]. destruct (add_writes p w Hm) as [A B].
    destruct (port_flow_form p _ A) as [T M]. split; [exact T|]. split; [exact M|]. split; [congruence|].
    intros _. split; auto. apply (VR_port p); auto.
  Qed.
  Lemma switch_add_own : forall p, In p (d_ports cfg) -> Forall (own p) (switch_add_port cfg p).
  Proof. intros p Hp. pose proof (add_own p Hp) as H. unfold managers_add_port in H. apply Forall_app in H. tauto. Qed.
  Lemma del_own : forall p n c prio r o, (c = FDelete \/ c = FDeleteStrict) -> n = pc_num p ->
    own p (FlowMod (tb_del (d_tvlan cfg) c prio (exact InPort n :: r) o)).
  Proof.
    intros p n c prio r o Hc ->. split; [reflexivity|]. split; [eexists; reflexivity|]. simpl.
    destruct Hc as [->| ->]; split; discriminate.
  Qed.
  Ltac own1 := repeat (first [apply Forall_nil | apply Forall_cons; [apply del_own; auto|]]).
  Lemma switch_del_own : forall p, Forall (own p) (switch_del_tv p).
  Proof.
    intros p. unfold switch_del_tv. destruct (nonempty _); [|constructor].
    apply Forall_app; split; [|apply Forall_app; split].
    - destruct (pc_native p), (pc_count_miss p); own1.
    - apply Forall_map, Forall_forall. intros vid _. apply del_own; auto.
    - destruct (pc_lacp p =? 0); own1.
  Qed.
  Lemma extra_del_own : forall p, Forall (own p) (lldp_del_port cfg p ++ outonly_del_port cfg p).
  Proof.
    intros p. apply Forall_app; split; [unfold lldp_del_port; destruct (pc_lldp p)|unfold outonly_del_port; destruct (pc_output_only p)];
      own1.
  Qed.
  Lemma enable_own : forall p, own p (enable_forwarding cfg p).
  Proof. intros p. apply del_own; auto. Qed.
  Lemma disable_own : forall p, In p (d_ports cfg) -> pc_lacp p <> 0 -> own p (disable_forwarding cfg p).
  Proof.
    intros p Hp L. split; [reflexivity|]. split; [exists []; reflexivity|]. split; [discriminate|].
    intros _. split; [reflexivity|]. apply (VR_block p Hp L).
  Qed.

  Lemma tvp_app : forall n a b, tvp n (a ++ b) = tvp n a ++ tvp n b.
  Proof. intros. apply filter_app. Qed.
  Lemma switch_del_split : forall p, exists l, switch_del_port cfg p = l ++ switch_del_tv p /\ Forall other l.
  Proof.
    intros p. unfold switch_del_port, switch_del_tv. destruct (nonempty _); [|exists []; split; [reflexivity|constructor]].
    exists (del_host_flows cfg p). split; [reflexivity|apply del_host_other].
  Qed.

  (** ** State changes, port by port *)
  Definition regular (ms : list ofmsg) : Prop := Forall tv_w ms /\ Forall tv_d ms.
  Lemma regular_app : forall a b, regular a -> regular b -> regular (a ++ b).
  Proof. intros a b [A B] [C D]. split; apply Forall_app; auto. Qed.
  Lemma regular_nil : regular [].
  Proof. split; constructor. Qed.
  Lemma own_regular : forall p ms, Forall (own p) ms -> regular ms.
  Proof. intros p ms H. destruct (own_quiet p ms H) as (A & B & _). split; auto. Qed.
  Lemma other_regular : forall ms, Forall other ms -> regular ms.
  Proof. intros ms H. destruct (other_quiet ms H) as (A & B & _). split; auto. Qed.

  Definition same_at (n : Z) (st st' : dstate) : Prop :=
    ds_phys st' n = ds_phys st n /\ ds_actor st' n = ds_actor st n /\ ds_role st' n = ds_role st n.
  Definition fwd (st : dstate) (n : Z) : bool := is_sel (ds_role st n) && is_up (ds_actor st n).

  Lemma same_trans : forall n a b c, same_at n a b -> same_at n b c -> same_at n a c.
  Proof. unfold same_at. intros n a b c (A & B & C) (D & E & F). repeat split; congruence. Qed.
  Lemma same_refl : forall n a, same_at n a a.
  Proof. unfold same_at. auto. Qed.

  Lemma upd_same : forall A n (x : A) f, upd n x f n = x.
  Proof. intros. unfold upd. rewrite Z.eqb_refl. reflexivity. Qed.
  Lemma upd_other : forall A n m (x : A) f, m <> n -> upd n x f m = f m.
  Proof. intros. unfold upd. destruct (Z.eqb_spec m n); congruence. Qed.

  Lemma lacp_update_tv : forall st p up now pkt cold st' ms, In p (d_ports cfg) -> pc_lacp p <> 0 ->
    lacp_update cfg st p up now pkt cold = (st', ms) ->
    ds_phys st' = ds_phys st /\ ds_running st' = ds_running st /\ ds_learn st' = ds_learn st /\
    (forall n, n <> pc_num p -> same_at n st st' /\ tvp n ms = []) /\
    ds_actor st' (pc_num p) = next_actor st p up pkt /\ ds_role st' (pc_num p) = next_role p /\
    regular ms /\
    ((cold = false /\ same_at (pc_num p) st st' /\ ms = []) \/
     (fwd st' (pc_num p) = true /\ tvp (pc_num p) ms = [enable_forwarding cfg p] /\
      (forall w, In (FlowMod w) ms -> is_flow_write (FlowMod w) = true -> fm_table w <> tv)) \/
     (fwd st' (pc_num p) = false /\ tvp (pc_num p) ms = disable_forwarding cfg p ::
        (if cold then [] else switch_del_tv p ++ switch_add_port cfg p))).
  Proof.
    intros st p up now pkt cold st' ms Hp L H. unfold lacp_update in H.
    set (n := pc_num p) in *. set (a := next_actor st p up pkt) in *. set (r := next_role p) in *.
    set (st0 := if cold then set_lacp st n ANotConfigured RNotConfigured now else st) in *.
    set (st1 := set_lacp st0 n a r now) in *.
    set (MS := if is_sel r && is_up a then enable_forwarding cfg p :: add_vlans cfg st1 false (port_vlans p)
               else disable_forwarding cfg p :: (if cold then [] else switch_del_port cfg p ++ switch_add_port cfg p
                                          ++ add_vlans cfg st1 false (port_vlans p))) in *.
    assert (E : st' = st1 /\ ((ms = [] /\ ds_actor st0 n = a /\ ds_role st0 n = r) \/ ms = MS)).
    { destruct (actor_eq_dec (ds_actor st0 n) a) as [Ea|Na]; [destruct (role_eq_dec (ds_role st0 n) r) as [Er|Nr]|];
        injection H as <- <-; auto. }
    clear H. destruct E as [-> E].
    assert (Ph : ds_phys st1 = ds_phys st) by (unfold st1, st0; destruct cold; reflexivity).
    assert (Aa : ds_actor st1 n = a) by (apply upd_same).
    assert (Ra : ds_role st1 n = r) by (apply upd_same).
    assert (Sm : forall m, m <> n -> same_at m st st1).
    { intros m Hm. unfold same_at. rewrite Ph. unfold st1, st0. destruct cold; cbn [ds_actor ds_role set_lacp];
        rewrite ?upd_other by auto; auto. }
    assert (MSr : regular MS /\ (forall m, m <> n -> tvp m MS = []) /\
       (if is_sel r && is_up a then tvp n MS = [enable_forwarding cfg p] /\
           (forall w, In (FlowMod w) MS -> is_flow_write (FlowMod w) = true -> fm_table w <> tv)
        else tvp n MS = disable_forwarding cfg p :: (if cold then [] else switch_del_tv p ++ switch_add_port cfg p))).
    { unfold MS. destruct (is_sel r && is_up a).
      - pose proof (add_vlans_other st1 false (port_vlans p)) as Q. destruct (other_quiet _ Q) as (Q1 & Q2 & Q3 & Q4).
        assert (O : Forall (own p) [enable_forwarding cfg p]) by (constructor; [apply enable_own|constructor]).
        destruct (own_quiet p _ O) as (O1 & O2 & O3 & O4).
        change (enable_forwarding cfg p :: add_vlans cfg st1 false (port_vlans p))
          with ([enable_forwarding cfg p] ++ add_vlans cfg st1 false (port_vlans p)).
        split; [apply regular_app; split; auto|]. split; [|split].
        + intros m Hm. rewrite tvp_app, O4, Q3; auto.
        + rewrite tvp_app, Q3. rewrite app_nil_r. exact O3.
        + intros w Hw Ww. apply in_app_iff in Hw as [[Hw|[]]|Hw]; [|apply Q4; auto].
          unfold enable_forwarding in Hw. injection Hw as <-. discriminate Ww.
      - assert (O : Forall (own p) [disable_forwarding cfg p]) by (constructor; [apply disable_own; auto|constructor]).
        destruct (own_quiet p _ O) as (O1 & O2 & O3 & O4).
        destruct cold.
        + split; [split; auto|]. split; auto.
        + destruct (switch_del_split p) as [l [El Hl]]. rewrite El.
          destruct (other_quiet _ Hl) as (L1 & L2 & L3 & L4).
          destruct (own_quiet p _ (switch_del_own p)) as (D1 & D2 & D3 & D4).
          destruct (own_quiet p _ (switch_add_own p Hp)) as (A1 & A2 & A3 & A4).
          destruct (other_quiet _ (add_vlans_other st1 false (port_vlans p))) as (Q1 & Q2 & Q3 & Q4).
          match goal with |- context [disable_forwarding cfg p :: ?x] =>
            change (disable_forwarding cfg p :: x) with ([disable_forwarding cfg p] ++ x) end.
          split; [repeat apply regular_app; split; auto|]. split.
          * intros m Hm. rewrite !tvp_app, O4, L3, D4, A4, Q3; auto.
          * rewrite !tvp_app. fold n in O3, D3, A3. rewrite O3, L3, D3, A3, Q3, app_nil_r. reflexivity. }
    destruct MSr as [M1 [M2 M3]].
    split; [exact Ph|]. split; [unfold st1, st0; destruct cold; reflexivity|].
    split; [unfold st1, st0; destruct cold; reflexivity|].
    split. { intros m Hm. split; auto. destruct E as [[-> _]| ->]; auto. }
    split; [exact Aa|]. split; [exact Ra|].
    split. { destruct E as [[-> _]| ->]; auto using regular_nil. }
    unfold fwd. rewrite Aa, Ra.
    destruct E as [[-> [E1 E2]]| ->].
    - destruct cold.
      + exfalso. unfold st0 in E1. cbn [ds_actor set_lacp] in E1. rewrite upd_same in E1. unfold a, next_actor in E1.
        destruct (negb (port_running st p)), (negb pkt), up; discriminate E1.
      + left. split; auto. split; auto. unfold same_at. rewrite Ph, Aa, Ra. unfold st0 in E1, E2. auto.
    - destruct (is_sel r && is_up a); [right; left; tauto|right; right; tauto].
  Qed.

  (** [port_add_one] *)
  Lemma port_add_tv : forall cold st p st' ms, In p (d_ports cfg) -> port_add_one cfg cold st p = (st', ms) ->
    ds_running st' = ds_running st /\ ds_learn st' = ds_learn st /\
    (forall n, n <> pc_num p -> same_at n st st' /\ tvp n ms = []) /\
    ds_phys st' (pc_num p) = true /\ regular ms /\
    (if pc_enabled p then
       if pc_lacp p =? 0 then ds_actor st' (pc_num p) = ds_actor st (pc_num p) /\ ds_role st' (pc_num p) = ds_role st (pc_num p) /\
         tvp (pc_num p) ms = managers_add_port cfg p
       else ds_actor st' (pc_num p) = AInit /\ ds_role st' (pc_num p) = next_role p /\
         ((cold = false /\ ds_actor st (pc_num p) = AInit /\ ds_role st (pc_num p) = next_role p /\
           tvp (pc_num p) ms = managers_add_port cfg p) \/
          tvp (pc_num p) ms = managers_add_port cfg p ++ disable_forwarding cfg p ::
             (if cold then [] else switch_del_tv p ++ switch_add_port cfg p))
     else ds_actor st' (pc_num p) = ds_actor st (pc_num p) /\ ds_role st' (pc_num p) = ds_role st (pc_num p) /\ ms = []).
  Proof.
    intros cold st p st' ms Hp H. unfold port_add_one in H. set (n := pc_num p) in *.
    set (st1 := set_phys st n true) in *.
    assert (P1 : ds_phys st1 n = true) by apply upd_same.
    assert (Sm : forall m, m <> n -> same_at m st st1).
    { intros m Hm. unfold same_at, st1. cbn [ds_phys ds_actor ds_role set_phys]. rewrite upd_other by auto. auto. }
    destruct (own_quiet p _ (add_own p Hp)) as (A1 & A2 & A3 & A4). fold n in A3, A4.
    assert (Rn : port_running st1 p = pc_enabled p) by (unfold port_running; fold n; rewrite P1, andb_true_r; reflexivity).
    rewrite Rn in H. destruct (pc_enabled p) eqn:En.
    - destruct (Z.eqb_spec (pc_lacp p) 0) as [L|L].
      + injection H as <- <-. split; [reflexivity|]. split; [reflexivity|].
        split. { intros m Hm. split; auto. }
        split; [auto|]. split; [split; auto|]. auto.
      + destruct (lacp_update cfg st1 p false None false cold) as [st2 ms2] eqn:U. injection H as <- <-.
        apply lacp_update_tv in U; auto. destruct U as (U1 & U2 & U3 & U4 & U5 & U6 & U7 & U8). fold n in U4, U5, U6, U8.
        split; [rewrite U2; reflexivity|]. split; [rewrite U3; reflexivity|].
        split. { intros m Hm. destruct (U4 m Hm) as [X Y]. split; [eapply same_trans; eauto|]. rewrite tvp_app, A4, Y; auto. }
        split; [rewrite U1; auto|]. split; [apply regular_app; auto; split; auto|].
        assert (Ac : ds_actor st2 n = AInit). { rewrite U5. unfold next_actor. rewrite Rn. reflexivity. }
        split; [exact Ac|]. split; [exact U6|].
        destruct U8 as [[-> [[S1 [S2 S3]] ->]]|[[F _]|[F T]]].
        * left. split; [reflexivity|]. rewrite Ac in S2. rewrite U6 in S3. split; [symmetry; exact S2|]. split; [symmetry; exact S3|].
          rewrite app_nil_r. exact A3.
        * exfalso. unfold fwd in F. rewrite Ac, andb_false_r in F. discriminate.
        * right. rewrite tvp_app, A3, T. reflexivity.
    - injection H as <- <-. split; [reflexivity|]. split; [reflexivity|]. split. { intros m Hm. split; auto. }
      split; [auto|]. split; [apply regular_nil|]. auto.
  Qed.

  (** [port_delete_one] *)
  Lemma set_status_same : forall st n up now, 
    ds_phys (set_port_status cfg st n up now) = ds_phys st /\ ds_actor (set_port_status cfg st n up now) = ds_actor st /\
    ds_role (set_port_status cfg st n up now) = ds_role st /\ ds_running (set_port_status cfg st n up now) = ds_running st.
  Proof. intros st n up now. unfold set_port_status. destruct (find_port cfg n); auto. Qed.

  Definition del_tv (p : pconf) : list ofmsg := switch_del_tv p ++ lldp_del_port cfg p ++ outonly_del_port cfg p.
  Lemma managers_del_split : forall p, exists l, managers_del_port cfg p = l ++ del_tv p /\ Forall other l.
  Proof.
    intros p. unfold managers_del_port, del_tv. destruct (switch_del_split p) as [l [-> H]]. exists l. split; auto.
    rewrite <- app_assoc. reflexivity.
  Qed.
  Lemma del_tv_own : forall p, Forall (own p) (del_tv p).
  Proof. intros p. apply Forall_app; split; [apply switch_del_own|apply extra_del_own]. Qed.
  Lemma del_tv_deletes : forall p m, In m (del_tv p) -> is_flow_write m = false.
  Proof.
    intros p m H. unfold del_tv, switch_del_tv, lldp_del_port, outonly_del_port in H.
    rewrite !in_app_iff in H. destruct H as [H|[H|H]].
    - destruct (nonempty _); [|destruct H]. rewrite !in_app_iff in H. destruct H as [H|[H|H]].
      + destruct (pc_native p), (pc_count_miss p); try destruct H as [<-|[]]; try destruct H; reflexivity.
      + apply in_map_iff in H as [vid [<- _]]. reflexivity.
      + destruct (pc_lacp p =? 0); [destruct H|destruct H as [<-|[]]; reflexivity].
    - destruct (pc_lldp p); [destruct H as [<-|[]]; reflexivity|destruct H].
    - destruct (pc_output_only p); [destruct H as [<-|[]]; reflexivity|destruct H].
  Qed.
  Lemma own_write_table : forall p ms w, Forall (own p) ms -> In (FlowMod w) ms -> fm_table w = tv.
  Proof. intros p ms w H Hw. rewrite Forall_forall in H. apply (H _ Hw). Qed.

  Lemma port_delete_tv : forall keep now st p st' ms, In p (d_ports cfg) -> port_delete_one cfg keep now st p = Some (st', ms) ->
    ds_running st' = ds_running st /\
    (forall n, n <> pc_num p -> same_at n st st' /\ tvp n ms = []) /\
    ds_phys st' (pc_num p) = false /\ regular ms /\
    (if pc_lacp p =? 0 then ds_actor st' (pc_num p) = ds_actor st (pc_num p) /\ ds_role st' (pc_num p) = ds_role st (pc_num p) /\
       tvp (pc_num p) ms = del_tv p /\
       (forall w, In (FlowMod w) ms -> is_flow_write (FlowMod w) = true -> fm_table w <> tv)
     else ds_actor st' (pc_num p) = ANone /\ ds_role st' (pc_num p) = next_role p /\
       ((ds_actor st (pc_num p) = ANone /\ ds_role st (pc_num p) = next_role p /\ ms = []) \/
        tvp (pc_num p) ms = disable_forwarding cfg p :: switch_del_tv p ++ switch_add_port cfg p)).
  Proof.
    intros keep now st p st' ms Hp H. unfold port_delete_one in H. set (n := pc_num p) in *.
    set (st1 := set_phys st n false) in *.
    set (st2 := match now with Some t => set_port_status cfg st1 n false t | None => st1 end) in *.
    assert (S2 : ds_phys st2 = ds_phys st1 /\ ds_actor st2 = ds_actor st /\ ds_role st2 = ds_role st /\ ds_running st2 = ds_running st).
    { unfold st2. destruct now as [t|]; [|unfold st1; auto]. destruct (set_status_same st1 n false t) as (A & B & C & D).
      rewrite A, B, C, D. auto. }
    destruct S2 as (Sp & Sa & Sr & Sn).
    assert (P1 : ds_phys st2 n = false) by (rewrite Sp; apply upd_same).
    assert (Sm : forall m, m <> n -> same_at m st st2).
    { intros m Hm. unfold same_at. rewrite Sp, Sa, Sr. unfold st1. cbn [ds_phys set_phys]. rewrite upd_other by auto. auto. }
    destruct (Z.eqb_spec (pc_lacp p) 0) as [L|L].
    - assert (X : ms = managers_del_port cfg p /\ exists l, st' = set_learn st2 l).
      { destruct keep.
        - injection H as <- <-. split; auto. exists (ds_learn st2). destruct st2; reflexivity.
        - destruct (clear_vlans _ _ _) as [l|]; [|discriminate]. injection H as <- <-. eauto. }
      destruct X as [-> [l ->]].
      destruct (managers_del_split p) as [k [Ek Hk]]. rewrite Ek.
      destruct (other_quiet _ Hk) as (K1 & K2 & K3 & K4). destruct (own_quiet p _ (del_tv_own p)) as (D1 & D2 & D3 & D4).
      fold n in D3, D4.
      split; [exact Sn|]. split. { intros m Hm. split; [apply (Sm m Hm)|]. rewrite tvp_app, K3, D4; auto. }
      split; [exact P1|]. split; [apply regular_app; split; auto|].
      split; [cbn; rewrite Sa; reflexivity|]. split; [cbn; rewrite Sr; reflexivity|]. split; [rewrite tvp_app, K3; exact D3|].
      intros w Hw Ww. apply in_app_iff in Hw as [Hw|Hw]; [apply K4; auto|].
      apply del_tv_deletes in Hw. congruence.
    - injection H as H. apply lacp_update_tv in H; auto. destruct H as (U1 & U2 & U3 & U4 & U5 & U6 & U7 & U8). fold n in U4, U5, U6, U8.
      split; [rewrite U2; auto|].
      split. { intros m Hm. destruct (U4 m Hm) as [X Y]. split; [eapply same_trans; eauto|auto]. }
      split; [rewrite U1; auto|]. split; [auto|].
      assert (Ac : ds_actor st' n = ANone).
      { rewrite U5. unfold next_actor, port_running. fold n. rewrite P1, andb_false_r. reflexivity. }
      split; [exact Ac|]. split; [exact U6|].
      destruct U8 as [[_ [[X1 [X2 X3]] ->]]|[[F _]|[F T]]].
      + left. rewrite Ac in X2. rewrite U6 in X3. rewrite <- Sa, <- Sr. auto.
      + exfalso. unfold fwd in F. rewrite Ac, andb_false_r in F. discriminate.
      + right. exact T.
  Qed.

  (** ** The invariant of one port *)
  Record pinv (st : dstate) (s : switch) (p : pconf) : Prop := {
    pi_plain : pc_lacp p = 0 -> forall f, port_flow p f -> In f (sw_flows s) -> port_running st p = true;
    pi_block : pc_lacp p <> 0 -> fwd st (pc_num p) = false -> forall f, entry_flow p f -> In f (sw_flows s) ->
        In (block_flow p) (sw_flows s);
    pi_open : pc_lacp p <> 0 -> fwd st (pc_num p) = true -> ~ In (block_flow p) (sw_flows s)
  }.
  (** LACP is only active on running ports. *)
  Definition actor_ok (st : dstate) (p : pconf) : Prop :=
    pc_lacp p <> 0 -> ds_actor st (pc_num p) <> ANotConfigured -> ds_actor st (pc_num p) <> ANone -> port_running st p = true.
  Definition complete (st : dstate) (s : switch) (p : pconf) : Prop :=
    port_running st p = true -> forall f, port_flow p f -> In f (sw_flows s).

  Lemma del_hits_own : forall t prio m f, f_table f = tb_id t -> f_match f = m ->
    del_hits (tb_del t FDelete prio m OFPP_ANY) f = true.
  Proof.
    intros t prio m f T M. unfold del_hits, tb_del, table_sel, out_sel. cbn [fm_cmd fm_table fm_match fm_out_port fm_out_group].
    rewrite T, M, covers_refl, !Z.eqb_refl, orb_true_r. reflexivity.
  Qed.
  Lemma deletes_all : forall p f, pc_lacp p = 0 -> port_flow p f -> exists d, In (FlowMod d) (del_tv p) /\ del_hits d f = true.
  Proof.
    intros p f L0 H. unfold del_tv.
    destruct H as [f [vid Hv|vid Hv|N C NE]|L NE|L|L].
    - eexists. split; [|apply del_hits_own; [reflexivity|reflexivity]]. apply in_app_iff; left.
      unfold switch_del_tv. rewrite (vlans_nonempty p vid) by (apply in_tagged; auto).
      apply in_app_iff; right. apply in_app_iff; left. apply in_map_iff. exists vid. split; [reflexivity|auto].
    - eexists. split; [|apply del_hits_own; [reflexivity|reflexivity]]. apply in_app_iff; left.
      unfold switch_del_tv. rewrite (vlans_nonempty p vid) by (apply in_native; auto).
      apply in_app_iff; left. rewrite Hv. left. reflexivity.
    - eexists. split; [|apply del_hits_own; [reflexivity|reflexivity]]. apply in_app_iff; left.
      unfold switch_del_tv. rewrite NE. apply in_app_iff; left. rewrite N, C. left. reflexivity.
    - contradiction.
    - eexists. split; [|apply del_hits_own; [reflexivity|reflexivity]]. apply in_app_iff; right. apply in_app_iff; left.
      unfold lldp_del_port. rewrite L. left. reflexivity.
    - eexists. split; [|apply del_hits_own; [reflexivity|reflexivity]]. apply in_app_iff; right. apply in_app_iff; right.
      unfold outonly_del_port. rewrite L. left. reflexivity.
  Qed.

  Lemma entry_port : forall p f, entry_flow p f -> port_flow p f.
  Proof. intros. apply PF_entry; auto. Qed.
  Lemma block_form : forall p, f_table (block_flow p) = tv /\ f_match (block_flow p) = exact InPort (pc_num p) :: [].
  Proof. intros p. split; reflexivity. Qed.

  (** Flows of the switch part are rewritten; the LLDP and output-only rules are not deleted with it. *)
  Lemma switch_part : forall p f d, port_flow p f -> In (FlowMod d) (switch_del_tv p) -> del_hits d f = true ->
    exists w, In (FlowMod w) (switch_add_port cfg p) /\ is_flow_write (FlowMod w) = true /\ f = flow_of w.
  Proof.
    intros p f d H Hd Hh.
    assert (K : (exists w, In (FlowMod w) (switch_add_port cfg p) /\ is_flow_write (FlowMod w) = true /\ f = flow_of w) \/
                f = lldp_flow p \/ f = outonly_flow p).
    { destruct (add_covers p f H) as [w [Hw E]]. destruct (add_writes p w Hw) as [_ C].
      unfold managers_add_port in Hw. rewrite !in_app_iff in Hw. destruct Hw as [Hw|[Hw|Hw]].
      - left. exists w. split; auto. split; [simpl; rewrite C; reflexivity|auto].
      - right; left. unfold lldp_add_port in Hw. destruct (pc_lldp p); [|destruct Hw]. destruct Hw as [Hw|[]]. injection Hw as <-. exact E.
      - right; right. unfold outonly_add_port in Hw. destruct (pc_output_only p); [|destruct Hw]. destruct Hw as [Hw|[]]. injection Hw as <-. exact E. }
    destruct K as [K|K]; [exact K|exfalso].
    assert (VI : forall vid i, item_covers (vlan_item vid) i = true -> fst i = VlanVid).
    { intros vid [f0 [v m]] X. unfold vlan_item in X. destruct (vid =? OFPVID_NONE); unfold exact, item_covers in X;
        apply andb_true_iff in X as [X _]; apply andb_true_iff in X as [X _]; unfold field_eqb in X;
        destruct (field_eq_dec VlanVid f0); auto; discriminate. }
    assert (NV : forall vid, existsb (item_covers (vlan_item vid)) (f_match f) = true -> False).
    { intros vid X. apply existsb_exists in X as [i [Hi X]]. apply VI in X.
      destruct K as [-> | ->]; cbn in Hi; repeat (destruct Hi as [<-|Hi]; [discriminate X|]); destruct Hi. }
    unfold switch_del_tv in Hd. destruct (nonempty _); [|destruct Hd]. rewrite !in_app_iff in Hd.
    destruct Hd as [Hd|[Hd|Hd]].
    - assert (E : d = tb_del (d_tvlan cfg) FDelete LOW_PRIORITY [exact InPort (pc_num p); vlan_item OFPVID_NONE] OFPP_ANY).
      { destruct (pc_native p), (pc_count_miss p); try (exfalso; exact Hd); destruct Hd as [Hd|[]]; injection Hd as <-; reflexivity. }
      subst d. unfold del_hits in Hh. cbn [tb_del fm_cmd fm_match] in Hh. apply andb_true_iff in Hh as [Hh _]. apply andb_true_iff in Hh as [_ Hh].
      unfold covers in Hh. cbn [forallb] in Hh. apply andb_true_iff in Hh as [_ Hh]. apply andb_true_iff in Hh as [Hh _]. eapply NV; eauto.
    - apply in_map_iff in Hd as [vid [E _]]. injection E as <-.
      unfold del_hits in Hh. cbn [tb_del fm_cmd fm_match] in Hh. apply andb_true_iff in Hh as [Hh _]. apply andb_true_iff in Hh as [_ Hh].
      unfold covers in Hh. cbn [forallb] in Hh. apply andb_true_iff in Hh as [_ Hh]. apply andb_true_iff in Hh as [Hh _]. eapply NV; eauto.
    - destruct (pc_lacp p =? 0); [destruct Hd|]. destruct Hd as [Hd|[]]. injection Hd as <-.
      unfold del_hits in Hh. cbn [tb_del fm_cmd fm_match] in Hh. apply andb_true_iff in Hh as [Hh _]. apply andb_true_iff in Hh as [_ Hh].
      unfold covers, lacp_match in Hh. cbn [forallb] in Hh. apply andb_true_iff in Hh as [_ Hh]. apply andb_true_iff in Hh as [Hh _].
      destruct K as [-> | ->]; cbn in Hh; discriminate Hh.
  Qed.

  Section Step.
    Variables (sh : list ofmsg -> list ofmsg) (ub : bool) (ms out : list ofmsg) (s : switch) (st st' : dstate) (p : pconf).
    Hypothesis Hsh : forall l, Permutation (sh l) l.
    Hypothesis R : valve_flowreorder sh ub ms = Some out.
    Hypothesis HR : regular ms.
    Hypothesis A : tv_rules s.
    Hypothesis Hp : In p (d_ports cfg).
    Local Notation n := (pc_num p).
    Local Notation s' := (apply_msgs out s).
    Let HW := proj1 HR.
    Let HD := proj2 HR.

    Lemma quiet_flows : tvp n ms = [] -> forall f r, f_table f = tv -> f_match f = exact InPort n :: r ->
      (In f (sw_flows s') <-> In f (sw_flows s)).
    Proof.
      intros E f r T M. split.
      - intros H. destruct (batch_origin sh ub ms out s Hsh R HW A f n r T M H) as [X|[w [X _]]]; auto.
        rewrite E in X. destruct X.
      - intros H. apply (batch_keep sh ub ms out s Hsh R HW A HD f n r T M H). intros d Hd. rewrite E in Hd. destruct Hd.
    Qed.
    Lemma written : forall m, In m (tvp n ms) -> is_flow_write m = true ->
      match m with FlowMod w => In (flow_of w) (sw_flows s') | _ => False end.
    Proof.
      intros m Hm W. apply filter_In in Hm as [Hm Ab]. destruct m as [w| | | | | | |]; try discriminate W.
      apply about_spec in Ab as [T _]. apply (batch_w sh ub ms out s Hsh R HW); auto.
    Qed.

    Lemma step_same : same_at n st st' -> tvp n ms = [] ->
      (pinv st s p -> pinv st' s' p) /\ (complete st s p -> complete st' s' p).
    Proof.
      intros [E1 [E2 E3]] E.
      assert (Er : port_running st' p = port_running st p) by (unfold port_running; rewrite E1; reflexivity).
      assert (Ef : fwd st' n = fwd st n) by (unfold fwd; rewrite E2, E3; reflexivity).
      assert (Q : forall f, port_flow p f -> (In f (sw_flows s') <-> In f (sw_flows s))).
      { intros f Hf. destruct (port_flow_form p f Hf) as [T [r M]]. eapply quiet_flows; eauto. }
      assert (B : In (block_flow p) (sw_flows s') <-> In (block_flow p) (sw_flows s)).
      { destruct (block_form p). eapply quiet_flows; eauto. }
      split.
      - intros [P1 P2 P3]. constructor.
        + intros L f Hf Hi. rewrite Er. apply (P1 L f Hf). apply Q; auto.
        + intros L F f Hf Hi. apply B. rewrite Ef in F. apply (P2 L F f Hf). apply Q; auto. apply entry_port; auto.
        + intros L F Hi. rewrite Ef in F. apply (P3 L F). apply B; auto.
      - intros C Rn f Hf. apply Q; auto. apply C; auto. congruence.
    Qed.

    Lemma step_add_plain : pc_lacp p = 0 -> ds_phys st' n = true ->
      tvp n ms = (if pc_enabled p then managers_add_port cfg p else []) ->
      (pinv st s p -> pinv st' s' p) /\ complete st' s' p.
    Proof.
      intros L P E. split.
      - intros [P1 P2 P3]. constructor; [|contradiction|contradiction].
        intros _ f Hf Hi. unfold port_running. rewrite P, andb_true_r. destruct (pc_enabled p) eqn:En; auto.
        exfalso. assert (X : port_running st p = true).
        { apply (P1 L f Hf). destruct (port_flow_form p f Hf) as [T [r M]]. apply (quiet_flows E f r); auto. }
        unfold port_running in X. rewrite En in X. discriminate.
      - intros Rn f Hf. assert (En : pc_enabled p = true) by (unfold port_running in Rn; apply andb_true_iff in Rn; tauto).
        rewrite En in E. destruct (add_covers p f Hf) as [w [Hw ->]]. destruct (add_writes p w Hw) as [_ C].
        apply (written (FlowMod w)); [rewrite E; auto|]. simpl. rewrite C. reflexivity.
    Qed.

    Lemma step_del_plain : pc_lacp p = 0 -> ds_phys st' n = false -> tvp n ms = del_tv p ->
      pinv st' s' p /\ complete st' s' p.
    Proof.
      intros L P E. split.
      - constructor; [|contradiction|contradiction].
        intros _ f Hf Hi. exfalso. destruct (deletes_all p f L Hf) as [d [Hd Hh]].
        destruct (port_flow_form p f Hf) as [T [r M]].
        apply (batch_gone sh ub ms out s Hsh R HW A HD f n r d T M); auto.
        + rewrite E. auto.
        + intros m Hm. rewrite E in Hm. eapply del_tv_deletes; eauto.
      - intros Rn. unfold port_running in Rn. rewrite P, andb_false_r in Rn. discriminate.
    Qed.

    (** a LACP port that does not forward afterwards *)
    Lemma step_block : pc_lacp p <> 0 -> fwd st' n = false -> In (disable_forwarding cfg p) (tvp n ms) -> pinv st' s' p.
    Proof.
      intros L F D. constructor; [contradiction| |congruence].
      intros _ _ f Hf Hi. apply (written (disable_forwarding cfg p)); auto.
    Qed.
    Lemma step_block_complete : forall l, pc_lacp p <> 0 -> ds_phys st' n = ds_phys st n ->
      tvp n ms = disable_forwarding cfg p :: l ++ switch_add_port cfg p -> (l = switch_del_tv p) ->
      complete st s p -> complete st' s' p.
    Proof.
      intros l L P E -> C Rn f Hf.
      assert (Hi : In f (sw_flows s)) by (apply C; auto; unfold port_running in *; congruence).
      destruct (port_flow_form p f Hf) as [T [r M]].
      destruct (existsb (fun m => match m with FlowMod d => del_hits d f | _ => false end) (switch_del_tv p)) eqn:X.
      - apply existsb_exists in X as [m [Hm X]]. destruct m as [d| | | | | | |]; try discriminate X.
        destruct (switch_part p f d Hf Hm X) as [w [Hw [Ww ->]]]. apply (written (FlowMod w)); auto.
        rewrite E. right. apply in_app_iff; auto.
      - apply (batch_keep sh ub ms out s Hsh R HW A HD f n r T M Hi). intros d Hd Hh. rewrite E in Hd.
        destruct Hd as [Hd|Hd]; [unfold disable_forwarding in Hd; injection Hd as <-; discriminate Hh|].
        apply in_app_iff in Hd as [Hd|Hd].
        + assert (Y : existsb (fun m => match m with FlowMod d => del_hits d f | _ => false end) (switch_del_tv p) = true)
            by (apply existsb_exists; exists (FlowMod d); auto). congruence.
        + assert (Z : In (FlowMod d) (managers_add_port cfg p)) by (unfold managers_add_port; apply in_app_iff; auto).
          destruct (add_writes p d Z) as [_ Cd]. unfold del_hits in Hh. rewrite Cd in Hh. discriminate.
    Qed.

    Lemma step_open : pc_lacp p <> 0 -> fwd st' n = true -> ds_phys st' n = ds_phys st n ->
      tvp n ms = [enable_forwarding cfg p] -> pinv st' s' p /\ (complete st s p -> complete st' s' p).
    Proof.
      intros L F P E. split.
      - constructor; [contradiction|congruence|]. intros _ _.
        apply (batch_gone sh ub ms out s Hsh R HW A HD (block_flow p) n [] 
                 (tb_del (d_tvlan cfg) FDeleteStrict (d_high cfg) [exact InPort n] OFPP_ANY)); try reflexivity.
        + rewrite E. left. reflexivity.
        + unfold del_hits, tb_del, table_sel, out_sel. cbn [fm_cmd fm_table fm_match fm_out_port fm_out_group fm_prio].
          change (f_table (block_flow p)) with tv. change (f_prio (block_flow p)) with (d_high cfg).
          change (f_match (block_flow p)) with [exact InPort n]. rewrite !Z.eqb_refl, orb_true_r.
          unfold fmatch_eqb. destruct (fmatch_eq_dec _ _); [reflexivity|contradiction].
        + intros m Hm. rewrite E in Hm. destruct Hm as [<-|[]]. reflexivity.
      - intros C Rn f Hf.
        assert (Hi : In f (sw_flows s)) by (apply C; auto; unfold port_running in *; congruence).
        destruct (port_flow_form p f Hf) as [T [r M]].
        apply (batch_keep sh ub ms out s Hsh R HW A HD f n r T M Hi). intros d Hd Hh. rewrite E in Hd.
        destruct Hd as [Hd|[]]. unfold enable_forwarding in Hd. injection Hd as <-.
        unfold del_hits in Hh. cbn [tb_del fm_cmd fm_match fm_prio] in Hh. apply andb_true_iff in Hh as [Hh _].
        apply andb_true_iff in Hh as [Hh Hm]. apply andb_true_iff in Hh as [_ Hq]. apply Z.eqb_eq in Hq.
        unfold fmatch_eqb in Hm. destruct (fmatch_eq_dec _ _) as [Em|]; [|discriminate].
        apply (not_block p f Hf); auto.
    Qed.
  End Step.

  (** ** Events *)
  Definition lacp_loc (p : pconf) (cold : bool) (st st' : dstate) (L : list ofmsg) : Prop :=
    (exists up pkt, ds_actor st' (pc_num p) = next_actor st p up pkt) /\ ds_role st' (pc_num p) = next_role p /\
    ((same_at (pc_num p) st st' /\ L = []) \/
     (fwd st' (pc_num p) = true /\ L = [enable_forwarding cfg p]) \/
     (fwd st' (pc_num p) = false /\ L = disable_forwarding cfg p :: switch_del_tv p ++ switch_add_port cfg p)).

  Definition status_to (r : preason) (down : bool) : bool :=
    match r with PAdd => true | PModify => negb down | _ => false end.

  Inductive loc (p : pconf) (ev : cevent) (st st' : dstate) (ms : list ofmsg) : Prop :=
  | loc_same : same_at (pc_num p) st st' -> tvp (pc_num p) ms = [] ->
      (forall now r d b, ev = CPortStatus now (pc_num p) r d b ->
         r = POther \/ pc_opstatus p = false \/ (ds_phys st (pc_num p) = status_to r d)) -> loc p ev st st' ms
  | loc_lacp : pc_lacp p <> 0 -> (match ev with CLacp _ _ _ | CExpire _ => True | _ => False end) ->
      ds_phys st' (pc_num p) = ds_phys st (pc_num p) -> lacp_loc p false st st' (tvp (pc_num p) ms) -> loc p ev st st' ms
  | loc_add : forall now r d b, ev = CPortStatus now (pc_num p) r d b -> pc_opstatus p = true -> r <> POther ->
      status_to r d = true -> ds_phys st (pc_num p) = false -> ds_phys st' (pc_num p) = true ->
      (if pc_enabled p then
         if pc_lacp p =? 0 then tvp (pc_num p) ms = managers_add_port cfg p
         else ds_actor st' (pc_num p) = AInit /\
           ((ds_actor st (pc_num p) = AInit /\ tvp (pc_num p) ms = managers_add_port cfg p) \/
            tvp (pc_num p) ms = managers_add_port cfg p ++ disable_forwarding cfg p ::
             (switch_del_tv p ++ switch_add_port cfg p))
       else ds_actor st' (pc_num p) = ds_actor st (pc_num p) /\ ds_role st' (pc_num p) = ds_role st (pc_num p) /\
            tvp (pc_num p) ms = []) -> loc p ev st st' ms
  | loc_del : forall now r d b, ev = CPortStatus now (pc_num p) r d b -> pc_opstatus p = true -> r <> POther ->
      (status_to r d = false \/ b || d = true) -> ds_phys st' (pc_num p) = false ->
      (if pc_lacp p =? 0 then tvp (pc_num p) ms = del_tv p
       else ds_actor st' (pc_num p) = ANone /\
         ((ds_actor st (pc_num p) = ANone /\ ds_role st' (pc_num p) = ds_role st (pc_num p) /\ tvp (pc_num p) ms = []) \/
          tvp (pc_num p) ms = disable_forwarding cfg p :: switch_del_tv p ++ switch_add_port cfg p)) -> loc p ev st st' ms.

  Lemma ports_add_single : forall st p st' ms, In p (d_ports cfg) -> ports_add cfg false st [p] = (st', ms) ->
    exists ms0 l, port_add_one cfg false st p = (st', ms0) /\ ms = ms0 ++ l /\ Forall other l.
  Proof.
    intros st p st' ms Hp H. unfold ports_add in H. cbn [ports_add_each] in H.
    destruct (port_add_one cfg false st p) as [st1 ms1]. injection H as <- <-.
    exists ms1, (add_vlans cfg st1 false (nodup Z.eq_dec (flat_map port_vlans (filter pc_enabled [p])))).
    rewrite app_nil_r. split; [reflexivity|]. split; [reflexivity|]. apply add_vlans_other.
  Qed.
  Lemma ports_delete_single : forall keep now st p st' ms, ports_delete cfg keep now st [p] = Some (st', ms) ->
    exists ms0 l, port_delete_one cfg keep now st p = Some (st', ms0) /\ ms = ms0 ++ l /\ Forall other l.
  Proof.
    intros keep now st p st' ms H. unfold ports_delete in H. cbn [ports_delete_each] in H.
    destruct (port_delete_one cfg keep now st p) as [[st1 ms1]|]; [|discriminate]. injection H as <- <-.
    exists ms1, (update_vlans cfg st1 (nodup Z.eq_dec (flat_map port_vlans [p]))).
    rewrite app_nil_r. split; [reflexivity|]. split; [reflexivity|]. apply update_vlans_other.
  Qed.

  Lemma nodup_nums_filter : forall (g : pconf -> bool) l, NoDup (map pc_num l) -> NoDup (map pc_num (filter g l)).
  Proof.
    intros g. induction l as [|q l IH]; intros H; cbn [filter map] in *; [constructor|].
    inversion H as [|x y N1 N2]; subst. destruct (g q); [|auto]. cbn [map]. constructor; [|auto].
    intros I. apply N1. apply in_map_iff in I as [z [E Hz]]. apply filter_In in Hz as [Hz _].
    apply in_map_iff; eauto.
  Qed.

  Lemma lacp_expire_tv : forall now ps st st' ms, (forall p, In p ps -> In p (d_ports cfg) /\ pc_lacp p <> 0) ->
    NoDup (map pc_num ps) -> lacp_expire_each cfg st now ps = (st', ms) ->
    ds_phys st' = ds_phys st /\ ds_running st' = ds_running st /\ ds_learn st' = ds_learn st /\ regular ms /\
    (forall n, ~ In n (map pc_num ps) -> same_at n st st' /\ tvp n ms = []) /\
    (forall p, In p ps -> lacp_loc p false st st' (tvp (pc_num p) ms)).
  Proof.
    intros now. induction ps as [|q ps IH]; intros st st' ms Hps ND H; cbn [lacp_expire_each] in H.
    { injection H as <- <-. split; [auto|]. split; [auto|]. split; [auto|]. split; [apply regular_nil|].
      split; [intros n _; split; [apply same_refl|reflexivity]|intros p []]. }
    destruct (lacp_update cfg st q false (Some now) false false) as [st1 ms1] eqn:U.
    destruct (lacp_expire_each cfg st1 now ps) as [st2 ms2] eqn:E. injection H as <- <-.
    destruct (Hps q (or_introl eq_refl)) as [Hq Lq]. apply lacp_update_tv in U; auto.
    destruct U as (U1 & U2 & U3 & U4 & U5 & U6 & U7 & U8). cbn [map] in ND. inversion ND as [|x l N1 N2]; subst x l.
    apply IH in E; [|intros; apply Hps; right; auto|auto]. destruct E as (E1 & E2 & E3 & E4 & E5 & E6).
    split; [congruence|]. split; [congruence|]. split; [congruence|]. split; [apply regular_app; auto|]. split.
    - intros n Hn. cbn [map] in Hn. destruct (U4 n) as [X1 X2]; [intros ->; apply Hn; left; auto|].
      destruct (E5 n) as [Y1 Y2]; [intros X; apply Hn; right; auto|].
      split; [eapply same_trans; eauto|]. rewrite tvp_app, X2, Y2. reflexivity.
    - intros p [<-|Hp].
      + destruct (E5 (pc_num q) N1) as [Y1 Y2]. rewrite tvp_app, Y2, app_nil_r. destruct Y1 as (Y3 & Y4 & Y5).
        assert (Fw : fwd st2 (pc_num q) = fwd st1 (pc_num q)) by (unfold fwd; rewrite Y4, Y5; reflexivity).
        split; [exists false, false; congruence|]. split; [congruence|].
        destruct U8 as [[_ [S ->]]|[[F [T _]]|[F T]]].
        * left. split; [|reflexivity]. eapply same_trans; [exact S|]. split; auto.
        * right; left. rewrite Fw, T. auto.
        * right; right. rewrite Fw, T. auto.
      + assert (N : pc_num p <> pc_num q) by (intros X; apply N1; rewrite <- X; apply in_map; auto).
        destruct (U4 (pc_num p) N) as [(X1 & X2 & X3) X4]. rewrite tvp_app, X4. cbn [app].
        destruct (E6 p Hp) as [[up [pkt A]] [B C]].
        assert (Nx : next_actor st1 p up pkt = next_actor st p up pkt).
        { unfold next_actor, port_running. rewrite X1. reflexivity. }
        split; [exists up, pkt; congruence|]. split; [exact B|].
        destruct C as [[S T]|C]; [left; split; auto; eapply same_trans; eauto; split; auto|right; exact C].
  Qed.

  Lemma event_local : forall st ev st' ms, ds_running st = true ->
    match ev with CConnect _ _ | CDisconnect _ => False | _ => True end ->
    cstep cfg st ev = Some (st', ms) ->
    ds_running st' = true /\ regular ms /\ forall p, In p (d_ports cfg) -> loc p ev st st' ms.
  Proof.
    intros st ev st' ms Run NC H. destruct ev as [now ups|now|now n r d b|now n vid mac|now n sync|now]; try contradiction; cbn [cstep] in H.
    - rewrite Run in H. unfold port_status_handler in H.
      set (st1 := set_port_status cfg st n (negb d) now) in *.
      destruct (set_status_same st n (negb d) now) as (P1 & P2 & P3 & P4). fold st1 in P1, P2, P3, P4.
      assert (SS : forall m, same_at m st st1) by (intros m; unfold same_at; rewrite P1, P2, P3; auto).
      assert (Stay : (st', ms) = (st1, []) -> (forall p, find_port cfg n = Some p -> r = POther \/ pc_opstatus p = false \/ ds_phys st (pc_num p) = status_to r d) ->
         ds_running st' = true /\ regular ms /\ forall p, In p (d_ports cfg) -> loc p (CPortStatus now n r d b) st st' ms).
      { intros E X. injection E as -> ->. split; [congruence|]. split; [apply regular_nil|].
        intros p Hp. apply loc_same; [apply SS|reflexivity|]. intros now' r' d' b' Ev. injection Ev as _ -> <- <- _.
        apply X. apply find_port_some; auto. }
      destruct (find_port cfg n) as [p|] eqn:Fp; [|injection H as <- <-; apply Stay; auto; discriminate].
      apply find_port_in in Fp as [Hp En].
      destruct (pc_opstatus p) eqn:Op; cbn [negb] in H; [|injection H as <- <-; apply Stay; auto; intros q E; injection E as <-; auto].
      assert (Others : forall st2 ms2, (forall m, m <> pc_num p -> same_at m st st2 /\ tvp m ms2 = []) ->
         forall q, In q (d_ports cfg) -> q <> p -> loc q (CPortStatus now n r d b) st st2 ms2).
      { intros st2 ms2 X q Hq N. assert (Nn : pc_num q <> pc_num p) by (intros E; apply N; eapply nums_inj; eauto).
        destruct (X _ Nn). apply loc_same; auto. intros now' r' d' b' Ev. injection Ev as _ E _ _ _. congruence. }
      assert (Add : r <> POther -> status_to r d = true -> ds_phys st (pc_num p) = false -> ports_add cfg false st1 [p] = (st', ms) ->
         ds_running st' = true /\ regular ms /\ forall p, In p (d_ports cfg) -> loc p (CPortStatus now n r d b) st st' ms).
      { intros Ro So Ph A. apply ports_add_single in A as [ms0 [l [A [-> Hl]]]]; auto. apply port_add_tv in A; auto.
        destruct A as (A1 & A2 & A3 & A4 & A5 & A6). destruct (other_quiet l Hl) as (Q1 & Q2 & Q3 & Q4).
        split; [congruence|]. split; [apply regular_app; auto; split; auto|]. intros q Hq.
        destruct (Z.eq_dec (pc_num q) (pc_num p)) as [E|N].
        - assert (q = p) by (eapply nums_inj; eauto). subst q.
          apply (loc_add p _ st st' _ now r d b); auto; [congruence|].
          rewrite tvp_app, Q3, app_nil_r. rewrite <- P2, <- P3.
          destruct (pc_enabled p); [|destruct A6 as (B1 & B2 & ->); auto].
          destruct (pc_lacp p =? 0); [tauto|]. destruct A6 as (B1 & B2 & [[_ [B3 [_ B4]]]|B3]); split; auto.
        - apply Others; auto; [|congruence]. intros m Hm. destruct (A3 m Hm) as [X Y]. split; [eapply same_trans; eauto|].
          rewrite tvp_app, Y, Q3. reflexivity. }
      assert (Del : r <> POther -> (status_to r d = false \/ b || d = true) -> ports_delete cfg true None st1 [p] = Some (st', ms) ->
         ds_running st' = true /\ regular ms /\ forall p, In p (d_ports cfg) -> loc p (CPortStatus now n r d b) st st' ms).
      { intros Ro So A. apply ports_delete_single in A as [ms0 [l [A [-> Hl]]]]; auto. apply port_delete_tv in A; auto.
        destruct A as (A1 & A3 & A4 & A5 & A6). destruct (other_quiet l Hl) as (Q1 & Q2 & Q3 & Q4).
        split; [congruence|]. split; [apply regular_app; auto; split; auto|]. intros q Hq.
        destruct (Z.eq_dec (pc_num q) (pc_num p)) as [E|N].
        - assert (q = p) by (eapply nums_inj; eauto). subst q.
          apply (loc_del p _ st st' _ now r d b); auto; [congruence|].
          rewrite tvp_app, Q3, app_nil_r. rewrite <- P2, <- P3.
          destruct (pc_lacp p =? 0); [tauto|]. destruct A6 as (B1 & B2 & [[B3 [B4 ->]]|B3]); split; auto.
          left. split; auto. split; [congruence|reflexivity].
        - apply Others; auto; [|congruence]. intros m Hm. destruct (A3 m Hm) as [X Y]. split; [eapply same_trans; eauto|].
          rewrite tvp_app, Y, Q3. reflexivity. }
      assert (Handle : forall ns, r <> POther -> status_to r d = ns ->
        (if eqb ns (ds_phys st1 n) then
            if ns && (b || d) then ports_delete cfg true None st1 [p] else Some (st1, [])
          else if ns then Some (ports_add cfg false st1 [p]) else ports_delete cfg true None st1 [p]) = Some (st', ms) ->
        ds_running st' = true /\ regular ms /\ forall p, In p (d_ports cfg) -> loc p (CPortStatus now n r d b) st st' ms).
      { intros ns Ro So X. rewrite P1 in X. destruct (eqb ns (ds_phys st n)) eqn:Eq.
        - apply eqb_prop in Eq. destruct (ns && (b || d)) eqn:Bl.
          + apply andb_true_iff in Bl as [_ Bl]. apply Del; auto.
          + apply Stay; [injection X as <- <-; reflexivity|]. intros q Eq'. injection Eq' as <-. right; right. congruence.
        - apply eqb_false_iff in Eq. destruct ns.
          + injection X as X. apply Add; auto. rewrite En. destruct (ds_phys st n); congruence.
          + apply Del; auto. }
      destruct r.
      + apply (Handle true); auto; discriminate.
      + apply (Handle false); auto; discriminate.
      + apply (Handle (negb d)); auto; discriminate.
      + injection H as <- <-. apply Stay; auto.
    - unfold rcv_vlan_packet in H. rewrite Run in H. cbn [negb] in H.
      assert (Q : forall l hs, (st', ms) = (set_learn st l, flat_map (host_ofmsgs cfg) hs) ->
        ds_running st' = true /\ regular ms /\ forall p, In p (d_ports cfg) -> loc p (CPacketIn now n vid mac) st st' ms).
      { intros l hs E. injection E as -> ->. destruct (other_quiet _ (host_other hs)) as (Q1 & Q2 & Q3 & Q4).
        split; [exact Run|]. split; [split; auto|]. intros p Hp. apply loc_same; [split; auto|apply Q3|discriminate]. }
      assert (Q0 : (st', ms) = (st, []) -> ds_running st' = true /\ regular ms /\ forall p, In p (d_ports cfg) -> loc p (CPacketIn now n vid mac) st st' ms).
      { intros E. apply (Q (ds_learn st) []). rewrite E. destruct st; reflexivity. }
      destruct (find_port cfg n), (find_vlan cfg vid); try (injection H as <- <-; apply Q0; reflexivity).
      destruct (learnable_mac mac); [|injection H as <- <-; apply Q0; reflexivity].
      destruct (vlan_rcv_packet _ _ _ _ _ _) as [[l hs]|]; [|discriminate]. injection H as <- <-. eapply Q; reflexivity.
    - injection H as H. unfold rcv_lacp in H. rewrite Run in H. cbn [negb] in H.
      assert (Q0 : (st', ms) = (st, []) -> ds_running st' = true /\ regular ms /\ forall p, In p (d_ports cfg) -> loc p (CLacp now n sync) st st' ms).
      { intros E. injection E as -> ->. split; [exact Run|]. split; [apply regular_nil|]. intros p Hp.
        apply loc_same; [apply same_refl|reflexivity|discriminate]. }
      destruct (find_port cfg n) as [p|] eqn:Fp; [|apply Q0; auto]. apply find_port_in in Fp as [Hp En].
      destruct (Z.eqb_spec (pc_lacp p) 0) as [L|L]; [apply Q0; auto|].
      apply lacp_update_tv in H; auto. destruct H as (U1 & U2 & U3 & U4 & U5 & U6 & U7 & U8).
      split; [congruence|]. split; [auto|]. intros q Hq.
      destruct (Z.eq_dec (pc_num q) (pc_num p)) as [E|N].
      + assert (q = p) by (eapply nums_inj; eauto). subst q. apply loc_lacp; auto; [congruence|].
        split; [eauto|]. split; [auto|]. destruct U8 as [[_ [X ->]]|[[X [Y _]]|X]]; auto.
      + destruct (U4 _ N). apply loc_same; auto. discriminate.
    - unfold state_expire in H. rewrite Run in H. cbn [negb] in H.
      destruct (lacp_expire_each cfg st now _) as [st1 ms1] eqn:X.
      destruct (hosts_expire_each _ _ _ _) as [[l hs]|]; [|discriminate]. injection H as <- <-.
      apply lacp_expire_tv in X.
      + destruct X as (X1 & X2 & X3 & X4 & X5 & X6). destruct (other_quiet _ (host_other hs)) as (Q1 & Q2 & Q3 & Q4).
        split; [cbn; congruence|]. split; [apply regular_app; auto; split; auto|]. intros p Hp.
        destruct (lacp_expired cfg st now p) eqn:Ex.
        * assert (In p (filter (lacp_expired cfg st now) (d_ports cfg))) as Hf by (apply filter_In; auto).
          apply loc_lacp; auto.
          -- unfold lacp_expired in Ex. apply andb_true_iff in Ex as [Ex _]. apply andb_true_iff in Ex as [Ex _].
             apply negb_true_iff, Z.eqb_neq in Ex. exact Ex.
          -- cbn. congruence.
          -- rewrite tvp_app, Q3, app_nil_r. destruct (X6 p Hf) as [Y1 [Y2 Y3]]. split; auto.
        * destruct (X5 (pc_num p)) as [Y1 Y2].
          { intros I. apply in_map_iff in I as [q [E Hq]]. apply filter_In in Hq as [Hq Ex'].
            assert (q = p) by (eapply nums_inj; eauto). subst q. congruence. }
          apply loc_same; auto; [|discriminate]. rewrite tvp_app, Y2, Q3. reflexivity.
      + intros p Hp. apply filter_In in Hp as [Hp Ex]. split; auto.
        unfold lacp_expired in Ex. apply andb_true_iff in Ex as [Ex _]. apply andb_true_iff in Ex as [Ex _].
        apply negb_true_iff, Z.eqb_neq in Ex. exact Ex.
      + apply nodup_nums_filter. apply (vc_nums cfg V).
  Qed.
End Ports.
