(** * What the rules of the VLAN table do to a frame *)
From Coq Require Import ZArith List Bool Lia Permutation.
From Verif Require Import PyBase PyBaseProofs OpenFlow TrimModel TrimProofs TableModel ReorderModel FloodModel LearnModel L2Model L2Spec L2PortSpec L2Proofs L2PortProofs.
Import ListNotations.
Open Scope Z_scope.

Section Walk.
  Variable cfg : dconf.
  Hypothesis V : valid_cfg cfg.
  Local Notation tv := (tb_id (d_tvlan cfg)).
  Local Notation ts := (tb_id (d_tsrc cfg)).
  Variable s : switch.
  Hypothesis A : tv_rules cfg s.

  Lemma in_port_in : forall pk m n r, m = exact InPort n :: r -> matches pk m = true -> pk_in pk = n.
  Proof. intros pk m n r -> H. apply (in_port_match pk n r H). Qed.

  (** the rules a frame can hit *)
  Lemma hit_origin : forall pk f, hit (sw_flows s) tv pk f ->
    f = default_flow cfg \/
    exists p, In p (d_ports cfg) /\ pc_num p = pk_in pk /\ (port_flow cfg p f \/ (f = block_flow cfg p /\ pc_lacp p <> 0)).
  Proof.
    intros pk f (Hi & T & M & _). destruct (A f Hi T) as [|p g Hp Hg|p Hp Lp]; [auto| |]; right; exists p; split; auto.
    - destruct (port_flow_form cfg p g Hg) as [_ [r E]]. split; [symmetry; eapply in_port_in; eauto|auto].
    - destruct (block_form cfg p) as [_ E]. split; [symmetry; eapply in_port_in; eauto|auto].
  Qed.

  (** what the rules do *)
  Lemma exec_drop : forall g live prio m pk,
    exec_insts g live (f_inst (flow_of (tb_drop (d_tvlan cfg) prio m 0))) pk = ([], pk, None).
  Proof. reflexivity. Qed.
  Lemma exec_punt : forall g live prio m k pk,
    exec_insts g live (f_inst (flow_of (tb_controller (d_tvlan cfg) prio m [] k))) pk = ([(OFPP_CONTROLLER, pk)], pk, None).
  Proof. reflexivity. Qed.
  Lemma exec_push : forall g live p vid push pk, exists es pk',
    exec_insts g live (f_inst (push_flow cfg p vid push)) pk = (es, pk', Some ts).
  Proof.
    intros g live p vid push pk. unfold push_flow, port_vlan_rule, tb_add, tb_write, flow_of.
    cbn [f_inst fm_inst]. unfold goto. rewrite trim_goto.
    destruct (mirror_acts p ++ _) as [|a l].
    - cbn [app exec_insts]. eauto.
    - cbn [app exec_insts]. destruct (exec_acts g live (a :: l) pk) as [es q]. eauto.
  Qed.

  Definition punts (p : pconf) (f : flow) : Prop :=
    (f = lacp_flow cfg p) \/ (f = lldp_flow cfg p).
  Lemma punt_control : forall p f pk, punts p f -> matches pk (f_match f) = true -> control_frame pk.
  Proof.
    intros p f pk H M.
    assert (E : forall m ty, matches pk (m ++ [exact EthType ty]) = true -> pk_hdr pk EthType = Some ty).
    { intros m ty X. unfold matches in X. rewrite forallb_app in X. apply andb_true_iff in X as [_ X]. simpl in X.
      rewrite andb_true_r in X. unfold item_matches in X. cbn in X. destruct (pk_hdr pk EthType) as [v|]; [|discriminate].
      rewrite !Z.land_m1_r in X. apply Z.eqb_eq in X. congruence. }
    destruct H as [->| ->].
    - left. apply (E [exact InPort (pc_num p); exact EthDst SLOW_MULTICAST]). exact M.
    - right. apply (E [exact InPort (pc_num p); masked EthDst LLDP_NEAREST BRIDGE_GROUP_MASK]). exact M.
  Qed.

  (** port rules either punt, drop or let in *)
  Lemma port_flow_kind : forall p f, port_flow cfg p f ->
    punts p f \/ (f_prio f = d_highest cfg /\ f_inst f = [] /\ pc_output_only p = true) \/ (f_prio f = LOW_PRIORITY /\ entry_flow cfg p f).
  Proof.
    intros p f [g H|L N|L|O].
    - right; right. split; auto. destruct H; reflexivity.
    - left; left; auto.
    - left; right; auto.
    - right; left. auto.
  Qed.

  Lemma only_default_drops : forall live pk es,
    (forall p f, In p (d_ports cfg) -> pc_num p = pk_in pk -> port_flow cfg p f -> ~ In f (sw_flows s)) ->
    walk s live tv pk es -> es = [].
  Proof.
    intros live pk es N W.
    assert (X : forall f, hit (sw_flows s) tv pk f -> f_inst f = []).
    { intros f Hf. destruct (hit_origin pk f Hf) as [->|[p [Hp [E [X|[-> _]]]]]]; try reflexivity.
      exfalso. apply (N p f Hp E X). apply Hf. }
    inversion W as [t q _|t q f es' q' Hf E|t q f es' q' t' es'' Hf E W']; subst; auto.
    - rewrite (X f Hf) in E. simpl in E. congruence.
    - rewrite (X f Hf) in E. discriminate E.
  Qed.

  Lemma blocked_hit : forall pk p f, In p (d_ports cfg) -> pc_num p = pk_in pk ->
    (forall f, entry_flow cfg p f -> In f (sw_flows s) -> In (block_flow cfg p) (sw_flows s)) ->
    hit (sw_flows s) tv pk f -> f_inst f = [] \/ punts p f.
  Proof.
    intros pk p f Hp Ep B Hf. destruct (vc_prios cfg V) as [_ Pr].
    destruct (hit_origin pk f Hf) as [->|[q [Hq [E [X|[-> _]]]]]]; auto.
    assert (q = p) by (eapply nums_inj; eauto; congruence). subst q.
    destruct Hf as (Hi & T & M & Mx).
    destruct (port_flow_kind p f X) as [K|[[_ [K _]]|[K K2]]]; auto.
    exfalso. pose proof (B f K2 Hi) as Bi. pose proof (Mx _ Bi (proj1 (block_form cfg p))) as Y.
    change (f_prio (block_flow cfg p)) with (d_high cfg) in Y. rewrite K in Y.
    assert (LOW_PRIORITY < d_high cfg) by tauto. apply Z.le_ngt in Y; [contradiction|].
    rewrite (proj2 (block_form cfg p)). unfold matches. cbn. rewrite andb_true_r, !Z.land_m1_r. rewrite Ep. apply Z.eqb_refl.
  Qed.

  Lemma blocked_drops : forall live pk es p, In p (d_ports cfg) -> pc_num p = pk_in pk ->
    (forall f, entry_flow cfg p f -> In f (sw_flows s) -> In (block_flow cfg p) (sw_flows s)) ->
    walk s live tv pk es -> es = [] \/ (es = [(OFPP_CONTROLLER, pk)] /\ control_frame pk).
  Proof.
    intros live pk es p Hp Ep B W.
    assert (X : forall f, hit (sw_flows s) tv pk f -> f_inst f = [] \/ (punts p f /\ matches pk (f_match f) = true)).
    { intros f Hf. destruct (blocked_hit pk p f Hp Ep B Hf); auto. right. split; auto. apply Hf. }
    assert (X2 : forall f, hit (sw_flows s) tv pk f -> forall g es' q' nx, exec_insts g live (f_inst f) pk = (es', q', nx) ->
      nx = None /\ (es' = [] \/ (es' = [(OFPP_CONTROLLER, pk)] /\ control_frame pk))).
    { intros f Hf g es' q' nx E. destruct (X f Hf) as [K|[K M]].
      - rewrite K in E. simpl in E. split; [congruence|left; congruence].
      - pose proof (punt_control p f pk K M) as C. destruct K as [->| ->]; cbn in E; injection E as <- <- <-; auto. }
    inversion W as [t q _|t q f es' q' Hf E|t q f es' q' t' es'' Hf E W']; subst; auto.
    - eapply X2; eauto.
    - exfalso. destruct (X2 f Hf _ _ _ _ E). discriminate.
  Qed.

  Lemma no_block : forall p, In p (d_ports cfg) -> pc_lacp p = 0 -> ~ In (block_flow cfg p) (sw_flows s).
  Proof.
    intros p Hp Lp Bi. pose proof (A _ Bi (proj1 (block_form cfg p))) as H.
    remember (block_flow cfg p) as f eqn:Ef. destruct H as [|q f Hq Hf|q Hq Lq].
    - discriminate Ef.
    - destruct (port_flow_form cfg q f Hf) as [_ [r M]].
      assert (pc_num q = pc_num p) by (rewrite Ef in M; cbn in M; injection M; intros; congruence).
      assert (q = p) by (eapply nums_inj; eauto). subst q.
      apply (not_block cfg V p f Hf); rewrite Ef; reflexivity.
    - assert (pc_num q = pc_num p) by (unfold block_flow in Ef; cbn in Ef; injection Ef; intros; congruence).
      assert (q = p) by (eapply nums_inj; eauto). subst q. contradiction.
  Qed.

  Lemma open_accepts : forall pk p v, In p (d_ports cfg) -> pc_num p = pk_in pk -> pc_output_only p = false ->
    (forall f, port_flow cfg p f -> In f (sw_flows s)) -> ~ In (block_flow cfg p) (sw_flows s) ->
    frame_ok pk -> belongs cfg pk v -> ~ control_frame pk -> accepted cfg s pk.
  Proof.
    intros pk p v Hp Ep Oo Cm Nb Hk Bl Nc. destruct (vc_prios cfg V) as [Pl Ph].
    assert (K : forall f, port_flow cfg p f -> matches pk (f_match f) = true -> f_prio f = LOW_PRIORITY /\
        exists vid push, f = push_flow cfg p vid push).
    { intros f Hf M. destruct (port_flow_kind p f Hf) as [K|[[_ [_ K]]|[K1 K2]]].
      - exfalso. apply Nc. eapply punt_control; eauto.
      - congruence.
      - split; auto. destruct K2 as [vid Hv|vid Hv|N1 N2 N3]; eauto.
        exfalso. apply in_port_match in M as [_ M]. apply item_match1 in M as [M _].
        apply none_match in M; [|apply Hk]. unfold belongs in Bl. rewrite M in Bl. destruct Bl as [q [Hq [Eq Nq]]].
        assert (q = p) by (eapply nums_inj; eauto; congruence). subst q. congruence. }
    assert (G : exists f, port_flow cfg p f /\ matches pk (f_match f) = true).
    { unfold belongs in Bl. destruct (pk_tags pk) as [|[vid pcp] r] eqn:Tg.
      - destruct Bl as [q [Hq [Eq Nq]]]. assert (q = p) by (eapply nums_inj; eauto; congruence). subst q.
        exists (push_flow cfg p v true). split; [apply PF_entry, EF_native; auto|].
        change (f_match (push_flow cfg p v true)) with [exact InPort (pc_num p); vlan_item OFPVID_NONE].
        unfold matches, item_matches. cbn. rewrite !Z.land_m1_r, Ep, Z.eqb_refl, Tg. reflexivity.
      - destruct Bl as [-> [q [Hq [Eq Nq]]]]. assert (q = p) by (eapply nums_inj; eauto; congruence). subst q.
        exists (push_flow cfg p v false). split; [apply PF_entry, EF_tagged; auto|].
        change (f_match (push_flow cfg p v false)) with [exact InPort (pc_num p); vlan_item v].
        unfold matches. cbn [forallb].
        assert (X : item_matches pk (vlan_item v) = true).
        { assert (Rv : 0 < v < 4096) by (apply (vids_range cfg V p); auto; apply in_tagged; auto).
          unfold vlan_item. destruct (Z.eqb_spec v OFPVID_NONE) as [E|_]; [unfold OFPVID_NONE in E; lia|].
          unfold item_matches. cbn. rewrite Tg. cbn. rewrite !Z.land_m1_r. apply Z.eqb_refl. }
        rewrite X. unfold item_matches. cbn. rewrite !Z.land_m1_r, Ep, Z.eqb_refl. reflexivity. }
    destruct G as [f [Hf M]].
    assert (H : forall g, hit (sw_flows s) tv pk g -> exists vid push, g = push_flow cfg p vid push).
    { intros g Hg. destruct (hit_origin pk g Hg) as [->|[q [Hq [Eq X]]]].
      - exfalso. destruct Hg as (_ & _ & _ & Mx). destruct (K f Hf M) as [Pf _].
        pose proof (Mx f (Cm f Hf) (proj1 (port_flow_form cfg p f Hf)) M) as Y. rewrite Pf in Y.
        change (f_prio (default_flow cfg)) with (d_lowest cfg) in Y. lia.
      - assert (q = p) by (eapply nums_inj; eauto; congruence). subst q. destruct X as [X|[-> _]].
        + apply (K g X). apply Hg.
        + exfalso. apply Nb. apply Hg. }
    split.
    - exists f. split; [auto|]. split; [apply (port_flow_form cfg p f Hf)|]. split; [auto|].
      intros g Hg Tg Mg. rewrite (proj1 (K f Hf M)).
      destruct (A g Hg Tg) as [|q g Hq Xg|q Hq Lq].
      + change (f_prio (default_flow cfg)) with (d_lowest cfg). lia.
      + destruct (port_flow_form cfg q g Xg) as [_ [r E]]. pose proof (in_port_in _ _ _ _ E Mg) as Eq.
        assert (q = p) by (eapply nums_inj; eauto; congruence). subst q. destruct (K g Xg Mg) as [-> _]. lia.
      + destruct (block_form cfg q) as [_ E]. pose proof (in_port_in _ _ _ _ E Mg) as Eq.
        assert (q = p) by (eapply nums_inj; eauto; congruence). subst q. contradiction.
    - intros g Hg live. destruct (H g Hg) as [vid [push ->]]. apply exec_push.
  Qed.
End Walk.
