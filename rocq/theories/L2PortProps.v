(** * Ports: which frames the switch lets in, for every history *)
From Coq Require Import ZArith List Bool Lia.
From Verif Require Import OpenFlow TableModel FloodModel FloodSpec FloodRulesModel LearnModel L2Model L2Spec L2Proofs L2PortSpec
  L2PortProofs L2PortInv L2PortWalk L2LacpProofs SwitchExec L2Props.
Import ListNotations.
Open Scope Z_scope.

(** ** C11: frames from ports that are not configured, or down, go nowhere *)

(** Frames from a port that the configuration does not mention are dropped. *)
Theorem C11_unconfigured_port_dropped : forall cfg F evs w live pk es,
  valid_cfg cfg -> reach cfg F evs w -> connected evs = true ->
  (forall p, In p (d_ports cfg) -> pc_num p <> pk_in pk) ->
  walk (w_sw w) live (tb_id (d_tvlan cfg)) pk es -> es = [].
Proof.
  intros cfg F evs w live pk es V R C N W. pose proof (reach_inv cfg V _ _ _ R) as I.
  eapply (only_default_drops cfg (w_sw w)); eauto; [apply (wi_rules _ _ _ _ I C)|].
  intros p f Hp E. destruct (N p Hp E).
Qed.
Print Assumptions C11_unconfigured_port_dropped.

(** Frames from a port whose last report was that it is down are dropped, and the
    controller does not see them either: for ports outside LAGs, when reports are
    unambiguous ([plain_reports]). *)
Theorem C11_down_port_dropped_partial : forall cfg F evs w live pk es p,
  valid_cfg cfg -> reach cfg F evs w -> connected evs = true ->
  In p (d_ports cfg) -> pc_num p = pk_in pk -> pc_opstatus p = true -> pc_lacp p = 0 ->
  plain_reports evs (pc_num p) -> last_word evs (pc_num p) = WDown ->
  walk (w_sw w) live (tb_id (d_tvlan cfg)) pk es -> es = [].
Proof.
  intros cfg F evs w live pk es p V R C Hp E Op Lp Pl Wd W. pose proof (reach_inv cfg V _ _ _ R) as I.
  eapply (only_default_drops cfg (w_sw w)); eauto; [apply (wi_rules _ _ _ _ I C)|].
  intros q f Hq Eq Hf. assert (q = p) by (eapply nums_inj; eauto; congruence). subst q.
  destruct (wi_lnk _ _ _ _ I C p Hp Op Pl) as [K _]. destruct (K Wd) as [_ K2]. auto.
Qed.
Print Assumptions C11_down_port_dropped_partial.

(** The same for a LAG port, except that its LACP and LLDP frames still reach the
    controller (see the refutation), when every disconnection was noticed. *)
Theorem C11_down_lag_port_partial : forall cfg F evs w live pk es p,
  valid_cfg cfg -> reach cfg F evs w -> connected evs = true -> clean evs ->
  In p (d_ports cfg) -> pc_num p = pk_in pk -> pc_opstatus p = true ->
  plain_reports evs (pc_num p) -> last_word evs (pc_num p) = WDown ->
  walk (w_sw w) live (tb_id (d_tvlan cfg)) pk es ->
  es = [] \/ (es = [(OFPP_CONTROLLER, pk)] /\ control_frame pk).
Proof.
  intros cfg F evs w live pk es p V R C Cl Hp E Op Pl Wd W. pose proof (reach_inv cfg V _ _ _ R) as I.
  destruct (wi_lnk _ _ _ _ I C p Hp Op Pl) as [K _]. destruct (K Wd) as [Ph K2]. specialize (Ph Cl).
  destruct (Z.eq_dec (pc_lacp p) 0) as [Lp|Lp].
  - left. eapply C11_down_port_dropped_partial; eauto.
  - eapply (blocked_drops cfg V (w_sw w)); eauto; [apply (wi_rules _ _ _ _ I C)|].
    intros f Hf Hi. eapply (pi_block _ _ _ _ (wi_pinv _ _ _ _ I C p Hp)); eauto.
    unfold fwd. destruct (ds_actor (w_ctl w) (pc_num p)) eqn:Ea; try apply andb_false_r.
    pose proof (wi_actor _ _ _ _ I p Hp Lp) as X. rewrite Ea in X. unfold port_running in X. rewrite Ph, andb_false_r in X.
    discriminate X; discriminate.
Qed.
Print Assumptions C11_down_lag_port_partial.

(** A port that is administratively disabled lets nothing in. *)
Theorem C11_disabled_port_dropped : forall cfg F evs w live pk es p,
  valid_cfg cfg -> reach cfg F evs w -> connected evs = true ->
  In p (d_ports cfg) -> pc_num p = pk_in pk -> pc_enabled p = false ->
  walk (w_sw w) live (tb_id (d_tvlan cfg)) pk es ->
  if pc_lacp p =? 0 then es = [] else es = [] \/ (es = [(OFPP_CONTROLLER, pk)] /\ control_frame pk).
Proof.
  intros cfg F evs w live pk es p V R C Hp E En W. pose proof (reach_inv cfg V _ _ _ R) as I.
  assert (Nr : port_running (w_ctl w) p = false) by (unfold port_running; rewrite En; reflexivity).
  destruct (Z.eqb_spec (pc_lacp p) 0) as [Lp|Lp].
  - eapply (only_default_drops cfg (w_sw w)); eauto; [apply (wi_rules _ _ _ _ I C)|].
    intros q f Hq Eq Hf Hi. assert (q = p) by (eapply nums_inj; eauto; congruence). subst q.
    pose proof (pi_plain _ _ _ _ (wi_pinv _ _ _ _ I C p Hp) Lp f Hf Hi). congruence.
  - eapply (blocked_drops cfg V (w_sw w)); eauto; [apply (wi_rules _ _ _ _ I C)|].
    intros f Hf Hi. eapply (pi_block _ _ _ _ (wi_pinv _ _ _ _ I C p Hp)); eauto.
    unfold fwd. destruct (ds_actor (w_ctl w) (pc_num p)) eqn:Ea; try apply andb_false_r.
    pose proof (wi_actor _ _ _ _ I p Hp Lp) as X. rewrite Ea, Nr in X. discriminate X; discriminate.
Qed.
Print Assumptions C11_disabled_port_dropped.

(** ** C20: a LAG port lets frames in exactly when it is selected and up *)

(** Whatever the history, nothing enters through a LAG port that is not both
    selected and up, but its LACP and LLDP frames may reach the controller. *)
Theorem C20_blocked_lag_port : forall cfg F evs w live pk es p,
  valid_cfg cfg -> reach cfg F evs w -> connected evs = true ->
  In p (d_ports cfg) -> pc_num p = pk_in pk -> pc_lacp p <> 0 ->
  ~ (ds_role (w_ctl w) (pc_num p) = RSelected /\ ds_actor (w_ctl w) (pc_num p) = AUp) ->
  walk (w_sw w) live (tb_id (d_tvlan cfg)) pk es ->
  es = [] \/ (es = [(OFPP_CONTROLLER, pk)] /\ control_frame pk).
Proof.
  intros cfg F evs w live pk es p V R C Hp E Lp N W. pose proof (reach_inv cfg V _ _ _ R) as I.
  eapply (blocked_drops cfg V (w_sw w)); eauto; [apply (wi_rules _ _ _ _ I C)|].
  intros f Hf Hi. eapply (pi_block _ _ _ _ (wi_pinv _ _ _ _ I C p Hp)); eauto.
  unfold fwd. destruct (ds_actor (w_ctl w) (pc_num p)); try apply andb_false_r.
  destruct (ds_role (w_ctl w) (pc_num p)); try reflexivity. exfalso. apply N. auto.
Qed.
Print Assumptions C20_blocked_lag_port.

(** When every disconnection was noticed, a frame of a VLAN that the LAG port
    carries is let in exactly when the port is selected and up. *)
Theorem C20_lag_port_accepts : forall cfg F evs w pk p v,
  valid_cfg cfg -> reach cfg F evs w -> connected evs = true -> clean evs ->
  In p (d_ports cfg) -> pc_num p = pk_in pk -> pc_lacp p <> 0 -> pc_output_only p = false ->
  frame_ok pk -> belongs cfg pk v -> ~ control_frame pk ->
  (accepted cfg (w_sw w) pk <->
   ds_role (w_ctl w) (pc_num p) = RSelected /\ ds_actor (w_ctl w) (pc_num p) = AUp).
Proof.
  intros cfg F evs w pk p v V R C Cl Hp E Lp Oo Hk B Nc. pose proof (reach_inv cfg V _ _ _ R) as I. split.
  - intros [[f Hf] Acc].
    assert (D : fwd (w_ctl w) (pc_num p) = true -> ds_role (w_ctl w) (pc_num p) = RSelected /\ ds_actor (w_ctl w) (pc_num p) = AUp).
    { unfold fwd. destruct (ds_role (w_ctl w) (pc_num p)), (ds_actor (w_ctl w) (pc_num p)); auto; discriminate. }
    destruct (fwd (w_ctl w) (pc_num p)) eqn:Fw; [apply D; auto|]. exfalso.
    destruct (Acc f Hf (fun _ => true)) as [es [q X]].
    assert (A := wi_rules _ _ _ _ I C).
    destruct (blocked_hit cfg V (w_sw w) A pk p f Hp E) as [Y|Y]; auto.
    + intros g Hg Hi. eapply (pi_block _ _ _ _ (wi_pinv _ _ _ _ I C p Hp)); eauto.
    + rewrite Y in X. discriminate X.
    + destruct Hf as (_ & _ & M & _). apply Nc. eapply punt_control; eauto.
  - intros [Ro Ac].
    assert (Fw : fwd (w_ctl w) (pc_num p) = true) by (unfold fwd; rewrite Ro, Ac; reflexivity).
    assert (Rn : port_running (w_ctl w) p = true) by (apply (wi_actor _ _ _ _ I p Hp Lp); rewrite Ac; discriminate).
    eapply (open_accepts cfg V (w_sw w)); eauto; [apply (wi_rules _ _ _ _ I C)| |].
    + apply (wi_complete _ _ _ _ I C Cl p Hp Rn).
    + apply (pi_open _ _ _ _ (wi_pinv _ _ _ _ I C p Hp) Lp Fw).
Qed.
Print Assumptions C20_lag_port_accepts.

(** ** C19: the LACP state of a port is what the protocol exchange says *)

(** For every history in which disconnections are noticed and reports are
    unambiguous: the actor state of an enabled LAG port is UP exactly while its
    link is up and the last LACPDU, received since it came up, was in sync and
    has not been found too old; NOSYNC exactly while the last LACPDU was out of
    sync; INIT while the link is up and neither holds; and NONE (or never
    configured) while the link is down. *)
Theorem C19_actor_state : forall cfg F evs w p,
  valid_cfg cfg -> reach cfg F evs w -> clean evs ->
  In p (d_ports cfg) -> pc_lacp p <> 0 -> pc_enabled p = true -> configured p = true ->
  plain_reports evs (pc_num p) ->
  let a := ds_actor (w_ctl w) (pc_num p) in
  (a = AUp <-> in_sync cfg p evs) /\
  (a = ANoSync <-> out_of_sync p evs) /\
  (a = AInit <-> link_up p evs /\ ~ in_sync cfg p evs /\ ~ out_of_sync p evs) /\
  (a = ANone \/ a = ANotConfigured <-> ~ link_up p evs).
Proof.
  intros cfg F evs w p V R Cl Hp Lp En Cf Pl a.
  pose proof (view_inv cfg V F evs w p R Hp Lp Cl Pl) as S. fold a in S.
  pose proof (view_sync cfg p Cf En evs Pl) as Vs. pose proof (view_nosync cfg p Cf En evs Pl) as Vn.
  pose proof (view_link cfg p Cf En evs Pl) as Vl. unfold seen in S. fold a in S.
  rewrite <- Vs, <- Vn, <- Vl.
  destruct (view cfg p evs) as [| |t|]; cbn beta iota in *.
  - destruct S as [_ S]. repeat split; try (intros [t X]; discriminate X); try discriminate; try tauto;
      destruct S; try congruence; intuition congruence.
  - destruct S as [_ S]. repeat split; try (intros [t X]; discriminate X); try discriminate; try congruence; try (intuition congruence).
  - destruct S as [_ [S _]]. repeat split; try discriminate; try congruence; try (intuition congruence); eauto.
    intros [_ [X _]]. exfalso. apply X. eauto.
  - destruct S as [_ S]. repeat split; try (intros [t X]; discriminate X); try discriminate; try congruence; try (intuition congruence).
Qed.
Print Assumptions C19_actor_state.

(** In the words of the protocol, for a port that is not configured "unselected":
    frames are let in exactly while the partner is in sync. *)
Theorem C20_accepts_while_in_sync : forall cfg F evs w pk p v,
  valid_cfg cfg -> reach cfg F evs w -> connected evs = true -> clean evs ->
  In p (d_ports cfg) -> pc_num p = pk_in pk -> pc_lacp p <> 0 -> pc_output_only p = false -> pc_enabled p = true ->
  plain_reports evs (pc_num p) ->
  frame_ok pk -> belongs cfg pk v -> ~ control_frame pk ->
  (accepted cfg (w_sw w) pk <->
   in_sync cfg p evs /\ (pc_force_sel p = true \/ pc_force_unsel p = false)).
Proof.
  intros cfg F evs w pk p v V R C Cl Hp E Lp Oo En Pl Hk B Nc.
  rewrite (C20_lag_port_accepts cfg F evs w pk p v); auto.
  assert (Cf : configured p = true).
  { unfold configured. rewrite Oo. cbn [orb]. unfold belongs in B.
    assert (X : exists vid, In vid (port_vlans p)).
    { destruct (pk_tags pk) as [|[vid pcp] r].
      - destruct B as [q [Hq [Eq Nq]]]. assert (q = p) by (eapply nums_inj; eauto; congruence). subst q.
        exists v. apply in_native; auto.
      - destruct B as [-> [q [Hq [Eq Nq]]]]. assert (q = p) by (eapply nums_inj; eauto; congruence). subst q.
        exists v. apply in_tagged; auto. }
    destruct X as [vid X]. eapply vlans_nonempty; eauto. }
  destruct (C19_actor_state cfg F evs w p V R Cl Hp Lp En Cf Pl) as [A _]. cbv zeta in A. rewrite <- A.
  pose proof (role_inv cfg V F evs w p R Hp Lp) as Ro. split.
  - intros [X Y]. split; auto. rewrite (Ro Y) in X. unfold next_role in X.
    destruct (pc_force_sel p); auto. destruct (pc_force_unsel p); auto; discriminate.
  - intros [Y X]. split; auto. rewrite (Ro Y). unfold next_role. destruct X as [-> | ->]; auto. destruct (pc_force_sel p); auto.
Qed.
Print Assumptions C20_accepts_while_in_sync.

(** ** C42: link reports are tracked *)

(** For every history in which disconnections are noticed and reports are
    unambiguous, the controller believes a configured port is up exactly when the
    last report about it said so. *)
Lemma last_word_connected : forall evs n, connected evs = true -> last_word evs n <> WNone.
Proof.
  induction evs as [|ev evs IH]; intros n C; [discriminate|].
  destruct ev as [now ups|now|now m r d b|now m vid mac|now m sync|now]; cbn [connected last_word] in *; auto.
  - destruct (memZ n ups); discriminate.
  - discriminate.
  - destruct r; auto; destruct (m =? n); auto; try discriminate; destruct (d || b); discriminate.
Qed.
Theorem C42_belief_is_last_report : forall cfg F evs w p,
  valid_cfg cfg -> reach cfg F evs w -> connected evs = true -> clean evs ->
  In p (d_ports cfg) -> pc_opstatus p = true -> configured p = true -> plain_reports evs (pc_num p) ->
  (ds_phys (w_ctl w) (pc_num p) = true <-> last_word evs (pc_num p) = WUp).
Proof.
  intros cfg F evs w p V R C Cl Hp Op Cf Pl. pose proof (reach_inv cfg V _ _ _ R) as I.
  destruct (wi_lnk _ _ _ _ I C p Hp Op Pl) as [K1 K2]. split; [|auto].
  intros Ph. pose proof (last_word_connected evs (pc_num p) C) as N.
  destruct (last_word evs (pc_num p)); auto; [contradiction|]. destruct (K1 eq_refl) as [X _]. rewrite X in Ph by auto. discriminate.
Qed.
Print Assumptions C42_belief_is_last_report.

(** And the switch acts on it: frames of its VLANs are let in on an enabled port
    outside LAGs exactly while its last report is up, however often it flapped. *)
Theorem C42_up_port_accepts : forall cfg F evs w pk p v,
  valid_cfg cfg -> reach cfg F evs w -> connected evs = true -> clean evs ->
  In p (d_ports cfg) -> pc_num p = pk_in pk -> pc_lacp p = 0 -> pc_output_only p = false -> pc_enabled p = true ->
  pc_opstatus p = true -> plain_reports evs (pc_num p) ->
  frame_ok pk -> belongs cfg pk v -> ~ control_frame pk ->
  (accepted cfg (w_sw w) pk <-> last_word evs (pc_num p) = WUp).
Proof.
  intros cfg F evs w pk p v V R C Cl Hp E Lp Oo En Op Pl Hk B Nc. pose proof (reach_inv cfg V _ _ _ R) as I.
  destruct (wi_lnk _ _ _ _ I C p Hp Op Pl) as [K1 K2].
  assert (A := wi_rules _ _ _ _ I C). split.
  - intros [[f Hf] Acc]. pose proof (last_word_connected evs (pc_num p) C) as N.
    destruct (last_word evs (pc_num p)); auto; [contradiction|]. destruct (K1 eq_refl) as [_ X]. specialize (X Lp). exfalso.
    destruct (Acc f Hf (fun _ => true)) as [es [q Y]].
    destruct (hit_origin cfg (w_sw w) A pk f Hf) as [->|[r [Hr [Er [Z|[_ Z]]]]]].
    + discriminate Y.
    + assert (r = p) by (eapply nums_inj; eauto; congruence). subst r. apply (X f Z). apply Hf.
    + assert (r = p) by (eapply nums_inj; eauto; congruence). subst r. contradiction.
  - intros Wu.
    assert (Cf : configured p = true).
    { unfold configured. rewrite Oo. cbn [orb]. unfold belongs in B.
      destruct (pk_tags pk) as [|[vid pcp] r].
      - destruct B as [q [Hq [Eq Nq]]]. assert (q = p) by (eapply nums_inj; eauto; congruence). subst q.
        eapply vlans_nonempty, in_native; eauto.
      - destruct B as [-> [q [Hq [Eq Nq]]]]. assert (q = p) by (eapply nums_inj; eauto; congruence). subst q.
        eapply vlans_nonempty, in_tagged; eauto. }
    assert (Rn : port_running (w_ctl w) p = true) by (unfold port_running; rewrite En, (K2 Wu Cf); reflexivity).
    eapply (open_accepts cfg V (w_sw w)); eauto.
    + apply (wi_complete _ _ _ _ I C Cl p Hp Rn).
    + apply (no_block cfg V (w_sw w)); auto.
Qed.
Print Assumptions C42_up_port_accepts.

(** ** Concrete cases *)

(** Port 2 is in a LAG. *)
Definition lag_cfg : dconf := ex_cfg
  [ex_port 1 (Some 100) [] 0 true; ex_port 2 None [100] 1 true; ex_port 3 (Some 100) [] 0 false].
Definition lag_sync : list script :=
  [SEv (CConnect 10 [1; 2; 3]); SEv (CLacp 12 2 true); SEv (CExpire 20)].
Definition lag_late : list script := lag_sync ++ [SEv (CLacp 40 2 true); SEv (CExpire 71)].
Definition outs (es : list emission) : list (Z * list (Z * Z)) := map (fun e => (fst e, pk_tags (snd e))) es.

(** The hypotheses of the C19 and C20 theorems hold of a run with one LACPDU: the
    partner is in sync, and a frame from the LAG port goes to ports 1 and 3. *)
Example ex_lag_in_sync :
  valid_cfg lag_cfg /\
  exists w, reach lag_cfg (fun _ => True) (script_evs lag_sync) w /\
    connected (script_evs lag_sync) = true /\ clean (script_evs lag_sync) /\ plain_reports (script_evs lag_sync) 2 /\
    in_sync lag_cfg (ex_port 2 None [100] 1 true) (script_evs lag_sync) /\
    belongs lag_cfg (ex_frame 2 [(100, 0)] 0x0a 0x0b 0x800) 100 /\
    exists es, walk (w_sw w) (fun _ => true) 0 (ex_frame 2 [(100, 0)] 0x0a 0x0b 0x800) es /\
      outs (wire 2 es) = [(OFPP_CONTROLLER, [(100, 0)]); (1, []); (3, [])].
Proof.
  split; [apply valid_cfgb_sound; vm_compute; reflexivity|].
  destruct (script_run lag_cfg world0 lag_sync) as [w|] eqn:E; [|vm_compute in E; discriminate].
  exists w. split; [apply script_start; auto; intros p []|].
  split; [reflexivity|]. split; [cbn; auto|]. split; [repeat constructor|]. split; [|split].
  - exists [CExpire 20], 12. split.
    + exists [CConnect 10 [1; 2; 3]]. split; [reflexivity|]. split; [split; auto|].
      constructor; [split; intros X; exact X|constructor].
    + constructor; [cbn; lia|constructor].
  - cbn. split; auto. exists (ex_port 2 None [100] 1 true). cbn. auto.
  - vm_compute in E. injection E as <-.
    eexists. split; [apply (walk_run_sound 9); vm_compute; reflexivity|reflexivity].
Qed.
(** After the partner has been silent for longer than the timeout, the port is
    initialising, and the same frame is dropped. *)
Example ex_lag_expired :
  exists w, reach lag_cfg (fun _ => True) (script_evs lag_late) w /\
    connected (script_evs lag_late) = true /\ clean (script_evs lag_late) /\
    ds_actor (w_ctl w) 2 = AInit /\
    walk (w_sw w) (fun _ => true) 0 (ex_frame 2 [(100, 0)] 0x0a 0x0b 0x800) [].
Proof.
  destruct (script_run lag_cfg world0 lag_late) as [w|] eqn:E; [|vm_compute in E; discriminate].
  exists w. split; [apply script_start; auto; intros p []|].
  split; [reflexivity|]. split; [cbn; auto|].
  vm_compute in E. injection E as <-. split; [reflexivity|]. apply (walk_run_sound 9); vm_compute; reflexivity.
Qed.

(** The hypotheses of the C11 and C42 theorems hold of a run in which port 2 goes
    down (nothing gets in) and of its continuation (it comes back). *)
Definition down_script : list script :=
  [SEv (CConnect 10 [1; 2; 3; 4]); SEv (CPortStatus 12 2 PModify true false)].
Definition flap_script : list script := down_script ++ [SEv (CPortStatus 13 2 PModify false false)].
Example ex_flap :
  (exists w, reach two_vlans (fun _ => True) (script_evs down_script) w /\
     connected (script_evs down_script) = true /\ clean (script_evs down_script) /\
     plain_reports (script_evs down_script) 2 /\ last_word (script_evs down_script) 2 = WDown /\
     walk (w_sw w) (fun _ => true) 0 (ex_frame 2 [] 0x0a 0x0b 0x800) []) /\
  (exists w es, reach two_vlans (fun _ => True) (script_evs flap_script) w /\
     connected (script_evs flap_script) = true /\ clean (script_evs flap_script) /\
     plain_reports (script_evs flap_script) 2 /\ last_word (script_evs flap_script) 2 = WUp /\
     walk (w_sw w) (fun _ => true) 0 (ex_frame 2 [] 0x0a 0x0b 0x800) es /\
     outs (wire 2 es) = [(OFPP_CONTROLLER, [(100, 0)]); (4, [(100, 0)]); (1, [])]).
Proof.
  split.
  - destruct (script_run two_vlans world0 down_script) as [w|] eqn:E; [|vm_compute in E; discriminate].
    exists w. split; [apply script_start; auto; intros p []|].
    split; [reflexivity|]. split; [cbn; auto|]. split.
    { apply Forall_cons; [cbn; auto|]. apply Forall_cons; [exact I|constructor]. }
    split; [reflexivity|]. vm_compute in E. injection E as <-. apply (walk_run_sound 9); vm_compute; reflexivity.
  - destruct (script_run two_vlans world0 flap_script) as [w|] eqn:E; [|vm_compute in E; discriminate].
    eexists w, _. split; [apply script_start; auto; intros p []|].
    split; [reflexivity|]. split; [cbn; auto|]. split.
    { apply Forall_cons; [cbn; congruence|]. apply Forall_cons; [cbn; auto|]. apply Forall_cons; [exact I|constructor]. }
    split; [reflexivity|]. vm_compute in E. injection E as <-. split; [apply (walk_run_sound 9); vm_compute; reflexivity|reflexivity].
Qed.

(** ** Findings *)

(** A LAG port that goes down keeps its LACP and LLDP punt rules: frames from it
    still reach the controller (ports_delete, valve.py 915-917, goes through the
    LACP state machine and never calls the managers' del_port). *)
Theorem C11_down_lag_port_punts_refuted : exists cfg evs w pk es p,
  valid_cfg cfg /\ reach cfg (fun _ => True) evs w /\ connected evs = true /\ clean evs /\
  In p (d_ports cfg) /\ pc_num p = pk_in pk /\ pc_opstatus p = true /\
  plain_reports evs (pc_num p) /\ last_word evs (pc_num p) = WDown /\ frame_ok pk /\
  walk (w_sw w) (fun _ => true) (tb_id (d_tvlan cfg)) pk es /\ es = [(OFPP_CONTROLLER, pk)].
Proof.
  set (l := [SEv (CConnect 10 [1; 2; 3]); SEv (CPortStatus 12 2 PModify true false)]).
  destruct (script_run lag_cfg world0 l) as [w|] eqn:E; [|vm_compute in E; discriminate].
  exists lag_cfg, (script_evs l), w, (ex_frame 2 [] 0x0a 0x0180c200000e 0x88cc). eexists. exists (ex_port 2 None [100] 1 true).
  split; [apply valid_cfgb_sound; vm_compute; reflexivity|].
  split; [apply script_start; auto; intros p []|].
  split; [reflexivity|]. split; [cbn; auto|]. split; [cbn; auto|]. split; [reflexivity|]. split; [reflexivity|].
  split. { apply Forall_cons; [cbn; auto|]. apply Forall_cons; [exact I|constructor]. }
  split; [reflexivity|]. split; [apply ex_frame_ok; [unfold OFPP_MAX; lia|reflexivity]|].
  vm_compute in E. injection E as <-. split; [apply (walk_run_sound 9); vm_compute; reflexivity|reflexivity].
Qed.
Print Assumptions C11_down_lag_port_punts_refuted.

(** Without [plain_reports] the claim is false.  A port that is added to the switch
    with its link down is treated as up (port_status_handler, valve.py 680-704,
    takes reason ADD as up whatever the state), so its frames are forwarded. *)
Definition forwards_while_down (l : list script) : Prop := exists w es,
  reach two_vlans (fun _ => True) (script_evs l) w /\ connected (script_evs l) = true /\ clean (script_evs l) /\
  last_word (script_evs l) 2 = WDown /\
  walk (w_sw w) (fun _ => true) 0 (ex_frame 2 [] 0x0a 0x0b 0x800) es /\ In 1 (map fst (wire 2 es)).
Ltac forwards l :=
  let w := fresh "w" in let E := fresh "E" in
  destruct (script_run two_vlans world0 l) as [w|] eqn:E; [|vm_compute in E; discriminate];
  eexists w, _; split; [apply script_start; auto; intros p []|];
  split; [reflexivity|]; split; [cbn; auto|]; split; [reflexivity|];
  vm_compute in E; injection E as <-;
  split; [apply (walk_run_sound 9); vm_compute; reflexivity|vm_compute; auto].
Theorem C11_added_down_forwards_refuted : 
  forwards_while_down [SEv (CConnect 10 [1; 3; 4]); SEv (CPortStatus 12 2 PAdd true false)].
Proof. forwards [SEv (CConnect 10 [1; 3; 4]); SEv (CPortStatus 12 2 PAdd true false)]. Qed.
Print Assumptions C11_added_down_forwards_refuted.
(** Likewise a port that was down and is then reported blocked. *)
Theorem C11_blocked_forwards_refuted : 
  forwards_while_down [SEv (CConnect 10 [1; 3; 4]); SEv (CPortStatus 12 2 PModify false true)].
Proof. forwards [SEv (CConnect 10 [1; 3; 4]); SEv (CPortStatus 12 2 PModify false true)]. Qed.
Print Assumptions C11_blocked_forwards_refuted.

(** Without [clean] these theorems are false of L2Model, where a connection is not
    preceded by the switch describing its ports: the switch reconnects without the
    controller noticing that it went, port 2 is now down, but stays believed up, so
    when the link comes up nothing is done.  The code is saved by the description,
    which PortDescModel has: see PortDescProps. *)
Lemma ex_clean_needed : exists evs w,
  reach two_vlans (fun _ => True) evs w /\ connected evs = true /\ plain_reports evs 2 /\
  last_word evs 2 = WUp /\ walk (w_sw w) (fun _ => true) 0 (ex_frame 2 [] 0x0a 0x0b 0x800) [].
Proof.
  set (l := [SEv (CConnect 10 [1; 2; 3; 4]); SEv (CConnect 20 [1; 3; 4]); SEv (CPortStatus 22 2 PModify false false)]).
  destruct (script_run two_vlans world0 l) as [w|] eqn:E; [|vm_compute in E; discriminate].
  exists (script_evs l), w. split; [apply script_start; auto; intros p []|].
  split; [reflexivity|]. split.
  { apply Forall_cons; [cbn; congruence|]. apply Forall_cons; [exact I|]. apply Forall_cons; [exact I|constructor]. }
  split; [reflexivity|]. vm_compute in E. injection E as <-. apply (walk_run_sound 9); vm_compute; reflexivity.
Qed.

(** The separately kept set of "up" ports (dyn_up_port_nos) disagrees: a port that
    was removed while its link was up stays in it, and so does a port that is not
    configured (valve.py 531-541, 663). *)
Theorem C42_up_set_refuted : exists evs w,
  reach two_vlans (fun _ => True) evs w /\ connected evs = true /\ clean evs /\ plain_reports evs 2 /\
  last_word evs 2 = WDown /\ In 2 (ds_up (w_ctl w)) /\ In 9 (ds_up (w_ctl w)) /\ find_port two_vlans 9 = None.
Proof.
  set (l := [SEv (CConnect 10 [1; 2; 3; 4]); SEv (CPortStatus 12 2 PDelete false false); SEv (CPortStatus 13 9 PModify false false)]).
  destruct (script_run two_vlans world0 l) as [w|] eqn:E; [|vm_compute in E; discriminate].
  exists (script_evs l), w. split; [apply script_start; auto; intros p []|].
  split; [reflexivity|]. split; [cbn; auto|]. split.
  { apply Forall_cons; [cbn; discriminate|]. apply Forall_cons; [exact I|]. apply Forall_cons; [exact I|constructor]. }
  split; [reflexivity|]. vm_compute in E. injection E as <-. split; [cbn; auto|]. split; [cbn; auto|reflexivity].
Qed.
Print Assumptions C42_up_set_refuted.
