(** * VLAN isolation when the configuration is reloaded without a restart *)
From Coq Require Import ZArith List Bool Lia.
From Verif Require Import PyBase OpenFlow TableModel FloodModel FloodSpec FloodRulesModel LearnModel L2Model L2Spec L2Proofs L2PortProofs
  SwitchExec L2Props L2ReloadModel L2ReloadSpec L2ReloadProofs L2ReloadInv L2ReloadExec.
Import ListNotations.
Open Scope Z_scope.

(** ** C70: VLANs stay apart, as the new configuration has them, after a reload *)

(** Whatever the configurations were, whatever was learned under them and
    whichever ports came and went: a frame that enters the switch leaves it only
    where the configuration now in force allows. *)
Theorem C70_isolation_after_reload : forall cfg w live pk es,
  rreach gentle false cfg w -> frame_ok pk ->
  walk (w_sw w) live (tb_id (d_tvlan cfg)) pk es ->
  forall e, In e (wire (pk_in pk) es) -> may_leave cfg pk e.
Proof. exact reload_isolation. Qed.
Print Assumptions C70_isolation_after_reload.

(** A switch that takes part in no reload is a special case. *)
Theorem C70_covers_one_configuration : forall cfg G evs w,
  valid_cfg cfg -> reach cfg (fun pk => ~ foreign_control cfg pk) evs w -> rreach G false cfg w.
Proof.
  intros cfg G evs w V R. induction R.
  - eapply rr_start; eauto.
  - eapply rr_connect; eauto.
  - eapply rr_event; eauto.
  - eapply rr_frame; eauto.
  - eapply rr_timeout; eauto.
Qed.
Print Assumptions C70_covers_one_configuration.

(** *** A case *)

Definition rl_port (n : Z) (native : option Z) (tagged : list Z) (hairpin enabled : bool) (mirrors : list Z) : pconf :=
  mkPconf n enabled native tagged hairpin hairpin true 0 false false false false mirrors false false 255 true false false false.
Notation rl_vlans := [mkVconf 100 true 255 0x0e0000000001; mkVconf 200 true 255 0x0e0000000001].
(** Port 1 moves from VLAN 100 to VLAN 200. *)
Definition mv_old : dconf := ex_cfg
  [ex_port 1 (Some 100) [] 0 false; ex_port 2 None [100; 200] 0 false; ex_port 3 (Some 200) [] 0 false; ex_port 4 (Some 100) [] 0 false].
Definition mv_ports : list pconf :=
  [ex_port 1 (Some 200) [] 0 false; ex_port 2 None [100; 200] 0 false; ex_port 3 (Some 200) [] 0 false; ex_port 4 (Some 100) [] 0 false].
Definition mv_new : dconf := reconf mv_old mv_ports rl_vlans.

Ltac frames := let p := fresh "p" in let H := fresh "H" in intros p H; simpl in H; repeat destruct H as [<-|H]; try destruct H;
  (split; [apply ex_frame_ok; [unfold OFPP_MAX; lia|reflexivity]
          |intros (? & ? & ? & ? & _ & _ & _ & _ & [[_ X]|[_ X]]); simpl in X; discriminate X]).
Ltac valid := apply valid_cfgb_sound; vm_compute; reflexivity.
Ltac run_reload E1 E2 := match type of E1 with _ = Some _ => vm_compute in E1; injection E1 as <-; vm_compute in E2; discriminate E2 end.

Lemma mv_gentle : gentle [] [] mv_old mv_new.
Proof.
  constructor.
  - discriminate.
  - reflexivity.
  - intros p H L. simpl in H. repeat destruct H as [<-|H]; try destruct H; destruct (L eq_refl).
  - intros p H L. simpl in H. repeat destruct H as [<-|H]; try destruct H; discriminate L.
  - intros p p' vid H H' E I I'. simpl in H, H'.
    repeat destruct H as [<-|H]; try destruct H; repeat destruct H' as [<-|H']; try destruct H'; simpl in *; try discriminate E; try tauto;
      destruct I as [<-|[]], I' as [I'|[]]; discriminate I'.
  - intros p p' H H' E. simpl in H. repeat destruct H as [<-|H]; try destruct H; intros x X; destruct X.
Qed.

(** The hypotheses hold after the host on port 1 was learned and the reload was
    done: its frames now go to VLAN 200, and frames for it from VLAN 100 do not
    follow it. *)
Example ex_reload : exists w, rreach gentle false mv_new w /\
  restart_type [] [] mv_old mv_new = RestartWarm /\
  (exists es, walk (w_sw w) (fun _ => true) 0 (ex_frame 1 [] 0x0a 0x0b 0x800) es /\
     map (fun e => (fst e, pk_tags (snd e))) (wire 1 es) = [(OFPP_CONTROLLER, [(200, 0)]); (2, [(200, 0)]); (3, [])]) /\
  (exists es, walk (w_sw w) (fun _ => true) 0 (ex_frame 4 [] 0x0c 0x0a 0x800) es /\
     map (fun e => (fst e, pk_tags (snd e))) (wire 4 es) = [(OFPP_CONTROLLER, [(100, 0)]); (2, [(100, 0)])]).
Proof.
  destruct (script_run mv_old world0 (SEv (CConnect 10 [1; 2; 3; 4]) ::
    [SFrame (ex_frame 1 [] 0x0a 0x0b 0x800); SEv (CPacketIn 11 1 100 0x0a)])) as [w1|] eqn:E1; [|vm_compute in E1; discriminate].
  destruct (reload_run false [] [] mv_old mv_ports rl_vlans w1) as [w|] eqn:E2; [|run_reload E1 E2].
  exists w. split.
  { eapply reload_rreach; [|valid|apply mv_gentle|exact E2]. eapply start_rreach; [valid|exact E1|frames]. }
  split; [vm_compute; reflexivity|]. vm_compute in E1. injection E1 as <-. vm_compute in E2. injection E2 as <-.
  split; (eexists; split; [apply (walk_run_sound 9); vm_compute; reflexivity|reflexivity]).
Qed.

(** *** Findings *)

(** A frame leaves where the configuration in force does not allow. *)
Definition breach (G : list Z -> list Z -> dconf -> dconf -> Prop) (late : bool) : Prop :=
  exists cfg w pk es e, rreach G late cfg w /\ frame_ok pk /\
    walk (w_sw w) (fun _ => true) (tb_id (d_tvlan cfg)) pk es /\ In e (wire (pk_in pk) es) /\ ~ may_leave cfg pk e.
(** the one reload allowed is from [cfg] to [cfg'] *)
Definition exactly (cfg cfg' : dconf) : list Z -> list Z -> dconf -> dconf -> Prop := fun _ _ a b => a = cfg /\ b = cfg'.

Lemma breach_by : forall G late cfg w pk es e, rreach G late cfg w ->
  frame_ok pk -> walk_run 9 (w_sw w) (fun _ => true) (tb_id (d_tvlan cfg)) pk = Some es ->
  In e (wire (pk_in pk) es) -> may_leaveb cfg pk e = false -> breach G late.
Proof.
  intros G late cfg w pk es e R F W H N. exists cfg, w, pk, es, e. split; [exact R|]. split; [exact F|].
  split; [eapply walk_run_sound; eauto|]. split; [exact H|apply not_may_leave; auto].
Qed.

(** A tagged VLAN is taken from a LAG port.  Removing a LAG port's rules goes
    through the LACP state machine only (valve.py 810-817), which puts them back,
    so the rule of the VLAN stays, and once LACP is up again frames of that VLAN
    are let in. *)
Definition lag_old : dconf := ex_cfg
  [ex_port 1 (Some 100) [] 0 false; ex_port 2 None [100; 200] 1 false; ex_port 3 (Some 200) [] 0 false].
Definition lag_ports : list pconf :=
  [ex_port 1 (Some 100) [] 0 false; ex_port 2 None [100] 1 false; ex_port 3 (Some 200) [] 0 false].
Theorem C70_lag_port_refuted : breach (exactly lag_old (reconf lag_old lag_ports rl_vlans)) false.
Proof.
  destruct (script_run lag_old world0 (SEv (CConnect 10 [1; 2; 3]) :: [SEv (CLacp 11 2 true)])) as [w1|] eqn:E1;
    [|vm_compute in E1; discriminate].
  destruct (reload_run false [] [] lag_old lag_ports rl_vlans w1) as [w2|] eqn:E2; [|run_reload E1 E2].
  destruct (script_run (reconf lag_old lag_ports rl_vlans) w2 [SEv (CLacp 21 2 true)]) as [w|] eqn:E3;
    [|vm_compute in E1; injection E1 as <-; run_reload E2 E3].
  assert (R : rreach (exactly lag_old (reconf lag_old lag_ports rl_vlans)) false (reconf lag_old lag_ports rl_vlans) w).
  { eapply script_rreach; [|exact E3|frames]. eapply reload_rreach; [|valid|split; reflexivity|exact E2].
    eapply start_rreach; [valid|exact E1|frames]. }
  vm_compute in E1. injection E1 as <-. vm_compute in E2. injection E2 as <-. vm_compute in E3. injection E3 as <-.
  eapply (breach_by _ _ _ _ (ex_frame 2 [(200, 0)] 0x0a 0x0b 0x800)); [exact R|apply ex_frame_ok; [unfold OFPP_MAX; lia|reflexivity]| | |].
  - vm_compute; reflexivity.
  - vm_compute. right; left; reflexivity.
  - vm_compute; reflexivity.
Qed.
Print Assumptions C70_lag_port_refuted.

(** A packet-in that the switch sent before the reload is handled after it: the
    host is learned on the VLAN its port was on (valve.py 1289-1304 checks the
    VLAN, not whether the port is on it), and receives that VLAN's frames. *)
Theorem C70_late_packet_in_refuted : breach gentle true.
Proof.
  destruct (script_run mv_old world0 (SEv (CConnect 10 [1; 2; 3; 4]) :: [SFrame (ex_frame 1 [] 0x0a 0x0b 0x800)])) as [w1|] eqn:E1;
    [|vm_compute in E1; discriminate].
  destruct (reload_run true [] [] mv_old mv_ports rl_vlans w1) as [w2|] eqn:E2; [|run_reload E1 E2].
  destruct (script_run (reconf mv_old mv_ports rl_vlans) w2 [SEv (CPacketIn 21 1 100 0x0a)]) as [w|] eqn:E3;
    [|vm_compute in E1; injection E1 as <-; run_reload E2 E3].
  assert (R : rreach gentle true (reconf mv_old mv_ports rl_vlans) w).
  { eapply script_rreach; [|exact E3|frames]. eapply reload_rreach; [|valid|apply mv_gentle|exact E2].
    eapply start_rreach; [valid|exact E1|frames]. }
  vm_compute in E1. injection E1 as <-. vm_compute in E2. injection E2 as <-. vm_compute in E3. injection E3 as <-.
  eapply (breach_by _ _ _ _ (ex_frame 4 [] 0x0c 0x0a 0x800)); [exact R|apply ex_frame_ok; [unfold OFPP_MAX; lia|reflexivity]| | |].
  - vm_compute; reflexivity.
  - vm_compute. right; left; reflexivity.
  - vm_compute; reflexivity.
Qed.
Print Assumptions C70_late_packet_in_refuted.

(** A port becomes untagged on a VLAN where it was tagged, while it is down: the
    VLAN is not rebuilt, as the port has it before and after (dp.py 1624-1632),
    and the VLAN's frames go to the port with a tag until something else changes
    the VLAN.  The same when the port is disabled by the same reload. *)
Definition tg_old : dconf := ex_cfg
  [rl_port 1 (Some 100) [] false true []; rl_port 2 None [100] false true []; rl_port 3 (Some 200) [] false true []].
Definition tg_ports : list pconf :=
  [rl_port 1 (Some 100) [] false true []; rl_port 2 (Some 100) [] false true []; rl_port 3 (Some 200) [] false true []].
Theorem C70_tagging_refuted : breach (exactly tg_old (reconf tg_old tg_ports rl_vlans)) false.
Proof.
  destruct (script_run tg_old world0 (SEv (CConnect 10 [1; 3]) :: [])) as [w1|] eqn:E1; [|vm_compute in E1; discriminate].
  destruct (reload_run false [] [] tg_old tg_ports rl_vlans w1) as [w|] eqn:E2; [|run_reload E1 E2].
  assert (R : rreach (exactly tg_old (reconf tg_old tg_ports rl_vlans)) false (reconf tg_old tg_ports rl_vlans) w).
  { eapply reload_rreach; [|valid|split; reflexivity|exact E2]. eapply start_rreach; [valid|exact E1|frames]. }
  vm_compute in E1. injection E1 as <-. vm_compute in E2. injection E2 as <-.
  eapply (breach_by _ _ _ _ (ex_frame 1 [] 0x0a 0x0b 0x800)); [exact R|apply ex_frame_ok; [unfold OFPP_MAX; lia|reflexivity]| | |].
  - vm_compute; reflexivity.
  - vm_compute. right; left; reflexivity.
  - vm_compute; reflexivity.
Qed.
Print Assumptions C70_tagging_refuted.

(** Port 4 stops being the mirror of port 1 while port 1 is down: it goes on
    receiving the frames that VLAN 100 floods. *)
Definition mi_old : dconf := ex_cfg
  [rl_port 1 (Some 100) [] false true [4]; rl_port 2 None [100] false true []; rl_port 3 (Some 200) [] false true [];
   rl_port 4 None [] false true []].
Definition mi_ports : list pconf :=
  [rl_port 1 (Some 100) [] false true []; rl_port 2 None [100] false true []; rl_port 3 (Some 200) [] false true [];
   rl_port 4 None [] false true []].
Theorem C70_mirror_refuted : breach (exactly mi_old (reconf mi_old mi_ports rl_vlans)) false.
Proof.
  destruct (script_run mi_old world0 (SEv (CConnect 10 [2; 3; 4]) :: [])) as [w1|] eqn:E1; [|vm_compute in E1; discriminate].
  destruct (reload_run false [] [] mi_old mi_ports rl_vlans w1) as [w|] eqn:E2; [|run_reload E1 E2].
  assert (R : rreach (exactly mi_old (reconf mi_old mi_ports rl_vlans)) false (reconf mi_old mi_ports rl_vlans) w).
  { eapply reload_rreach; [|valid|split; reflexivity|exact E2]. eapply start_rreach; [valid|exact E1|frames]. }
  vm_compute in E1. injection E1 as <-. vm_compute in E2. injection E2 as <-.
  eapply (breach_by _ _ _ _ (ex_frame 2 [(100, 0)] 0x0a 0x0b 0x800)); [exact R|apply ex_frame_ok; [unfold OFPP_MAX; lia|reflexivity]| | |].
  - vm_compute; reflexivity.
  - vm_compute. right; right; left; reflexivity.
  - vm_compute; reflexivity.
Qed.
Print Assumptions C70_mirror_refuted.

(** A hairpin port becomes untagged on VLAN 100 where it was tagged: the rule that
    sends a host's frames back out of the port is not among those that output to
    the port's number, so it is not removed, and frames leave with a tag. *)
Definition hp_old : dconf := ex_cfg
  [rl_port 1 None [100; 200] true true []; rl_port 2 None [100] false true []; rl_port 3 (Some 200) [] true true []].
Definition hp_ports : list pconf :=
  [rl_port 1 (Some 100) [] true true []; rl_port 2 None [100] false true []; rl_port 3 (Some 200) [] true true []].
Theorem C70_hairpin_refuted : breach (exactly hp_old (reconf hp_old hp_ports rl_vlans)) false.
Proof.
  destruct (script_run hp_old world0 (SEv (CConnect 10 [1; 2; 3]) ::
    [SFrame (ex_frame 1 [(100, 0)] 0x0a 0x0b 0x800); SEv (CPacketIn 11 1 100 0x0a)])) as [w1|] eqn:E1; [|vm_compute in E1; discriminate].
  destruct (reload_run false [] [] hp_old hp_ports rl_vlans w1) as [w|] eqn:E2; [|run_reload E1 E2].
  assert (R : rreach (exactly hp_old (reconf hp_old hp_ports rl_vlans)) false (reconf hp_old hp_ports rl_vlans) w).
  { eapply reload_rreach; [|valid|split; reflexivity|exact E2]. eapply start_rreach; [valid|exact E1|frames]. }
  vm_compute in E1. injection E1 as <-. vm_compute in E2. injection E2 as <-.
  eapply (breach_by _ _ _ _ (ex_frame 1 [] 0x0c 0x0a 0x800)); [exact R|apply ex_frame_ok; [unfold OFPP_MAX; lia|reflexivity]| | |].
  - vm_compute; reflexivity.
  - vm_compute. right; left; reflexivity.
  - vm_compute; reflexivity.
Qed.
Print Assumptions C70_hairpin_refuted.
