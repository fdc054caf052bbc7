(** * Frames to a learned host, for every history *)
From Coq Require Import ZArith List Bool Lia.
From Verif Require Import OpenFlow TableModel FloodModel FloodSpec FloodRulesModel HostCacheModel LearnModel L2Model L2Spec L2PortSpec
  L2HostSpec L2Proofs L2PortProofs L2HostProofs L2HostInv L2HostKeep L2HostWalk SwitchExec L2Props.
From Verif Require LearnSpec LearnProps.
Import ListNotations.
Open Scope Z_scope.

(** ** C10: a frame to a learned host leaves where the host is learned

    After any history, if host [mac] of VLAN [v] is learned on port [n] and there is
    a destination rule for it, a frame of that VLAN to [mac] leaves on port [n] (or
    another member of its LAG) and nowhere else, but for copies to mirrors and the
    controller.  The histories are those in which time does not run backwards, no
    port uses loop protection (see the refutation) and no host sends LACP or LLDP
    frames tagged with a VLAN its port does not carry. *)
Theorem C10_only_learned_port : forall cfg (F : packet -> Prop) evs w live v mac n t pk es x,
  valid_cfg cfg -> no_loop_protection cfg -> (forall pk, F pk -> ~ foreign_control cfg pk) ->
  reach cfg F evs w -> in_order Z.le evs ->
  learned w v mac n t -> rule_installed cfg (w_sw w) v mac pk ->
  frame_ok pk -> belongs cfg pk v -> pk_hdr pk EthDst = Some mac ->
  walk (w_sw w) live (tb_id (d_tvlan cfg)) pk es -> In x (wire (pk_in pk) es) ->
  (together cfg n (fst x) /\ delivered cfg pk v (fst x) (snd x)) \/
  (pk_hdr (snd x) = pk_hdr pk /\ exists p, In p (d_ports cfg) /\ In (fst x) (pc_mirror p) /\
     (pc_num p = pk_in pk \/ together cfg n (pc_num p))) \/
  fst x = OFPP_CONTROLLER.
Proof.
  intros cfg F evs w live v mac n t pk es x V NL HF R O (e & Fe & <- & <-) Ri Hk Hb Hd W Hx.
  eapply (host_only cfg V (w_sw w) live evs (ds_learn (w_ctl w))); eauto.
  - apply (iso_inv cfg V F evs w HF R).
  - eapply host_reach; eauto.
Qed.
Print Assumptions C10_only_learned_port.

(** And it does leave there: unless it came in on that very port, a frame that the
    VLAN and source tables let through is delivered on port [n] (or another member
    of its LAG). *)
Theorem C10_reaches_learned_port : forall cfg (F : packet -> Prop) evs w live v mac n t pk es,
  valid_cfg cfg -> no_loop_protection cfg -> (forall pk, F pk -> ~ foreign_control cfg pk) ->
  reach cfg F evs w -> in_order Z.lt evs ->
  learned w v mac n t -> rule_installed cfg (w_sw w) v mac pk ->
  frame_ok pk -> belongs cfg pk v -> pk_hdr pk EthDst = Some mac ->
  accepted cfg (w_sw w) pk -> (forall pcp, lets_through (w_sw w) (tb_id (d_tsrc cfg)) (carried pk v pcp)) ->
  walk (w_sw w) live (tb_id (d_tvlan cfg)) pk es ->
  exists m, together cfg n m /\ (m = pk_in pk \/ exists q, In (m, q) (wire (pk_in pk) es) /\ delivered cfg pk v m q).
Proof.
  intros cfg F evs w live v mac n t pk es V NL HF R O (e & Fe & <- & <-) Ri Hk Hb Hd Ac Lt W.
  assert (O' : in_order Z.le evs).
  { clear - O. induction evs as [|ev r IH]; [exact I|]. destruct O as [A B]. split; [|auto].
    intros x Hx. apply Z.lt_le_incl; auto. }
  eapply (host_gets cfg V (w_sw w) live evs (ds_learn (w_ctl w))); eauto.
  - apply (iso_inv cfg V F evs w HF R).
  - eapply host_reach; eauto.
  - eapply ki_miss. eapply keep_reach; eauto.
Qed.
Print Assumptions C10_reaches_learned_port.

(** ** C68: a learned host stays switched

    While the switch is connected, after any history in which events have distinct
    times, a host learned at time [t] on a port outside LAGs that has had no status
    change since then has its destination rule in place, so frames to it are not
    flooded: when destination rules do not idle out (see the refutation for
    idle_dst, the default), and but for frames from one external port to another. *)
Theorem C68_learned_host_stays_switched_partial : forall cfg (F : packet -> Prop) evs w v mac n t pk,
  valid_cfg cfg -> no_loop_protection cfg -> (forall pk, F pk -> ~ foreign_control cfg pk) ->
  reach cfg F evs w -> in_order Z.lt evs -> connected evs = true ->
  d_idle_dst cfg = false -> learned w v mac n t ->
  (forall p, In p (d_ports cfg) -> pc_num p = n -> pc_lacp p = 0 /\ (pc_ext p = true -> from_external cfg pk = false)) ->
  (forall u r down blocked, In (CPortStatus u n r down blocked) evs -> u <= t) ->
  rule_installed cfg (w_sw w) v mac pk.
Proof.
  intros cfg F evs w v mac n t pk V NL HF R O C Id (e & Fe & <- & <-) Lp No.
  pose proof (keep_reach cfg V NL F evs w HF R O) as K.
  assert (Ve : valid_entry (ds_learn (w_ctl w)) e).
  { intros u Hu. destruct (ki_upd _ _ _ _ K C v mac e u Fe Hu) as [X|(r & d & b & X)]; [exact X|]. eapply No; eauto. }
  assert (Pp : plain_port cfg (e_port e)).
  { unfold plain_port, port_attr. destruct (find_port cfg (e_port e)) as [p|] eqn:Fp; [|reflexivity].
    apply find_port_in in Fp as [P1 P2]. apply (Lp p P1 P2). }
  destruct (ki_rule _ _ _ _ K C Id v mac e Fe Ve Pp) as (p & Fp & In_).
  apply find_port_in in Fp as [P1 P2]. unfold rule_installed.
  exists (flow_of (dst_fm cfg p v mac (if has_externals cfg then [exact VlanPcp (if from_external cfg pk then 0 else PCP_EXT_PORT_FLAG)] else []))).
  split; [|split; reflexivity]. apply In_. unfold dst_key, base_key.
  destruct (has_externals cfg) eqn:He; [|auto]. destruct (from_external cfg pk) eqn:Fx; [|auto].
  right. split; auto. split; auto. destruct (pc_ext p) eqn:X; auto. destruct (Lp p P1 P2) as [_ Y]. specialize (Y X). congruence.
Qed.
Print Assumptions C68_learned_host_stays_switched_partial.

(** Together: such a host's frames leave on its port and nowhere else. *)
Theorem C68_learned_host_unicast_partial : forall cfg (F : packet -> Prop) evs w live v mac n t pk es x,
  valid_cfg cfg -> no_loop_protection cfg -> (forall pk, F pk -> ~ foreign_control cfg pk) ->
  reach cfg F evs w -> in_order Z.lt evs -> connected evs = true ->
  d_idle_dst cfg = false -> learned w v mac n t ->
  (forall p, In p (d_ports cfg) -> pc_num p = n -> pc_lacp p = 0 /\ (pc_ext p = true -> from_external cfg pk = false)) ->
  (forall u r down blocked, In (CPortStatus u n r down blocked) evs -> u <= t) ->
  frame_ok pk -> belongs cfg pk v -> pk_hdr pk EthDst = Some mac ->
  walk (w_sw w) live (tb_id (d_tvlan cfg)) pk es -> In x (wire (pk_in pk) es) ->
  (fst x = n /\ delivered cfg pk v (fst x) (snd x)) \/
  (pk_hdr (snd x) = pk_hdr pk /\ exists p, In p (d_ports cfg) /\ In (fst x) (pc_mirror p) /\
     (pc_num p = pk_in pk \/ pc_num p = n)) \/
  fst x = OFPP_CONTROLLER.
Proof.
  intros cfg F evs w live v mac n t pk es x V NL HF R O C Id Le Lp No Hk Hb Hd W Hx.
  assert (O' : in_order Z.le evs).
  { clear - O. induction evs as [|ev r IH]; [exact I|]. destruct O as [A B]. split; [|auto].
    intros x Hx. apply Z.lt_le_incl; auto. }
  pose proof (C68_learned_host_stays_switched_partial cfg F evs w v mac n t pk V NL HF R O C Id Le Lp No) as Ri.
  assert (T : forall m, together cfg n m -> m = n).
  { intros m [->|(p & q & P1 & Q1 & P2 & Q2 & P3 & P4)]; auto. destruct (Lp p P1 P2). contradiction. }
  destruct (C10_only_learned_port cfg F evs w live v mac n t pk es x V NL HF R O' Le Ri Hk Hb Hd W Hx) as [[A B]|[[A (p & P1 & P2 & P3)]|A]].
  - left. split; auto.
  - right; left. split; auto. exists p. split; auto. split; auto. destruct P3; auto.
  - auto.
Qed.
Print Assumptions C68_learned_host_unicast_partial.

(** The hypotheses hold of a run in which a link flaps, two hosts are learned, one
    of them moves, and some expire. *)
Definition host_script : list script :=
  [SEv (CConnect 10 [1; 2; 3; 4]); SEv (CPortStatus 11 2 PModify true false); SEv (CPortStatus 12 2 PModify false false);
   SFrame (ex_frame 1 [] 0x0a 0x0b 0x800); SEv (CPacketIn 13 1 100 0x0a);
   SFrame (ex_frame 2 [] 0x0b 0x0a 0x800); SEv (CPacketIn 14 2 100 0x0b);
   SFrame (ex_frame 4 [(100, 0)] 0x0a 0x0b 0x800); SEv (CPacketIn 15 4 100 0x0a); SEv (CExpire 20)].
Definition quiet_frames (pk : packet) : Prop := ~ foreign_control two_vlans pk.
Lemma host_frames_ok : forall l, Forall (fun p => exists n tags a b, p = ex_frame n tags a b 0x800 /\ 0 < n < OFPP_MAX /\
    forallb (fun t => (0 <=? fst t) && (fst t <? 4096)) tags = true) (script_frames l) ->
  forall p, In p (script_frames l) -> frame_ok p /\ quiet_frames p.
Proof.
  intros l H p Hp. rewrite Forall_forall in H. destruct (H p Hp) as (n & tags & a & b & -> & X & Y).
  split; [apply ex_frame_ok; auto|apply no_control; discriminate].
Qed.
Ltac frames_ok l := apply host_frames_ok; unfold script_frames, l; cbn [flat_map app]; repeat (apply Forall_cons; [do 4 eexists; (split; [reflexivity|]); split; [unfold OFPP_MAX; lia|reflexivity]|]); apply Forall_nil.
Ltac ordered := repeat split; intros e He; repeat (destruct He as [<-|He]; [simpl; lia|]); destruct He.

Ltac pick := (left; reflexivity) + (right; pick).
Ltac pick_rule := eexists; split; [vm_compute; pick|split; vm_compute; reflexivity].

Example ex_learned_host :
  valid_cfg two_vlans /\ no_loop_protection two_vlans /\ d_idle_dst two_vlans = false /\
  exists w, let evs := script_evs host_script in let pk := ex_frame 2 [] 0x0b 0x0a 0x800 in
    reach two_vlans quiet_frames evs w /\ in_order Z.lt evs /\ connected evs = true /\
    learned w 100 0x0a 4 15 /\ learned w 100 0x0b 2 14 /\
    (forall u r down blocked, In (CPortStatus u 2 r down blocked) evs -> u <= 14) /\
    frame_ok pk /\ belongs two_vlans pk 100 /\ rule_installed two_vlans (w_sw w) 100 0x0a pk /\
    accepted two_vlans (w_sw w) pk /\ (forall pcp, lets_through (w_sw w) 1 (carried pk 100 pcp)) /\
    exists es, walk (w_sw w) (fun _ => true) 0 pk es /\
      map (fun e => (fst e, pk_tags (snd e))) (wire 2 es) = [(4, [(100, 0)])].
Proof.
  split; [apply valid_cfgb_sound; vm_compute; reflexivity|].
  split. { intros p Hp. simpl in Hp. destruct Hp as [<-|[<-|[<-|[<-|[]]]]]; reflexivity. }
  split; [reflexivity|].
  destruct (script_run two_vlans world0 host_script) as [w|] eqn:E; [|vm_compute in E; discriminate].
  exists w. cbv zeta. split; [apply script_start; auto; frames_ok host_script|].
  split; [ordered|]. split; [reflexivity|].
  vm_compute in E. injection E as <-.
  split; [eexists; split; [vm_compute; reflexivity|split; reflexivity]|].
  split; [eexists; split; [vm_compute; reflexivity|split; reflexivity]|].
  split. { intros u r d b H. repeat (destruct H as [H|H]; [try discriminate H; injection H as <- <- <- <-; lia|]). destruct H. }
  split; [apply ex_frame_ok; [unfold OFPP_MAX; lia|reflexivity]|].
  split. { exists (ex_port 2 (Some 100) [200] 0 false). simpl. auto. }
  split; [pick_rule|].
  split. { split; [eexists; apply hits_spec; vm_compute; left; reflexivity|]. intros f Hf live. apply hits_spec in Hf. vm_compute in Hf.
    destruct Hf as [<-|[]]. do 2 eexists. vm_compute. reflexivity. }
  split. { intros pcp. split; [eexists; apply hits_spec; vm_compute; left; reflexivity|]. intros f Hf live. apply hits_spec in Hf. vm_compute in Hf.
    destruct Hf as [<-|[]]. do 3 eexists. vm_compute. reflexivity. }
  eexists. split; [apply (walk_run_sound 9); vm_compute; reflexivity|reflexivity].
Qed.

(** ** Where the claims fail *)

(** [cfg] with some features of port 2 and the datapath turned on. *)
Definition host_port (n : Z) (lag : Z) (perm loop : bool) : pconf :=
  mkPconf n true (Some 100) [] false false true lag false false false false [] perm loop 255 true false false false.
Definition host_cfg (ps : list pconf) (guard : Z) (idle_dst : bool) : dconf :=
  mkDconf ps [mkVconf 100 true 255 0x0e0000000001]
    (mkTable 0 7 0) (mkTable 1 7 0) (mkTable 2 7 0) (mkTable 3 7 0) (mkTable 4 7 0)
    Multi 0 0xf000 0xf001 300 guard 10 idle_dst 10 30 true true (fun _ => 3).
Lemma host_quiet : forall ps guard idle n tags a b, ~ foreign_control (host_cfg ps guard idle) (ex_frame n tags a b 0x800).
Proof.
  intros ps guard idle n tags a b [p [vid [pcp [r [_ [_ [_ [_ [[_ E]|[_ E]]]]]]]]]]; simpl in E; injection E as E; discriminate.
Qed.
Lemma host_frames_quiet : forall ps guard idle l, Forall (fun p => exists n tags a b, p = ex_frame n tags a b 0x800 /\ 0 < n < OFPP_MAX /\
    forallb (fun t => (0 <=? fst t) && (fst t <? 4096)) tags = true) (script_frames l) ->
  forall p, In p (script_frames l) -> frame_ok p /\ ~ foreign_control (host_cfg ps guard idle) p.
Proof.
  intros ps guard idle l H p Hp. rewrite Forall_forall in H. destruct (H p Hp) as (n & tags & a & b & -> & X & Y).
  split; [apply ex_frame_ok; auto|apply host_quiet].
Qed.
Ltac frames_quiet l := apply host_frames_quiet; unfold script_frames, l; cbn [flat_map app];
  repeat (apply Forall_cons; [do 4 eexists; (split; [reflexivity|]); split; [unfold OFPP_MAX; lia|reflexivity]|]); apply Forall_nil.

(** With loop protection: host 0x0a, learned on port 1, is heard on port 2 within
    the guard time.  Port 2 is banned and no flow changes, but the check says to
    update the cache (valve_switch_standalone.py 978-1030 leaves update_cache true),
    so the host is now learned on port 2 while its frames leave on port 1. *)
Definition loop_cfg : dconf := host_cfg [host_port 1 0 false false; host_port 2 0 false true; host_port 3 0 false false] 150 false.
Definition loop_script : list script :=
  [SEv (CConnect 10 [1; 2; 3]); SFrame (ex_frame 1 [] 0x0a 0x0b 0x800); SEv (CPacketIn 11 1 100 0x0a);
   SFrame (ex_frame 2 [] 0x0a 0x0b 0x800); SEv (CPacketIn 12 2 100 0x0a)].
Theorem C10_with_loop_protection_refuted : exists cfg evs w v mac n t pk es x,
  valid_cfg cfg /\ reach cfg (fun pk => ~ foreign_control cfg pk) evs w /\ in_order Z.lt evs /\
  learned w v mac n t /\ rule_installed cfg (w_sw w) v mac pk /\
  frame_ok pk /\ belongs cfg pk v /\ pk_hdr pk EthDst = Some mac /\
  walk (w_sw w) (fun _ => true) (tb_id (d_tvlan cfg)) pk es /\ In x (wire (pk_in pk) es) /\
  ~ together cfg n (fst x) /\ (forall p, In p (d_ports cfg) -> pc_mirror p = []) /\ fst x <> OFPP_CONTROLLER.
Proof.
  destruct (script_run loop_cfg world0 loop_script) as [w|] eqn:E; [|vm_compute in E; discriminate].
  exists loop_cfg, (script_evs loop_script), w, 100, 0x0a, 2, 12, (ex_frame 3 [] 0x0b 0x0a 0x800). do 2 eexists.
  split; [apply valid_cfgb_sound; vm_compute; reflexivity|].
  split; [apply script_start; auto; frames_quiet loop_script|]. split; [ordered|].
  vm_compute in E. injection E as <-.
  split; [eexists; split; [vm_compute; reflexivity|split; reflexivity]|]. split; [pick_rule|].
  split; [apply ex_frame_ok; [unfold OFPP_MAX; lia|reflexivity]|].
  split; [exists (host_port 3 0 false false); simpl; auto|]. split; [reflexivity|].
  split; [apply (walk_run_sound 9); vm_compute; reflexivity|].
  split; [vm_compute; right; left; reflexivity|].
  split. { intros [H|(p & q & P1 & _ & _ & _ & P3 & _)]; [discriminate H|].
    destruct P1 as [<-|[<-|[<-|[]]]]; apply P3; reflexivity. }
  split; [|discriminate]. intros p [<-|[<-|[<-|[]]]]; reflexivity.
Qed.
Print Assumptions C10_with_loop_protection_refuted.

(** In a LAG the rule may name another member than the one where the host is
    learned: heard again on another member, the host is only refreshed. *)
Definition lag_cfg : dconf := host_cfg [host_port 1 5 false false; host_port 2 5 false false; host_port 3 0 false false] 0 false.
Definition lag_script : list script :=
  [SEv (CConnect 10 [1; 2; 3]); SEv (CLacp 11 1 true); SEv (CLacp 12 2 true);
   SFrame (ex_frame 1 [] 0x0a 0x0b 0x800); SEv (CPacketIn 13 1 100 0x0a);
   SFrame (ex_frame 2 [] 0x0a 0x0b 0x800); SEv (CPacketIn 20 2 100 0x0a)].
Theorem C10_exact_port_of_lag_refuted : exists cfg evs w v mac n t pk es x,
  valid_cfg cfg /\ no_loop_protection cfg /\ reach cfg (fun pk => ~ foreign_control cfg pk) evs w /\ in_order Z.lt evs /\
  learned w v mac n t /\ rule_installed cfg (w_sw w) v mac pk /\
  frame_ok pk /\ belongs cfg pk v /\ pk_hdr pk EthDst = Some mac /\
  walk (w_sw w) (fun _ => true) (tb_id (d_tvlan cfg)) pk es /\ In x (wire (pk_in pk) es) /\
  delivered cfg pk v (fst x) (snd x) /\ fst x <> n.
Proof.
  destruct (script_run lag_cfg world0 lag_script) as [w|] eqn:E; [|vm_compute in E; discriminate].
  exists lag_cfg, (script_evs lag_script), w, 100, 0x0a, 2, 20, (ex_frame 3 [] 0x0b 0x0a 0x800). do 2 eexists.
  split; [apply valid_cfgb_sound; vm_compute; reflexivity|].
  split. { intros p [<-|[<-|[<-|[]]]]; reflexivity. }
  split; [apply script_start; auto; frames_quiet lag_script|]. split; [ordered|].
  vm_compute in E. injection E as <-.
  split; [eexists; split; [vm_compute; reflexivity|split; reflexivity]|]. split; [pick_rule|].
  split; [apply ex_frame_ok; [unfold OFPP_MAX; lia|reflexivity]|].
  split; [exists (host_port 3 0 false false); simpl; auto|]. split; [reflexivity|].
  split; [apply (walk_run_sound 9); vm_compute; reflexivity|].
  split; [vm_compute; right; left; reflexivity|].
  split; [|discriminate]. split; [reflexivity|]. right. split; [exists (host_port 1 5 false false); simpl; auto|reflexivity].
Qed.
Print Assumptions C10_exact_port_of_lag_refuted.

(** With idle_dst (the default): the destination rule of host 0x0a idles out, the
    source rule times out, and the host sends again.  It is only refreshed (its
    cache entry is valid), which restores the source rule and not the destination
    rule: while the host keeps sending, frames to it are flooded.  (The comment at
    valve_switch_standalone.py 782-790 says that the timeouts are chosen to avoid
    this.) *)
Definition idle_cfg : dconf := host_cfg [host_port 1 0 false false; host_port 2 0 false false; host_port 3 0 false false] 150 true.
Definition idle_script1 : list script :=
  [SEv (CConnect 10 [1; 2; 3]); SFrame (ex_frame 1 [] 0x0a 0x0b 0x800); SEv (CPacketIn 11 1 100 0x0a)].
Definition idle_script2 : list script :=
  [SFrame (ex_frame 1 [] 0x0a 0x0b 0x800); SEv (CPacketIn 304 1 100 0x0a)].
Definition idle_script3 : list script :=
  [SFrame (ex_frame 1 [] 0x0a 0x0b 0x800); SEv (CPacketIn 597 1 100 0x0a)].
Theorem C68_with_idle_dst_refuted : exists cfg evs w v mac n t pk es x,
  valid_cfg cfg /\ no_loop_protection cfg /\ reach cfg (fun pk => ~ foreign_control cfg pk) evs w /\ in_order Z.lt evs /\
  connected evs = true /\ learned w v mac n t /\
  (forall p, In p (d_ports cfg) -> pc_lacp p = 0 /\ pc_ext p = false /\ pc_mirror p = []) /\
  (forall u r down blocked, ~ In (CPortStatus u n r down blocked) evs) /\
  frame_ok pk /\ belongs cfg pk v /\ pk_hdr pk EthDst = Some mac /\ ~ rule_installed cfg (w_sw w) v mac pk /\
  walk (w_sw w) (fun _ => true) (tb_id (d_tvlan cfg)) pk es /\ In x (wire (pk_in pk) es) /\
  fst x <> n /\ fst x <> OFPP_CONTROLLER.
Proof.
  destruct (script_run idle_cfg world0 idle_script1) as [w1|] eqn:E1; [|vm_compute in E1; discriminate].
  destruct (script_run idle_cfg (time_out (fun f => f_table f =? 1) w1) idle_script2) as [w2|] eqn:E2; [|vm_compute in E1; injection E1 as <-; vm_compute in E2; discriminate].
  destruct (script_run idle_cfg (time_out (fun f => (f_table f =? 1) || (f_table f =? 3)) w2) idle_script3) as [w|] eqn:E3;
    [|vm_compute in E1; injection E1 as <-; vm_compute in E2; injection E2 as <-; vm_compute in E3; discriminate].
  exists idle_cfg, (script_evs idle_script3 ++ script_evs idle_script2 ++ script_evs idle_script1), w, 100, 0x0a, 1, 597, (ex_frame 3 [] 0x0b 0x0a 0x800). do 2 eexists.
  split; [apply valid_cfgb_sound; vm_compute; reflexivity|].
  split. { intros p [<-|[<-|[<-|[]]]]; reflexivity. }
  split.
  { eapply script_reach; [apply reach_time_out|exact E3|frames_quiet idle_script3].
    eapply script_reach; [apply reach_time_out|exact E2|frames_quiet idle_script2].
    apply script_start; auto; frames_quiet idle_script1. }
  split; [ordered|]. split; [reflexivity|].
  vm_compute in E1. injection E1 as <-. vm_compute in E2. injection E2 as <-. vm_compute in E3. injection E3 as <-.
  split; [eexists; split; [vm_compute; reflexivity|split; reflexivity]|].
  split. { intros p [<-|[<-|[<-|[]]]]; repeat split; reflexivity. }
  split. { intros u r d b H. repeat (destruct H as [H|H]; [discriminate H|]). destruct H. }
  split; [apply ex_frame_ok; [unfold OFPP_MAX; lia|reflexivity]|].
  split; [exists (host_port 3 0 false false); simpl; auto|]. split; [reflexivity|].
  split. { intros (f & F1 & F2 & F3). revert F1 F2 F3. cbn [w_sw sw_flows]. intros F1 F2 F3.
    repeat (destruct F1 as [<-|F1]; [first [discriminate F2|discriminate F3]|]). destruct F1. }
  split; [apply (walk_run_sound 9); vm_compute; reflexivity|].
  split; [vm_compute; right; right; left; reflexivity|]. split; discriminate.
Qed.
Print Assumptions C68_with_idle_dst_refuted.

(** A permanently learned host whose port went down and up: the port's rules were
    deleted, and as the host is known the permanent-learn check stops before
    installing them again, whatever it sends. *)
Definition perm_cfg : dconf := host_cfg [host_port 1 0 true false; host_port 2 0 false false; host_port 3 0 false false] 0 false.
Definition perm_script : list script :=
  [SEv (CConnect 10 [1; 2; 3]); SFrame (ex_frame 1 [] 0x0a 0x0b 0x800); SEv (CPacketIn 11 1 100 0x0a);
   SEv (CPortStatus 12 1 PModify true false); SEv (CPortStatus 13 1 PModify false false);
   SFrame (ex_frame 1 [] 0x0a 0x0b 0x800); SEv (CPacketIn 14 1 100 0x0a)].
Theorem C68_permanent_host_after_flap_refuted : exists cfg evs w v mac n t pk es x,
  valid_cfg cfg /\ no_loop_protection cfg /\ d_idle_dst cfg = false /\
  reach cfg (fun pk => ~ foreign_control cfg pk) evs w /\ in_order Z.lt evs /\
  connected evs = true /\ learned w v mac n t /\
  (exists u, In (CPacketIn u n v mac) evs /\ forall u' r down blocked, In (CPortStatus u' n r down blocked) evs -> u' < u) /\
  (forall p, In p (d_ports cfg) -> pc_lacp p = 0 /\ pc_ext p = false /\ pc_mirror p = []) /\
  frame_ok pk /\ belongs cfg pk v /\ pk_hdr pk EthDst = Some mac /\ ~ rule_installed cfg (w_sw w) v mac pk /\
  walk (w_sw w) (fun _ => true) (tb_id (d_tvlan cfg)) pk es /\ In x (wire (pk_in pk) es) /\
  fst x <> n /\ fst x <> OFPP_CONTROLLER.
Proof.
  destruct (script_run perm_cfg world0 perm_script) as [w|] eqn:E; [|vm_compute in E; discriminate].
  exists perm_cfg, (script_evs perm_script), w, 100, 0x0a, 1, 11, (ex_frame 3 [] 0x0b 0x0a 0x800). do 2 eexists.
  split; [apply valid_cfgb_sound; vm_compute; reflexivity|].
  split. { intros p [<-|[<-|[<-|[]]]]; reflexivity. }
  split; [reflexivity|].
  split; [apply script_start; auto; frames_quiet perm_script|].
  split; [ordered|]. split; [reflexivity|].
  vm_compute in E. injection E as <-.
  split; [eexists; split; [vm_compute; reflexivity|split; reflexivity]|].
  split. { exists 14. split; [left; reflexivity|]. intros u r d b H.
    repeat (destruct H as [H|H]; [first [discriminate H|injection H as <- <- <- <-; lia]|]). destruct H. }
  split. { intros p [<-|[<-|[<-|[]]]]; repeat split; reflexivity. }
  split; [apply ex_frame_ok; [unfold OFPP_MAX; lia|reflexivity]|].
  split; [exists (host_port 3 0 false false); simpl; auto|]. split; [reflexivity|].
  split. { intros (f & F1 & F2 & F3). revert F1 F2 F3. cbn [w_sw sw_flows]. intros F1 F2 F3.
    repeat (destruct F1 as [<-|F1]; [first [discriminate F2|discriminate F3]|]). destruct F1. }
  split; [apply (walk_run_sound 9); vm_compute; reflexivity|].
  split; [vm_compute; right; right; left; reflexivity|]. split; discriminate.
Qed.
Print Assumptions C68_permanent_host_after_flap_refuted.

(** A LAG member that lost and regained its partner: the rules towards it were
    deleted, its update time was not touched, so the host is only refreshed and its
    destination rule does not come back. *)
Definition lacp_script : list script :=
  [SEv (CConnect 10 [1; 2; 3]); SEv (CLacp 11 1 true);
   SFrame (ex_frame 1 [] 0x0a 0x0b 0x800); SEv (CPacketIn 13 1 100 0x0a);
   SEv (CLacp 14 1 false); SEv (CLacp 15 1 true);
   SFrame (ex_frame 1 [] 0x0a 0x0b 0x800); SEv (CPacketIn 20 1 100 0x0a)].
Theorem C68_lag_host_after_lacp_refuted : exists cfg evs w v mac n t pk es x,
  valid_cfg cfg /\ no_loop_protection cfg /\ d_idle_dst cfg = false /\
  reach cfg (fun pk => ~ foreign_control cfg pk) evs w /\ in_order Z.lt evs /\
  connected evs = true /\ learned w v mac n t /\
  (forall u r down blocked, ~ In (CPortStatus u n r down blocked) evs) /\
  (forall u sync, In (CLacp u n sync) evs -> u < t) /\
  (forall p, In p (d_ports cfg) -> pc_ext p = false /\ pc_mirror p = []) /\
  frame_ok pk /\ belongs cfg pk v /\ pk_hdr pk EthDst = Some mac /\ ~ rule_installed cfg (w_sw w) v mac pk /\
  walk (w_sw w) (fun _ => true) (tb_id (d_tvlan cfg)) pk es /\ In x (wire (pk_in pk) es) /\
  ~ together cfg n (fst x) /\ fst x <> OFPP_CONTROLLER.
Proof.
  pose (cfg := host_cfg [host_port 1 5 false false; host_port 2 0 false false; host_port 3 0 false false] 0 false).
  destruct (script_run cfg world0 lacp_script) as [w|] eqn:E; [|vm_compute in E; discriminate].
  exists cfg, (script_evs lacp_script), w, 100, 0x0a, 1, 20, (ex_frame 3 [] 0x0b 0x0a 0x800). do 2 eexists.
  split; [apply valid_cfgb_sound; vm_compute; reflexivity|].
  split. { intros p [<-|[<-|[<-|[]]]]; reflexivity. }
  split; [reflexivity|].
  split; [apply script_start; auto; frames_quiet lacp_script|].
  split; [ordered|]. split; [reflexivity|].
  vm_compute in E. injection E as <-.
  split; [eexists; split; [vm_compute; reflexivity|split; reflexivity]|].
  split. { intros u r d b H. repeat (destruct H as [H|H]; [discriminate H|]). destruct H. }
  split. { intros u r H. repeat (destruct H as [H|H]; [first [discriminate H|injection H as <- <-; lia]|]). destruct H. }
  split. { intros p [<-|[<-|[<-|[]]]]; repeat split; reflexivity. }
  split; [apply ex_frame_ok; [unfold OFPP_MAX; lia|reflexivity]|].
  split; [exists (host_port 3 0 false false); simpl; auto|]. split; [reflexivity|].
  split. { intros (f & F1 & F2 & F3). revert F1 F2 F3. cbn [w_sw sw_flows]. intros F1 F2 F3.
    repeat (destruct F1 as [<-|F1]; [first [discriminate F2|discriminate F3]|]). destruct F1. }
  split; [apply (walk_run_sound 9); vm_compute; reflexivity|].
  split; [vm_compute; right; right; left; reflexivity|].
  split; [|discriminate].
  intros [H|(p & q & P1 & Q1 & P2 & Q2 & P3 & P4)]; [discriminate H|].
  destruct P1 as [<-|[<-|[<-|[]]]], Q1 as [<-|[<-|[<-|[]]]]; simpl in *; try discriminate; contradiction.
Qed.
Print Assumptions C68_lag_host_after_lacp_refuted.

(** ** C17: the rules that are installed

    In what is sent when a host is learned or refreshed on a port (that is not
    permanent), after any history: the rule that lets the host's frames pass has a
    hard timeout within the configured bounds and no idle timeout, and every rule
    towards the host has no hard timeout, and an idle timeout that cannot strike
    before the other. *)
Definition host_timed (cfg : lcfg) (n mac : Z) (h : host_msg) : Prop :=
  match h with
  | MSrc _ _ _ hard idle => idle = 0 /\ hard = snd (fst (learn_host_timeouts cfg n mac))
  | MDst _ _ _ idle | MDstNonExt _ _ _ idle | MHairpin _ _ _ idle => idle = snd (learn_host_timeouts cfg n mac)
  | _ => True
  end.
Lemma learn_timed : forall cfg s now v n mac s' hs, vlan_rcv_packet cfg s now v n mac = Some (s', hs) -> Forall (host_timed cfg n mac) hs.
Proof.
  intros cfg s now v n mac s' hs H. unfold vlan_rcv_packet in H. destruct (ban_rules cfg s v n mac) as [|b bs] eqn:B.
  - assert (K : Forall (host_timed cfg n mac) (ck_msgs (learn_host_on_vlan_ports cfg s now n v mac))).
    { unfold learn_host_on_vlan_ports. set (e := cached_host (s_cache s v) mac). unfold perm_learn_check, learn_cache_check, loop_protect_check, learn_check, learn_flows.
      repeat (match goal with |- context [match ?x with _ => _ end] => destruct x eqn:? end; cbn [ck_exit ck_msgs ck_delete ck_refresh]);
      repeat (constructor || (apply Forall_app; split)); cbn; auto; try (unfold learn_host_timeouts in *; congruence);
      match goal with E : learn_host_timeouts _ _ _ = _ |- _ => unfold learn_host_timeouts in *; injection E as <- <- <- end; auto. }
    unfold learn_host in H. destruct (ck_update _); [destruct (add_cache_host _ _ _ _); [|discriminate]|]; injection H as <- <-; exact K.
  - injection H as <- <-. rewrite <- B. unfold ban_rules. destruct (cached_host _ _); [constructor|]. apply Forall_app. split; match goal with |- Forall _ (if ?c then _ else _) => destruct c end; repeat constructor.
Qed.
Theorem C17_rules_of_a_learning : forall cfg st now n vid mac st' ms a, valid_cfg cfg -> LearnSpec.timing_ok (learn_cfg cfg) -> c_perm (learn_cfg cfg) n = false ->
  rcv_vlan_packet cfg st now n vid mac = Some (st', ms) ->
  In (FlowMod a) ms -> fm_cmd a = FAdd -> fm_table a = tb_id (d_tsrc cfg) -> fm_inst a <> [] ->
  fm_idle a = 0 /\ d_guard cfg <= fm_hard a /\
  d_timeout cfg - Z.abs (d_jitter cfg) <= fm_hard a <= Z.max (d_guard cfg) (d_timeout cfg + Z.abs (d_jitter cfg)) /\
  forall b, In (FlowMod b) ms -> fm_cmd b = FAdd -> fm_table b = tb_id (d_tdst cfg) \/ fm_table b = tb_id (d_thp cfg) ->
    fm_hard b = 0 /\ LearnSpec.src_first (d_guard cfg) (fm_hard a) (fm_idle b).
Proof.
  intros cfg st now n vid mac st' ms a VC TM NP H IA CA TA NI. unfold rcv_vlan_packet in H.
  assert (NA : forall m, In m ms -> exists hs l, vlan_rcv_packet (learn_cfg cfg) (ds_learn st) now vid n mac = Some (l, hs) /\ ms = flat_map (host_ofmsgs cfg) hs).
  { intros m M. destruct (negb (ds_running st)); [injection H as _ <-; destruct M|]. destruct (find_port cfg n); [|injection H as _ <-; destruct M].
    destruct (find_vlan cfg vid); [|injection H as _ <-; destruct M]. destruct (learnable_mac mac); [|injection H as _ <-; destruct M].
    destruct (vlan_rcv_packet (learn_cfg cfg) (ds_learn st) now vid n mac) as [[l hs]|]; [|discriminate]. injection H as _ <-. exists hs, l. auto. }
  destruct (NA _ IA) as (hs & l & E & ->). assert (F := learn_timed _ _ _ _ _ _ _ _ E). rewrite Forall_forall in F.
  assert (TB : NoDup (map tb_id [d_tvlan cfg; d_tsrc cfg; d_thp cfg; d_tdst cfg; d_tflood cfg])) by apply VC. cbn [map] in TB.
  assert (D : tb_id (d_tsrc cfg) <> tb_id (d_thp cfg) /\ tb_id (d_tsrc cfg) <> tb_id (d_tdst cfg)).
  { inversion TB as [|? ? _ T1]; subst. inversion T1 as [|? ? T2 _]; subst. cbn in T2. split; intros X; apply T2; rewrite X; auto. }
  destruct D as [D1 D2]. destruct (learn_host_timeouts (learn_cfg cfg) n mac) as [[si sh] di] eqn:LT.
  destruct (LearnProps.C17_src_before_dst (learn_cfg cfg) n mac si sh di TM NP LT) as (S1 & S2 & S3 & S4). unfold host_timed in F. rewrite LT in F. cbn [fst snd] in F.
  apply in_flat_map in IA as (h & IH & IA). assert (FH := F h IH).
  assert (A : fm_idle a = 0 /\ fm_hard a = sh).
  { destruct h; cbn [host_ofmsgs] in IA.
    - exfalso. apply in_app_iff in IA as [[IA|[IA|[]]]|IA]; try (injection IA as <-; discriminate CA). destruct (has_hairpin cfg); [|destruct IA]. destruct IA as [IA|[]]. injection IA as <-. discriminate CA.
    - destruct IA as [IA|[]]. injection IA as <-. destruct FH as [-> ->]. split; reflexivity.
    - destruct (find_port cfg port); [|destruct IA]. destruct IA as [IA|[]]. injection IA as <-. exfalso. apply D2. symmetry. exact TA.
    - destruct (find_port cfg port); [|destruct IA]. destruct IA as [IA|[]]. injection IA as <-. exfalso. apply D2. symmetry. exact TA.
    - destruct (find_port cfg port); [|destruct IA]. destruct IA as [IA|[]]. injection IA as <-. exfalso. apply D1. symmetry. exact TA.
    - exfalso. destruct IA as [IA|[]]. injection IA as <-. apply NI. reflexivity.
    - exfalso. destruct IA as [IA|[]]. injection IA as <-. apply NI. reflexivity.
    - exfalso. destruct IA as [IA|[]]. unfold filter_packets in IA. injection IA as <-. apply NI. reflexivity. }
  destruct A as [A1 A2]. split; [exact A1|]. rewrite A2. cbn [c_guard c_timeout c_jitter learn_cfg] in *. split; [exact S3|]. split; [exact S4|].
  intros b IB CB TBL. apply in_flat_map in IB as (h' & IH' & IB). assert (FH' := F h' IH').
  assert (B : fm_hard b = 0 /\ fm_idle b = di).
  { destruct h'; cbn [host_ofmsgs] in IB.
    - exfalso. apply in_app_iff in IB as [[IB|[IB|[]]]|IB]; try (injection IB as <-; discriminate CB). destruct (has_hairpin cfg); [|destruct IB]. destruct IB as [IB|[]]. injection IB as <-. discriminate CB.
    - exfalso. destruct IB as [IB|[]]. injection IB as <-. destruct TBL as [X|X]; [apply D2|apply D1]; exact X.
    - destruct (find_port cfg port); [|destruct IB]. destruct IB as [IB|[]]. injection IB as <-. rewrite FH'. split; reflexivity.
    - destruct (find_port cfg port); [|destruct IB]. destruct IB as [IB|[]]. injection IB as <-. rewrite FH'. split; reflexivity.
    - destruct (find_port cfg port); [|destruct IB]. destruct IB as [IB|[]]. injection IB as <-. rewrite FH'. split; reflexivity.
    - exfalso. destruct IB as [IB|[]]. injection IB as <-. destruct TBL as [X|X]; [apply D2|apply D1]; exact X.
    - exfalso. destruct IB as [IB|[]]. injection IB as <-. destruct TBL as [X|X]; [apply D2|apply D1]; exact X.
    - exfalso. destruct IB as [IB|[]]. unfold filter_packets in IB. injection IB as <-. destruct TBL as [X|X]; [apply D2|apply D1]; exact X. }
  destruct B as [-> ->]. split; [reflexivity|exact S2].
Qed.
Print Assumptions C17_rules_of_a_learning.
(** A case: a host is learned with idle_dst; its rules have the timeouts 293 and 443. *)
Definition timed_cfg : dconf := host_cfg [host_port 1 0 false false; host_port 2 0 false false] 150 true.
Example C17_learning_case : valid_cfg timed_cfg /\ LearnSpec.timing_ok (learn_cfg timed_cfg) /\ c_perm (learn_cfg timed_cfg) 1 = false /\
  exists w st' ms a b, script_run timed_cfg world0 [SEv (CConnect 10 [1; 2])] = Some w /\
    rcv_vlan_packet timed_cfg (w_ctl w) 11 1 100 0x0a = Some (st', ms) /\
    In (FlowMod a) ms /\ fm_cmd a = FAdd /\ fm_table a = tb_id (d_tsrc timed_cfg) /\ fm_inst a <> [] /\
    In (FlowMod b) ms /\ fm_cmd b = FAdd /\ fm_table b = tb_id (d_tdst timed_cfg) /\ fm_hard a = 293 /\ fm_idle b = 443.
Proof.
  split; [apply valid_cfgb_sound; vm_compute; reflexivity|]. split; [unfold LearnSpec.timing_ok; cbn; lia|]. split; [reflexivity|].
  destruct (script_run timed_cfg world0 [SEv (CConnect 10 [1; 2])]) as [w|] eqn:E; [|vm_compute in E; discriminate]. exists w. vm_compute in E. injection E as <-.
  eexists _, _, _, _. split; [reflexivity|]. split; [vm_compute; reflexivity|]. split; [left; reflexivity|]. split; [reflexivity|]. split; [reflexivity|]. split; [discriminate|].
  split; [right; left; reflexivity|]. repeat split.
Qed.
