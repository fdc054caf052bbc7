(** * C84: the meters on a switch *)
From Coq Require Import ZArith List Bool Lia Permutation.
From Verif Require Import PyBase OpenFlow ReorderModel TableModel SwitchExec AclModel AclSpec AclHistProofs AclEventProofs AclWalkProofs
  AclProps MeterModel MeterSpec MeterProofs.
Import ListNotations.
Open Scope Z_scope.

(** C84 says: after every connection and every reload the switch has exactly the
    meters that are configured and used by ACLs, and those of packetin_pps and
    slowpath_pps, with the configured rates; and every ACL rule is in force and sends
    its packets through its meter.

    It is true only as long as no reload drops or changes a meter ([only_adds]) and
    the meters of a datapath have different ids ([ids_differ]). *)

(** The switch has exactly the meters it should have. *)
Theorem C84_meters_partial : forall am lowest evs s,
  mhistory am lowest evs s -> only_adds evs -> ids_differ evs ->
  forall id bands, In (id, bands) (sw_meters s) <-> wanted (limits_now evs) id bands.
Proof. intros am lowest evs s H OA ID. apply (meters_exact am lowest); auto. Qed.
Print Assumptions C84_meters_partial.

(** What becomes of packets is what it would be without any meters: there is a history
    of the same events without messages about meters, in which packets fare alike (so
    C22 and C23 hold with meters). *)
Theorem C84_acls_partial : forall am lowest evs s,
  mhistory am lowest evs s -> only_adds evs ->
  exists s', history am lowest (acl_events evs) s' /\
    forall live t q es, walk s live t q es <-> walk s' live t q es.
Proof.
  intros am lowest evs s H OA. destruct (history_sim am lowest evs s H OA) as [s' [H' S]].
  exists s'. split; auto. intros live t q es. split; apply sim_walk; auto.
  destruct S. split; auto.
Qed.
Print Assumptions C84_acls_partial.

(** A packet that a rule of its port's ACLs decides on goes through the rule's meter
    and no other, and the switch has that meter. *)
Theorem C84_port_metered_partial : forall am lowest evs s t p q r f,
  manager_ok am lowest -> mhistory am lowest evs s -> only_adds evs -> ids_differ evs -> meters_known am evs ->
  am_port am = Some t -> am_dp_acls am = [] ->
  port_now (acl_events evs) (pk_in q) = Some p -> ap_output_only p = false -> packet_ok q ->
  decides (rule_covers (Some InPort) q) (rules_of (ap_acls p)) r ->
  hit (sw_flows s) (tb_id t) q f ->
  metered_by s (limits_now evs) f (rule_meter r).
Proof.
  intros am lowest evs s t p q r f M H OA ID KN T D P O K DE HI.
  destruct (history_sim am lowest evs s H OA) as [s' [H' [SF SG]]].
  assert (E : acls_at am (acl_events evs) (SPort (pk_in q)) = ap_acls p) by (cbn; rewrite D, P, O; auto).
  assert (NE : ap_acls p <> []) by (intros X; rewrite X in DE; inversion DE).
  destruct (history_holds am lowest M _ s' H') as [NM [CO _]].
  split.
  - rewrite SF in HI. eapply (spot_meter am lowest (acl_events evs) s' (SPort (pk_in q))); eauto.
    + reflexivity.
    + split; [discriminate|]. intros [X _]. contradiction.
    + cbn [spot_item option_map fst]. rewrite E. exact DE.
    + destruct (content_or am lowest (acl_events evs) (SPort (pk_in q)) M NM CO) as [X|X]; auto.
      * intros _. cbn. congruence.
      * rewrite E. auto.
      * rewrite E in X. rewrite X in DE. inversion DE.
  - intros id R. unfold rule_meter in R. destruct (ru_actions r) as [a|] eqn:RA; [|discriminate R].
    destruct (KN (SPort (pk_in q)) r a id) as [name [b X]]; auto; [rewrite E; apply AclMatchProofs.decides_in in DE; tauto|].
    exists b. assert (W : wanted (limits_now evs) id b) by (left; eauto). split; auto.
    apply (C84_meters_partial am lowest evs s); auto.
Qed.
Print Assumptions C84_port_metered_partial.

(** ... and likewise for the ACLs of a VLAN. *)
Theorem C84_vlan_metered_partial : forall am lowest evs s t v x q r f,
  manager_ok am lowest -> mhistory am lowest evs s -> only_adds evs -> ids_differ evs -> meters_known am evs ->
  am_vlan am = Some t -> vlan_now (acl_events evs) v = Some x -> in_vlan v q -> packet_ok q ->
  decides (rule_covers (Some VlanVid) q) (rules_of (av_in x)) r ->
  hit (sw_flows s) (tb_id t) q f ->
  metered_by s (limits_now evs) f (rule_meter r).
Proof.
  intros am lowest evs s t v x q r f M H OA ID KN T V I K DE HI.
  destruct (history_sim am lowest evs s H OA) as [s' [H' [SF SG]]].
  assert (E : acls_at am (acl_events evs) (SVlanIn v) = av_in x) by (cbn; rewrite V; auto).
  assert (NE : av_in x <> []) by (intros X; rewrite X in DE; inversion DE).
  destruct (history_holds am lowest M _ s' H') as [NM [CO _]].
  split.
  - rewrite SF in HI. eapply (spot_meter am lowest (acl_events evs) s' (SVlanIn v)); eauto.
    + split; auto. apply vlan_id_ok. eapply NM; eauto.
    + split; [discriminate|]. intros [_ X]. destruct (X v). congruence.
    + cbn [spot_item option_map fst]. rewrite E. exact DE.
    + destruct (content_or am lowest (acl_events evs) (SVlanIn v) M NM CO) as [X|X]; auto.
      * intros _. cbn. congruence.
      * rewrite E. auto.
      * rewrite E in X. rewrite X in DE. inversion DE.
  - intros id R. unfold rule_meter in R. destruct (ru_actions r) as [a|] eqn:RA; [|discriminate R].
    destruct (KN (SVlanIn v) r a id) as [name [b X]]; auto; [rewrite E; apply AclMatchProofs.decides_in in DE; tauto|].
    exists b. assert (W : wanted (limits_now evs) id b) by (left; eauto). split; auto.
    apply (C84_meters_partial am lowest evs s); auto.
Qed.
Print Assumptions C84_vlan_metered_partial.

(** ** Examples *)

Definition mrun1 (am : amanager) (lowest : Z) (old : meters_conf) (e : mevent) (s : switch) : switch :=
  match valve_flowreorder (fun l => l) true (mbatch am lowest old e) with Some out => apply_msgs out s | None => s end.
Fixpoint mrun (am : amanager) (lowest : Z) (evs : list mevent) (s : switch) : switch :=
  match evs with
  | [] => s
  | e :: r => mrun1 am lowest (li_meters (limits_now r)) e (mrun am lowest r s)
  end.
Lemma run_connect : forall am lowest s c vs ps,
  mevent_ok [] (MConnect c vs ps) -> config_ok am lowest [AConnect vs ps] -> li_meters c <> [] ->
  valve_flowreorder (fun l => l) true (mbatch am lowest [] (MConnect c vs ps)) <> None ->
  mhistory am lowest [MConnect c vs ps] (mrun am lowest [MConnect c vs ps] s).
Proof.
  intros am lowest s c vs ps A B L R. cbn [mrun limits_now li_meters]. unfold mrun1.
  destruct (valve_flowreorder (fun l => l) true (mbatch am lowest [] (MConnect c vs ps))) as [out|] eqn:E; [|congruence].
  apply (mh_connect am lowest s c vs ps (fun l => l) true out); auto.
Qed.
Lemma run_event : forall am lowest s evs e,
  mhistory am lowest evs (mrun am lowest evs s) -> (forall c vs ps, e <> MConnect c vs ps) ->
  mevent_ok evs e -> config_ok am lowest (acl_events (e :: evs)) ->
  valve_flowreorder (fun l => l) true (mbatch am lowest (li_meters (limits_now evs)) e) <> None ->
  mhistory am lowest (e :: evs) (mrun am lowest (e :: evs) s).
Proof.
  intros am lowest s evs e H N A B R. cbn [mrun]. unfold mrun1.
  destruct (valve_flowreorder (fun l => l) true (mbatch am lowest (li_meters (limits_now evs)) e)) as [out|] eqn:E; [|congruence].
  apply (mh_event am lowest evs _ e (fun l => l) true out); auto.
Qed.

(** Port 1 lets IPv4 through meter 1 to port 7; port 2 lets it through meter 2 to port
    8.  Before the first connection the switch has a meter 1 with another rate. *)
Definition mx_am : amanager := mkAmanager [] (Some (mkTable 0 7 0)) None None false 1 3 6 10.
Definition mx_rule (meter : option Z) (n : Z) : rule := mkRule [((false, EthType), (0x800, -1))] None
  (Some (mkActions None None meter None (Some (Unordered (mkUnordered None None None None None (Some n) None None None None))) None)).
Definition mx_p1 : aport := mkAport 1 [mkAcl [mx_rule (Some 1) 7] false] false false.
Definition mx_p2 : aport := mkAport 2 [mkAcl [mx_rule (Some 2) 8] false] false false.
Definition mx_m1 : Z * (Z * list Z) := (11, (1, [100])).
Definition mx_m2 : Z * (Z * list Z) := (12, (2, [200])).
Definition mx_s0 : switch := mkSwitch [mkFlow 0 0x6000 [] 1 [MeterI 1] 0 0 0] [] [(1, [5])].
Definition mx_con : mevent := MConnect (mkLimits [mx_m1] false (Some 30) None) [] [mx_p1; mkAport 2 [mkAcl [mx_rule None 8] false] false false].
Definition mx_evs : list mevent := [MReload [mx_m1; mx_m2] (Some (APortAcl mx_p2)); mx_con].

Lemma mx_manager : manager_ok mx_am 0.
Proof. split; [repeat constructor; cbn; intuition discriminate|]; split; [cbn; intuition discriminate|unfold FILTER_PRIORITY; lia]. Qed.
Lemma mx_history : mhistory mx_am 0 mx_evs (mrun mx_am 0 mx_evs mx_s0).
Proof.
  apply run_event; [apply run_connect| | | |]; try discriminate; try (vm_compute; discriminate).
  - split; [repeat constructor; cbn; intuition discriminate|].
    split; [constructor|]. split; [repeat constructor; cbn; intuition discriminate|constructor].
  - unfold mx_rule. finite_config.
  - split; [repeat constructor; cbn; intuition discriminate|]. split; [discriminate|].
    split; [intros q H; cbn in H; injection H as <-; reflexivity|]. split; [discriminate|].
    intros r rest H. injection H as <- <-. eexists. split; [left; reflexivity|discriminate].
  - unfold mx_evs, mx_con. cbn [acl_events]. unfold mx_rule. finite_config.
Qed.

Example C84_case : only_adds mx_evs /\ ids_differ mx_evs /\ meters_known mx_am mx_evs /\
  sw_meters (mrun mx_am 0 mx_evs mx_s0) = [(OFPM_CONTROLLER, [30]); (1, [100]); (2, [200])] /\
  port_now (acl_events mx_evs) 2 = Some mx_p2 /\
  walk (mrun mx_am 0 mx_evs mx_s0) (fun _ => true) 0 (ex_pkt 1 0x800 []) [(7, ex_pkt 1 0x800 [])] /\
  walk (mrun mx_am 0 mx_evs mx_s0) (fun _ => true) 0 (ex_pkt 2 0x800 []) [(8, ex_pkt 2 0x800 [])].
Proof.
  split; [split; [intros x [<-|[]]; left; reflexivity|exact I]|].
  split; [split; (split; [repeat constructor; cbn; intuition discriminate|intros x X; cbn in X; intuition (subst; cbn; lia)])|].
  split.
  { intros sp r a id H A E. destruct sp; cbn -[Z.eqb] in H; spots; repeat (destruct H as [<-|H]; [injection A as <-; injection E as <-; cbn; unfold mx_m1, mx_m2; eauto|]);
      try destruct H. }
  split; [vm_compute; reflexivity|]. split; [reflexivity|].
  split; (apply (walk_run_sound 3); vm_compute; reflexivity).
Qed.

(** the rule of port 2 decides on IPv4, and its packets go through meter 2 *)
Example C84_metered_case : exists f,
  hit (sw_flows (mrun mx_am 0 mx_evs mx_s0)) 0 (ex_pkt 2 0x800 []) f /\
  decides (rule_covers (Some InPort) (ex_pkt 2 0x800 [])) (rules_of (ap_acls mx_p2)) (mx_rule (Some 2) 8) /\
  metered_by (mrun mx_am 0 mx_evs mx_s0) (limits_now mx_evs) f (Some 2) /\ In (MeterI 2) (f_inst f).
Proof.
  destruct C84_case as [OA [ID [KN [_ [P [_ W]]]]]].
  assert (D : decides (rule_covers (Some InPort) (ex_pkt 2 0x800 [])) (rules_of (ap_acls mx_p2)) (mx_rule (Some 2) 8)).
  { apply decides_now. intros o f v m [H|[]] _. injection H as <- <- <- <-. exists 0x800. split; reflexivity. }
  assert (F : exists f, hit (sw_flows (mrun mx_am 0 mx_evs mx_s0)) 0 (ex_pkt 2 0x800 []) f).
  { inversion W; eauto. }
  destruct F as [f H]. exists f. split; auto. split; auto.
  assert (M : metered_by (mrun mx_am 0 mx_evs mx_s0) (limits_now mx_evs) f (Some 2)).
  { apply (C84_port_metered_partial mx_am 0 mx_evs _ (mkTable 0 7 0) mx_p2 (ex_pkt 2 0x800 []) (mx_rule (Some 2) 8)); auto;
      try reflexivity; [exact mx_manager|exact mx_history|constructor]. }
  split; auto. apply (proj1 M). reflexivity.
Qed.

(** ** Findings *)

Definition mx_both : mevent := MConnect (mkLimits [mx_m1; mx_m2] false (Some 30) None) [] [mx_p1; mx_p2].
Lemma mx_both_history : mhistory mx_am 0 [mx_both] (mrun mx_am 0 [mx_both] mx_s0).
Proof.
  apply run_connect; try discriminate; try (vm_compute; discriminate).
  - split; [repeat constructor; cbn; intuition discriminate|].
    split; [constructor|]. split; [repeat constructor; cbn; intuition discriminate|constructor].
  - unfold mx_rule. finite_config.
Qed.
Definition mx_p2' : aport := mkAport 2 [mkAcl [mx_rule None 8] false] false false.
Definition mx_drop : mevent := MReload [mx_m1] (Some (APortAcl mx_p2')).
Lemma mx_drop_history : mhistory mx_am 0 [mx_drop; mx_both] (mrun mx_am 0 [mx_drop; mx_both] mx_s0).
Proof.
  apply run_event; [apply mx_both_history| | | |]; try discriminate; try (vm_compute; discriminate).
  - split; [repeat constructor; cbn; intuition discriminate|]. split; [discriminate|].
    split; [intros q H; cbn in H; injection H as <-; reflexivity|]. split; [discriminate|].
    intros r rest H. injection H as <- <-. eexists. split; [left; reflexivity|discriminate].
  - cbn [acl_events]. unfold mx_rule. finite_config.
Qed.
Ltac mx_known := let H := fresh in let A := fresh in let E := fresh in
  intros sp r a id H A E; destruct sp; cbn -[Z.eqb] in H; spots;
  repeat (destruct H as [<-|H]; [injection A as <-; first [discriminate E | injection E as <-; cbn; unfold mx_m1, mx_m2; eauto]|]); try destruct H.
Ltac mx_ids := split; [repeat constructor; cbn; intuition discriminate|intros x X; cbn in X; intuition (subst; cbn; lia)].

(** A reload after which port 2 no longer uses its meter deletes all meters
    (del_meters passes the meter id as the datapath), and the switch deletes the
    entries that use them: port 1, whose configuration has not changed, loses its meter
    and its rule, and its packets are dropped. *)
Theorem C84_deleted_refuted : exists am evs s0 s q p,
  manager_ok am 0 /\ mhistory am 0 evs s0 /\ mhistory am 0 (MReload [mx_m1] (Some (APortAcl mx_p2')) :: evs) s /\
  ids_differ (MReload [mx_m1] (Some (APortAcl mx_p2')) :: evs) /\
  meters_known am (MReload [mx_m1] (Some (APortAcl mx_p2')) :: evs) /\
  pk_in q = 1 /\ packet_ok q /\ port_now (acl_events evs) 1 = Some p /\
  port_now (acl_events (MReload [mx_m1] (Some (APortAcl mx_p2')) :: evs)) 1 = Some p /\
  In mx_m1 (li_meters (limits_now evs)) /\
  walk s0 (fun _ => true) 0 q [(7, q)] /\ (forall es, walk s (fun _ => true) 0 q es -> es = []) /\
  (forall bands, ~ In (1, bands) (sw_meters s)).
Proof.
  exists mx_am, [mx_both], (mrun mx_am 0 [mx_both] mx_s0), (mrun mx_am 0 [mx_drop; mx_both] mx_s0), (ex_pkt 1 0x800 []), mx_p1.
  split; [exact mx_manager|]. split; [exact mx_both_history|]. split; [exact mx_drop_history|].
  split; [split; mx_ids|]. split; [mx_known|].
  split; [reflexivity|]. split; [constructor|]. split; [reflexivity|]. split; [reflexivity|]. split; [left; reflexivity|].
  split; [apply (walk_run_sound 3); vm_compute; reflexivity|]. split.
  - intros es W. inversion W as [t0 q0 NM0|t0 q0 f es0 q1 HI X|t0 q0 f es0 q1 t' es' HI X W']; subst; auto;
      destruct HI as [J1 [J2 [J3 _]]]; vm_compute in J1;
      repeat (destruct J1 as [J1|J1]; [subst f; first [discriminate J3 | cbn in X; discriminate X | cbn in X; injection X as <- _; reflexivity]|]); destruct J1.
  - intros bands X. vm_compute in X. intuition discriminate.
Qed.
Print Assumptions C84_deleted_refuted.

(** Changing the rate of a meter by a reload removes the ACL rules that use it, on
    ports that are not touched otherwise: the meter is added again, the rules are not. *)
Definition mx_change : mevent := MReload [(11, (1, [150])); mx_m2] None.
Theorem C84_changed_refuted : exists am evs s q p,
  manager_ok am 0 /\ mhistory am 0 evs s /\ ids_differ evs /\ meters_known am evs /\
  (exists evs0, evs = mx_change :: evs0 /\ port_now (acl_events evs0) 1 = Some p /\
     exists s0, mhistory am 0 evs0 s0 /\ walk s0 (fun _ => true) 0 q [(7, q)]) /\
  pk_in q = 1 /\ packet_ok q /\ port_now (acl_events evs) 1 = Some p /\
  In (1, [150]) (sw_meters s) /\ (forall es, walk s (fun _ => true) 0 q es -> es = []).
Proof.
  exists mx_am, [mx_change; mx_both], (mrun mx_am 0 [mx_change; mx_both] mx_s0), (ex_pkt 1 0x800 []), mx_p1.
  split; [exact mx_manager|]. split.
  { apply run_event; [apply mx_both_history| | | |]; try discriminate; try (vm_compute; discriminate).
    - repeat constructor; cbn; intuition discriminate.
    - cbn [acl_events]. unfold mx_rule. finite_config. }
  split; [split; mx_ids|]. split; [mx_known|].
  split; [eexists; split; [reflexivity|]; split; [reflexivity|]; eexists; split; [exact mx_both_history|];
          apply (walk_run_sound 3); vm_compute; reflexivity|].
  split; [reflexivity|]. split; [constructor|]. split; [reflexivity|]. split; [vm_compute; tauto|].
  intros es W. inversion W as [t0 q0 NM0|t0 q0 f es0 q1 HI X|t0 q0 f es0 q1 t' es' HI X W']; subst; auto;
    destruct HI as [J1 [J2 [J3 _]]]; vm_compute in J1;
    repeat (destruct J1 as [J1|J1]; [subst f; first [discriminate J3 | cbn in X; discriminate X | cbn in X; injection X as <- _; reflexivity]|]); destruct J1.
Qed.
Print Assumptions C84_changed_refuted.

(** The same reload removes the limit on packets sent to the controller
    (packetin_pps), until the datapath connects again. *)
Theorem C84_packetin_refuted : exists am evs s,
  manager_ok am 0 /\ mhistory am 0 evs s /\ ids_differ evs /\
  li_packetin (limits_now evs) = Some 30 /\ wanted (limits_now evs) OFPM_CONTROLLER [30] /\
  forall bands, ~ In (OFPM_CONTROLLER, bands) (sw_meters s).
Proof.
  exists mx_am, [mx_drop; mx_both], (mrun mx_am 0 [mx_drop; mx_both] mx_s0).
  split; [exact mx_manager|]. split; [exact mx_drop_history|]. split; [split; mx_ids|]. split; [reflexivity|].
  split; [right; left; split; [reflexivity|eexists; split; reflexivity]|].
  intros bands X. vm_compute in X. exact X.
Qed.
Print Assumptions C84_packetin_refuted.

(** Two meters with the same id are accepted; the switch refuses the second, and the
    ACLs that name it are limited to the rate of the first. *)
Definition mx_same : limits := mkLimits [mx_m1; (12, (1, [200]))] false None None.
Theorem C84_same_id_refuted : exists am evs s,
  manager_ok am 0 /\ mhistory am 0 evs s /\ only_adds evs /\ names_ok (li_meters (limits_now evs)) /\
  wanted (limits_now evs) 1 [200] /\ ~ In (1, [200]) (sw_meters s).
Proof.
  exists mx_am, [MConnect mx_same [] [mx_p1]], (mrun mx_am 0 [MConnect mx_same [] [mx_p1]] mx_s0).
  split; [exact mx_manager|]. split.
  { apply run_connect; try discriminate; try (vm_compute; discriminate).
    - split; [repeat constructor; cbn; intuition discriminate|].
      split; [constructor|]. split; [repeat constructor; cbn; intuition discriminate|constructor].
    - unfold mx_rule. finite_config. }
  split; [exact I|]. split; [repeat constructor; cbn; intuition discriminate|].
  split; [left; exists 12; right; left; reflexivity|]. intros X. vm_compute in X. intuition discriminate.
Qed.
Print Assumptions C84_same_id_refuted.
