(** * Access control lists: the switch follows the configuration *)
From Coq Require Import ZArith List Bool Lia Permutation.
From Verif Require Import PyBase PyBaseProofs OpenFlow ReorderModel ReorderSpec ReorderProofs TrimModel TrimProofs
  TableModel FloodRulesProofs BatchProofs L2Proofs AclModel AclSpec AclProofs AclMatchProofs AclStepProofs.
Import ListNotations.
Open Scope Z_scope.

Inductive xspot := XS (sp : spot) | XDrop (t : Z).

Definition vlan_in (am : amanager) (v : avlan) : list ofmsg :=
  match av_in v, am_vlan am with
  | _ :: _, Some t => build_acl_ofmsgs None false (vlan_place am t v) (av_in v)
  | _, _ => []
  end.
Definition vlan_out (am : amanager) (v : avlan) : list ofmsg :=
  match am_egress am with
  | Some t =>
      match av_out v with
      | [] => [FlowMod (tb_add t FILTER_PRIORITY [vlan_item (av_vid v)] [Goto (am_to_egress am)])]
      | _ => build_acl_ofmsgs None false (egress_place am t v) (av_out v)
      end
  | None => []
  end.

Definition content (am : amanager) (lowest : Z) (evs : list aevent) (x : xspot) : list ofmsg :=
  match x with
  | XS (SPort n) => match port_now evs n with Some p => add_port am p | None => [] end
  | XS (SVlanIn v) => match vlan_now evs v with Some x => vlan_in am x | None => [] end
  | XS (SVlanOut v) => match vlan_now evs v with Some x => vlan_out am x | None => [] end
  | XS SDp => initialise_tables am
  | XDrop t => map (fun tb => FlowMod (tb_drop tb lowest [] 0)) (filter (fun tb => tb_id tb =? t) (opt_tables am))
  end.

Definition tab (am : amanager) (sp : spot) : option table :=
  match sp with SPort _ | SDp => am_port am | SVlanIn _ => am_vlan am | SVlanOut _ => am_egress am end.
Definition spot_item (sp : spot) : option (field * (Z * Z)) :=
  match sp with
  | SPort n => Some (InPort, (n, -1))
  | SVlanIn v | SVlanOut v => Some (VlanVid, (vid_present v, -1))
  | SDp => None
  end.
Definition nexts (am : amanager) (sp : spot) : Z * Z :=
  match sp with
  | SPort _ | SDp => (am_to_vlan am, am_to_l2 am)
  | SVlanIn _ => (am_to_class am, am_to_l2 am)
  | SVlanOut _ => (am_to_egress am, am_to_egress am)
  end.
Record place_for (am : amanager) (sp : spot) (pl : place) : Prop := {
  pf_table : tab am sp = Some (pl_table pl);
  pf_exact : pl_exact pl = false;
  pf_allow : pl_allow pl = [Goto (fst (nexts am sp))];
  pf_force : pl_force pl = [Goto (snd (nexts am sp))];
  pf_single : single pl;
  pf_anchor : anchor pl = spot_item sp
}.

Definition named (evs : list aevent) : Prop :=
  (forall n p, port_now evs n = Some p -> ap_num p = n) /\
  (forall v x, vlan_now evs v = Some x -> av_vid x = v /\ vlan_id v).

Lemma vlan_item_id : forall v, vlan_id v -> vlan_item v = (VlanVid, (vid_present v, -1)).
Proof. intros v H. unfold vlan_item, OFPVID_NONE. replace (v =? 0) with false; [reflexivity|]. symmetry. apply Z.eqb_neq. unfold vlan_id in H. lia. Qed.
Lemma vid_present_inj : forall a b, vid_ok a -> vid_ok b -> vid_present a = vid_present b -> a = b.
Proof. intros a b A B E. rewrite <- (vid_bits a A), <- (vid_bits b B), E. reflexivity. Qed.
Lemma vlan_id_ok : forall v, vlan_id v -> vid_ok v.
Proof. unfold vlan_id, vid_ok. lia. Qed.

Section Content.
  Variables (am : amanager) (lowest : Z) (evs : list aevent).
  Hypothesis Hm : manager_ok am lowest.
  Hypothesis Hn : named evs.
  Hypothesis Hc : config_ok am lowest evs.

  Lemma exact_false : forall sp, first_exact (acls_at am evs sp) = false.
  Proof.
    intros sp. destruct Hc as [H _]. destruct (H sp) as [X _]. destruct (acls_at am evs sp) as [|a l]; auto.
    inversion X; auto.
  Qed.

  Inductive content_is (sp : spot) : list ofmsg -> Prop :=
  | ci_none : content_is sp []
  | ci_rules : forall pl, place_for am sp pl -> acls_at am evs sp <> [] ->
      content_is sp (build_rules None false pl (rules_of (acls_at am evs sp)) FILTER_PRIORITY)
  | ci_open : forall t i, tab am sp = Some t -> spot_item sp = Some i -> acls_at am evs sp = [] ->
      content_is sp [FlowMod (tb_add t FILTER_PRIORITY [i] [Goto (fst (nexts am sp))])].

  Lemma content_cases : forall sp, content_is sp (content am lowest evs (XS sp)).
  Proof.
    intros sp. pose proof (exact_false sp) as EX. destruct Hn as [N1 N2]. destruct sp as [n|v|v|]; simpl content.
    - destruct (port_now evs n) as [p|] eqn:E; [|constructor].
      assert (A : acls_at am evs (SPort n) = match am_dp_acls am with [] => if ap_output_only p then [] else ap_acls p | _ => [] end)
        by (simpl; rewrite E; destruct (am_dp_acls am); auto).
      unfold add_port, port_acls_allowed. destruct (am_dp_acls am) eqn:ED; [|constructor].
      destruct (ap_output_only p) eqn:EO; [constructor|].
      destruct (am_port am) as [t|] eqn:ET; [|constructor]. rewrite (N1 n p E).
      destruct (ap_acls p) as [|a l] eqn:EA.
      + destruct (ap_dot1x p); [constructor|]. apply (ci_open (SPort n)); auto.
      + unfold build_acl_ofmsgs. rewrite <- EA in *. rewrite <- A. cbn [pl_high port_place].
        apply (ci_rules (SPort n)); [|rewrite A, EA; discriminate].
        rewrite A in EX. constructor; cbn; auto; [right; reflexivity|]. rewrite (N1 n p E). reflexivity.
    - destruct (vlan_now evs v) as [x|] eqn:E; [|constructor]. destruct (N2 v x E) as [V1 V2].
      assert (A : acls_at am evs (SVlanIn v) = av_in x) by (simpl; rewrite E; auto).
      unfold vlan_in. destruct (av_in x) as [|a l] eqn:EA; [constructor|]. destruct (am_vlan am) as [t|] eqn:ET; [|constructor].
      rewrite <- EA in *. unfold build_acl_ofmsgs. rewrite <- A. cbn [pl_high vlan_place].
      apply (ci_rules (SVlanIn v)); [|rewrite A, EA; discriminate].
      rewrite A in EX. constructor; cbn; auto; [left; reflexivity|]. rewrite V1. reflexivity.
    - destruct (vlan_now evs v) as [x|] eqn:E; [|constructor]. destruct (N2 v x E) as [V1 V2].
      assert (A : acls_at am evs (SVlanOut v) = av_out x) by (simpl; rewrite E; auto).
      unfold vlan_out. destruct (am_egress am) as [t|] eqn:ET; [|constructor]. destruct (av_out x) as [|a l] eqn:EA.
      + rewrite V1, vlan_item_id by auto. apply (ci_open (SVlanOut v)); auto.
      + rewrite <- EA in *. unfold build_acl_ofmsgs. rewrite <- A. cbn [pl_high egress_place].
        apply (ci_rules (SVlanOut v)); [|rewrite A, EA; discriminate].
        rewrite A in EX. constructor; cbn; auto; [left; reflexivity|]. rewrite V1. reflexivity.
    - unfold initialise_tables. destruct (am_dp_acls am) as [|a l] eqn:EA; [constructor|]. destruct (am_port am) as [t|] eqn:ET; [|constructor].
      unfold build_acl_ofmsgs. cbn [pl_high dp_place]. rewrite <- EA.
      apply (ci_rules SDp); [|simpl; rewrite EA; discriminate].
      constructor; cbn; auto. left; reflexivity.
  Qed.

  Lemma spot_rules_ok : forall sp, Forall rule_ok (rules_of (acls_at am evs sp)) /\
    Z.of_nat (length (rules_of (acls_at am evs sp))) <= FILTER_PRIORITY - lowest.
  Proof. intros sp. destruct Hc as [H _]. destruct (H sp) as [_ X]. exact X. Qed.

  Lemma rule_in_ok : forall sp i r, nth_error (rules_of (acls_at am evs sp)) i = Some r -> rule_ok r /\ lowest < FILTER_PRIORITY - Z.of_nat i.
  Proof.
    intros sp i r E. destruct (spot_rules_ok sp) as [A B]. split.
    - rewrite Forall_forall in A. eapply A, nth_error_In; eauto.
    - eapply rnth_lt; eauto.
  Qed.

  (** the entries of a spot *)
  Lemma content_write : forall sp w, In (FlowMod w) (content am lowest evs (XS sp)) ->
    fm_cmd w = FAdd /\ (exists t, tab am sp = Some t /\ fm_table w = tb_id t) /\ lowest < fm_prio w /\
    (forall F y, spot_item sp = Some (F, y) -> forall x, In (F, x) (fm_match w) <-> x = y) /\
    (forall w', In (FlowMod w') (content am lowest evs (XS sp)) -> fm_prio w = fm_prio w' -> w = w').
  Proof.
    intros sp w H. destruct (content_cases sp) as [|pl PF NE|t i T I NE]; [destruct H| |].
    - destruct PF as [P1 P2 P3 P4 P5 P6]. rewrite flow_writes in H; auto; [|apply spot_rules_ok].
      destruct H as [i [r [E ->]]]. destruct (rule_in_ok sp i r E) as [RO PR].
      split; [reflexivity|]. split; [exists (pl_table pl); auto|]. split; [exact PR|]. split.
      + intros F y S x. cbn [fm_match fw tb_add_cookie]. rewrite rule_match_in; auto; [|apply RO]. rewrite P6, S.
        split; [intros [[_ ->]|[N _]]; auto; contradiction|auto].
      + intros w' H' Ep. apply flow_writes in H'; auto; [|apply spot_rules_ok]. destruct H' as [j [r' [E' ->]]].
        cbn [fm_prio fw tb_add_cookie] in Ep. assert (i = j) by lia. subst j. rewrite E in E'. injection E' as <-. reflexivity.
    - destruct H as [H|[]]. injection H as <-. split; [reflexivity|]. split; [exists t; auto|]. destruct Hm as [_ [_ M]].
      split; [cbn; unfold FILTER_PRIORITY in *; lia|]. split.
      + intros F y S x. rewrite I in S. injection S as ->. cbn. split; [intros [X|[]]; injection X; auto|intros ->; auto].
      + intros w' [H'|[]] _. injection H' as <-. reflexivity.
  Qed.

  Lemma content_spot : forall x, spot_msgs (content am lowest evs x).
  Proof.
    intros [sp|t] m H.
    - destruct (content_cases sp) as [|pl PF NE|t i T I NE]; [destruct H| |].
      + destruct PF as [P1 P2 P3 P4 P5 P6]. apply in_build_rules in H; auto.
        destruct H as [i [r [E H]]]. destruct (rule_in_ok sp i r E) as [RO PR].
        assert (GI : forall g ns, In (g, ns) (failovers r) -> incl (groupadd_ff g ns) (build_rules None false pl (rules_of (acls_at am evs sp)) FILTER_PRIORITY)).
        { intros g ns X y Y. apply in_build_rules; auto. exists i, r. split; auto. left. apply rule_msgs; auto. eauto. }
        destruct H as [H| ->].
        * apply rule_msgs in H; auto. destruct H as [g [ns [X Y]]]. right. exists g, ns. split; [|auto].
          destruct RO as [_ RO]. unfold failovers in X. destruct (ru_actions r) as [a|]; [|destruct X].
          destruct (RO a eq_refl) as [_ Ho]. destruct (ac_output a) as [[l|u]|].
          -- apply in_flat_map in X as [it [I1 I2]]. rewrite Forall_forall in Ho. specialize (Ho it I1).
             destruct it; try contradiction. destruct I2 as [I2|[]]. injection I2 as <- <-. exact Ho.
          -- destruct (u_failover u) as [[g' ns']|] eqn:EF; [|destruct X]. destruct X as [X|[]]. injection X as <- <-. destruct Ho as [_ [_ [_ [_ [_ Ho]]]]]. apply (Ho (g', ns')). exact EF.
          -- destruct X.
        * left. eexists. split; [reflexivity|]. split; [reflexivity|]. intros g U. unfold uses_group, flow_actions in U.
          apply existsb_exists in U as [a [U1 U2]]. destruct a; try discriminate. apply Z.eqb_eq in U2. subst gid.
          apply trim_groups in U1. destruct (rule_groups _ _ _ _ _ P3 P4 RO U1) as [ns X]. exists ns.
          apply (GI g ns X). right; left; auto.
      + destruct H as [<-|[]]. left. eexists. split; [reflexivity|]. split; [reflexivity|]. intros g U. discriminate.
    - apply in_map_iff in H as [tb [<- H]]. left. eexists. split; [reflexivity|]. split; [reflexivity|]. intros g U. discriminate.
  Qed.

  Lemma drop_write : forall t w, In (FlowMod w) (content am lowest evs (XDrop t)) <->
    exists tb, In tb (opt_tables am) /\ tb_id tb = t /\ w = tb_drop tb lowest [] 0.
  Proof.
    intros t w. simpl. rewrite in_map_iff. split.
    - intros [tb [E H]]. apply filter_In in H as [A B]. apply Z.eqb_eq in B. exists tb. injection E; auto.
    - intros [tb [A [B ->]]]. exists tb. split; auto. apply filter_In. split; auto. apply Z.eqb_eq; auto.
  Qed.

  Lemma tables_same : forall a b, In a (opt_tables am) -> In b (opt_tables am) -> tb_id a = tb_id b -> a = b.
  Proof.
    intros a b A B E. destruct Hm as [N _]. revert A B. induction (opt_tables am) as [|x l IH]; [intros []|].
    simpl in N. inversion N; subst. intros [<-|A] [<-|B]; auto.
    - exfalso. apply H1. rewrite E. apply in_map; auto.
    - exfalso. apply H1. rewrite <- E. apply in_map; auto.
  Qed.
  Lemma tab_in : forall sp t, tab am sp = Some t -> In t (opt_tables am).
  Proof.
    intros sp t H. unfold opt_tables. rewrite !in_app_iff. destruct sp; simpl in H; rewrite H; simpl; auto.
  Qed.
  (** the three tables are different *)
  Lemma tab_sort : forall a b t u, tab am a = Some t -> tab am b = Some u -> tb_id t = tb_id u ->
    match a, b with
    | SPort _, SPort _ | SPort _, SDp | SDp, SPort _ | SDp, SDp => True
    | SVlanIn _, SVlanIn _ | SVlanOut _, SVlanOut _ => True
    | _, _ => False
    end.
  Proof.
    intros a b t u A B E. destruct Hm as [N _]. unfold opt_tables in N. rewrite !map_app in N.
    destruct a, b; simpl in A, B; auto; rewrite A, B in N; simpl in N;
      repeat match type of N with context [opt_list _ ?o] => destruct o; simpl in N end;
      repeat match goal with H : NoDup (_ :: _) |- _ => inversion H; clear H; subst end; simpl in *; intuition congruence.
  Qed.

  Lemma content_cross : forall x1 x2 w1 w2, In (FlowMod w1) (content am lowest evs x1) -> In (FlowMod w2) (content am lowest evs x2) ->
    same_flow_slot w1 w2 -> x1 = x2 /\ w1 = w2.
  Proof.
    assert (HD : forall sp t w1 w2, In (FlowMod w1) (content am lowest evs (XS sp)) -> In (FlowMod w2) (content am lowest evs (XDrop t)) ->
      fm_prio w1 = fm_prio w2 -> False).
    { intros sp t w1 w2 A B E. apply content_write in A as [_ [_ [A _]]]. apply drop_write in B as [tb [_ [_ ->]]]. cbn in E. lia. }
    intros [a|a] [b|b] w1 w2 A B [S1 [S2 S3]].
    - destruct (content_write a w1 A) as [_ [[ta [Ta Ia]] [_ [Ka Ua]]]]. destruct (content_write b w2 B) as [_ [[tb [Tb Ib]] [_ [Kb Ub]]]].
      assert (E : a = b).
      { assert (Et : tb_id ta = tb_id tb) by congruence. pose proof (tab_sort a b ta tb Ta Tb Et) as TS.
        assert (V : forall v sp w, sp = SVlanIn v \/ sp = SVlanOut v -> In (FlowMod w) (content am lowest evs (XS sp)) -> vid_ok v).
        { intros v sp w [-> | ->] Y; simpl in Y; destruct (vlan_now evs v) as [x|] eqn:EV; try destruct Y;
            apply vlan_id_ok; eapply (proj2 Hn); eauto. }
        destruct a as [n|v|v|], b as [n'|v'|v'|]; try contradiction; auto.
        - f_equal. specialize (Ka InPort (n, -1) eq_refl (n, -1)). specialize (Kb InPort (n', -1) eq_refl (n, -1)).
          assert (Y : (n, -1) = (n', -1)) by (apply Kb; rewrite <- S3; apply Ka; auto). congruence.
        - exfalso. simpl in A, B. destruct (port_now evs n); [|destruct A]. unfold add_port, port_acls_allowed in A.
          unfold initialise_tables in B. destruct (am_dp_acls am); [destruct B|destruct A].
        - f_equal. specialize (Ka VlanVid (vid_present v, -1) eq_refl (vid_present v, -1)). specialize (Kb VlanVid (vid_present v', -1) eq_refl (vid_present v, -1)).
          assert (Y : (vid_present v, -1) = (vid_present v', -1)) by (apply Kb; rewrite <- S3; apply Ka; auto).
          apply vid_present_inj; [apply (V v (SVlanIn v) w1); auto|apply (V v' (SVlanIn v') w2); auto|congruence].
        - f_equal. specialize (Ka VlanVid (vid_present v, -1) eq_refl (vid_present v, -1)). specialize (Kb VlanVid (vid_present v', -1) eq_refl (vid_present v, -1)).
          assert (Y : (vid_present v, -1) = (vid_present v', -1)) by (apply Kb; rewrite <- S3; apply Ka; auto).
          apply vid_present_inj; [apply (V v (SVlanOut v) w1); auto|apply (V v' (SVlanOut v') w2); auto|congruence].
        - exfalso. simpl in A, B. destruct (port_now evs n'); [|destruct B]. unfold add_port, port_acls_allowed in B.
          unfold initialise_tables in A. destruct (am_dp_acls am); [destruct A|destruct B]. }
      subst b. split; auto.
    - exfalso. eapply HD; eauto.
    - exfalso. eapply HD; eauto.
    - apply drop_write in A as [ta [A1 [A2 ->]]]. apply drop_write in B as [tb [B1 [B2 ->]]]. cbn in S1.
      assert (ta = tb) by (apply tables_same; auto). subst tb. split; congruence.
  Qed.

  Lemma gadd_spot : forall x g ns, In (GroupMod GAdd (ff_group g ns)) (content am lowest evs x) ->
    exists sp r, x = XS sp /\ In r (rules_of (acls_at am evs sp)) /\ In (g, ns) (failovers r).
  Proof.
    intros [sp|t] g ns H.
    - exists sp. destruct (content_cases sp) as [|pl PF NE|t i T I NE]; [destruct H| |destruct H as [H|[]]; discriminate].
      apply in_build_rules in H; [|apply PF]. destruct H as [i [r [E [H|H]]]]; [|discriminate].
      destruct (rule_in_ok sp i r E) as [RO _]. apply rule_msgs in H; auto. destruct H as [g' [ns' [X [Y|[Y|[]]]]]]; try discriminate.
      injection Y as <- Y. exists r. split; auto. split; [eapply nth_error_In; eauto|].
      replace ns with ns'; auto. clear - Y. revert ns Y. induction ns' as [|a l IH]; intros [|b m] Y; try discriminate; auto.
      simpl in Y. injection Y as <- Y. f_equal; auto.
    - apply in_map_iff in H as [tb [H _]]. discriminate.
  Qed.
  Lemma content_apart : forall x1 x2 g ns1 ns2, In (GroupMod GAdd (ff_group g ns1)) (content am lowest evs x1) ->
    In (GroupMod GAdd (ff_group g ns2)) (content am lowest evs x2) -> x1 = x2 /\ ns1 = ns2.
  Proof.
    intros x1 x2 g ns1 ns2 A B. apply gadd_spot in A as [s1 [r1 [-> [A1 A2]]]]. apply gadd_spot in B as [s2 [r2 [-> [B1 B2]]]].
    destruct Hc as [_ H]. destruct (H s1 s2 r1 r2 g ns1 ns2 A1 B1 A2 B2) as [-> ->]. auto.
  Qed.

  (** a wildcard delete of a port or a VLAN hits the entries of that spot *)
  Lemma covers_item : forall F v m, covers [(F, (v, -1))] m = true <-> In (F, (v, -1)) m.
  Proof.
    intros F v m. unfold covers. cbn [forallb]. rewrite andb_true_r, existsb_exists. split.
    - intros [[f [v' m']] [I C]]. unfold item_covers in C. apply andb_true_iff in C as [C C3]. apply andb_true_iff in C as [C1 C2].
      apply field_eqb_spec in C1. apply Z.eqb_eq in C2, C3. rewrite !Z.land_m1_r in *. subst. auto.
    - intros I. eexists. split; [exact I|]. unfold item_covers. rewrite !Z.land_m1_r, !Z.eqb_refl.
      assert (E : field_eqb F F = true) by (apply field_eqb_spec; auto). rewrite E. reflexivity.
  Qed.
  Lemma del_hits_spot : forall sp t F v prio x w, tab am sp = Some t -> spot_item sp = Some (F, (v, -1)) ->
    (forall v0, sp = SVlanIn v0 \/ sp = SVlanOut v0 -> vid_ok v0) ->
    In (FlowMod w) (content am lowest evs x) -> del_hits (tb_del t FDelete prio [(F, (v, -1))] OFPP_ANY) (flow_of w) = true ->
    x = XS sp \/ x = XS SDp.
  Proof.
    intros sp t F v prio x w T I VO H D. unfold del_hits in D. cbn [fm_cmd tb_del fm_table fm_match out_sel] in D.
    apply andb_true_iff in D as [D _]. apply andb_true_iff in D as [D1 D2]. apply covers_item in D2. cbn [f_match flow_of] in D2.
    unfold table_sel in D1. apply orb_true_iff in D1 as [D1|D1].
    { exfalso. apply Z.eqb_eq in D1. destruct Hm as [_ [M _]]. apply M. rewrite <- D1. apply in_map. eapply tab_in; eauto. }
    apply Z.eqb_eq in D1. cbn in D1. destruct x as [a|a].
    - destruct (content_write a w H) as [_ [[ta [Ta Ia]] [_ [Ka _]]]].
      pose proof (tab_sort a sp ta t Ta T ltac:(congruence)) as TS.
      assert (V : forall v sp, sp = SVlanIn v \/ sp = SVlanOut v -> a = sp -> vid_ok v).
      { intros v0 sp0 [-> | ->] ->; simpl in H; destruct (vlan_now evs v0) as [z|] eqn:EV; try destruct H;
          apply vlan_id_ok; eapply (proj2 Hn); eauto. }
      destruct a as [n|u|u|], sp as [n'|u'|u'|]; try contradiction; try discriminate I; auto; left; simpl in I; injection I as <- <-.
      + f_equal. f_equal. specialize (Ka InPort (n, -1) eq_refl (n', -1)). apply Ka in D2. congruence.
      + f_equal. f_equal. specialize (Ka VlanVid (vid_present u, -1) eq_refl (vid_present u', -1)). apply Ka in D2.
        symmetry. apply vid_present_inj; [apply VO; auto|apply (V u (SVlanIn u)); auto|congruence].
      + f_equal. f_equal. specialize (Ka VlanVid (vid_present u, -1) eq_refl (vid_present u', -1)). apply Ka in D2.
        symmetry. apply vid_present_inj; [apply VO; auto|apply (V u (SVlanOut u)); auto|congruence].
    - exfalso. apply drop_write in H as [tb [_ [_ ->]]]. destruct D2.
  Qed.
  Lemma del_hits_own : forall sp t F v prio w, tab am sp = Some t -> spot_item sp = Some (F, (v, -1)) ->
    In (FlowMod w) (content am lowest evs (XS sp)) -> del_hits (tb_del t FDelete prio [(F, (v, -1))] OFPP_ANY) (flow_of w) = true.
  Proof.
    intros sp t F v prio w T I H. destruct (content_write sp w H) as [_ [[ta [Ta Ia]] [_ [Ka _]]]].
    unfold del_hits. cbn [fm_cmd tb_del fm_table fm_match]. rewrite (proj2 (covers_item F v (f_match (flow_of w)))) by (apply (Ka _ _ I); auto).
    unfold table_sel, out_sel. cbn. rewrite Ia. replace (tb_id ta) with (tb_id t) by congruence. rewrite Z.eqb_refl, orb_true_r. reflexivity.
  Qed.
End Content.
