(** * Access control lists: every event keeps the switch in step *)
From Coq Require Import ZArith List Bool Lia Permutation.
From Verif Require Import PyBase PyBaseProofs OpenFlow ReorderModel ReorderSpec ReorderProofs TrimModel TrimProofs
  TableModel FloodRulesProofs BatchProofs L2Proofs AclModel AclSpec AclProofs AclMatchProofs AclStepProofs AclHistProofs.
Import ListNotations.
Open Scope Z_scope.

Lemma named_event : forall evs e, named evs -> event_ok evs e -> named (e :: evs).
Proof.
  intros evs e [N1 N2] H. destruct e as [vs ps|p vs|p|p|gone new_]; split; simpl.
  - intros n p E. apply find_some in E as [_ E]. apply Z.eqb_eq; auto.
  - intros v x E. apply find_some in E as [I E]. apply Z.eqb_eq in E. subst. split; auto.
    destruct H as [_ [_ H]]. rewrite Forall_forall in H. apply H, in_map; auto.
  - intros n q. destruct (ap_num p =? n) eqn:E; auto. intros X. injection X as <-. apply Z.eqb_eq; auto.
  - auto.
  - intros n q. destruct (ap_num p =? n) eqn:E; auto. discriminate.
  - auto.
  - intros n q. destruct (ap_num p =? n) eqn:E; auto. intros X. injection X as <-. apply Z.eqb_eq; auto.
  - auto.
  - auto.
  - intros v x. destruct (find _ new_) as [y|] eqn:E.
    + intros X. injection X as ->. apply find_some in E as [I E]. apply Z.eqb_eq in E. subst. split; auto.
      destruct H as [_ [H1 H2]]. rewrite Forall_forall in H1. auto.
    + destruct (existsb (Z.eqb v) gone); [discriminate|auto].
Qed.

Lemma find_nodup : forall A (f : A -> Z) l x, NoDup (map f l) -> In x l -> find (fun y => f y =? f x) l = Some x.
Proof.
  intros A f l x N H. induction l as [|a l IH]; [destruct H|]. simpl in *. inversion N; subst.
  destruct H as [<-|H]; [rewrite Z.eqb_refl; auto|]. destruct (f a =? f x) eqn:E; auto.
  exfalso. apply Z.eqb_eq in E. apply H2. rewrite E. apply in_map; auto.
Qed.

Lemma add_vlan_split : forall am v, add_vlan am v = vlan_in am v ++ vlan_out am v.
Proof. reflexivity. Qed.

Definition acl_table (am : amanager) (t : Z) : Prop := In t (map tb_id (opt_tables am)).

Section Events.
  Variables (am : amanager) (lowest : Z).
  Hypothesis Hm : manager_ok am lowest.
  Notation content := (content am lowest).
  Notation holds_now evs s := (holds (acl_table am) (content evs) s).

  Lemma holds_connect : forall vs ps s sh ub out,
    (forall l, Permutation (sh l) l) -> event_ok [] (AConnect vs ps) -> config_ok am lowest [AConnect vs ps] ->
    valve_flowreorder sh ub (abatch am lowest (AConnect vs ps)) = Some out ->
    holds_now [AConnect vs ps] (apply_msgs out s).
  Proof.
    intros vs ps s sh ub out Hsh EO CO Ro.
    assert (NM : named [AConnect vs ps]) by (apply named_event; auto; split; intros; discriminate).
    destruct EO as [E1 [E2 E3]].
    assert (FV : forall v, In v vs -> vlan_now [AConnect vs ps] (av_vid v) = Some v) by (intros; simpl; apply find_nodup; auto).
    assert (FP : forall p, In p ps -> port_now [AConnect vs ps] (ap_num p) = Some p) by (intros; simpl; apply find_nodup; auto).
    eapply (step_holds xspot (acl_table am) (fun _ => []) (content [AConnect vs ps]) (fun _ => true) (fun _ => false)); eauto.
    - intros x. apply content_spot; auto.
    - apply content_cross; auto.
    - apply content_apart; auto.
    - intros x m _ H. cbn [abatch]. rewrite !in_app_iff. destruct x as [[n|v|v|]|t]; simpl in H.
      + right; right; right; right. destruct (find _ ps) as [p|] eqn:E; [|destruct H]. apply find_some in E as [I _].
        apply in_flat_map. eauto.
      + right; right; right; left. destruct (find _ vs) as [p|] eqn:E; [|destruct H]. apply find_some in E as [I _].
        apply in_flat_map. exists p. split; auto. rewrite add_vlan_split. apply in_app_iff; auto.
      + right; right; right; left. destruct (find _ vs) as [p|] eqn:E; [|destruct H]. apply find_some in E as [I _].
        apply in_flat_map. exists p. split; auto. rewrite add_vlan_split. apply in_app_iff; auto.
      + auto.
      + right; left. apply in_map_iff in H as [tb [<- H]]. apply filter_In in H as [H _]. apply in_map_iff. eauto.
    - intros m H. cbn [abatch] in H. rewrite !in_app_iff in H. destruct H as [H|[H|[H|[H|H]]]].
      + right. destruct H as [<-|H].
        * left. eexists. split; [reflexivity|]. repeat (split; [reflexivity|]). split; [intros x w []|].
          intros x w _ Hw [S _]. cbn in S. destruct Hm as [_ [M _]]. destruct x as [sp|t].
          -- apply content_write in Hw as [_ [[t [T I]] _]]; auto. apply M. rewrite S, I. apply in_map. eapply tab_in; eauto.
          -- apply drop_write in Hw as [tb [A [B ->]]]; auto. apply M. rewrite S. cbn. apply in_map; auto.
        * right. destruct (am_groups am); [|destruct H]. destruct H as [<-|[]]. eexists. split; [reflexivity|]. split; auto.
      + left. apply in_map_iff in H as [tb [<- H]]. exists (XDrop (tb_id tb)). split; auto. simpl. apply in_map_iff. exists tb. split; auto.
        apply filter_In. split; auto. apply Z.eqb_refl.
      + left. exists (XS SDp). auto.
      + left. apply in_flat_map in H as [v [I H]]. rewrite add_vlan_split in H. apply in_app_iff in H as [H|H].
        * exists (XS (SVlanIn (av_vid v))). split; auto. cbn [AclHistProofs.content]. rewrite FV; auto.
        * exists (XS (SVlanOut (av_vid v))). split; auto. cbn [AclHistProofs.content]. rewrite FV; auto.
      + left. apply in_flat_map in H as [p [I H]]. exists (XS (SPort (ap_num p))). split; auto. cbn [AclHistProofs.content]. rewrite FP; auto.
    - intros; discriminate.
    - intros; discriminate.
    - intros x w D. discriminate.
    - intros x w [].
    - intros f _ _. right. eexists. split; [left; reflexivity|]. split; reflexivity.
    - intros x g ns [].
  Qed.

  Section One.
    Variables (evs : list aevent) (e : aevent) (s : switch) (sh : list ofmsg -> list ofmsg) (ub : bool) (out : list ofmsg).
    Hypothesis NM : named evs.
    Hypothesis CO : config_ok am lowest evs.
    Hypothesis HH : holds_now evs s.
    Hypothesis Hsh : forall l, Permutation (sh l) l.
    Hypothesis EO : event_ok evs e.
    Hypothesis CO' : config_ok am lowest (e :: evs).
    Hypothesis Ro : valve_flowreorder sh ub (abatch am lowest e) = Some out.

    Lemma one_step : forall R D : xspot -> bool,
      (forall x m, R x = true -> In m (content (e :: evs) x) -> In m (abatch am lowest e)) ->
      (forall m, In m (abatch am lowest e) ->
        (exists x, R x = true /\ In m (content (e :: evs) x)) \/
        (exists d, m = FlowMod d /\ fm_cmd d = FDelete /\ fm_out_port d = OFPP_ANY /\ fm_out_group d = OFPG_ANY /\
          (forall x w, In (FlowMod w) (content evs x) -> del_hits d (flow_of w) = true -> D x = true) /\
          (forall x w, R x = true -> In (FlowMod w) (content (e :: evs) x) -> ~ same_flow_slot d w))) ->
      (forall x, R x = false -> D x = false -> content (e :: evs) x = content evs x) ->
      (forall x, R x = false -> D x = true -> content (e :: evs) x = []) ->
      (forall x, R x = true -> D x = false -> content (e :: evs) x = content evs x \/ content evs x = []) ->
      (forall x w, D x = true -> In (FlowMod w) (content evs x) ->
         exists d, In (FlowMod d) (abatch am lowest e) /\ fm_cmd d = FDelete /\ del_hits d (flow_of w) = true) ->
      holds_now (e :: evs) (apply_msgs out s).
    Proof.
      intros R D I1 I2 K G S Dl. pose proof (named_event evs e NM EO) as NM'. destruct HH as [H1 H2 H3].
      apply (step_holds xspot (acl_table am) (content evs) (content (e :: evs)) R D sh ub (abatch am lowest e) out s); auto.
      - intros x. apply content_spot; auto.
      - apply content_cross; auto.
      - apply content_apart; auto.
      - intros m H. destruct (I2 m H) as [X|X]; auto.
    Qed.

  End One.

  Section Each.
    Variables (evs : list aevent) (s : switch) (sh : list ofmsg -> list ofmsg) (ub : bool) (out : list ofmsg).
    Hypothesis NM : named evs.
    Hypothesis CO : config_ok am lowest evs.
    Hypothesis HH : holds_now evs s.
    Hypothesis Hsh : forall l, Permutation (sh l) l.
    Notation follows e := (event_ok evs e -> config_ok am lowest (e :: evs) -> valve_flowreorder sh ub (abatch am lowest e) = Some out ->
      holds_now (e :: evs) (apply_msgs out s)).

    Lemma holds_port_up : forall p vs, follows (APortUp p vs).
    Proof.
      intros p vs EO CO' Ro. pose proof EO as EV. destruct EO as [E1 E2].
      apply (one_step evs _ s sh ub out NM HH Hsh EV CO' Ro (fun x => match x with XS (SPort n) => n =? ap_num p
              | XS (SVlanIn v) | XS (SVlanOut v) => existsb (fun y => av_vid y =? v) vs | _ => false end) (fun _ => false)).
      - intros x m RX H. cbn [abatch]. apply in_app_iff. destruct x as [[n|v|v|]|t]; try discriminate RX.
        + left. apply Z.eqb_eq in RX. subst. simpl in H. rewrite Z.eqb_refl in H. auto.
        + right. apply existsb_exists in RX as [y [I Y]]. apply Z.eqb_eq in Y. subst. simpl in H. rewrite E2 in H by auto.
          apply in_flat_map. exists y. split; auto. rewrite add_vlan_split. apply in_app_iff; auto.
        + right. apply existsb_exists in RX as [y [I Y]]. apply Z.eqb_eq in Y. subst. simpl in H. rewrite E2 in H by auto.
          apply in_flat_map. exists y. split; auto. rewrite add_vlan_split. apply in_app_iff; auto.
      - intros m H. left. cbn [abatch] in H. apply in_app_iff in H as [H|H].
        + exists (XS (SPort (ap_num p))). split; [apply Z.eqb_refl|]. simpl. rewrite Z.eqb_refl. auto.
        + apply in_flat_map in H as [v [I H]]. rewrite add_vlan_split in H. apply in_app_iff in H as [H|H].
          * exists (XS (SVlanIn (av_vid v))). split; [apply existsb_exists; exists v; split; auto; apply Z.eqb_refl|]. simpl. rewrite E2; auto.
          * exists (XS (SVlanOut (av_vid v))). split; [apply existsb_exists; exists v; split; auto; apply Z.eqb_refl|]. simpl. rewrite E2; auto.
      - intros x RX _. destruct x as [[n|v|v|]|t]; auto. simpl. rewrite Z.eqb_sym, RX. auto.
      - intros; discriminate.
      - intros x RX _. destruct x as [[n|v|v|]|t]; auto. simpl. apply Z.eqb_eq in RX. subst. rewrite Z.eqb_refl.
        destruct (port_now evs (ap_num p)) as [q|] eqn:E; auto. left. rewrite (E1 q); auto.
      - intros; discriminate.
    Qed.

    Lemma port_del : forall p m, In m (del_port am p) -> exists t, port_acls_allowed am p = Some t /\ tab am (SPort (ap_num p)) = Some t /\
      m = FlowMod (tb_del t FDelete FILTER_PRIORITY [(InPort, (ap_num p, -1))] OFPP_ANY) /\ am_dp_acls am = [].
    Proof.
      intros p m H. unfold del_port, port_acls_allowed in *. destruct (am_dp_acls am); [|destruct H].
      destruct (ap_output_only p); [destruct H|]. simpl. destruct (am_port am) as [t|]; [|destruct H].
      destruct H as [<-|[]]. exists t. auto.
    Qed.
    Lemma port_del_hits : forall p t x w, tab am (SPort (ap_num p)) = Some t -> am_dp_acls am = [] ->
      In (FlowMod w) (content evs x) ->
      del_hits (tb_del t FDelete FILTER_PRIORITY [(InPort, (ap_num p, -1))] OFPP_ANY) (flow_of w) = true -> x = XS (SPort (ap_num p)).
    Proof.
      intros p t x w T DA H Y. destruct (del_hits_spot am lowest evs Hm NM CO (SPort (ap_num p)) t InPort (ap_num p) FILTER_PRIORITY x w) as [X|X]; auto.
      - intros v0 [Z0|Z0]; discriminate.
      - subst. simpl in H. unfold initialise_tables in H. rewrite DA in H. destruct H.
    Qed.
    Lemma port_entries : forall q w, In (FlowMod w) (add_port am q) -> exists t, port_acls_allowed am q = Some t.
    Proof. intros q w H. unfold add_port in H. destruct (port_acls_allowed am q); eauto. destruct H. Qed.

    Lemma holds_port_down : forall p, follows (APortDown p).
    Proof.
      intros p EO CO' Ro. pose proof EO as EV. simpl in EO.
      apply (one_step evs _ s sh ub out NM HH Hsh EV CO' Ro (fun x => false) (fun x => match x with XS (SPort n) => n =? ap_num p | _ => false end)).
      - intros; discriminate.
      - intros m H. right. cbn [abatch] in H. apply port_del in H as [t [_ [T [-> DA]]]]. eexists. split; [reflexivity|].
        repeat (split; [reflexivity|]). split; [|intros; discriminate].
        intros x w Hw Y. rewrite (port_del_hits p t x w T DA Hw Y). apply Z.eqb_refl.
      - intros x _ DX. destruct x as [[n|v|v|]|t]; auto. simpl. rewrite Z.eqb_sym, DX. auto.
      - intros x _ DX. destruct x as [[n|v|v|]|t]; try discriminate DX. simpl. rewrite Z.eqb_sym, DX. auto.
      - intros; discriminate.
      - intros x w DX Hw. destruct x as [[n|v|v|]|t]; try discriminate DX. apply Z.eqb_eq in DX. subst n.
        assert (Hw' := Hw). simpl in Hw. destruct (port_now evs (ap_num p)) as [q|] eqn:E; [|destruct Hw]. rewrite (EO q) in * by auto.
        destruct (port_entries p w Hw) as [t T].
        assert (T' : tab am (SPort (ap_num p)) = Some t).
        { unfold port_acls_allowed in T. destruct (am_dp_acls am); [|discriminate]. destruct (ap_output_only p); [discriminate|exact T]. }
        exists (tb_del t FDelete FILTER_PRIORITY [(InPort, (ap_num p, -1))] OFPP_ANY). split.
        + cbn [abatch]. unfold del_port. rewrite T. left. reflexivity.
        + split; [reflexivity|]. apply (del_hits_own am lowest evs Hm NM CO (SPort (ap_num p))); auto.
    Qed.

    Lemma holds_port_acl : forall p, follows (APortAcl p).
    Proof.
      intros p EO CO' Ro. pose proof EO as EV. destruct EO as [E1 [E2 E3]]. pose proof (named_event evs _ NM EV) as NM'.
      apply (one_step evs _ s sh ub out NM HH Hsh EV CO' Ro (fun x => match x with XS (SPort n) => n =? ap_num p | _ => false end)
                      (fun x => match x with XS (SPort n) => n =? ap_num p | _ => false end)).
      - intros x m RX H. cbn [abatch]. unfold cold_start_port. apply in_app_iff. right. destruct x as [[n|v|v|]|t]; try discriminate RX.
        apply Z.eqb_eq in RX. subst. simpl in H. rewrite Z.eqb_refl in H. auto.
      - intros m H. cbn [abatch] in H. unfold cold_start_port in H. apply in_app_iff in H as [H|H].
        + right. apply port_del in H as [t [A [T [-> DA]]]]. eexists. split; [reflexivity|].
          repeat (split; [reflexivity|]). split.
          * intros x w Hw Y. rewrite (port_del_hits p t x w T DA Hw Y). apply Z.eqb_refl.
          * intros x w RX Hw [S1 [S2 S3]]. destruct x as [[n|v|v|]|t0]; try discriminate RX. apply Z.eqb_eq in RX. subst n.
            assert (AC : acls_at am (APortAcl p :: evs) (SPort (ap_num p)) = if ap_output_only p then [] else ap_acls p).
            { simpl. rewrite Z.eqb_refl, DA. reflexivity. }
            assert (OO : ap_output_only p = false).
            { unfold port_acls_allowed in A. rewrite DA in A. destruct (ap_output_only p); [discriminate|auto]. }
            rewrite OO in AC.
            pose proof (spot_rules_ok am lowest _ CO' (SPort (ap_num p))) as [RO _].
            destruct (content_cases am lowest _ NM' CO' (SPort (ap_num p))) as [|pl PF NE|t1 i1 T1 I1 NE]; [destruct Hw| |rewrite AC in NE; contradiction].
            rewrite flow_writes in Hw; [|apply PF|auto]. destruct Hw as [i [r [N ->]]].
            cbn [fm_prio fw tb_add_cookie tb_del] in S2. assert (i = 0)%nat by lia. subst i.
            rewrite AC in N. destruct (rules_of (ap_acls p)) as [|r0 rest] eqn:ER; [discriminate|]. injection N as ->.
            destruct (E3 r rest eq_refl) as [[[o f] [v m]] [Ia Fa]]. simpl in Fa.
            assert (Y : In (f, (v, m)) (rule_match pl r)).
            { apply rule_match_in; [apply PF| |]. rewrite AC in RO. rewrite ER in RO. inversion RO as [|? ? RR _]; subst. apply RR.
              rewrite (pf_anchor am _ pl PF). right. split; eauto. }
            cbn [fm_match fw tb_add_cookie tb_del] in S3. rewrite <- S3 in Y. destruct Y as [Y|[]]. congruence.
        + left. exists (XS (SPort (ap_num p))). split; [apply Z.eqb_refl|]. simpl. rewrite Z.eqb_refl. auto.
      - intros x RX _. destruct x as [[n|v|v|]|t]; auto. simpl. rewrite Z.eqb_sym, RX. auto.
      - intros x RX DX. congruence.
      - intros x RX DX. congruence.
      - intros x w DX Hw. destruct x as [[n|v|v|]|t]; try discriminate DX. apply Z.eqb_eq in DX. subst n.
        assert (Hw' := Hw). simpl in Hw. destruct (port_now evs (ap_num p)) as [q|] eqn:E; [|destruct Hw].
        destruct (port_entries q w Hw) as [t T].
        assert (T' : tab am (SPort (ap_num p)) = Some t /\ port_acls_allowed am p = Some t).
        { unfold port_acls_allowed in *. rewrite <- (E1 q eq_refl). destruct (am_dp_acls am); [|discriminate].
          destruct (ap_output_only q); [discriminate|]. auto. }
        destruct T' as [T1 T2].
        exists (tb_del t FDelete FILTER_PRIORITY [(InPort, (ap_num p, -1))] OFPP_ANY). split.
        + cbn [abatch]. unfold cold_start_port, del_port. rewrite T2. left. reflexivity.
        + split; [reflexivity|]. apply (del_hits_own am lowest evs Hm NM CO (SPort (ap_num p))); auto.
    Qed.

    Lemma vlan_dels : forall v m, vlan_id v -> In m (del_vlan am v) -> exists sp t, (sp = SVlanIn v \/ sp = SVlanOut v) /\ tab am sp = Some t /\
      m = FlowMod (tb_del t FDelete 0 [(VlanVid, (vid_present v, -1))] OFPP_ANY).
    Proof.
      intros v m V H. unfold del_vlan in H. rewrite vlan_item_id in H by auto. apply in_app_iff in H as [H|H].
      - destruct (am_vlan am) as [t|] eqn:E; [|destruct H]. destruct H as [<-|[]]. exists (SVlanIn v), t. auto.
      - destruct (am_egress am) as [t|] eqn:E; [|destruct H]. destruct H as [<-|[]]. exists (SVlanOut v), t. auto.
    Qed.
    Lemma vlan_dels_in : forall v sp t, vlan_id v -> (sp = SVlanIn v \/ sp = SVlanOut v) -> tab am sp = Some t ->
      In (FlowMod (tb_del t FDelete 0 [(VlanVid, (vid_present v, -1))] OFPP_ANY)) (del_vlan am v).
    Proof.
      intros v sp t V [-> | ->] T; simpl in T; unfold del_vlan; rewrite vlan_item_id by auto; rewrite T; apply in_app_iff; simpl; auto.
    Qed.

    Lemma holds_vlans : forall gone new_, follows (AVlans gone new_).
    Proof.
      intros gone new_ EO CO' Ro. pose proof EO as EV. destruct EO as [E1 [E2 E3]]. rewrite Forall_forall in E2. pose proof (named_event evs _ NM EV) as NM'.
      assert (FN : forall v, In v new_ -> find (fun y => av_vid y =? av_vid v) new_ = Some v) by (intros; apply find_nodup; auto).
      assert (MG : forall v, existsb (Z.eqb v) gone = true <-> In v gone).
      { intros v. rewrite existsb_exists. split; [intros [y [I Y]]; apply Z.eqb_eq in Y; subst; auto|intros I; exists v; split; auto; apply Z.eqb_refl]. }
      apply (one_step evs _ s sh ub out NM HH Hsh EV CO' Ro (fun x => match x with XS (SVlanIn v) | XS (SVlanOut v) => existsb (fun y => av_vid y =? v) new_ | _ => false end)
                      (fun x => match x with XS (SVlanIn v) | XS (SVlanOut v) => existsb (Z.eqb v) gone | _ => false end)).
      - intros x m RX H. cbn [abatch]. apply in_app_iff. right. destruct x as [[n|v|v|]|t]; try discriminate RX;
          apply existsb_exists in RX as [y [I Y]]; apply Z.eqb_eq in Y; subst; simpl in H; rewrite FN in H by auto;
          apply in_flat_map; exists y; split; auto; rewrite add_vlan_split; apply in_app_iff; auto.
      - intros m H. cbn [abatch] in H. apply in_app_iff in H as [H|H].
        + right. apply in_flat_map in H as [v [I H]]. assert (VI := E2 v I). apply vlan_dels in H as [sp [t [S [T ->]]]]; auto.
          eexists. split; [reflexivity|]. repeat (split; [reflexivity|]).
          assert (SI : spot_item sp = Some (VlanVid, (vid_present v, -1))) by (destruct S as [-> | ->]; reflexivity). split.
          * intros x w Hw Y. destruct (del_hits_spot am lowest evs Hm NM CO sp t VlanVid (vid_present v) 0 x w) as [X|X]; auto.
            -- intros v0 Z0. apply vlan_id_ok. destruct S as [-> | ->], Z0 as [Z0|Z0]; try discriminate; injection Z0 as <-; auto.
            -- destruct S as [-> | ->]; rewrite X; apply MG; auto.
            -- exfalso. subst x. destruct (content_write am lowest evs Hm NM CO SDp w Hw) as [_ [[ta [Ta Ia]] _]].
               unfold del_hits in Y. cbn [fm_cmd tb_del fm_table fm_match] in Y. apply andb_true_iff in Y as [Y _]. apply andb_true_iff in Y as [Y _].
               unfold table_sel in Y. cbn in Y. apply orb_true_iff in Y as [Y|Y]; apply Z.eqb_eq in Y.
               ++ destruct Hm as [_ [M _]]. apply M. rewrite <- Y. apply in_map. eapply tab_in; eauto.
               ++ assert (Z0 := tab_sort am lowest Hm SDp sp ta t Ta T ltac:(congruence)). destruct S as [-> | ->]; exact Z0.
          * intros x w RX Hw [S1 [S2 S3]]. destruct x as [sp'|t']; [|discriminate RX].
            destruct (content_write am lowest _ Hm NM' CO' sp' w Hw) as [_ [_ [P _]]]. cbn in S2. destruct Hm as [_ [_ M]]. lia.
        + left. apply in_flat_map in H as [v [I H]]. rewrite add_vlan_split in H.
          assert (EX : existsb (fun y => av_vid y =? av_vid v) new_ = true) by (apply existsb_exists; exists v; split; auto; apply Z.eqb_refl).
          apply in_app_iff in H as [H|H].
          * exists (XS (SVlanIn (av_vid v))). split; auto. simpl. rewrite FN; auto.
          * exists (XS (SVlanOut (av_vid v))). split; auto. simpl. rewrite FN; auto.
      - intros x RX DX. destruct x as [[n|v|v|]|t]; auto; simpl;
          (destruct (find _ new_) as [y|] eqn:E; [exfalso; apply find_some in E as [I E];
             assert (Z0 : existsb (fun y => av_vid y =? v) new_ = true) by (apply existsb_exists; eauto); congruence|rewrite DX; auto]).
      - intros x RX DX. destruct x as [[n|v|v|]|t]; try discriminate DX; simpl;
          (destruct (find _ new_) as [y|] eqn:E; [exfalso; apply find_some in E as [I E];
             assert (Z0 : existsb (fun y => av_vid y =? v) new_ = true) by (apply existsb_exists; eauto); congruence|rewrite DX; auto]).
      - intros x RX DX. exfalso. destruct x as [[n|v|v|]|t]; try discriminate RX;
          (apply existsb_exists in RX as [y [I Y]]; apply Z.eqb_eq in Y; subst; specialize (E3 y I); apply MG in E3; congruence).
      - intros x w DX Hw. assert (Q : exists sp v t, x = XS sp /\ (sp = SVlanIn v \/ sp = SVlanOut v) /\ In v gone /\ tab am sp = Some t).
        { destruct x as [sp|t]; [|discriminate DX]. destruct (content_write am lowest evs Hm NM CO sp w Hw) as [_ [[t [T _]] _]].
          destruct sp as [n|v|v|]; try discriminate DX; apply MG in DX; eexists _, v, t; split; eauto. }
        destruct Q as [sp [v [t [-> [S [I T]]]]]].
        exists (tb_del t FDelete 0 [(VlanVid, (vid_present v, -1))] OFPP_ANY). split.
        + cbn [abatch]. apply in_app_iff. left. apply in_flat_map. exists v. split; auto. eapply vlan_dels_in; eauto.
        + split; [reflexivity|]. apply (del_hits_own am lowest evs Hm NM CO sp); auto. destruct S as [-> | ->]; reflexivity.
    Qed.
  End Each.

  Lemma history_holds : forall evs s, history am lowest evs s -> named evs /\ config_ok am lowest evs /\ holds_now evs s.
  Proof.
    intros evs s H. induction H as [s vs ps sh ub out Hsh EO CO Ro|evs s e sh ub out H [NM [CO HH]] Hsh NC EO CO' Ro].
    - split; [apply named_event; auto; split; intros; discriminate|]. split; auto. eapply holds_connect; eauto.
    - split; [apply named_event; auto|]. split; auto. destruct e as [vs ps|p vs|p|p|gone new_].
      + destruct (NC vs ps); auto.
      + eapply holds_port_up; eauto.
      + eapply holds_port_down; eauto.
      + eapply holds_port_acl; eauto.
      + eapply holds_vlans; eauto.
  Qed.
End Events.
