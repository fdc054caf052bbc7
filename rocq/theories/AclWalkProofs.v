(** * Access control lists: what becomes of a packet *)
From Coq Require Import ZArith List Bool Lia Permutation.
From Verif Require Import PyBase PyBaseProofs OpenFlow ReorderModel ReorderSpec ReorderProofs TrimModel TrimProofs
  TableModel FloodRulesProofs BatchProofs L2Proofs AclModel AclSpec AclProofs AclMatchProofs AclStepProofs AclHistProofs AclEventProofs.
Import ListNotations.
Open Scope Z_scope.

(** the packet is at the spot: it came in at that port, or carries that VLAN's tag *)
Definition at_spot (sp : spot) (q : packet) : Prop :=
  match sp with
  | SPort n => pk_in q = n
  | SVlanIn v | SVlanOut v => in_vlan v q /\ vid_ok v
  | SDp => True
  end.

Lemma agrees_exact : forall q f v, agrees q f v (-1) <-> pk_get q f = Some v.
Proof.
  intros q f v. unfold agrees. split.
  - intros [x [E H]]. rewrite !Z.land_m1_r in H. subst. auto.
  - intros E. exists v. auto.
Qed.

Lemma at_spot_item : forall sp q F y, packet_ok q -> at_spot sp q -> spot_item sp = Some (F, y) -> agrees q F (fst y) (snd y).
Proof.
  intros sp q F y PK A S. destruct sp as [n|v|v|]; simpl in S; try discriminate; injection S as <- <-; cbn [fst snd]; apply agrees_exact.
  - simpl. rewrite A. auto.
  - destruct A as [[pcp [rest E]] _]. simpl. rewrite E. reflexivity.
  - destruct A as [[pcp [rest E]] _]. simpl. rewrite E. reflexivity.
Qed.

Section Walk.
  Variables (am : amanager) (lowest : Z) (evs : list aevent) (s : switch) (live : Z -> bool).
  Hypothesis Hm : manager_ok am lowest.
  Hypothesis Hh : history am lowest evs s.

  Let NM : named evs. Proof. apply (history_holds am lowest Hm evs s Hh). Qed.
  Let CO : config_ok am lowest evs. Proof. apply (history_holds am lowest Hm evs s Hh). Qed.
  Let HO : holds (acl_table am) (content am lowest evs) s. Proof. apply (history_holds am lowest Hm evs s Hh). Qed.

  Lemma drop_there : forall t, In t (opt_tables am) -> In (flow_of (tb_drop t lowest [] 0)) (sw_flows s).
  Proof. intros t H. apply (ho_there _ _ _ HO (XDrop (tb_id t))). apply drop_write; eauto. Qed.

  (** the entries a packet at a spot can match *)
  Lemma entry_spot : forall sp t q f, tab am sp = Some t -> packet_ok q -> at_spot sp q ->
    In f (sw_flows s) -> f_table f = tb_id t -> matches q (f_match f) = true ->
    (exists w, In (FlowMod w) (content am lowest evs (XS sp)) /\ f = flow_of w) \/
    (exists sp' w, In (FlowMod w) (content am lowest evs (XS sp')) /\ f = flow_of w /\ (sp = SDp /\ sp' <> SDp \/ sp' = SDp)) \/
    f = flow_of (tb_drop t lowest [] 0).
  Proof.
    intros sp t q f T PK A Hf Ft M.
    assert (TI : In t (opt_tables am)) by (eapply tab_in; eauto).
    destruct (ho_only _ _ _ HO f Hf) as [x [w [Hw E]]]; [unfold acl_table; rewrite Ft; apply in_map; auto|].
    subst f. cbn in Ft, M. destruct x as [a|a].
    - destruct (content_write am lowest evs Hm NM CO a w Hw) as [_ [[ta [Ta Ia]] [_ [Ka _]]]].
      assert (TS := tab_sort am lowest Hm a sp ta t Ta T ltac:(congruence)).
      assert (IT : forall F v, spot_item a = Some (F, (v, -1)) -> pk_get q F = Some v).
      { intros F v SI. apply agrees_exact, item_agrees. unfold matches in M. rewrite forallb_forall in M. apply M. apply (Ka _ _ SI); auto. }
      destruct a as [n|v|v|], sp as [n'|v'|v'|]; try contradiction; try (right; left; eexists _, _; split; [exact Hw|]; split; auto; fail).
      + left. specialize (IT InPort n eq_refl). simpl in IT. rewrite A in IT. injection IT as ->. eauto.
      + right. left. exists (SPort n), w. split; auto. split; auto. left. split; auto. discriminate.
      + left. destruct A as [[pcp [rest E]] V']. specialize (IT VlanVid (vid_present v) eq_refl). simpl in IT. rewrite E in IT.
        injection IT as IT. assert (v' = v).
        { simpl in Hw. destruct (vlan_now evs v) as [z|] eqn:EV; [|destruct Hw]. destruct (proj2 NM v z EV) as [_ V].
          apply vid_present_inj; auto. apply vlan_id_ok; auto. }
        subst. eauto.
      + left. destruct A as [[pcp [rest E]] V']. specialize (IT VlanVid (vid_present v) eq_refl). simpl in IT. rewrite E in IT.
        injection IT as IT. assert (v' = v).
        { simpl in Hw. destruct (vlan_now evs v) as [z|] eqn:EV; [|destruct Hw]. destruct (proj2 NM v z EV) as [_ V].
          apply vid_present_inj; auto. apply vlan_id_ok; auto. }
        subst. eauto.
    - right. right. apply drop_write in Hw as [tb [B [C ->]]]. f_equal. cbn in Ft. rewrite (tables_same am lowest Hm tb t); auto.
  Qed.

  (** dp_acls and port ACLs exclude each other *)
  Lemma dp_excl : forall sp t q f, tab am sp = Some t -> packet_ok q -> at_spot sp q ->
    (sp = SDp <-> am_dp_acls am <> [] /\ (forall v, sp <> SVlanIn v /\ sp <> SVlanOut v)) ->
    In f (sw_flows s) -> f_table f = tb_id t -> matches q (f_match f) = true ->
    (exists w, In (FlowMod w) (content am lowest evs (XS sp)) /\ f = flow_of w) \/ f = flow_of (tb_drop t lowest [] 0).
  Proof.
    intros sp t q f T PK A DP Hf Ft M. destruct (entry_spot sp t q f T PK A Hf Ft M) as [X|[[sp' [w [Hw [E [[S1 S2]|S]]]]]|X]]; auto.
    - exfalso. destruct (proj1 DP S1) as [D _]. subst sp.
      destruct (content_write am lowest evs Hm NM CO sp' w Hw) as [_ [[ta [Ta Ia]] _]].
      assert (TS := tab_sort am lowest Hm sp' SDp ta t Ta T). rewrite E in Ft. cbn in Ft. specialize (TS ltac:(congruence)).
      destruct sp' as [n|v|v|]; try contradiction. simpl in Hw. destruct (port_now evs n); [|destruct Hw].
      unfold add_port, port_acls_allowed in Hw. destruct (am_dp_acls am); [contradiction|destruct Hw].
    - subst sp'. destruct (content_write am lowest evs Hm NM CO SDp w Hw) as [_ [[ta [Ta Ia]] _]].
      assert (TS := tab_sort am lowest Hm SDp sp ta t Ta T). rewrite E in Ft. cbn in Ft. specialize (TS ltac:(congruence)).
      destruct sp as [n|v|v|]; try contradiction; [|left; eauto].
      exfalso. assert (X : SPort n = SDp); [|discriminate]. apply DP. split.
      + intros D. simpl in Hw. unfold initialise_tables in Hw. rewrite D in Hw. destruct Hw.
      + intros v. split; discriminate.
  Qed.

  Lemma spot_groups : forall sp pl r g ns, content am lowest evs (XS sp) = build_rules None false pl (rules_of (acls_at am evs sp)) FILTER_PRIORITY ->
    pl_exact pl = false -> In r (rules_of (acls_at am evs sp)) -> In (g, ns) (failovers r) -> group_lookup s g = Some (ff_group g ns).
  Proof.
    intros sp pl r g ns E X Hr Hg. apply In_nth_error in Hr as [i N].
    destruct (rule_in_ok am lowest evs CO sp i r N) as [RO _].
    destruct (ho_groups _ _ _ HO (XS sp) g ns) as [A B].
    - rewrite E. apply in_build_rules; auto. exists i, r. split; auto. left. apply rule_msgs; auto. exists g, ns. split; auto. right; left; auto.
    - unfold group_lookup. destruct (find (fun h => g_id h =? g) (sw_groups s)) as [h|] eqn:EF.
      + apply find_some in EF as [F1 F2]. apply Z.eqb_eq in F2. f_equal. auto.
      + exfalso. apply (find_none _ _ EF) in A. simpl in A. rewrite Z.eqb_refl in A. discriminate.
  Qed.

  Lemma spot_walk : forall sp t q es, tab am sp = Some t -> packet_ok q -> at_spot sp q ->
    (sp = SDp <-> am_dp_acls am <> [] /\ (forall v, sp <> SVlanIn v /\ sp <> SVlanOut v)) ->
    acls_at am evs sp <> [] -> content am lowest evs (XS sp) <> [] \/ rules_of (acls_at am evs sp) = [] ->
    (walk s live (tb_id t) q es <->
     acl_outcome (fun force q' es' => walk s live (if force then snd (nexts am sp) else fst (nexts am sp)) q' es') live
       (rule_covers (option_map fst (spot_item sp)) q) (rules_of (acls_at am evs sp)) q es).
  Proof.
    intros sp t q es T PK A DP NE NC.
    assert (TI : In t (opt_tables am)) by (eapply tab_in; eauto).
    assert (DX := fun f => dp_excl sp t q f T PK A DP).
    assert (Q : (exists pl, place_for am sp pl /\ content am lowest evs (XS sp) = build_rules None false pl (rules_of (acls_at am evs sp)) FILTER_PRIORITY)).
    { pose proof (content_cases am lowest evs NM CO sp) as CC.
      set (cc := content am lowest evs (XS sp)) in *. clearbody cc. destruct NC as [NC|NC].
      - inversion CC as [E|pl PF NE' E|t' i' T' I' NE' E].
        + congruence.
        + exists pl. auto.
        + contradiction.
      - rewrite NC. inversion CC as [E|pl PF NE' E|t' i' T' I' NE' E].
        + set (pl := mkPlace t [Goto (fst (nexts am sp))] [Goto (snd (nexts am sp))] FILTER_PRIORITY false
                 (match sp with SPort n => Some n | _ => None end) (match sp with SVlanIn v | SVlanOut v => Some v | _ => None end)).
          exists pl. split; [|reflexivity]. constructor; cbn; auto; [destruct sp; [right|left|left|left]; reflexivity|destruct sp; reflexivity].
        + exists pl. rewrite NC. auto.
        + contradiction. }
    destruct Q as [pl [PF E]]. pose proof PF as PF'. destruct PF' as [P1 P2 P3 P4 P5 P6].
    assert (TP : pl_table pl = t) by congruence.
    destruct (spot_rules_ok am lowest evs CO sp) as [RO RL].
    rewrite <- TP.
    apply (walk_acl s live pl (rules_of (acls_at am evs sp)) FILTER_PRIORITY lowest (fst (nexts am sp)) (snd (nexts am sp)) q
      (rule_covers (option_map fst (spot_item sp)) q) (flow_of (tb_drop t lowest [] 0))); auto.
    - intros r Hr. rewrite rule_matches; auto; [|rewrite Forall_forall in RO; apply RO; auto]. rewrite P6.
      destruct (spot_item sp) as [[F y]|] eqn:SI; simpl; [|tauto].
      split; [tauto|]. intros X. split; auto. eapply at_spot_item; eauto.
    - intros w Hw. apply (ho_there _ _ _ HO (XS sp)). rewrite E. auto.
    - intros f Hf Ft M. rewrite TP in Ft. destruct (DX f Hf Ft M) as [[w [Hw Ef]]|Ef]; auto. left. exists w. rewrite <- E. auto.
    - split; [apply drop_there; auto|]. rewrite TP. repeat split.
    - intros r g ns Hr Hg. eapply spot_groups; eauto.
  Qed.

  Lemma spot_closed : forall sp t q es, tab am sp = Some t -> packet_ok q -> at_spot sp q ->
    (sp = SDp <-> am_dp_acls am <> [] /\ (forall v, sp <> SVlanIn v /\ sp <> SVlanOut v)) ->
    content am lowest evs (XS sp) = [] -> (walk s live (tb_id t) q es <-> es = []).
  Proof.
    intros sp t q es T PK A DP E.
    assert (TI : In t (opt_tables am)) by (eapply tab_in; eauto).
    assert (HD : forall f, In f (sw_flows s) -> f_table f = tb_id t -> matches q (f_match f) = true -> f = flow_of (tb_drop t lowest [] 0)).
    { intros f H1 H2 H3. destruct (dp_excl sp t q f T PK A DP H1 H2 H3) as [[w [Hw _]]| ->]; [rewrite E in Hw; destruct Hw|reflexivity]. }
    split.
    - intros W. inversion W as [t0 p0 NM0|t0 p0 f es0 p' HI X|t0 p0 f es0 p' t' es' HI X W']; subst; auto.
      + destruct HI as [H1 [H2 [H3 _]]]. rewrite (HD f H1 H2 H3) in X. cbn in X. congruence.
      + destruct HI as [H1 [H2 [H3 _]]]. rewrite (HD f H1 H2 H3) in X. cbn in X. congruence.
    - intros ->. apply walk_end with (f := flow_of (tb_drop t lowest [] 0)) (p' := q); [|reflexivity].
      split; [apply drop_there; auto|]. split; [reflexivity|]. split; [reflexivity|].
      intros g G1 G2 G3. rewrite (HD g G1 G2 G3). lia.
  Qed.

  Lemma spot_open : forall sp t i q es, tab am sp = Some t -> packet_ok q -> at_spot sp q ->
    (sp = SDp <-> am_dp_acls am <> [] /\ (forall v, sp <> SVlanIn v /\ sp <> SVlanOut v)) ->
    content am lowest evs (XS sp) = [FlowMod (tb_add t FILTER_PRIORITY [i] [Goto (fst (nexts am sp))])] -> spot_item sp = Some i ->
    (walk s live (tb_id t) q es <-> walk s live (fst (nexts am sp)) q es).
  Proof.
    intros sp t i q es T PK A DP E I.
    assert (TI : In t (opt_tables am)) by (eapply tab_in; eauto).
    set (w := tb_add t FILTER_PRIORITY [i] [Goto (fst (nexts am sp))]) in *.
    assert (Hi : hit (sw_flows s) (tb_id t) q (flow_of w)).
    { split; [apply (ho_there _ _ _ HO (XS sp)); rewrite E; left; auto|]. split; [reflexivity|]. split.
      - cbn. destruct i as [F [v m]]. rewrite andb_true_r. apply (item_agrees q F v m). apply (at_spot_item sp q F (v, m)); auto.
      - intros g G1 G2 G3. destruct (dp_excl sp t q g T PK A DP G1 G2 G3) as [[w' [Hw ->]]| ->].
        + rewrite E in Hw. destruct Hw as [Hw|[]]. injection Hw as <-. lia.
        + cbn. destruct Hm as [_ [_ M]]. unfold FILTER_PRIORITY in *. lia. }
    assert (Hu : forall f, hit (sw_flows s) (tb_id t) q f -> f = flow_of w).
    { intros f [H1 [H2 [H3 H4]]]. destruct (dp_excl sp t q f T PK A DP H1 H2 H3) as [[w' [Hw ->]]| ->].
      - rewrite E in Hw. destruct Hw as [Hw|[]]. injection Hw as <-. auto.
      - exfalso. destruct Hi as [I1 [I2 [I3 _]]]. specialize (H4 _ I1 I2 I3). cbn in H4. destruct Hm as [_ [_ M]]. unfold FILTER_PRIORITY in *. lia. }
    split.
    - intros W. inversion W as [t0 p0 NM0|t0 p0 f es0 p' HI X|t0 p0 f es0 p' t' es' HI X W']; subst.
      + exfalso. destruct Hi as [I1 [I2 [I3 _]]]. rewrite NM0 in I3; auto. discriminate.
      + rewrite (Hu f HI) in X. cbn in X. discriminate.
      + rewrite (Hu f HI) in X. cbn in X. injection X as <- <- <-. exact W'.
    - intros W. change es with ([] ++ es). eapply walk_goto; [exact Hi|reflexivity|exact W].
  Qed.
End Walk.
