(** * Proofs about what tables accept *)

From Coq Require Import ZArith List Bool Lia Permutation.
From Verif Require Import PyBase PyBaseProofs PipelineModel OpenFlow TrimModel TrimProofs TableModel FloodModel FloodRulesModel FloodRulesProofs HostCacheModel LearnModel L2Model L2ReloadModel FitModel FitSpec.
From Verif Require AclModel EgressModel PipelineProps.
Import ListNotations.
Open Scope Z_scope.

Lemma field_eqb_eq : forall a b, field_eqb a b = true <-> a = b.
Proof. intros. unfold field_eqb. destruct (field_eq_dec a b); split; intros; congruence. Qed.

(** ** Trimming *)

Lemma trim_loop_incl : forall acts, incl (trim_loop acts) acts.
Proof.
  intros acts a Ha. destruct (trim_loop_prefix acts) as (tail & E & _). rewrite E. apply in_app_iff. auto.
Qed.
Lemma trim_list_in : forall al g l l' i, trim_list al g l = Some l' -> In i l' ->
  In i l \/ exists a a0, i = Apply a /\ In (Apply a0) l /\ incl a a0.
Proof.
  intros al g. induction l as [|x l IH]; cbn [trim_list]; intros l' i E Hi.
  - injection E as <-. destruct Hi.
  - destruct (trim_one al g x) as [a|] eqn:E1; [|discriminate]. destruct (trim_list al g l) as [b|] eqn:E2; [|discriminate].
    injection E as <-. apply in_app_iff in Hi as [Hi|Hi].
    + destruct x; cbn [trim_one] in E1; try (injection E1 as <-; destruct Hi as [<-|[]]; left; left; reflexivity).
      destruct (negb g && negb (has_recirc acts)).
      * destruct (trim_actions al acts) as [acts'|] eqn:T; [|discriminate].
        assert (Inc : incl acts' acts).
        { unfold trim_actions in T. destruct al as [fs|]; [destruct (forallb _ _); [|discriminate]|]; injection T as <-; apply trim_loop_incl. }
        destruct acts' as [|y r]; injection E1 as <-; [destruct Hi|]. destruct Hi as [<-|[]]. right.
        exists (y :: r), acts. split; [reflexivity|]. split; [left; reflexivity|exact Inc].
      * destruct acts as [|y r]; injection E1 as <-; [destruct Hi|]. destruct Hi as [<-|[]]. left; left; reflexivity.
    + destruct (IH _ _ eq_refl Hi) as [X|(a' & a0 & -> & X & Y)]; [left; right; exact X|].
      right. exists a', a0. split; [reflexivity|]. split; [right; exact X|exact Y].
Qed.
Lemma trim_in : forall inst i, In i (trim inst) ->
  In i inst \/ exists a a0, i = Apply a /\ In (Apply a0) inst /\ incl a a0.
Proof.
  intros inst i H. unfold trim in H. destruct (trim_inst None inst) as [l|] eqn:E; [|left; exact H].
  unfold trim_inst in E. destruct (existsb is_apply inst); [|injection E as <-; left; exact H].
  eapply trim_list_in; eauto.
Qed.
Lemma trim_sets : forall inst acts fd v, In (Apply acts) (trim inst) -> In (SetField fd v) acts ->
  exists acts0, In (Apply acts0) inst /\ In (SetField fd v) acts0.
Proof.
  intros inst acts fd v H S. destruct (trim_in _ _ H) as [X|(a & a0 & E & X & Y)]; [eauto|].
  injection E as ->. exists a0. auto.
Qed.
Lemma trim_gotos : forall inst n, In (Goto n) (trim inst) -> In (Goto n) inst.
Proof. intros inst n H. destruct (trim_in _ _ H) as [X|(a & a0 & E & _)]; [exact X|discriminate]. Qed.

Lemma in_set_fields : forall acts fd, In fd (set_fields_of acts) <-> exists v, In (SetField fd v) acts.
Proof.
  intros acts fd. unfold set_fields_of. rewrite in_flat_map. split.
  - intros (a & Ha & Hf). destruct a; cbn in Hf; try contradiction. destruct Hf as [<-|[]]. eauto.
  - intros (v & H). exists (SetField fd v). split; [exact H|left; reflexivity].
Qed.

Lemma trim_list_ok : forall S g l, (forall acts fd v, In (Apply acts) l -> In (SetField fd v) acts -> In fd S) ->
  trim_list (Some S) g l <> None.
Proof.
  intros S g. induction l as [|i l IH]; cbn [trim_list]; intros H; [discriminate|].
  assert (X : trim_list (Some S) g l <> None) by (apply IH; intros; eapply H; [right; eassumption|eassumption]).
  destruct (trim_list (Some S) g l) as [b|]; [|contradiction].
  assert (Y : trim_one (Some S) g i <> None).
  { destruct i; cbn [trim_one]; try discriminate.
    destruct (negb g && negb (has_recirc acts)); [|destruct acts; discriminate].
    unfold trim_actions. replace (forallb _ _) with true; [destruct (trim_loop acts); discriminate|].
    symmetry. apply forallb_forall. intros fd Hf. apply in_set_fields in Hf as (v & Hf). apply trim_loop_incl in Hf.
    apply existsb_exists. exists fd. split; [eapply H; [left; reflexivity|exact Hf]|apply field_eqb_eq; reflexivity]. }
  destruct (trim_one (Some S) g i); [discriminate|contradiction].
Qed.

(** ** Fitting rules pass the checks *)

Lemma fits_passes : forall f D t fm, NoDup (map fst (de_match (D t))) -> fits f D t fm -> passes f D t fm = true.
Proof.
  intros f D t fm ND [Hi Ho Hd He Hs Hg]. unfold passes. rewrite !andb_true_iff. split; [split|].
  - assert (G : forall i, In i (fm_match fm) -> exists b, dict_get field_eqb (fst i) (de_match (D t)) = Some b /\ (has_mask i = true -> b = true)).
    { intros [fd [v m]] Hin. destruct (Hi _ _ _ Hin) as (b & Hb & Hm). exists b. split.
      - apply dict_in_get; auto. apply field_eqb_eq.
      - unfold has_mask. cbn. destruct (Z.eqb_spec m (-1)); [discriminate|auto]. }
    unfold verify_flowmod. destruct (is_flowdel fm) eqn:Del.
    + apply forallb_forall. intros i Hin. destruct (G i Hin) as (b & -> & _). reflexivity.
    + assert (C : fm_cmd fm <> FDelete /\ fm_cmd fm <> FDeleteStrict).
      { unfold is_flowdel in Del. destruct (fm_cmd fm); split; congruence. }
      destruct C as [C1 C2]. apply andb_true_iff. split.
      * apply negb_true_iff, andb_false_iff. destruct (Z.eqb_spec (fm_prio fm) 0); [|left; reflexivity].
        rewrite (Hd C1 C2 e). right; reflexivity.
      * apply forallb_forall. intros i Hin. destruct (G i Hin) as (b & -> & Hm). apply andb_true_iff. split.
        -- destruct b; [reflexivity|]. destruct (has_mask i); [discriminate (Hm eq_refl)|reflexivity].
        -- destruct (de_exact (D t)) eqn:Ex; [|reflexivity]. cbn [negb orb]. apply Nat.eqb_eq.
           assert (NE : fm_match fm <> []) by (intros E; rewrite E in Hin; destruct Hin).
           transitivity (length (map fst (de_match (D t)))); [symmetry; apply map_length|].
           transitivity (length (map fst (fm_match fm))); [|apply map_length].
           apply PeanoNat.Nat.le_antisymm; apply NoDup_incl_length; auto.
           ++ intros fd H. apply in_map_iff in H as ((fd' & b') & <- & H). eapply He; eauto.
           ++ intros fd H. apply in_map_iff in H as ((fd' & v & m) & <- & H). destruct (Hi _ _ _ H) as (b' & Hb & _).
              apply in_map_iff. exists (fd', b'). auto.
  - unfold verify_inst, trim_inst. destruct (existsb is_apply (fm_inst fm)); [|reflexivity].
    pose proof (trim_list_ok (de_set (D t)) (existsb is_goto (fm_inst fm)) (fm_inst fm) Hs) as X.
    destruct (trim_list _ _ _); [reflexivity|contradiction].
  - unfold verify_gotos. apply forallb_forall. intros i Hin. destruct i; auto.
    destruct (Hg _ Hin) as [X|[X Y]]; apply orb_true_iff.
    + left. apply mem_spec; [apply Z.eqb_eq|exact X].
    + right. rewrite X. cbn. destruct (miss_goto f t); [|discriminate]. cbn in Y. injection Y as ->. apply Z.eqb_refl.
Qed.

(** ** Messages *)

Definition item_ok (d : decl) (i : match_item) : Prop :=
  exists b, dict_get field_eqb (fst i) (de_match d) = Some b /\ (snd (snd i) <> -1 -> b = true).

Section Build.
  Variable f : features.
  Variable D : tname -> decl.
  Variable t : tname.
  Variable tb : table.
  Hypothesis It : included f t = true.
  Hypothesis Id : tb_id tb = table_id f t.
  Hypothesis ND : NoDup (map fst (de_match (D t))).

  Lemma ok_items : forall m, Forall (item_ok (D t)) m -> forall fd v k, In (fd, (v, k)) m ->
    exists masks, In (fd, masks) (de_match (D t)) /\ (k <> -1 -> masks = true).
  Proof.
    intros m H fd v k Hin. rewrite Forall_forall in H. destruct (H _ Hin) as (b & Hb & Hm). exists b. split; [|exact Hm].
    apply dict_get_in in Hb; auto. apply field_eqb_eq.
  Qed.
  Lemma ok_del : forall cmd prio m out_port, (cmd = FDelete \/ cmd = FDeleteStrict) -> Forall (item_ok (D t)) m ->
    NoDup (map fst m) -> sent_ok f D (FlowMod (tb_del tb cmd prio m out_port)).
  Proof.
    intros cmd prio m o C Hm N. right. exists t. split; [exact It|]. split; [exact Id|].
    assert (F : fits f D t (tb_del tb cmd prio m o)).
    { constructor; cbn; auto; try (intros; destruct C; subst; contradiction || tauto); try contradiction. apply ok_items; exact Hm. }
    split; [exact F|apply fits_passes; auto].
  Qed.
  Lemma ok_fm : forall fm, (fm_cmd fm <> FDelete /\ fm_cmd fm <> FDeleteStrict) -> fm_table fm = table_id f t ->
    Forall (item_ok (D t)) (fm_match fm) -> NoDup (map fst (fm_match fm)) ->
    (fm_prio fm <> 0 \/ fm_match fm = []) ->
    (de_exact (D t) = true -> fm_match fm <> [] -> forall fd b, In (fd, b) (de_match (D t)) -> In fd (map fst (fm_match fm))) ->
    (forall acts fd v, In (Apply acts) (fm_inst fm) -> In (SetField fd v) acts -> In fd (de_set (D t))) ->
    (forall n, In (Goto n) (fm_inst fm) -> In n (map (table_id f) (next_tables f t)) \/
      (fm_match fm = [] /\ option_map (table_id f) (miss_goto f t) = Some n)) ->
    sent_ok f D (FlowMod fm).
  Proof.
    intros fm [C1 C2] E Hm N P X S G. right. exists t. split; [exact It|]. split; [exact E|].
    assert (F : fits f D t fm).
    { constructor; auto. - apply ok_items; exact Hm. - intros _ _ Z. destruct P; [contradiction|assumption]. }
    split; [exact F|apply fits_passes; auto].
  Qed.
  Lemma ok_write : forall cmd prio m inst hard idle, (cmd = FAdd \/ cmd = FModifyStrict) ->
    Forall (item_ok (D t)) m -> NoDup (map fst m) -> (prio <> 0 \/ m = []) ->
    (de_exact (D t) = true -> m <> [] -> forall fd b, In (fd, b) (de_match (D t)) -> In fd (map fst m)) ->
    (forall acts fd v, In (Apply acts) inst -> In (SetField fd v) acts -> In fd (de_set (D t))) ->
    (forall n, In (Goto n) inst -> In n (map (table_id f) (next_tables f t)) \/
      (m = [] /\ option_map (table_id f) (miss_goto f t) = Some n)) ->
    sent_ok f D (FlowMod (tb_write tb cmd prio m inst hard idle)).
  Proof.
    intros cmd prio m inst hard idle C Hm N P X S G. apply ok_fm; cbn; auto.
    - destruct C as [->| ->]; split; discriminate.
    - intros acts fd v H1 H2. destruct (trim_sets _ _ _ _ H1 H2) as (a0 & H3 & H4). eauto.
    - intros n H. apply G, trim_gotos, H.
  Qed.
End Build.

Lemma vlan_item_field : forall v, fst (vlan_item v) = VlanVid.
Proof. intros v. unfold vlan_item. destruct (v =? OFPVID_NONE); reflexivity. Qed.
Lemma vlan_item_ok : forall d v b, dict_get field_eqb VlanVid (de_match d) = Some b -> item_ok d (vlan_item v).
Proof.
  intros d v b H. exists b. rewrite vlan_item_field. split; [exact H|]. unfold vlan_item.
  destruct (v =? OFPVID_NONE); cbn; congruence.
Qed.

(** the only field floods set *)
Lemma outs_no_set : forall l fd v, ~ In (SetField fd v) (map out l).
Proof. intros l fd v H. apply in_map_iff in H as (n & E & _). discriminate. Qed.
Lemma flood_sets : forall v eu i ae er fd x, In (SetField fd x) (flood_rule_actions v eu i ae er) ->
  fd = VlanPcp /\ external_ports v <> [].
Proof.
  intros v eu i ae er fd x H. unfold flood_rule_actions in H. apply in_app_iff in H as [H|H].
  - destruct (external_ports v); cbn in H; [destruct H|]. destruct (nonempty _); [|destruct H].
    destruct H as [H|[]]. injection H as <- _. split; [reflexivity|discriminate].
  - exfalso. unfold flood_local_rule_actions, flood_port_outputs in H. apply in_app_iff in H as [H|H].
    + apply outs_no_set in H. exact H.
    + unfold flood_untagged_port_outputs in H. destruct (flood_tagged_port_outputs _ _ _) eqn:E; [destruct H|].
      destruct H as [H|H]; [discriminate|]. rewrite <- E in H. apply outs_no_set in H. exact H.
Qed.
Lemma dedupe_in : forall l a b x, In x (dedupe_acts l a b) -> In x l.
Proof.
  induction l as [|y l IH]; cbn [dedupe_acts]; intros a b x H; [destruct H|].
  destruct y; try (destruct (existsb _ _); [right; eapply IH; exact H|destruct H as [H|H]; [left; exact H|right; eapply IH; exact H]]).
Qed.
Lemma port_acts_sets : forall v eu q ae er fd x, In (SetField fd x) (flood_acts_for_port v eu q ae er) ->
  fd = VlanPcp /\ external_ports v <> [].
Proof.
  intros v eu q ae er fd x H. unfold flood_acts_for_port in H. destruct (p_phys_up q); [|destruct H]. cbv zeta in H.
  destruct (nonempty _); [|destruct H]. apply dedupe_in in H. eapply flood_sets; eauto.
Qed.
Lemma snap_external : forall cfg st v, external_ports (snap_vlan cfg st v) <> [] -> has_externals cfg = true.
Proof.
  intros cfg st v H. unfold has_externals. apply existsb_exists.
  destruct (external_ports (snap_vlan cfg st v)) as [|q l] eqn:E; [contradiction|].
  assert (Hq : In q (external_ports (snap_vlan cfg st v))) by (rewrite E; left; reflexivity).
  unfold external_ports in Hq. apply filter_In in Hq as [Hq Ex].
  assert (Hx : exists p, In p (d_ports cfg) /\ q = snap_port st p).
  { assert (A : forall P, In q (map (snap_port st) (filter P (sorted_ports cfg))) -> exists p, In p (d_ports cfg) /\ q = snap_port st p).
    { intros P X. apply in_map_iff in X as (p & <- & X). apply filter_In in X as [X _]. apply py_sorted_in in X. eauto. }
    unfold get_ports, snap_vlan in Hq. cbn in Hq. unfold tagged_ports, untagged_ports in Hq.
    repeat (apply in_app_iff in Hq as [Hq|Hq]); try (destruct Hq; fail); eapply A; exact Hq. }
  destruct Hx as (p & Hp & ->). exists p. split; [exact Hp|exact Ex].
Qed.
Lemma class_typed : forall r c t, In c (flood_dsts r) -> fc_type c = Some t -> r = true.
Proof.
  intros r c t H E. destruct r; [reflexivity|]. exfalso. cbn in H. repeat destruct H as [<-|H]; try discriminate; destruct H.
Qed.

(** ** The standalone switch *)

Section L2.
  Variable f : features.
  Variable cfg : dconf.
  Variable c : fconf.
  Hypothesis L : laid_out f cfg.
  Hypothesis Hi : d_high cfg <> 0.
  Hypothesis Ht : d_highest cfg <> 0.
  Let D := declare (has_externals cfg) (any_restricted cfg) (acl_decl c).

  Lemma nd : forall t, In t [Vlan; PipelineModel.EthSrc; Hairpin; PipelineModel.EthDst; Flood] -> NoDup (map fst (de_match (D t))).
  Proof.
    intros t H. unfold D. destruct (has_externals cfg), (any_restricted cfg);
      repeat destruct H as [<-|H]; try destruct H; vm_compute; repeat constructor; intros X; repeat destruct X as [X|X]; try discriminate; auto.
  Qed.
  Ltac ndt := apply nd; cbn; tauto.
  Ltac items := repeat (apply Forall_cons; [first [eapply vlan_item_ok; reflexivity |
      eexists; split; [reflexivity|cbn; intros; first [reflexivity|congruence]]]|]); try apply Forall_nil.
  Ltac uniq := cbn [map]; rewrite ?vlan_item_field; cbn; repeat constructor; cbn; intros X; repeat destruct X as [X|X]; try discriminate; auto.
  Ltac nosets := let H := fresh in cbn [de_set]; intros ? ? ? H; cbn in H; repeat (destruct H as [H|H]); try discriminate; try contradiction.
  Ltac nogotos := let H := fresh in intros ? H; cbn in H; repeat (destruct H as [H|H]); try discriminate; try contradiction.

  Ltac delete tab := eapply (ok_del f D tab); [reflexivity|apply L|ndt|auto|items|uniq].
  Lemma hp_included : has_hairpin cfg = true -> included f Hairpin = true.
  Proof. intros H. cbn. rewrite (lo_hairpin _ _ L). exact H. Qed.

  Lemma out_next : In (tb_id (output_table cfg)) (map (table_id f) (next_tables f PipelineModel.EthSrc)).
  Proof.
    unfold output_table. destruct (has_hairpin cfg) eqn:E.
    - rewrite (lo_hp _ _ L E). apply in_map, filter_In. split; [cbn; tauto|apply hp_included; exact E].
    - rewrite (lo_dst _ _ L). apply in_map, filter_In. split; [cbn; tauto|reflexivity].
  Qed.

  Lemma drop_ok_vlan : forall prio m, prio <> 0 -> Forall (item_ok (D Vlan)) m -> NoDup (map fst m) ->
    sent_ok f D (FlowMod (tb_drop (d_tvlan cfg) prio m 0)).
  Proof.
    intros prio m P Hm N. eapply (ok_write f D Vlan); auto; [apply L|ndt|discriminate|nosets|nogotos].
  Qed.
  Lemma drop_ok_src : forall prio m hard, prio <> 0 -> Forall (item_ok (D PipelineModel.EthSrc)) m -> NoDup (map fst m) ->
    sent_ok f D (FlowMod (tb_drop (d_tsrc cfg) prio m hard)).
  Proof.
    intros prio m hard P Hm N. eapply (ok_write f D PipelineModel.EthSrc); auto; [apply L|ndt|discriminate|nosets|nogotos].
  Qed.
  Lemma ctl_ok_vlan : forall prio m n, prio <> 0 -> Forall (item_ok (D Vlan)) m -> NoDup (map fst m) ->
    sent_ok f D (FlowMod (tb_controller (d_tvlan cfg) prio m [] n)).
  Proof.
    intros prio m n P Hm N. eapply (ok_write f D Vlan); auto; [apply L|ndt|discriminate| |nogotos].
    intros acts fd v H1 H2. cbn in H1. destruct H1 as [H1|[]]. injection H1 as <-. destruct H2 as [H2|[]]; discriminate.
  Qed.

  Lemma class_items_ok : forall k, In k (flood_dsts (any_restricted cfg)) -> Forall (item_ok (D Flood)) (class_items k).
  Proof.
    intros k Hk. unfold class_items. apply Forall_app; split.
    - destruct (fc_dst k) as [[d m]|]; items.
    - destruct (fc_type k) as [ty|] eqn:E; [|constructor]. constructor; [|constructor]. exists false. split; [|cbn; congruence].
      unfold D. rewrite (class_typed _ _ _ Hk E). destruct (has_externals cfg); reflexivity.
  Qed.
  Lemma class_once : forall k v n, NoDup (map fst (port_match v n k)).
  Proof.
    intros k v n. unfold port_match, vlan_match, class_items. cbn [map]. rewrite !map_app. cbn [map]. rewrite vlan_item_field.
    destruct (fc_dst k) as [[d m]|], (fc_type k) as [ty|]; cbn; repeat constructor; cbn; intros X; repeat destruct X as [X|X]; try discriminate; auto.
  Qed.
  Lemma vlan_match_ok : forall k v, In k (flood_dsts (any_restricted cfg)) -> Forall (item_ok (D Flood)) (vlan_match v k).
  Proof. intros k v Hk. apply Forall_app; split; [apply class_items_ok; exact Hk|items]. Qed.
  Lemma port_match_ok : forall k v n, In k (flood_dsts (any_restricted cfg)) -> Forall (item_ok (D Flood)) (port_match v n k).
  Proof. intros k v n Hk. constructor; [eexists; split; [reflexivity|cbn; congruence]|apply vlan_match_ok; exact Hk]. Qed.

  Lemma flood_write : forall cmd prio m acts, (cmd = FAdd \/ cmd = FModifyStrict) -> prio <> 0 -> Forall (item_ok (D Flood)) m ->
    NoDup (map fst m) -> (forall fd x, In (SetField fd x) acts -> fd = VlanPcp /\ has_externals cfg = true) ->
    sent_ok f D (FlowMod (tb_write (d_tflood cfg) cmd prio m [Apply acts] 0 0)).
  Proof.
    intros cmd prio m acts C P Hm N S. eapply (ok_write f D Flood); auto; [apply L|ndt|discriminate| |nogotos].
    intros a fd x [E|[]] H. injection E as <-. destruct (S _ _ H) as [-> X]. unfold D. cbn. rewrite X. cbn. auto.
  Qed.
  Lemma flood_rules_ok : forall md cmd cold st v, (cmd = FAdd \/ cmd = FModifyStrict) ->
    Forall (sent_ok f D) (flood_rules (d_tflood cfg) md (any_restricted cfg) cmd cold (snap_vlan cfg st v)).
  Proof.
    intros md cmd cold st v C. set (sv := snap_vlan cfg st v).
    assert (Cl : forall k, In k (vlan_classes (any_restricted cfg) sv) -> In k (flood_dsts (any_restricted cfg)) /\ 0x2000 <= class_prio k).
    { intros k Hk. split; [apply filter_In in Hk as [Hk _]; exact Hk|]. apply class_prio_pos. eapply vlan_classes_all; exact Hk. }
    assert (SV : forall eu i ae er fd x, In (SetField fd x) (flood_rule_actions sv eu i ae er) -> fd = VlanPcp /\ has_externals cfg = true).
    { intros. destruct (flood_sets _ _ _ _ _ _ _ H) as [-> X]. split; [reflexivity|]. eapply snap_external; exact X. }
    assert (SP : forall eu q ae er fd x, In (SetField fd x) (flood_acts_for_port sv eu q ae er) -> fd = VlanPcp /\ has_externals cfg = true).
    { intros. destruct (port_acts_sets _ _ _ _ _ _ _ H) as [-> X]. split; [reflexivity|]. eapply snap_external; exact X. }
    assert (VN : forall k vid, NoDup (map fst (vlan_match vid k))).
    { intros k vid. pose proof (class_once k vid 0) as X. unfold port_match in X. cbn [map] in X. inversion X; assumption. }
    unfold flood_rules. apply Forall_app; split.
    - unfold multiout_flood_rules. apply Forall_flat_map, Forall_forall. intros k Hk. destruct (Cl k Hk) as [Hf Hp].
      unfold mask_flood_rules. apply Forall_app; split.
      + destruct md; try constructor; [|constructor]. apply flood_write; auto; [lia|apply vlan_match_ok; exact Hf|].
        intros fd x. apply SV.
      + apply Forall_flat_map, Forall_forall. intros q _. unfold port_rule. cbv zeta.
        destruct (nonempty _); [|constructor].
        assert (R : sent_ok f D (flood_rule (d_tflood cfg) cmd (port_match (v_vid sv) (p_num q) k) (class_prio k + 1) (class_port_acts sv k q))).
        { apply flood_write; auto; [lia|apply port_match_ok; exact Hf|apply class_once|]. intros fd x. apply SP. }
        assert (Dl : sent_ok f D (FlowMod (tb_del (d_tflood cfg) FDelete (class_prio k + 1) (port_match (v_vid sv) (p_num q) k) OFPP_ANY))).
        { eapply (ok_del f D Flood); [reflexivity|apply L|ndt|auto|apply port_match_ok; exact Hf|apply class_once]. }
        destruct md, (same_as_vlan sv k q), cold; repeat first [apply Forall_nil | apply Forall_cons]; first [exact R | exact Dl].
    - destruct md; try constructor; [exact I|]. constructor; [exact I|]. apply Forall_app; split; [repeat constructor|].
      apply Forall_map, Forall_forall. intros k Hk. destruct (Cl k Hk) as [Hf Hp].
      apply flood_write; auto; [lia|apply vlan_match_ok; exact Hf|]. intros fd x [X|[]]. discriminate.
  Qed.

  Ltac fa := repeat first [apply Forall_nil | apply Forall_cons | (apply Forall_app; split)].

  Lemma find_port_in_ : forall n p, find_port cfg n = Some p -> In p (d_ports cfg) /\ pc_num p = n.
  Proof. intros n p H. apply find_some in H as [H E]. apply Z.eqb_eq in E. auto. Qed.

  Lemma add_vlan_ok : forall st cold v, Forall (sent_ok f D) (add_vlan cfg st cold v).
  Proof.
    intros st cold v. unfold add_vlan. apply Forall_app; split; [|apply Forall_app; split; [apply Forall_cons; [|apply Forall_nil]|]].
    - destruct (d_drop_spoof cfg); fa. apply drop_ok_src; [discriminate|items|uniq].
    - eapply (ok_write f D PipelineModel.EthSrc); auto; [apply L|ndt|items|uniq|left; discriminate|discriminate| |].
      + intros acts fd x H1 H2. cbn in H1. destruct H1 as [H1|[H1|[]]]; [|discriminate]. injection H1 as <-. destruct H2 as [H2|[]]; discriminate.
      + intros n H. cbn in H. destruct H as [H|[H|[]]]; [discriminate|]. injection H as <-. left. apply out_next.
    - apply flood_rules_ok; auto.
  Qed.
  Lemma add_vlans_ok : forall st cold vids, Forall (sent_ok f D) (add_vlans cfg st cold vids).
  Proof.
    intros st cold vids. apply Forall_flat_map, Forall_forall. intros vid _.
    destruct (find_vlan cfg vid); [apply add_vlan_ok|constructor].
  Qed.
  Lemma update_vlans_ok : forall st vids, Forall (sent_ok f D) (update_vlans cfg st vids).
  Proof.
    intros st vids. apply Forall_flat_map, Forall_forall. intros vid _.
    destruct (find_vlan cfg vid); [apply flood_rules_ok; auto|constructor].
  Qed.

  Lemma port_vlan_rule_ok : forall p vid push, sent_ok f D (port_vlan_rule cfg p vid push).
  Proof.
    intros p vid push. unfold port_vlan_rule.
    assert (E : exists w, (if push then vlan_item OFPVID_NONE else vlan_item vid) = vlan_item w) by (destruct push; eauto).
    destruct E as [w ->].
    eapply (ok_write f D Vlan); auto; [apply L|ndt|items|uniq|left; discriminate|discriminate| |].
    - intros acts fd x H1 H2. destruct H1 as [H1|[H1|[]]]; [|discriminate]. injection H1 as <-.
      apply in_app_iff in H2 as [H2|H2]; [apply outs_no_set in H2; destruct H2|]. apply in_app_iff in H2 as [H2|H2].
      + destruct push; [|destruct H2]. destruct H2 as [H2|[H2|[]]]; [discriminate|]. injection H2 as <- _. left. reflexivity.
      + destruct (has_externals cfg) eqn:E; [|destruct H2].
        assert (X : fd = VlanPcp) by (destruct (pc_ext p); destruct H2 as [H2|[]]; injection H2 as <- _; reflexivity).
        subst fd. unfold D. rewrite ?E. right. left. reflexivity.
    - intros n [H|[H|[]]]; [discriminate|]. injection H as <-. left. rewrite (lo_src _ _ L).
      apply in_map, filter_In. split; [cbn; tauto|reflexivity].
  Qed.
  Lemma switch_add_ok : forall p, Forall (sent_ok f D) (switch_add_port cfg p).
  Proof.
    intros p. unfold switch_add_port. destruct (nonempty _); fa.
    - apply Forall_map, Forall_forall. intros. apply port_vlan_rule_ok.
    - destruct (pc_native p); fa; [apply port_vlan_rule_ok|]. destruct (pc_count_miss p); fa.
      apply drop_ok_vlan; [discriminate|items|uniq].
    - destruct (_ =? 0); fa. apply ctl_ok_vlan; [exact Ht|items|uniq].
  Qed.
  Lemma switch_del_ok : forall p, Forall (sent_ok f D) (switch_del_port cfg p).
  Proof.
    intros p. unfold switch_del_port, del_host_flows. destruct (nonempty _); fa.
    - delete PipelineModel.EthSrc.
    - delete PipelineModel.EthDst.
    - destruct (has_hairpin cfg) eqn:E; fa.
      eapply (ok_del f D Hairpin); [apply hp_included; exact E|apply L, E|ndt|auto|items|uniq].
    - destruct (pc_native p), (pc_count_miss p); fa; delete Vlan.
    - apply Forall_map, Forall_forall. intros. delete Vlan.
    - destruct (_ =? 0); fa. delete Vlan.
  Qed.
  Lemma managers_add_ok : forall p, Forall (sent_ok f D) (managers_add_port cfg p).
  Proof.
    intros p. unfold managers_add_port, lldp_add_port, outonly_add_port. fa; [apply switch_add_ok| |].
    - destruct (pc_lldp p); fa. apply ctl_ok_vlan; [exact Ht|items|uniq].
    - destruct (pc_output_only p); fa. apply drop_ok_vlan; [exact Ht|items|uniq].
  Qed.
  Lemma managers_del_ok : forall p, Forall (sent_ok f D) (managers_del_port cfg p).
  Proof.
    intros p. unfold managers_del_port, lldp_del_port, outonly_del_port. fa; [apply switch_del_ok| |].
    - destruct (pc_lldp p); fa. delete Vlan.
    - destruct (pc_output_only p); fa. delete Vlan.
  Qed.

  Lemma lacp_update_ok : forall st p up now pkt cold st' ms,
    lacp_update cfg st p up now pkt cold = (st', ms) -> Forall (sent_ok f D) ms.
  Proof.
    intros st p up now pkt cold st' ms H.
    assert (A : forall st1, Forall (sent_ok f D) (enable_forwarding cfg p :: add_vlans cfg st1 false (port_vlans p))).
    { intros. constructor; [|apply add_vlans_ok]. delete Vlan. }
    assert (B : forall st1, Forall (sent_ok f D) (disable_forwarding cfg p ::
      (if cold then [] else switch_del_port cfg p ++ switch_add_port cfg p ++ add_vlans cfg st1 false (port_vlans p)))).
    { intros. constructor; [apply drop_ok_vlan; [exact Hi|items|uniq]|]. destruct cold; fa;
      [apply switch_del_ok|apply switch_add_ok|apply add_vlans_ok]. }
    unfold lacp_update in H.
    destruct (actor_eq_dec _ _); [destruct (role_eq_dec _ _)|]; injection H as <- <-; auto;
      destruct (is_sel _ && is_up _); auto.
  Qed.
  Lemma ports_add_ok : forall cold st ps st' ms, ports_add cfg cold st ps = (st', ms) -> Forall (sent_ok f D) ms.
  Proof.
    intros cold st ps st' ms H. unfold ports_add in H.
    destruct (ports_add_each cfg cold st ps) as [st1 ms1] eqn:E. injection H as <- <-.
    apply Forall_app; split; [|destruct cold; [constructor|apply add_vlans_ok]].
    revert st st1 ms1 E. induction ps as [|p ps IH]; intros st st1 ms1 E; simpl in E.
    - injection E as <- <-. constructor.
    - destruct (port_add_one cfg cold st p) as [sa ma] eqn:Ea.
      destruct (ports_add_each cfg cold sa ps) as [sb mb] eqn:Eb. injection E as <- <-.
      apply Forall_app; split; [|eapply IH; eauto].
      unfold port_add_one in Ea. destruct (port_running _ _); [|injection Ea as <- <-; constructor].
      destruct (pc_lacp p =? 0); [injection Ea as <- <-; apply managers_add_ok|].
      destruct (lacp_update _ _ _ _ _ _ _) as [sc mc] eqn:Ec. injection Ea as <- <-.
      apply Forall_app; split; [apply managers_add_ok|]. eapply lacp_update_ok; eauto.
  Qed.
  Lemma ports_delete_ok : forall keep now st ps st' ms, ports_delete cfg keep now st ps = Some (st', ms) -> Forall (sent_ok f D) ms.
  Proof.
    intros keep now st ps st' ms H. unfold ports_delete in H.
    destruct (ports_delete_each cfg keep now st ps) as [[st1 ms1]|] eqn:E; [|discriminate]. injection H as <- <-.
    apply Forall_app; split; [|apply update_vlans_ok].
    revert st st1 ms1 E. induction ps as [|p ps IH]; intros st st1 ms1 E; cbn [ports_delete_each] in E.
    - injection E as <- <-. constructor.
    - destruct (port_delete_one cfg keep now st p) as [[sa ma]|] eqn:Ea; [|discriminate].
      destruct (ports_delete_each cfg keep now sa ps) as [[sb mb]|] eqn:Eb; [|discriminate]. injection E as <- <-.
      apply Forall_app; split; [|eapply IH; eauto].
      unfold port_delete_one in Ea. cbv zeta in Ea. destruct (pc_lacp p =? 0).
      + destruct keep; [injection Ea as <- <-; apply managers_del_ok|].
        destruct (clear_vlans _ _ _); [|discriminate]. injection Ea as <- <-. apply managers_del_ok.
      + injection Ea as Ea. eapply lacp_update_ok; eauto.
  Qed.

  (** learning: rules for frames from external networks and hairpin rules are only made
      where there are such ports *)
  Definition host_can (m : host_msg) : Prop :=
    match m with
    | MDstNonExt _ _ _ _ => has_externals cfg = true
    | MHairpin _ _ _ _ => has_hairpin cfg = true
    | _ => True
    end.
  Lemma output_sets : forall p vid hp ext fd x, In (SetField fd x) (output_port cfg p vid hp ext) -> fd = VlanPcp /\ ext = true.
  Proof.
    intros p vid hp ext fd x H. unfold output_port in H. apply in_app_iff in H as [H|[H|[]]]; [|discriminate].
    destruct (native_is vid p).
    - destruct H as [H|H]; [discriminate|]. apply outs_no_set in H. destruct H.
    - apply in_app_iff in H as [H|H]; [apply outs_no_set in H; destruct H|]. destruct ext; [|destruct H].
      destruct H as [H|[]]. injection H as <- _. auto.
  Qed.
  Lemma dst_ok : forall p vid mac x hard idle, has_externals cfg = true ->
    sent_ok f D (FlowMod (tb_write (d_tdst cfg) FAdd HOST_PRIORITY [exact EthDst mac; vlan_item vid; exact VlanPcp x]
       [Apply (output_port cfg p vid false (has_externals cfg))] hard idle)).
  Proof.
    intros p vid mac x hard idle E.
    eapply (ok_write f D PipelineModel.EthDst); auto; [apply L|ndt| |uniq|left; discriminate| | |nogotos].
    - unfold D. rewrite E. items.
    - intros _ _ fd b. unfold D. rewrite E. cbn [map]. rewrite vlan_item_field. cbn. intros H.
      repeat (destruct H as [H|H]; [injection H as <- _; tauto|]). destruct H.
    - intros acts fd y [H1|[]] H2. injection H1 as <-. apply output_sets in H2 as [-> _]. unfold D. rewrite E. left. reflexivity.
  Qed.
  Lemma dst_plain_ok : forall p vid mac hard idle, has_externals cfg = false ->
    sent_ok f D (FlowMod (tb_write (d_tdst cfg) FAdd HOST_PRIORITY [exact EthDst mac; vlan_item vid]
       [Apply (output_port cfg p vid false (has_externals cfg))] hard idle)).
  Proof.
    intros p vid mac hard idle E.
    eapply (ok_write f D PipelineModel.EthDst); auto; [apply L|ndt| |uniq|left; discriminate| | |nogotos].
    - unfold D. rewrite E. items.
    - intros _ _ fd b. unfold D. rewrite E. cbn [map]. rewrite vlan_item_field. cbn. intros H.
      repeat (destruct H as [H|H]; [injection H as <- _; tauto|]). destruct H.
    - intros acts fd y [H1|[]] H2. injection H1 as <-. apply output_sets in H2 as [_ X]. congruence.
  Qed.
  Lemma host_ok : forall m, host_can m -> Forall (sent_ok f D) (host_ofmsgs cfg m).
  Proof.
    intros m Hm. destruct m as [vid mac|vid n mac h i|vid n mac i|vid n mac i|vid n mac i|n|vid|mac n]; cbn [host_ofmsgs host_can] in *.
    - fa; [delete PipelineModel.EthSrc|delete PipelineModel.EthDst|]. destruct (has_hairpin cfg) eqn:E; fa.
      eapply (ok_del f D Hairpin); [apply hp_included; exact E|apply L, E|ndt|auto|items|uniq].
    - fa. eapply (ok_write f D PipelineModel.EthSrc); auto; [apply L|ndt|items|uniq|left; discriminate|discriminate|nosets|].
      intros k [H|[]]. injection H as <-. left. apply out_next.
    - destruct (find_port cfg n) as [p|]; fa.
      assert (X : has_externals cfg = true \/ has_externals cfg = false) by (destruct (has_externals cfg); auto).
      destruct X as [E|E].
      + replace (if has_externals cfg then [exact VlanPcp PCP_EXT_PORT_FLAG] else []) with [exact VlanPcp PCP_EXT_PORT_FLAG] by (rewrite E; reflexivity).
        apply dst_ok; exact E.
      + replace (if has_externals cfg then [exact VlanPcp PCP_EXT_PORT_FLAG] else []) with (@nil match_item) by (rewrite E; reflexivity).
        apply dst_plain_ok; exact E.
    - destruct (find_port cfg n) as [p|]; fa. apply dst_ok; exact Hm.
    - destruct (find_port cfg n) as [p|]; fa.
      eapply (ok_write f D Hairpin); auto; [apply hp_included; exact Hm|apply L, Hm|ndt|items|uniq|left; discriminate| | |nogotos].
      + intros _ _ fd b. cbn [map]. rewrite vlan_item_field. cbn. intros H.
        repeat (destruct H as [H|H]; [injection H as <- _; tauto|]). destruct H.
      + intros acts fd y [H1|[]] H2. injection H1 as <-. apply output_sets in H2 as [_ X]. discriminate.
    - fa. apply drop_ok_src; [discriminate|items|uniq].
    - fa. apply drop_ok_src; [discriminate|items|uniq].
    - fa. apply drop_ok_src; [discriminate|items|uniq].
  Qed.

  Lemma learn_can : forall l now vid n mac l' hs,
    vlan_rcv_packet (learn_cfg cfg) l now vid n mac = Some (l', hs) -> Forall host_can hs.
  Proof.
    intros l now vid n mac l' hs H. unfold vlan_rcv_packet in H.
    assert (B : Forall host_can (ban_rules (learn_cfg cfg) l vid n mac)).
    { unfold ban_rules. destruct (cached_host _ _); [constructor|].
      apply Forall_app; split; destruct (_ && _); repeat constructor. }
    destruct (ban_rules (learn_cfg cfg) l vid n mac) as [|b bs]; [|injection H as <- <-; exact B].
    unfold learn_host in H.
    assert (K : Forall host_can (ck_msgs (learn_host_on_vlan_ports (learn_cfg cfg) l now n vid mac))).
    { unfold learn_host_on_vlan_ports.
      assert (P : forall e m p a b, Forall host_can (ck_msgs (perm_learn_check (learn_cfg cfg) e m p a b))).
      { intros e m p a b. unfold perm_learn_check. destruct e as [x|]; [|constructor]. destruct (c_perm _ _); [|constructor].
        simpl. destruct (_ =? _); repeat constructor. }
      assert (Q : forall e p a b, Forall host_can (ck_msgs (learn_cache_check (learn_cfg cfg) l now e p a b))).
      { intros e p a b. unfold learn_cache_check. destruct e as [x|]; [|constructor].
        repeat match goal with |- context [if ?c then _ else _] => destruct c end; constructor. }
      assert (R : forall e p a b, Forall host_can (ck_msgs (loop_protect_check (learn_cfg cfg) l now e p a b))).
      { intros e p a b. unfold loop_protect_check. destruct (_ && _); repeat constructor. }
      cbv zeta. destruct (ck_exit _); [apply P|]. destruct (ck_exit _); [apply Q|]. destruct (ck_exit _); [apply R|].
      unfold learn_check. cbn [ck_msgs]. unfold learn_flows. destruct (learn_host_timeouts _ _ _) as [[a b] e].
      apply Forall_app; split; [destruct (ck_delete _); repeat constructor|]. constructor; [simpl; auto|].
      destruct (_ && _); [constructor|]. constructor; [simpl; auto|]. apply Forall_app; split.
      - destruct (c_externals (learn_cfg cfg)) eqn:E; [|constructor]. cbn [andb]. destruct (negb _); repeat constructor. exact E.
      - destruct (c_hairpin (learn_cfg cfg) n) eqn:E; repeat constructor. cbn in E. unfold port_attr in E.
        destruct (find_port cfg n) as [p|] eqn:F; [|discriminate]. apply find_port_in_ in F as [F _].
        apply existsb_exists. eauto. }
    destruct (ck_update _).
    - destruct (add_cache_host _ _ _ _); [|discriminate]. injection H as <- <-. exact K.
    - injection H as <- <-. exact K.
  Qed.
  Lemma expire_can : forall l now vids l' hs, hosts_expire_each cfg l now vids = Some (l', hs) -> Forall host_can hs.
  Proof.
    intros l now vids. revert l. induction vids as [|v vids IH]; intros l l' hs H; cbn [hosts_expire_each] in H.
    - injection H as <- <-. constructor.
    - destruct (state_expire_vlan (learn_cfg cfg) l now v) as [[l1 h1]|] eqn:E; [|discriminate].
      destruct (hosts_expire_each cfg l1 now vids) as [[l2 h2]|] eqn:E2; [|discriminate]. injection H as <- <-.
      apply Forall_app; split; [|eapply IH; eauto].
      unfold state_expire_vlan in E. destruct (expire_hosts_from_vlan _ _ _ _) as [[l3 ex]|]; [|discriminate].
      injection E as <- E. rewrite <- E. destruct (d_idle_dst cfg); [constructor|]. apply Forall_map, Forall_forall. intros; exact I.
  Qed.
  Lemma lacp_expire_ok : forall now ps st st' ms, lacp_expire_each cfg st now ps = (st', ms) -> Forall (sent_ok f D) ms.
  Proof.
    intros now. induction ps as [|p ps IH]; intros st st' ms H; cbn [lacp_expire_each] in H.
    - injection H as <- <-. constructor.
    - destruct (lacp_update cfg st p false (Some now) false false) as [s1 m1] eqn:E1.
      destruct (lacp_expire_each cfg s1 now ps) as [s2 m2] eqn:E2. injection H as <- <-.
      apply Forall_app; split; [eapply lacp_update_ok; eauto|]. eapply IH; eauto.
  Qed.
  Lemma hosts_ok : forall hs, Forall host_can hs -> Forall (sent_ok f D) (flat_map (host_ofmsgs cfg) hs).
  Proof. intros hs H. apply Forall_flat_map. revert H. apply Forall_impl. apply host_ok. Qed.

  Lemma connect_ok : forall st now ups, Forall (sent_ok f D) (snd (datapath_connect cfg st now ups)).
  Proof.
    intros st now ups. unfold datapath_connect. cbv zeta.
    destruct (ports_add cfg true _ _) as [s2 m2] eqn:E. cbn [snd].
    repeat match goal with |- Forall _ (_ ++ _) => apply Forall_app; split end.
    - unfold delete_all_msgs. constructor; [left; split; [reflexivity|left; reflexivity]|]. destruct (d_mode cfg); fa; exact I.
    - unfold default_msgs. cbv zeta.
      fa.
      + eapply (ok_write f D Vlan); [reflexivity|apply L|ndt|auto|items|uniq|auto|let X := fresh in intros _ X; destruct (X eq_refl)|nosets|nogotos].
      + eapply (ok_write f D PipelineModel.EthSrc); [reflexivity|apply L|ndt|auto|items|uniq|auto|let X := fresh in intros _ X; destruct (X eq_refl)|nosets|].
        intros n [H|[]]. injection H as <-. right. split; [reflexivity|]. cbn. f_equal. symmetry. apply L.
      + destruct (has_hairpin cfg) eqn:Eh; fa.
        eapply (ok_write f D Hairpin); [apply hp_included; exact Eh|apply L, Eh|ndt|auto|items|uniq|auto|let X := fresh in intros _ X; destruct (X eq_refl)|nosets|].
        intros n [H|[]]. injection H as <-. right. split; [reflexivity|]. cbn. f_equal. symmetry. apply L.
      + eapply (ok_write f D PipelineModel.EthDst); [reflexivity|apply L|ndt|auto|items|uniq|auto|let X := fresh in intros _ X; destruct (X eq_refl)|nosets|].
        intros n [H|[]]. injection H as <-. right. split; [reflexivity|]. cbn. rewrite (lo_egress _ _ L). cbn. f_equal. symmetry. apply L.
      + eapply (ok_write f D Flood); [reflexivity|apply L|ndt|auto|items|uniq|auto|let X := fresh in intros _ X; destruct (X eq_refl)|nosets|nogotos].
    - unfold init_msgs. apply Forall_app; split; [|apply Forall_app; split; [apply Forall_cons; [|apply Forall_nil]|]].
      + destruct (d_drop_bcast cfg); fa. apply drop_ok_src; [discriminate|items|uniq].
      + apply drop_ok_src; [discriminate|items|uniq].
      + unfold initialise_msgs. apply Forall_map, Forall_forall. intros [d m] Hin. cbn [fst snd].
        eapply (ok_write f D Flood); [reflexivity|apply L|ndt|auto|items|uniq|left|discriminate|nosets|nogotos].
        cbn in Hin. repeat (destruct Hin as [X|Hin]; [injection X as <- <-; vm_compute; discriminate|]). destruct Hin.
    - repeat constructor.
    - eapply ports_add_ok; eauto.
    - apply add_vlans_ok.
  Qed.

  Lemma step_ok : forall st ev st' ms, cstep cfg st ev = Some (st', ms) -> Forall (sent_ok f D) ms.
  Proof.
    intros st ev st' ms H. destruct ev as [now ups|now|now n reason down blocked|now n vid mac|now n sync|now]; cbn [cstep] in H.
    - injection H as H. pose proof (connect_ok st now ups) as X. rewrite H in X. exact X.
    - destruct (datapath_disconnect cfg st now); [|discriminate]. injection H as <- <-. constructor.
    - destruct (ds_running st); [|injection H as <- <-; constructor].
      unfold port_status_handler in H. cbv zeta in H.
      destruct (find_port cfg n) as [p|]; [|injection H as <- <-; constructor].
      destruct (negb (pc_opstatus p)); [injection H as <- <-; constructor|].
      assert (K : forall b st1, (if eqb b (ds_phys st1 n)
           then if b && (blocked || down) then ports_delete cfg true None st1 [p] else Some (st1, [])
           else if b then Some (ports_add cfg false st1 [p]) else ports_delete cfg true None st1 [p]) = Some (st', ms) ->
           Forall (sent_ok f D) ms).
      { clear H. intros b st1 X. destruct (eqb b (ds_phys st1 n)).
        - destruct (b && (blocked || down)); [eapply ports_delete_ok; eauto|injection X as <- <-; constructor].
        - destruct b; [|eapply ports_delete_ok; eauto]. injection X as X. eapply ports_add_ok; eauto. }
      destruct reason; try (eapply K; exact H). injection H as <- <-; constructor.
    - unfold rcv_vlan_packet in H. destruct (negb _); [injection H as <- <-; constructor|].
      destruct (find_port cfg n) as [p|]; [|injection H as <- <-; constructor].
      destruct (find_vlan cfg vid) as [v|]; [|injection H as <- <-; constructor].
      destruct (learnable_mac mac); [|injection H as <- <-; constructor].
      destruct (vlan_rcv_packet (learn_cfg cfg) (ds_learn st) now vid n mac) as [[l hs]|] eqn:E; [|discriminate].
      injection H as <- <-. apply hosts_ok. eapply learn_can; eauto.
    - injection H as H. unfold rcv_lacp in H. destruct (negb _); [injection H as <- <-; constructor|].
      destruct (find_port cfg n) as [p|]; [|injection H as <- <-; constructor].
      destruct (pc_lacp p =? 0); [injection H as <- <-; constructor|]. eapply lacp_update_ok; eauto.
    - unfold state_expire in H. destruct (negb (ds_running st)); [injection H as <- <-; constructor|].
      destruct (lacp_expire_each cfg st now _) as [s1 m1] eqn:E1.
      destruct (hosts_expire_each cfg (ds_learn s1) now _) as [[l hs]|] eqn:E2; [|discriminate]. injection H as <- <-.
      apply Forall_app; split; [eapply lacp_expire_ok; eauto|]. apply hosts_ok. eapply expire_can; eauto.
  Qed.

  Lemma del_vlan_ok : forall vid, Forall (sent_ok f D) (del_vlan_ofmsgs cfg vid).
  Proof. intros vid. unfold del_vlan_ofmsgs. fa; [delete Flood|delete PipelineModel.EthSrc]. Qed.
End L2.

(** ** Reloading *)

Section Reload.
  Variable f : features.
  Variables cfg cfg' : dconf.
  Variable c : fconf.
  Hypothesis L : laid_out f cfg.
  Hypothesis L' : laid_out f cfg'.
  Hypothesis Hi : d_high cfg <> 0.
  Hypothesis Ht : d_highest cfg <> 0.
  Hypothesis Hi' : d_high cfg' <> 0.
  Hypothesis Ht' : d_highest cfg' <> 0.
  Let D := declare (has_externals cfg) (any_restricted cfg) (acl_decl c).
  Let D' := declare (has_externals cfg') (any_restricted cfg') (acl_decl c).

  Lemma reload_ok : forall xp xv st st' ms, warm_reload xp xv cfg cfg' st = Some (st', ms) ->
    Forall (fun m => sent_ok f D m \/ sent_ok f D' m) ms.
  Proof.
    intros xp xv st st' ms H. unfold warm_reload in H.
    destruct (ports_delete cfg false None st _) as [[s1 m1]|] eqn:E1; [|discriminate].
    destruct (ports_delete cfg false None s1 _) as [[s2 m2]|] eqn:E2; [|discriminate].
    destruct (del_vlans cfg s2 _) as [s3 m3] eqn:E3. cbv zeta in H.
    destruct (ports_add cfg' false _ _) as [s5 m5] eqn:E5 in H.
    destruct (ports_add cfg' false s5 _) as [s6 m6] eqn:E6 in H.
    destruct (del_vlans cfg' s6 _) as [s7 m7] eqn:E7. injection H as <- <-.
    assert (A : forall l, Forall (sent_ok f D) l -> Forall (fun m => sent_ok f D m \/ sent_ok f D' m) l) by (intros l; apply Forall_impl; auto).
    assert (B : forall l, Forall (sent_ok f D') l -> Forall (fun m => sent_ok f D m \/ sent_ok f D' m) l) by (intros l; apply Forall_impl; auto).
    repeat match goal with |- Forall _ (_ ++ _) => apply Forall_app; split end.
    - apply A. eapply ports_delete_ok; eauto.
    - apply A. eapply ports_delete_ok; eauto.
    - apply A. unfold del_vlans in E3. injection E3 as _ <-. apply Forall_flat_map, Forall_forall. intros. apply del_vlan_ok; auto.
    - apply B. eapply ports_add_ok; eauto.
    - apply B. eapply ports_add_ok; eauto.
    - apply B. unfold del_vlans in E7. injection E7 as _ <-. apply Forall_flat_map, Forall_forall. intros. apply del_vlan_ok; auto.
    - apply B. apply add_vlans_ok; auto.
  Qed.
End Reload.

(** ** The egress table *)

Section Egress.
  Variable f : features.
  Variable ec : EgressModel.econf.
  Variables ext restricted : bool.
  Variable c : fconf.
  Hypothesis Ie : included f Egress = true.
  Hypothesis Id : tb_id (EgressModel.ec_egress ec) = table_id f Egress.
  Hypothesis Fl : EgressModel.ec_flood ec = table_id f Flood.
  Let D := declare ext restricted (acl_decl c).

  Lemma nd_eg : NoDup (map fst (de_match (D Egress))).
  Proof. cbn. repeat constructor; cbn; intros X; repeat destruct X as [X|X]; try discriminate; auto. Qed.
  Lemma eg_add_ok : forall p, Forall (sent_ok f D) (EgressModel.eg_add ec p).
  Proof.
    intros p.
    assert (R : forall v pop, sent_ok f D (EgressModel.egress_rule ec p v pop)).
    { intros v pop. eapply (ok_write f D Egress); [exact Ie|exact Id|exact nd_eg|auto| | |left; discriminate|discriminate| |].
      - apply Forall_cons; [exists true; split; [reflexivity|reflexivity]|]. apply Forall_cons; [|constructor]. eapply vlan_item_ok; reflexivity.
      - unfold EgressModel.egress_match. cbn [map]. rewrite vlan_item_field. cbn. repeat constructor; cbn; intros X; repeat destruct X as [X|X]; try discriminate; auto.
      - intros acts fd x [E|[]] H. injection E as <-. exfalso. unfold EgressModel.egress_actions in H.
        apply in_app_iff in H as [H|H]; [apply in_map_iff in H as (? & ? & _); discriminate|].
        apply in_app_iff in H as [H|H]; [destruct pop; [destruct H as [H|[]]; discriminate|destruct H]|]. destruct H as [H|[]]; discriminate.
      - intros n [E|[]]. discriminate. }
    unfold EgressModel.eg_add. apply Forall_app; split.
    - apply Forall_map, Forall_forall. intros; apply R.
    - destruct (EgressModel.ep_native p); constructor; [apply R|constructor].
  Qed.
  Lemma eg_del_ok : forall n, Forall (sent_ok f D) (EgressModel.eg_del ec n).
  Proof.
    intros n. constructor; [|constructor]. eapply (ok_del f D Egress); [exact Ie|exact Id|exact nd_eg|auto| |].
    - apply Forall_cons; [exists true; split; reflexivity|constructor].
    - repeat constructor; cbn; intros X; repeat destruct X as [X|X]; try discriminate; auto.
  Qed.
  Lemma eg_default_ok : Forall (sent_ok f D) (EgressModel.eg_default ec).
  Proof.
    constructor; [|constructor].
    eapply (ok_write f D Egress); [exact Ie|exact Id|exact nd_eg|auto|constructor|constructor|auto|intros _ X; destruct (X eq_refl)| |].
    - intros acts fd x [E|[]]; discriminate.
    - intros n [E|[]]. injection E as <-. right. split; [reflexivity|]. cbn. rewrite Fl. reflexivity.
  Qed.
End Egress.

(** ** The checks are sound *)

Lemma checks_sound : forall f D t fm, NoDup (map fst (de_match (D t))) -> NoDup (map fst (fm_match fm)) ->
  passes f D t fm = true ->
  (forall fd v m, In (fd, (v, m)) (fm_match fm) -> exists masks, In (fd, masks) (de_match (D t)) /\
    (fm_cmd fm <> FDelete -> fm_cmd fm <> FDeleteStrict -> m <> -1 -> masks = true)) /\
  (fm_cmd fm <> FDelete -> fm_cmd fm <> FDeleteStrict -> fm_prio fm = 0 -> fm_match fm = []) /\
  (fm_cmd fm <> FDelete -> fm_cmd fm <> FDeleteStrict -> de_exact (D t) = true -> fm_match fm <> [] ->
    forall fd b, In (fd, b) (de_match (D t)) -> In fd (map fst (fm_match fm))) /\
  (forall n, In (Goto n) (fm_inst fm) -> In n (map (table_id f) (next_tables f t)) \/
    (fm_match fm = [] /\ option_map (table_id f) (miss_goto f t) = Some n)).
Proof.
  intros f D t fm N1 N2 P. unfold passes in P. rewrite !andb_true_iff in P. destruct P as [[V _] G].
  assert (Ndel : fm_cmd fm <> FDelete -> fm_cmd fm <> FDeleteStrict -> is_flowdel fm = false).
  { unfold is_flowdel. destruct (fm_cmd fm); congruence. }
  unfold verify_flowmod in V.
  assert (KI : forall i, In i (fm_match fm) -> exists b, In (fst i, b) (de_match (D t)) /\
    (is_flowdel fm = false -> (has_mask i = true -> b = true) /\
       (de_exact (D t) = true -> length (de_match (D t)) = length (fm_match fm)))).
  { intros i Hin. destruct (is_flowdel fm).
    - rewrite forallb_forall in V. specialize (V i Hin). destruct (dict_get field_eqb (fst i) (de_match (D t))) as [b|] eqn:E; [|discriminate].
      exists b. split; [apply dict_get_in in E; [exact E|apply field_eqb_eq]|discriminate].
    - apply andb_true_iff in V as [_ V]. rewrite forallb_forall in V. specialize (V i Hin).
      destruct (dict_get field_eqb (fst i) (de_match (D t))) as [b|] eqn:E; [|discriminate].
      exists b. split; [apply dict_get_in in E; [exact E|apply field_eqb_eq]|]. intros _. apply andb_true_iff in V as [V1 V2]. split.
      + intros M. rewrite M in V1. cbn in V1. rewrite orb_false_r in V1. exact V1.
      + intros X. rewrite X in V2. apply PeanoNat.Nat.eqb_eq. exact V2. }
  split; [|split; [|split]].
  - intros fd v m Hin. destruct (KI _ Hin) as (b & Hb & K). exists b. split; [exact Hb|]. intros C1 C2 M.
    apply (K (Ndel C1 C2)). unfold has_mask. cbn [snd]. rewrite (proj2 (Z.eqb_neq m (-1)) M). reflexivity.
  - intros C1 C2 Z0. rewrite (Ndel C1 C2), Z0 in V. cbn in V. destruct (fm_match fm); [reflexivity|discriminate].
  - intros C1 C2 X NE fd b Hb.
    assert (Le : length (de_match (D t)) = length (fm_match fm)).
    { destruct (fm_match fm) as [|i r] eqn:E; [contradiction|]. rewrite <- E in *.
      destruct (KI i) as (b' & _ & K); [rewrite E; left; reflexivity|]. apply (K (Ndel C1 C2)). exact X. }
    assert (I1 : incl (map fst (fm_match fm)) (map fst (de_match (D t)))).
    { intros x Hx. apply in_map_iff in Hx as (i & <- & Hi). destruct (KI i Hi) as (b' & Hb' & _). apply in_map_iff. exists (fst i, b'). auto. }
    assert (I2 : incl (map fst (de_match (D t))) (map fst (fm_match fm))).
    { apply (NoDup_length_incl N2); [|exact I1].
    assert (L1 : length (map fst (de_match (D t))) = length (de_match (D t))) by apply map_length.
    assert (L2 : length (map fst (fm_match fm)) = length (fm_match fm)) by apply map_length.
    rewrite L1. rewrite L2. rewrite Le. apply le_n. }
    apply I2, in_map_iff. exists (fd, b). auto.
  - intros n Hn. unfold verify_gotos in G. rewrite forallb_forall in G. specialize (G _ Hn). cbn in G.
    apply orb_true_iff in G as [G|G].
    + left. apply (mem_spec _ _ Z.eqb_eq). exact G.
    + right. apply andb_true_iff in G as [G1 G2]. destruct (fm_match fm); [|discriminate]. split; [reflexivity|].
      destruct (miss_goto f t); [|discriminate]. cbn. apply Z.eqb_eq in G2. rewrite G2. reflexivity.
Qed.
