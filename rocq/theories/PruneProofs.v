(** * Filters on stack ports: proofs *)
From Coq Require Import List Bool ZArith Lia.
From Verif Require Import PyBase PyBaseProofs OpenFlow FloodRulesModel FloodRulesProofs VipSpec VipProofs PruneModel PruneSpec.
From Verif Require CoproProofs.
Import ListNotations.
Open Scope Z_scope.

Lemma pruned_iff : forall st p, is_pruned_port st p = false <-> floods_come_in st p.
Proof.
  intros st p. unfold is_pruned_port, floods_come_in, is_towards_root.
  pose proof (mem_spec _ Z.eqb Z.eqb_eq p (st_towards st)) as T.
  pose proof (mem_spec _ Z.eqb Z.eqb_eq p (st_away st)) as A.
  pose proof (mem_spec _ Z.eqb Z.eqb_eq p (st_redundant st)) as R.
  destruct (mem Z.eqb p (st_towards st)).
  - assert (I : In p (st_towards st)) by tauto. destruct (st_chosen st) as [c|]; cbn.
    + destruct (Z.eqb_spec p c); cbn.
      * subst. intuition.
      * split; [discriminate|]. intros [[_ E]|[N _]]; [congruence|tauto].
    + split; [discriminate|]. intros [[_ E]|[N _]]; [discriminate|tauto].
  - assert (I : ~ In p (st_towards st)) by (intros X; apply T in X; discriminate).
    destruct (mem Z.eqb p (st_away st)).
    + assert (I' : In p (st_away st)) by tauto. destruct (mem Z.eqb p (st_redundant st)).
      * split; [discriminate|]. intros [[X _]|[_ [_ N]]]; tauto.
      * split; [|reflexivity]. intros _. right. repeat split; auto. intros X. apply R in X. discriminate.
    + split; [discriminate|]. intros [[X _]|[_ [X _]]]; [tauto|]. apply A in X. discriminate.
Qed.

Section Prune.
  Variable cfg : prconf.
  Hypothesis NA : pr_class cfg <> OFPTT_ALL.

  (** What the rule for a stack port says, if there is to be one *)
  Definition want (st : prstate) (p : Z) : option (list instruction) :=
    if is_pruned_port st p then Some []
    else if negb (st_root st) && pr_reflection cfg && (st_edge st || is_towards_root st p)
    then Some [Goto (pr_flood cfg)] else None.

  Definition at_slot (prio : Z) (m : fmatch) (f : flow) : Prop :=
    f_table f = pr_class cfg /\ f_prio f = prio /\ f_match f = m.
  Lemma at_slot_dec : forall prio m f, same_slot (pr_class cfg) prio m f = true <-> at_slot prio m f.
  Proof.
    intros. unfold same_slot, at_slot. rewrite !andb_true_iff, !Z.eqb_eq, CoproProofs.fmatch_eqb_spec. tauto.
  Qed.
  Lemma at_slot_no : forall prio m f, same_slot (pr_class cfg) prio m f = false <-> ~ at_slot prio m f.
  Proof. intros. rewrite <- at_slot_dec. destruct (same_slot _ _ _ _); split; congruence. Qed.

  Lemma in_strict : forall prio m inst fs f,
    In f (apply_flowmod (pr_mod cfg FDeleteStrict prio m inst) fs) <-> In f fs /\ ~ at_slot prio m f.
  Proof.
    intros. unfold apply_flowmod. cbn [pr_mod fm_cmd]. rewrite filter_In, negb_true_iff.
    assert (E : del_hits (pr_mod cfg FDeleteStrict prio m inst) f = same_slot (pr_class cfg) prio m f).
    { unfold del_hits, same_slot, table_sel, out_sel.
      cbn [pr_mod fm_cmd fm_table fm_prio fm_match fm_out_port fm_out_group].
      apply Z.eqb_neq in NA. rewrite NA, !Z.eqb_refl. cbn [orb andb]. rewrite andb_true_r. reflexivity. }
    rewrite E, at_slot_no. tauto.
  Qed.
  Lemma in_added : forall prio m inst fs f,
    In f (apply_flowmod (pr_mod cfg FAdd prio m inst) fs) <->
    f = flow_of (pr_mod cfg FAdd prio m inst) \/ In f fs /\ ~ at_slot prio m f.
  Proof.
    intros. rewrite CoproProofs.in_add by reflexivity. cbn [pr_mod fm_table fm_prio fm_match].
    rewrite at_slot_no. tauto.
  Qed.

  Definition the_flow (m : fmatch) (inst : list instruction) : flow := flow_of (pr_mod cfg FAdd 0x4100 m inst).
  Definition prune_of (st : prstate) (p : Z) (dst : option (Z * Z)) : bool :=
    match dst with Some _ => is_pruned_port st p | None => false end.
  Definition rule_prio (dst : option (Z * Z)) : Z := match dst with Some _ => 0x4100 | None => 0x40ff end.

  (** One port and one destination: the slot is emptied, and filled with what is wanted *)
  Lemma one : forall st vid p dst s f,
    In f (sw_flows (apply_msgs (map FlowMod (mask_filters cfg st vid p dst (prune_of st p dst))) s)) <->
    (In f (sw_flows s) /\ ~ at_slot (rule_prio dst) (pr_match vid p dst) f) \/
    (exists dm inst, dst = Some dm /\ want st p = Some inst /\ f = the_flow (pr_match vid p dst) inst).
  Proof.
    intros st vid p dst s f. unfold mask_filters, prune_of, want, filter_packets, remove_filter, select_packets.
    destruct dst as [dm|].
    - change (FILTER_PRIORITY + (classification_offset - (FILTER_PRIORITY - SELECT_PRIORITY))) with 0x4100.
      change (SELECT_PRIORITY + classification_offset) with 0x4100. cbn [rule_prio].
      destruct (is_pruned_port st p).
      + unfold apply_msgs. cbn [map fold_left apply_msg sw_flows]. rewrite in_added. unfold the_flow. split.
        * intros [->|H]; [right; exists dm, []; auto|left; exact H].
        * intros [H|[d [i [_ [E ->]]]]]; [right; exact H|left; congruence].
      + rewrite andb_true_r. destruct (negb (st_root st) && pr_reflection cfg && (st_edge st || is_towards_root st p)) eqn:E.
        * unfold apply_msgs. cbn [map fold_left apply_msg sw_flows]. rewrite in_added, in_strict. unfold the_flow. split.
          -- intros [->|[[H _] N]]; [right; exists dm, [Goto (pr_flood cfg)]; auto|left; auto].
          -- intros [[H N]|[d [i [_ [X ->]]]]]; [right; auto|left; congruence].
        * unfold apply_msgs. cbn [map fold_left apply_msg sw_flows]. rewrite in_strict. split.
          -- intros H. left. exact H.
          -- intros [H|[d [i [_ [X _]]]]]; [exact H|discriminate].
    - change (FILTER_PRIORITY + (classification_offset - (FILTER_PRIORITY - SELECT_PRIORITY) - 1)) with 0x40ff.
      rewrite andb_false_r. cbn [andb rule_prio]. unfold apply_msgs. cbn [map fold_left apply_msg sw_flows]. rewrite in_strict. split.
      + intros H. left. exact H.
      + intros [H|[d [i [X _]]]]; [exact H|discriminate].
  Qed.

  Lemma match_port : forall vid p dst vid' p' dst', pr_match vid p dst = pr_match vid' p' dst' ->
    p = p' /\ Z.lor vid OFPVID_PRESENT = Z.lor vid' OFPVID_PRESENT /\ dst = dst'.
  Proof.
    intros vid p dst vid' p' dst' E. unfold pr_match, exact, masked in E.
    destruct dst as [[d m]|], dst' as [[d' m']|]; cbn [app] in E; injection E; intros; try discriminate; subst; auto.
  Qed.

  (** Any number of them *)
  Definition key : Type := Z * option (Z * Z).
  Definition block (st : prstate) (vid : Z) (ks : list key) : list flowmod :=
    flat_map (fun k => mask_filters cfg st vid (fst k) (snd k) (prune_of st (fst k) (snd k))) ks.

  Lemma many : forall st vid ks s f,
    In f (sw_flows (apply_msgs (map FlowMod (block st vid ks)) s)) <->
    (In f (sw_flows s) /\ forall k, In k ks -> ~ at_slot (rule_prio (snd k)) (pr_match vid (fst k) (snd k)) f) \/
    (exists p dm inst, In (p, Some dm) ks /\ want st p = Some inst /\ f = the_flow (pr_match vid p (Some dm)) inst).
  Proof.
    induction ks as [|[p dst] ks IH]; intros s f.
    - cbn. split; [intros H; left; split; [exact H|tauto]|]. intros [[H _]|[p [dm [i [[] _]]]]]; exact H.
    - cbn [block flat_map fst snd]. rewrite map_app. unfold apply_msgs. rewrite fold_left_app.
      fold (apply_msgs (map FlowMod (mask_filters cfg st vid p dst (prune_of st p dst))) s).
      fold (block st vid ks). 
      match goal with |- In f (sw_flows (fold_left _ _ ?s1)) <-> _ => change (In f (sw_flows (apply_msgs (map FlowMod (block st vid ks)) s1)) <-> 
         (In f (sw_flows s) /\ (forall k, In k ((p, dst) :: ks) -> ~ at_slot (rule_prio (snd k)) (pr_match vid (fst k) (snd k)) f) \/
         (exists p0 dm inst, In (p0, Some dm) ((p, dst) :: ks) /\ want st p0 = Some inst /\ f = the_flow (pr_match vid p0 (Some dm)) inst))) end.
      rewrite IH, one. split.
      + intros [[[[H N]|[dm [i [-> [W ->]]]]] M]|[p' [dm [i [I [W ->]]]]]].
        * left. split; [exact H|]. intros k [<-|K]; [exact N|apply M; exact K].
        * right. exists p, dm, i. split; [left; reflexivity|]. auto.
        * right. exists p', dm, i. split; [right; exact I|]. auto.
      + intros [[H N]|[p' [dm [i [I [W ->]]]]]].
        * left. split; [left; split; [exact H|]|].
          -- apply (N (p, dst)). left. reflexivity.
          -- intros k K. apply N. right. exact K.
        * assert (D : In (p', Some dm) ks \/ ~ In (p', Some dm) ks).
          { destruct (in_dec (fun a b : key => ltac:(repeat decide equality) : {a = b} + {a <> b}) (p', Some dm) ks); auto. }
          destruct D as [D|D]; [right; exists p', dm, i; auto|].
          destruct I as [I|I]; [|contradiction]. injection I as -> ->.
          left. split; [right; exists dm, i; auto|].
          intros [q dst'] K [_ [_ E]]. cbn [fst snd the_flow flow_of f_match pr_mod fm_match] in E.
          apply match_port in E. destruct E as [<- [_ <-]]. contradiction.
  Qed.

  (** The ports and destinations of a refresh *)
  Definition keys (u : bool) : list key :=
    flat_map (fun c => if fc_unicast c && negb u then [] else map (fun p => (p, fc_dst c)) (pr_ports cfg))
      (flood_dsts (pr_restricted cfg)).
  Lemma refresh_block : forall st vid u, refresh cfg st vid u = block st vid (keys u).
  Proof.
    intros. unfold refresh, keys, block. induction (flood_dsts (pr_restricted cfg)) as [|c cs IH]; [reflexivity|].
    cbn [flat_map]. rewrite flat_map_app. apply f_equal2; [clear IH|exact IH].
    destruct (fc_unicast c && negb u); [reflexivity|].
    induction (pr_ports cfg) as [|p ps IHp]; [reflexivity|]. cbn [map flat_map fst snd].
    apply f_equal2; [reflexivity|exact IHp].
  Qed.
  Definition is_dst (dm : Z * Z) : Prop := exists c, In c (flood_dsts (pr_restricted cfg)) /\ fc_dst c = Some dm.
  Lemma grouped : forall c dm, In c (flood_dsts (pr_restricted cfg)) -> fc_dst c = Some dm -> fc_unicast c = false.
  Proof.
    intros c dm H E. destruct (pr_restricted cfg); cbn in H;
      repeat match type of H with _ \/ _ => destruct H as [H|H] end; subst; cbn in *; congruence || tauto.
  Qed.
  Lemma in_keys : forall u p dm, In (p, Some dm) (keys u) <-> In p (pr_ports cfg) /\ is_dst dm.
  Proof.
    intros u p dm. unfold keys, is_dst. rewrite in_flat_map. split.
    - intros [c [C H]]. destruct (fc_unicast c && negb u); [destruct H|].
      apply in_map_iff in H. destruct H as [q [E H]]. injection E as -> E. eauto.
    - intros [P [c [C E]]]. exists c. split; [exact C|]. rewrite (grouped c dm C E). cbn [andb].
      apply in_map_iff. exists p. rewrite E. auto.
  Qed.

  (** ** Histories *)

  Lemma last_snoc : forall h vid u st w x, last_state (h ++ [(vid, u, st)]) w x <->
    (w = vid /\ x = st) \/ (w <> vid /\ last_state h w x).
  Proof.
    intros h vid u st w x. split.
    - intros [h1 [v [h2 [E N]]]]. destruct h2 as [|e h2] using rev_ind.
      + apply app_inj_tail in E. destruct E as [_ E]. injection E as -> -> ->. left. auto.
      + clear IHh2. rewrite app_comm_cons, app_assoc in E. apply app_inj_tail in E. destruct E as [-> <-]. right. split.
        * intros ->. apply (N (vid, u, st)); [apply in_or_app; right; left; reflexivity|reflexivity].
        * exists h1, v, h2. split; [reflexivity|]. intros e I. apply N. apply in_or_app. left. exact I.
    - intros [[-> ->]|[N [h1 [v [h2 [-> M]]]]]].
      + exists h, u, []. split; [reflexivity|]. intros e [].
      + exists h1, v, (h2 ++ [(vid, u, st)]). split; [rewrite app_comm_cons, app_assoc; reflexivity|].
        intros e I. apply in_app_iff in I. destruct I as [I|[<-|[]]]; [apply M; exact I|cbn; congruence].
  Qed.

  Lemma last_one : forall h vid a b, last_state h vid a -> last_state h vid b -> a = b.
  Proof.
    intros h vid a b [h1 [u [h2 [E N]]]] [k1 [u' [k2 [E' N']]]]. subst h.
    revert h1 E' N'. induction k1 as [|e k1 IH]; intros h1 E' N'.
    - destruct h1 as [|e h1]; [injection E'; congruence|]. injection E' as _ E'. exfalso.
      apply (N' (vid, u, a)); [rewrite <- E'; apply in_or_app; right; left; reflexivity|reflexivity].
    - destruct h1 as [|e' h1].
      + injection E' as _ E'. exfalso. apply (N (vid, u', b)); [rewrite E'; apply in_or_app; right; left; reflexivity|reflexivity].
      + injection E' as _ E'. apply (IH h1); assumption.
  Qed.

  Definition ours (h : list pr_event) (f : flow) : Prop :=
    exists vid st p dm inst, last_state h vid st /\ In p (pr_ports cfg) /\ is_dst dm /\
      want st p = Some inst /\ f = the_flow (pr_match vid p (Some dm)) inst.

  Lemma ours_slot : forall h f, ours h f -> f_table f = pr_class cfg /\ f_prio f = 0x4100.
  Proof. intros h f [vid [st [p [dm [i [_ [_ [_ [_ ->]]]]]]]]]. split; reflexivity. Qed.

  Lemma vid_inj : forall a b, 0 <= a < 4096 -> 0 <= b < 4096 ->
    Z.lor a OFPVID_PRESENT = Z.lor b OFPVID_PRESENT -> a = b.
  Proof. intros a b A B H. rewrite !CoproProofs.lor_add in H by assumption. lia. Qed.

  Lemma last_in : forall h vid st, wf_hist h -> last_state h vid st -> 0 <= vid < 4096.
  Proof.
    intros h vid st W [h1 [u [h2 [-> _]]]]. apply (W (vid, u, st)). apply in_or_app. right. left. reflexivity.
  Qed.

  (** The rules there are: those there were to begin with, and those wanted *)
  Lemma run_is : forall s h,
    (forall f, In f (sw_flows s) -> f_table f = pr_class cfg -> f_prio f <> 0x4100 /\ f_prio f <> 0x40ff) ->
    wf_hist h -> forall f, In f (sw_flows (pr_run cfg h s)) <-> In f (sw_flows s) \/ ours h f.
  Proof.
    intros s h B. induction h as [|[[vid u] st] h IH] using rev_ind; intros W f.
    - cbn. split; [auto|]. intros [H|[vid [st [p [dm [i [[h1 [u [h2 [E _]]]] _]]]]]]]; [exact H|].
      destruct h1; discriminate.
    - unfold pr_run. rewrite fold_left_app. fold (pr_run cfg h s). cbn [fold_left]. unfold pr_step. cbn [fst snd].
      assert (Wh : wf_hist h) by (intros e I; apply W; apply in_or_app; left; exact I).
      assert (V : 0 <= vid < 4096) by (apply (W (vid, u, st)); apply in_or_app; right; left; reflexivity).
      rewrite refresh_block, many, (IH Wh). split.
      + intros [[[H|O] N]|[p [dm [i [K [X ->]]]]]].
        * left. exact H.
        * right. destruct O as [w [x [p [dm [i [L [P [D [X ->]]]]]]]]]. exists w, x, p, dm, i.
          split; [|auto]. apply last_snoc. right. split; [|exact L]. intros ->.
          apply (N (p, Some dm)); [apply in_keys; auto|]. cbn [fst snd rule_prio]. repeat split.
        * right. apply in_keys in K. destruct K as [P D]. exists vid, st, p, dm, i.
          split; [apply last_snoc; left; auto|auto].
      + intros [H|[w [x [p [dm [i [L [P [D [X ->]]]]]]]]]].
        * left. split; [left; exact H|]. intros [p dst] _ [T [Pr _]]. destruct (B f H T) as [B1 B2].
          cbn [snd] in Pr. destruct dst; cbn [rule_prio] in Pr; contradiction.
        * apply last_snoc in L. destruct L as [[-> ->]|[N L]].
          -- right. exists p, dm, i. split; [apply in_keys; auto|auto].
          -- left. split; [right; exists w, x, p, dm, i; auto|].
             intros [q dst] _ [_ [_ E]]. cbn [fst snd the_flow flow_of f_match pr_mod fm_match] in E.
             apply match_port in E. destruct E as [_ [E _]]. apply N.
             apply vid_inj; [apply (last_in h w x Wh L)|exact V|exact E].
  Qed.

  (** ** Packets *)

  Lemma dst_match : forall pk vid p dm, matches pk (pr_match vid p (Some dm)) = true <->
    pk_in pk = p /\ pk_get pk VlanVid = Some (Z.lor vid OFPVID_PRESENT) /\
    exists x, pk_hdr pk EthDst = Some x /\ Z.land x (snd dm) = Z.land (fst dm) (snd dm).
  Proof.
    intros pk vid p [d m]. unfold pr_match. cbn [app]. rewrite !matches_cons. cbn [fst snd].
    assert (E : matches pk [masked EthDst d m] = true <-> exists x, pk_hdr pk EthDst = Some x /\ Z.land x m = Z.land d m).
    { cbn [matches forallb]. rewrite andb_true_r. unfold item_matches, masked. cbn [pk_get].
      destruct (pk_hdr pk EthDst) as [x|].
      - rewrite Z.eqb_eq. split; [eauto|intros [y [E H]]; congruence].
      - split; [discriminate|intros [y [E H]]; discriminate]. }
    rewrite E. cbn [pk_get]. split; intros [A [C D]]; repeat split; auto; congruence.
  Qed.

  Lemma group_dst : forall pk x, pk_hdr pk EthDst = Some x -> 0 <= x < 2 ^ 48 ->
    (to_group pk <-> exists dm, is_dst dm /\ Z.land x (snd dm) = Z.land (fst dm) (snd dm)).
  Proof.
    intros pk x E R.
    assert (B1 : Z.land x (mac_byte_mask 3) = Z.land 0x0180c2000000 (mac_byte_mask 3) <-> x / 2 ^ 24 = 0x0180c2)
      by (rewrite byte_class by lia; reflexivity).
    assert (B2 : Z.land x (mac_byte_mask 3) = Z.land 0x01005e000000 (mac_byte_mask 3) <-> x / 2 ^ 24 = 0x01005e)
      by (rewrite byte_class by lia; reflexivity).
    assert (B3 : Z.land x (mac_byte_mask 2) = Z.land 0x333300000000 (mac_byte_mask 2) <-> x / 2 ^ 32 = 0x3333)
      by (rewrite byte_class by lia; reflexivity).
    assert (B4 : Z.land x (mac_byte_mask 6) = Z.land 0xffffffffffff (mac_byte_mask 6) <-> x = 0xffffffffffff)
      by (apply full_class; lia).
    split.
    - intros [y [E' [C _]]]. assert (y = x) by congruence. subst y.
      assert (M : forall c, In c FLOOD_DSTS -> In c (flood_dsts (pr_restricted cfg))).
      { intros c C'. unfold flood_dsts. destruct (pr_restricted cfg); [apply in_or_app; left|]; exact C'. }
      destruct C as [C|[C|[C|C]]].
      + exists (0x0180c2000000, mac_byte_mask 3). split; [|apply B1, C].
        eexists (mkClass false None _). split; [apply M; right; left|]; reflexivity.
      + exists (0x01005e000000, mac_byte_mask 3). split; [|apply B2, C].
        eexists (mkClass false None _). split; [apply M; right; right; left|]; reflexivity.
      + exists (0x333300000000, mac_byte_mask 2). split; [|apply B3, C].
        eexists (mkClass false None _). split; [apply M; right; right; right; left|]; reflexivity.
      + exists (0xffffffffffff, mac_byte_mask 6). split; [|apply B4, C].
        eexists (mkClass false None _). split; [apply M; right; right; right; right; left|]; reflexivity.
    - intros [dm [[c [C D]] L]]. exists x. split; [exact E|]. split; [|exact R].
      assert (C' : In c (FLOOD_DSTS ++ RESTRICTED_FLOOD_DISTS)).
      { unfold flood_dsts in C. destruct (pr_restricted cfg); [exact C|apply in_or_app; left; exact C]. }
      clear C. cbn [FLOOD_DSTS RESTRICTED_FLOOD_DISTS app In] in C'.
      assert (B5 : forall d, 0 <= d < 2 ^ 48 -> Z.land x (mac_byte_mask 3) = Z.land d (mac_byte_mask 3) ->
                x / 2 ^ 24 = d / 2 ^ 24) by (intros d Hd X; apply (proj1 (byte_class x d 3 R Hd ltac:(lia))); exact X).
      assert (B6 : forall d, 0 <= d < 2 ^ 48 -> Z.land x (mac_byte_mask 6) = Z.land d (mac_byte_mask 6) -> x = d)
        by (intros d Hd X; apply (proj1 (full_class x d R Hd)); exact X).
      repeat match type of C' with _ \/ _ => destruct C' as [C'|C'] end; try (subst c; cbn [fc_dst] in D); try discriminate D;
        try (injection D as <-; cbn [fst snd] in L).
      + left. apply B1, L.
      + right; left. apply B2, L.
      + right; right; left. apply B3, L.
      + right; right; right. apply B4, L.
      + right; right; right. apply B4, L.
      + right; right; left. apply B5 in L; [|lia].
        change (0x3333ff000000 / 2 ^ 24) with 0x3333ff in L. change (2 ^ 24) with 0x1000000 in L. change (2 ^ 32) with 0x100000000.
        pose proof (Z.div_mod x 0x1000000 ltac:(lia)). pose proof (Z.mod_pos_bound x 0x1000000 ltac:(lia)).
        symmetry. apply (Z.div_unique x 0x100000000 0x3333 (x - 0x333300000000)); lia.
      + right; right; left. apply B6 in L; [|lia]. subst x. reflexivity.
      + right; right; left. apply B6 in L; [|lia]. subst x. reflexivity.
      + destruct C'.
  Qed.

  (** A rule of ours the packet matches *)
  Lemma ours_match : forall h pk f, wf_hist h -> ours h f -> matches pk (f_match f) = true ->
    (forall x, pk_hdr pk EthDst = Some x -> 0 <= x < 2 ^ 48) -> (forall v pcp r, pk_tags pk = (v, pcp) :: r -> 0 <= v < 4096) ->
    exists vid st p, last_state h vid st /\ came_in cfg pk vid p /\ to_group pk /\ want st p = Some (f_inst f).
  Proof.
    intros h pk f W [vid [st [p [dm [i [L [P [D [X ->]]]]]]]]] M Wd Wv.
    cbn [the_flow flow_of f_match pr_mod fm_match] in M. apply dst_match in M. destruct M as [I [V [x [E La]]]].
    exists vid, st, p. split; [exact L|]. split; [|split; [|exact X]].
    - split; [exact P|]. split; [exact I|]. cbn [pk_get] in V.
      pose proof (last_in h vid st W L) as Lv. rewrite (CoproProofs.lor_add vid Lv) in V.
      destruct (pk_tags pk) as [|[v pcp] r] eqn:T.
      + injection V as V. unfold OFPVID_NONE, OFPVID_PRESENT in V. lia.
      + exists pcp, r. pose proof (Wv v pcp r eq_refl) as Hv. rewrite (CoproProofs.lor_add v Hv) in V.
        injection V as V. replace v with vid by lia. reflexivity.
    - apply (group_dst pk x E (Wd x E)). exists dm. auto.
  Qed.

  Lemma want_does : forall s h pk vid p st inst, begins cfg s pk -> wf_hist h -> last_state h vid st ->
    came_in cfg pk vid p -> to_group pk -> want st p = Some inst ->
    does (pr_run cfg h s) (pr_class cfg) pk inst.
  Proof.
    intros s h pk vid p st inst [_ B] W L [P [I [pcp [r T]]]] G X.
    assert (R := run_is s h (fun f F Ft => conj (proj1 (B f F Ft)) (proj1 (proj2 (B f F Ft)))) W).
    destruct G as [x [E G]]. destruct (proj1 (group_dst pk x E (proj2 G)) (ex_intro _ x (conj E G))) as [dm [D La]].
    set (g := the_flow (pr_match vid p (Some dm)) inst).
    assert (Gi : In g (sw_flows (pr_run cfg h s))) by (apply R; right; exists vid, st, p, dm, inst; auto).
    assert (Gm : matches pk (f_match g) = true).
    { apply dst_match. split; [exact I|]. split; [cbn [pk_get]; rewrite T; reflexivity|]. exists x. auto. }
    assert (All : forall f, In f (sw_flows (pr_run cfg h s)) -> f_table f = pr_class cfg -> matches pk (f_match f) = true ->
              f_prio f < 0x4100 \/ f_prio f = 0x4100 /\ f_inst f = inst).
    { intros f F Ft Fm. apply R in F. destruct F as [F|F]; [left; apply (B f F Ft); exact Fm|].
      right. split; [apply (ours_slot h); exact F|].
      destruct F as [w [st' [q [dm' [i [L' [P' [D' [X' ->]]]]]]]]].
      cbn [the_flow flow_of f_match f_inst pr_mod fm_match fm_inst] in *. apply dst_match in Fm. destruct Fm as [I' [V' _]].
      cbn [pk_get] in V'. rewrite T in V'. injection V' as V'.
      apply vid_inj in V'; [|apply (last_in h vid st W L)|apply (last_in h w st' W L')].
      assert (st' = st).
      { subst w. apply (last_one h vid); assumption. }
      congruence. }
    split.
    - exists g. split; [exact Gi|]. split; [reflexivity|]. split; [exact Gm|].
      intros f F Ft Fm. change (f_prio g) with 0x4100. destruct (All f F Ft Fm) as [H|[H _]]; lia.
    - intros f [F [Ft [Fm Max]]]. destruct (All f F Ft Fm) as [H|[_ H]]; [|exact H].
      specialize (Max g Gi eq_refl Gm). change (f_prio g) with 0x4100 in Max. lia.
  Qed.
End Prune.
