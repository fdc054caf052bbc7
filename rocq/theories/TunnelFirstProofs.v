(** * The first rule of an ACL with tunnels decides *)
From Coq Require Import ZArith List Bool Lia Permutation.
From Verif Require Import PyBase PyBaseProofs OpenFlow TrimModel TrimProofs ReorderModel ReorderSpec ReorderProofs BatchProofs SlotProofs TableModel AclModel AclSpec AclProofs AclMatchProofs
  StackModel TunnelModel TunnelSpec TunnelProofs TunnelWalkProofs TunnelRestSpec TunnelRestProofs.
Import ListNotations.
Open Scope Z_scope.

Section First.
  Variables (c : tconf) (ls : list tacl) (name : Z) (l : tacl) (s : tsource) (n : Z).
  Hypothesis (L : In l ls) (DP : ts_dp s = name) (PORT : ts_port s = Some n) (AL : alone c ls l s).
  Hypothesis ONCE : forall l r, In l ls -> In r (al_rules (tl_acl l)) -> NoDup (map (fun a => snd (fst a)) (ru_attrs r)).
  Let T := tb_id (tc_table c).

  Definition kept (e : flow) : Prop := f_table e = T ->
    (exists m, m <> n /\ In (exact InPort m) (f_match e)) \/
    (exists j r, nth_error (al_rules (tl_acl l)) j = Some r /\ f_prio e = FILTER_PRIORITY - Z.of_nat j /\ f_match e = entry_match s r) \/
    f_prio e <= FILTER_PRIORITY - Z.of_nat (length (al_rules (tl_acl l))) \/
    (exists l' d pcp, In l' ls /\ In d (tl_dests l') /\ f_match e = tunnel_match (td_id d) pcp).

  Lemma owned_kept : forall e, owned c ls name e -> kept e.
  Proof.
    intros e [_ O] _. destruct O as [(_ & l' & d & pcp & L' & D & M)|[(l' & s' & r & i & L' & S' & N' & NI & RT & P & M)|(l' & s' & r & i & L' & S' & N' & ID & _)]].
    - right. right. right. exists l', d, pcp. auto.
    - unfold alone in AL. rewrite PORT in AL. destruct AL as (_ & EX & A). destruct (A l' s' L' S') as [A1 A2]; [congruence|].
      destruct (ts_port s') as [m|] eqn:EM; [|contradiction A1; reflexivity]. destruct (Z.eq_dec m n) as [->|NE].
      + assert (l' = l) by (apply A2; reflexivity). subst l'. assert (s' = s) by (destruct s, s'; cbn in *; congruence). subst s'. right. left. exists i, r.
        rewrite EX in P. auto.
      + left. exists m. split; [exact NE|]. rewrite M. unfold entry_match. rewrite EM.
        assert (X := rule_match_in (source_place c l' s') r InPort (m, -1)). unfold rule_match, anchor, single in X. cbn [source_place pl_port pl_vid] in X. rewrite EM in X. apply X; auto.
        apply (ONCE l' r L'). exact (nth_error_In _ _ NI).
    - unfold alone in AL. rewrite PORT in AL. destruct AL as (E & _). rewrite E in ID. destruct ID.
  Qed.
  Lemma kept_modify : forall (w : flowmod) f, kept f -> kept (with_inst (fm_inst w) f).
  Proof. intros w f K. exact K. Qed.
  Lemma settled_acls : forall w, settled c ls name l s n w -> map fst (tw_acls w) = ls.
  Proof.
    intros w R. induction R as [|w ms sh ub out R IH K Hsh V|me w acls' pre ms sh ub out R IH N E K Hsh V].
    - cbn. rewrite map_map. cbn. apply map_id.
    - exact IH.
    - cbn. rewrite (update_acls _ _ _ _ _ E). exact IH.
  Qed.
  Lemma settled_kept : forall w, settled c ls name l s n w -> forall e, In e (sw_flows (tw_sw w)) -> kept e.
  Proof.
    assert (KA : forall ms w, keeps c l s n ms -> In (FlowMod w) ms -> fm_cmd w = FAdd -> kept (flow_of w)).
    { intros ms w K W A. destruct (K w W) as [_ H]. intros HT. destruct (H A HT) as [X|[X|X]]; [left|right; left|right; right; left]; exact X. }
    intros w R. induction R as [|w ms sh ub out R IH K Hsh V|me w acls' pre ms sh ub out R IH N E K Hsh V].
    - intros e [].
    - cbn [tw_sw]. apply (reorder_inv kept sh ub ms out (tw_sw w) Hsh V); [exact (fun w0 W A => KA ms w0 K W A)|intros w0 f _ _ _ KF; exact KF|intros w0 W; apply (K w0 W)|exact IH].
    - cbn [tw_sw]. apply (reorder_inv kept sh ub (pre ++ ms) out (tw_sw w) Hsh V); [|intros w0 f _ _ _ KF; exact KF| |exact IH].
      + intros w0 W A. apply in_app_iff in W as [W|W]; [exact (KA pre w0 K W A)|]. apply owned_kept. rewrite <- N. exact (update_owned c ls me _ _ _ (settled_acls w R) E w0 W A).
      + intros w0 W. apply in_app_iff in W as [W|W]; [apply (K w0 W)|]. destruct (update_cmd c me _ _ _ E w0 W) as [X|X]; rewrite X; discriminate.
  Qed.

  Lemma entry_covers : forall pk r, pk_in pk = n -> In r (al_rules (tl_acl l)) -> (matches pk (entry_match s r) = true <-> rule_covers (Some InPort) pk r).
  Proof.
    intros pk r P R. assert (X := rule_matches (source_place c l s) r pk). unfold rule_match, anchor, single in X. cbn [source_place pl_port pl_vid] in X. rewrite PORT in X.
    unfold entry_match. rewrite PORT, (X (or_intror eq_refl) (ONCE l r L R)). unfold agrees. cbn [pk_get fst snd]. rewrite P. split; [intros [_ H]; exact H|]. intros H. split; [|exact H]. exists n. auto.
  Qed.
  Hypothesis IDS : forall l d, In l ls -> In d (tl_dests l) -> 0 <= td_id d < 4096.

  Theorem first_rule : forall w pk r, settled c ls name l s n w -> pk_in pk = n -> untunnelled ls pk ->
    decides (rule_covers (Some InPort) pk) (al_rules (tl_acl l)) r ->
    exists i, first_at r i (al_rules (tl_acl l)) /\ decides_at (tw_sw w) T s r i pk.
  Proof.
    intros w pk r R P UT D. apply decides_nth in D as (i & NI & C & B). exists i. split.
    { split; [exact NI|]. intros j J E. exact (B j r J E C). }
    split; [rewrite PORT; auto|]. intros e I ET M PE. destruct (settled_kept w R e I ET) as [(m & NE & IM)|[(j & r' & NJ & EP & EM)|[LOW|(l' & d & pcp & L' & D & EM)]]].
    - exfalso. unfold matches in M. rewrite forallb_forall in M. apply M in IM. unfold item_matches, exact in IM. cbn [pk_get] in IM. rewrite !Z.land_m1_r in IM. apply Z.eqb_eq in IM. congruence.
    - rewrite EM in M. apply (entry_covers pk r' P (nth_error_In _ _ NJ)) in M. assert (j <= i)%nat by lia. destruct (Nat.eq_dec j i) as [->|NE].
      + split; [exact EP|]. congruence.
      + exfalso. apply (B j r'); [lia|exact NJ|exact M].
    - exfalso. assert (i < length (al_rules (tl_acl l)))%nat by (apply nth_error_Some; congruence). lia.
    - exfalso. rewrite EM in M. destruct (pk_tags pk) as [|[v q] rest] eqn:TG.
      + unfold matches, tunnel_match, item_matches, exact in M. cbn [forallb pk_get] in M. rewrite TG in M. rewrite andb_false_l, andb_false_r in M. discriminate M.
      + destruct (UT v q rest l' d TG L' D) as [V NV]. apply (tag_matches pk v q rest (td_id d) pcp TG V (IDS l' d L' D)) in M as [M _]. contradiction.
  Qed.
End First.

(** ** The ACL manager keeps to the rules *)
Section Manager.
  Variables (c : tconf) (l : tacl) (s : tsource) (n : Z) (lowest : Z).
  Hypothesis (NODP : am_dp_acls (tc_am c) = []) (PT : am_port (tc_am c) = Some (tc_table c)) (EX : al_exact (tl_acl l) = false) (PORT : ts_port s = Some n).
  Hypothesis NV : forall t, am_vlan (tc_am c) = Some t \/ am_egress (tc_am c) = Some t -> tb_id t <> tb_id (tc_table c).
  Hypothesis LOW : lowest <= FILTER_PRIORITY - Z.of_nat (length (al_rules (tl_acl l))).

  Lemma keeps_app : forall a b, keeps c l s n a -> keeps c l s n b -> keeps c l s n (a ++ b).
  Proof. intros a b A B w W. apply in_app_iff in W as [W|W]; [apply A|apply B]; exact W. Qed.
  Lemma keeps_flat : forall A (f : A -> list ofmsg) x, (forall y, In y x -> keeps c l s n (f y)) -> keeps c l s n (flat_map f x).
  Proof. intros A f x H w W. apply in_flat_map in W as (y & Y & W). exact (H y Y w W). Qed.
  Lemma plain_flowmods : forall items w, ~ In (FlowMod w) (snd (fst (ordered_items None items))).
  Proof.
    induction items as [|i l' IH]; intros w H; [exact H|]. cbn [ordered_items fold_right] in H. fold (ordered_items None l') in H. specialize (IH w).
    destruct (ordered_items None l') as [[a' m'] n']. destruct i; cbn in H, IH; try contradiction. unfold groupadd_ff in H. repeat destruct H as [H|H]; try discriminate H; contradiction.
  Qed.
  Lemma rule_flowmods : forall pl r w, ~ In (FlowMod w) (snd (rule_inst None pl r)).
  Proof.
    intros pl r w. unfold rule_inst. destruct (ru_actions r) as [a|]; [|intros []]. unfold build_actions. destruct (ac_output a) as [[l'|u]|]; cbn [build_output_actions].
    - assert (X := plain_flowmods l' w). destruct (ordered_items None l') as [[x y] z]. cbn [fst snd] in X. destruct (negb (is_allowed a) && true); exact X.
    - match goal with |- context [if ?b then _ else _] => destruct b end; cbn [snd]; (destruct (u_failover u) as [[g ns]|]; cbn [opt_list fst snd]; [|intros []]);
      unfold groupadd_ff; cbn; intros H; repeat destruct H as [H|H]; try discriminate H; contradiction.
    - intros [].
  Qed.
  (** the flow mods of a list of rules *)
  Lemma rules_flowmods : forall pl rs prio w, In (FlowMod w) (build_rules None false pl rs prio) ->
    exists j r, nth_error rs j = Some r /\ fm_cmd w = FAdd /\ fm_table w = tb_id (pl_table pl) /\ fm_match w = rule_match pl r /\
      fm_prio w = if pl_exact pl then pl_high pl else prio - Z.of_nat j.
  Proof.
    intros pl. induction rs as [|r rs IH]; intros prio w H; [destruct H|]. cbn [build_rules] in H. apply in_app_iff in H as [H|H].
    - unfold build_rule_ofmsgs in H. assert (X := rule_flowmods pl r w). destruct (rule_inst None pl r) as [i m]. cbn [snd] in X. cbn [app] in H. apply in_app_iff in H as [H|[H|[]]]; [contradiction|].
      injection H as <-. exists 0%nat, r. repeat split; auto. cbn [fm_prio tb_add_cookie]. destruct (pl_exact pl); [reflexivity|lia].
    - destruct (IH _ _ H) as (j & r' & A & B & C & D & E). exists (S j), r'. repeat split; auto. destruct (pl_exact pl); lia.
  Qed.
  Lemma keeps_other : forall ms, (forall w, In (FlowMod w) ms -> fm_cmd w = FAdd /\ fm_table w <> tb_id (tc_table c)) -> keeps c l s n ms.
  Proof. intros ms H w W. destruct (H w W) as [A B]. split; [congruence|]. intros _ E. contradiction. Qed.
  Lemma keeps_port : forall p, has_only (tl_acl l) n p -> keeps c l s n (add_port (tc_am c) p).
  Proof.
    intros p [HO ON]. unfold add_port, port_acls_allowed. rewrite NODP. destruct (ap_output_only p); [intros w []|]. rewrite PT. destruct (ap_acls p) as [|a0 ar] eqn:EA.
    - destruct (ap_dot1x p); [intros w []|]. intros w [E|[]]. injection E as <-. split; [discriminate|]. intros _ _. left. exists (ap_num p). split; [|left; reflexivity].
      intros E. discriminate (HO E).
    - rewrite <- EA in *. clear a0 ar EA. intros w W. unfold build_acl_ofmsgs in W. apply rules_flowmods in W as (j & r & NJ & A & TB & M & P). split; [congruence|]. intros _ _.
      destruct (Z.eq_dec (ap_num p) n) as [E|NE].
      + right. left. exists j, r. rewrite (HO E) in *. cbn [flat_map] in NJ. rewrite app_nil_r in NJ. split; [exact NJ|]. cbn [port_place pl_exact first_exact pl_high] in P. rewrite (HO E) in P. cbn [first_exact] in P. rewrite EX in P. split; [exact P|].
        rewrite M. unfold rule_match, entry_match. cbn [port_place pl_port pl_vid]. rewrite E, PORT. reflexivity.
      + left. exists (ap_num p). split; [exact NE|]. rewrite M. apply (rule_match_in (port_place (tc_am c) (tc_table c) p) r InPort (ap_num p, -1)); [right; reflexivity| |cbn; auto].
        apply ON. exact (nth_error_In _ _ NJ).
  Qed.
  Lemma keeps_vlan : forall v, keeps c l s n (add_vlan (tc_am c) v).
  Proof.
    intros v. apply keeps_other. intros w W. unfold add_vlan in W. apply in_app_iff in W as [W|W].
    - destruct (av_in v) as [|a r]; [destruct W|]. destruct (am_vlan (tc_am c)) as [t|] eqn:E; [|destruct W]. apply rules_flowmods in W as (j & r0 & _ & A & B & _). split; [exact A|].
      rewrite B. apply NV. auto.
    - destruct (am_egress (tc_am c)) as [t|] eqn:E; [|destruct W]. destruct (av_out v) as [|a r].
      + destruct W as [W|[]]. injection W as <-. split; [reflexivity|]. apply NV. auto.
      + apply rules_flowmods in W as (j & r0 & _ & A & B & _). split; [exact A|]. rewrite B. apply NV. auto.
  Qed.
  Lemma keeps_deletes : forall ms, (forall w, In (FlowMod w) ms -> fm_cmd w = FDelete) -> keeps c l s n ms.
  Proof. intros ms H w W. rewrite (H w W). split; [discriminate|]. intros A. discriminate A. Qed.
  Theorem manager_keeps : forall e, event_keeps (tl_acl l) n e -> keeps c l s n (abatch (tc_am c) lowest e).
  Proof.
    assert (DEL : forall p, keeps c l s n (del_port (tc_am c) p)).
    { intros p. apply keeps_deletes. intros w W. unfold del_port in W. destruct (port_acls_allowed (tc_am c) p); [|destruct W]. destruct W as [W|[]]. injection W as <-. reflexivity. }
    intros [vs ps|p vs|p|p|gone new_] H; cbn [abatch event_keeps] in *.
    - repeat apply keeps_app.
      + apply keeps_deletes. intros w W. unfold wipe_all in W. destruct W as [W|W]; [injection W as <-; reflexivity|]. destruct (am_groups (tc_am c)); [|destruct W]. destruct W as [W|[]]. discriminate W.
      + intros w W. unfold default_drops in W. apply in_map_iff in W as (t & E & _). injection E as <-. split; [discriminate|]. intros _ _. right. right. exact LOW.
      + unfold initialise_tables. rewrite NODP. intros w [].
      + apply keeps_flat. intros v _. apply keeps_vlan.
      + apply keeps_flat. intros p P. apply keeps_port, H, P.
    - apply keeps_app; [apply keeps_port, H|]. apply keeps_flat. intros v _. apply keeps_vlan.
    - apply DEL.
    - unfold cold_start_port. apply keeps_app; [apply DEL|apply keeps_port, H].
    - apply keeps_app; [|apply keeps_flat; intros v _; apply keeps_vlan]. apply keeps_deletes. intros w W. apply in_flat_map in W as (v & _ & W). unfold del_vlan in W.
      apply in_app_iff in W as [W|W]; [destruct (am_vlan (tc_am c))|destruct (am_egress (tc_am c))]; destruct W as [W|[]] || destruct W; injection W as <-; reflexivity.
  Qed.
End Manager.
