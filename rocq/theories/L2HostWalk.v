(** * Walking a frame to a learned host *)
From Coq Require Import ZArith List Bool Lia Permutation.
From Verif Require Import PyBase PyBaseProofs OpenFlow TrimModel TrimProofs TableModel ReorderModel ReorderSpec ReorderProofs
  BatchProofs SlotProofs FloodModel FloodSpec FloodProofs FloodRulesModel FloodRulesProofs HostCacheModel HostCacheProofs LearnModel
  L2Model L2Spec L2PortSpec L2HostSpec L2Proofs L2PortProofs L2PortInv L2HostProofs L2HostInv L2HostKeep.
Import ListNotations.
Open Scope Z_scope.

Section HostWalk.
  Variable cfg : dconf.
  Hypothesis V : valid_cfg cfg.

  Local Notation tv := (tb_id (d_tvlan cfg)).
  Local Notation ts := (tb_id (d_tsrc cfg)).
  Local Notation th := (tb_id (d_thp cfg)).
  Local Notation td := (tb_id (d_tdst cfg)).
  Local Notation tf := (tb_id (d_tflood cfg)).
  Local Notation miss_flow := (L2HostProofs.miss_flow cfg).

  (** ** What [output_port] sends *)
  Definition as_carried (v n : Z) (r : list (Z * Z)) (q : packet) : Prop :=
    (tagged_member cfg v n /\ exists pcp, pk_tags q = (v, pcp) :: r) \/ (untagged_member cfg v n /\ pk_tags q = r).
  Lemma output_shape : forall g live p vid hp ext pk pcp r, In p (d_ports cfg) -> member cfg vid (pc_num p) ->
    pk_tags pk = (vid, pcp) :: r ->
    exists q, fst (exec_acts g live (output_port cfg p vid hp ext) pk) =
      map (fun n => (n, if native_is vid p then q else pk)) (pc_mirror p) ++ [(if hp then OFPP_IN_PORT else pc_num p, q)] /\
      pk_hdr q = pk_hdr pk /\ as_carried vid (pc_num p) r q.
  Proof.
    intros g live p vid hp ext pk pcp r Hp Hmem Ht.
    assert (Vp : In vid (port_vlans p)).
    { unfold port_vlans. destruct Hmem as [[q [A [B C]]]|[q [A [B C]]]]; assert (q = p) by (apply (nums_inj cfg V); auto); subst q;
        [apply in_app_iff; auto|rewrite C; left; auto]. }
    unfold output_port. destruct (native_is vid p) eqn:Na.
    - apply native_is_spec in Na. change ((PopVlan :: mirror_acts p) ++ ?x) with (PopVlan :: (mirror_acts p ++ x)).
      cbn [exec_acts act_on]. rewrite exec_acts_app. unfold mirror_acts. rewrite exec_outs.
      cbn [fst snd exec_acts out]. exists (pop_vlan pk). split; [reflexivity|]. split; [reflexivity|].
      right. split; [exists p; auto|]. simpl. rewrite Ht. reflexivity.
    - assert (Tg : In vid (pc_tagged p)).
      { unfold port_vlans in Vp. destruct (pc_native p) as [w|] eqn:En; [|exact Vp].
        destruct Vp as [->|Vp]; [|exact Vp]. exfalso.
        assert (native_is vid p = true) by (apply native_is_spec; auto). congruence. }
      rewrite <- app_assoc, exec_acts_app. unfold mirror_acts. rewrite exec_outs. cbn [fst snd].
      destruct ext; cbn [app exec_acts out set_external_forwarding_requested act_on set_field fst].
      + eexists. split; [reflexivity|]. split.
        * rewrite Ht. reflexivity.
        * left. split; [exists p; auto|]. rewrite Ht. simpl. eauto.
      + exists pk. split; [reflexivity|]. split; [reflexivity|]. left. split; [exists p; auto|]. eauto.
  Qed.

  Lemma belongs_unique : forall pk v w, belongs cfg pk v -> belongs cfg pk w -> v = w.
  Proof.
    intros pk v w A B. unfold belongs in *. destruct (pk_tags pk) as [|[x y] r].
    - destruct A as (p & P1 & P2 & P3), B as (q & Q1 & Q2 & Q3). assert (p = q) by (apply (nums_inj cfg V); auto; congruence). congruence.
    - destruct A as [<- _], B as [<- _]. reflexivity.
  Qed.
  Lemma belongs_range : forall pk v, frame_ok pk -> belongs cfg pk v -> 0 <= v < 4096.
  Proof.
    intros pk v Hk D. unfold belongs in D. destruct (pk_tags pk) as [|[v0 pcp0] r0] eqn:Et.
    - destruct D as [p [Hp [_ Hn]]]. assert (In v (map vc_vid (d_vlans cfg))).
      { apply (vc_member cfg V p); auto. unfold port_vlans. rewrite Hn. left; auto. }
      apply in_map_iff in H as [w [<- Hw]]. pose proof (vc_vrange cfg V w Hw). lia.
    - destruct D as [-> _]. apply (proj2 Hk _ _ _ Et).
  Qed.

  Section Walks.
    Variables (s : switch) (live : Z -> bool) (evs : list cevent) (l : lstate).
    Hypothesis S : switch_good cfg s.
    Hypothesis HI : hostinv cfg evs l s.
    Variables (v mac : Z) (e : entry).
    Hypothesis Fe : found l v mac = Some e.

    (** The frame as the output tables see it, and a rule that applies to it. *)
    Variables (pk : packet) (pcp : Z) (r : list (Z * Z)).
    Hypothesis Hk : frame_ok pk.
    Hypothesis Ht : pk_tags pk = (v, pcp) :: r.
    Hypothesis Hd : pk_hdr pk EthDst = Some mac.

    Lemma vlan_of_match : forall v', find_vlan cfg v' <> None -> item_matches pk (vlan_item v') = true -> v' = v.
    Proof.
      intros v' A H. destruct (find_vlan cfg v') as [y|] eqn:Y; [|contradiction]. apply find_vlan_in in Y as [Y <-].
      pose proof (vc_vrange cfg V y Y) as R. symmetry. apply (proj1 (vlan_item_match pk (vc_vid y) v pcp r R (proj2 Hk _ _ _ Ht) Ht)). exact H.
    Qed.
    Lemma mac_of_match : forall m, item_matches pk (exact EthDst m) = true -> m = mac.
    Proof. intros m H. apply item_exact in H. simpl in H. congruence. Qed.

    Definition sent_to (hp : bool) (es : list emission) : Prop :=
      exists p ext, In p (d_ports cfg) /\ together cfg (pc_num p) (e_port e) /\ member cfg v (pc_num p) /\
        (hp = true -> pk_in pk = pc_num p) /\ es = fst (exec_acts (group_lookup s) live (output_port cfg p v hp ext) pk).

    Lemma rel_together : forall n, rel cfg (connected evs) l v mac n -> together cfg n (e_port e).
    Proof. intros n H. unfold rel in H. rewrite Fe in H. exact H. Qed.
    Lemma find_vlan_range : forall x, find_vlan cfg x <> None -> 0 < x < 4096.
    Proof.
      intros x X. destruct (find_vlan cfg x) as [y|] eqn:Y; [|contradiction]. apply find_vlan_in in Y as [Y <-]. apply (vc_vrange cfg V); auto.
    Qed.

    Lemma walk_dst_host : forall es f0, walk s live td pk es ->
      In f0 (sw_flows s) -> f_table f0 = td -> matches pk (f_match f0) = true -> f_match f0 <> [] -> sent_to false es.
    Proof.
      intros es f0 W Hf0 T0 M0 N0. destruct (tables_distinct cfg V) as (T1 & T2 & T3 & T4 & T5 & T6 & T7 & T8 & T9 & T10).
      assert (P0 : f_prio f0 = HOST_PRIORITY).
      { destruct (hi_flows _ _ _ _ HI f0 Hf0 (or_introl T0)) as [X|(v' & m & n & X & _)].
        - exfalso. apply N0. destruct X as [->|[_ ->]]; reflexivity.
        - apply (host_flow_out cfg) in X. tauto. }
      assert (K : forall f es0 p' nx, hit (sw_flows s) td pk f -> exec_insts (group_lookup s) live (f_inst f) pk = (es0, p', nx) ->
        nx = None /\ sent_to false es0).
      { intros f es0 p' nx (Hf & T & M & Best) X.
        assert (Pf : f_prio f0 <= f_prio f) by (apply Best; auto).
        destruct (hi_flows _ _ _ _ HI f Hf (or_introl T)) as [Y|(v' & m & n & Y & Fv & Mn & Re)].
        - exfalso. destruct (vc_prios cfg V) as [[_ Z] _].
          assert (f_prio f = d_lowest cfg) by (destruct Y as [->|[_ ->]]; reflexivity). unfold HOST_PRIORITY, LOW_PRIORITY in *. lia.
        - destruct Y as [p i pcps P _ _ _ Fm Fi _ _|p i P _ Tf _ _ _ _ _]; [|exfalso; congruence].
          rewrite Fm in M. apply item_match1 in M as [M1 M]. apply item_match1 in M as [M2 _].
          apply mac_of_match in M1. apply (vlan_of_match v' Fv) in M2. subst m v'.
          rewrite Fi in X. destruct (trim_apply (group_lookup s) live (output_port cfg p v false (has_externals cfg)) pk) as [q Z].
          rewrite Z in X. injection X as <- _ <-. split; auto. apply find_port_in in P as [P1 P2]. exists p, (has_externals cfg).
          rewrite P2. split; auto. split; [apply rel_together; auto|]. split; auto. split; [discriminate|reflexivity]. }
      inversion W as [t p M|t p f es0 p' H X|t p f es0 p' t' es' H X W']; subst.
      - rewrite (M f0) in M0; auto. discriminate.
      - apply (K f es p' None); auto.
      - destruct (K f es0 p' (Some t') H X) as [Z _]. discriminate.
    Qed.

    Lemma walk_hp_host : forall es, walk s live th pk es ->
      sent_to true es \/ walk s live td pk es \/
      (es = [] /\ ~ In (flow_of (miss_fm cfg (d_thp cfg) (d_tdst cfg))) (sw_flows s)).
    Proof.
      intros es W. destruct (tables_distinct cfg V) as (T1 & T2 & T3 & T4 & T5 & T6 & T7 & T8 & T9 & T10).
      assert (K : forall f es0 p' nx, hit (sw_flows s) th pk f -> exec_insts (group_lookup s) live (f_inst f) pk = (es0, p', nx) ->
        (nx = None /\ sent_to true es0) \/ (nx = Some td /\ es0 = [] /\ p' = pk)).
      { intros f es0 p' nx (Hf & T & M & Best) X.
        destruct (hi_flows _ _ _ _ HI f Hf (or_intror T)) as [Y|(v' & m & n & Y & Fv & Mn & Re)].
        - right. destruct Y as [->|[_ ->]]; [exfalso; cbn [flow_of f_table miss_fm tb_add tb_write fm_table] in T; congruence|].
          injection X as <- <- <-. auto.
        - left. destruct Y as [p i pcps P _ Tf _ _ _ _ _|p i P _ Tf _ Fm Fi _ _]; [exfalso; congruence|].
          rewrite Fm in M. apply in_port_match in M as [Mi M]. apply item_match1 in M as [M1 M]. apply item_match1 in M as [M2 _].
          apply mac_of_match in M1. apply (vlan_of_match v' Fv) in M2. subst m v'.
          rewrite Fi in X. destruct (trim_apply (group_lookup s) live (output_port cfg p v true false) pk) as [q Z].
          rewrite Z in X. injection X as <- _ <-. split; auto. apply find_port_in in P as [P1 P2]. exists p, false.
          rewrite P2. split; auto. split; [apply rel_together; auto|]. split; auto. }
      inversion W as [t p M|t p f es0 p' H X|t p f es0 p' t' es' H X W']; subst.
      - right; right. split; auto. intros Hm. specialize (M _ Hm eq_refl). discriminate M.
      - destruct (K f es p' None H X) as [[_ Z]|[Z _]]; [auto|discriminate].
      - destruct (K f es0 p' (Some t') H X) as [[Z _]|(Z & -> & ->)]; [discriminate|]. injection Z as ->. right; left. exact W'.
    Qed.
  End Walks.

  (** ** The whole walk *)
  Section Whole.
    Variables (s : switch) (live : Z -> bool) (evs : list cevent) (l : lstate).
    Hypothesis S : switch_good cfg s.
    Hypothesis HI : hostinv cfg evs l s.
    Variables (v mac : Z) (e : entry).
    Hypothesis Fe : found l v mac = Some e.
    Variable pk : packet.
    Hypothesis Hk : frame_ok pk.
    Hypothesis Hb : belongs cfg pk v.
    Hypothesis Hd : pk_hdr pk EthDst = Some mac.
    Hypothesis Hr : rule_installed cfg s v mac pk.

    Definition aside (x : emission) : Prop :=
      fst x = OFPP_CONTROLLER \/
      (pk_hdr (snd x) = pk_hdr pk /\ exists p, In p (d_ports cfg) /\ In (fst x) (pc_mirror p) /\ pc_num p = pk_in pk).

    Lemma carried_frame : forall pcp, frame_ok (carried pk v pcp).
    Proof.
      intros pcp. split; [apply Hk|]. simpl. intros vid q r E. injection E as <- _ _. apply (belongs_range pk); auto.
    Qed.

    Lemma rule_applies : forall pcp, pcp_ok cfg pk pcp -> exists f, In f (sw_flows s) /\ f_table f = td /\
      matches (carried pk v pcp) (f_match f) = true /\ f_match f <> [].
    Proof.
      intros pcp Pc. destruct Hr as (f & F1 & F2 & F3). exists f. split; [auto|]. split; [auto|]. rewrite F3. split; [|discriminate].
      assert (M1 : item_matches (carried pk v pcp) (exact EthDst mac) = true).
      { simpl. rewrite Hd. apply Z.eqb_refl. }
      assert (M2 : item_matches (carried pk v pcp) (vlan_item v) = true).
      { assert (X : exists y, In y (d_vlans cfg) /\ vc_vid y = v).
        { assert (In v (map vc_vid (d_vlans cfg))).
          { unfold belongs in Hb. destruct (pk_tags pk) as [|[v0 p0] r0].
            - destruct Hb as (p & P1 & P2 & P3). apply (vc_member cfg V p); auto. unfold port_vlans. rewrite P3. left; auto.
            - destruct Hb as [_ (p & P1 & P2 & P3)]. apply (vc_member cfg V p); auto. unfold port_vlans. apply in_app_iff; auto. }
          apply in_map_iff in H as (y & <- & Y). eauto. }
        destruct X as (y & Y & <-). pose proof (vc_vrange cfg V y Y) as R.
        apply (proj2 (vlan_item_match (carried pk (vc_vid y) pcp) (vc_vid y) (vc_vid y) pcp (tl (pk_tags pk)) R
          (conj (Z.lt_le_incl _ _ (proj1 R)) (proj2 R)) eq_refl)). reflexivity. }
      unfold matches. cbn [forallb]. rewrite M1, M2. cbn [andb].
      unfold pcp_ok in Pc. destruct (has_externals cfg); [|reflexivity]. rewrite (Pc eq_refl). cbn. rewrite Z.eqb_refl. reflexivity.
    Qed.

    Lemma host_walk : forall es, walk s live tv pk es -> exists a c pcp, es = a ++ c /\ (forall x, In x a -> aside x) /\
      ((exists hp, sent_to s live v e (carried pk v pcp) hp c) \/
       (c = [] /\ (~ accepted cfg s pk \/ ~ lets_through s ts (carried pk v pcp) \/
          (has_hairpin cfg = true /\ ~ In (flow_of (miss_fm cfg (d_thp cfg) (d_tdst cfg))) (sw_flows s))))).
    Proof.
      intros es W.
      assert (A0 : forall x, (x = (OFPP_CONTROLLER, pk) /\ control cfg pk) \/
         (snd x = pk /\ exists p, In p (d_ports cfg) /\ In (fst x) (pc_mirror p) /\ pc_num p = pk_in pk) -> aside x).
      { intros x [[-> _]|[E X]]; [left; auto|]. right. rewrite E. auto. }
      inversion W as [t p M|t p f es0 p' H X|t p f es0 p' t' es' H X W']; subst.
      - exists [], [], 0. split; [auto|]. split; [intros x []|]. right. split; [auto|]. left. intros [(f & F1 & F2 & F3 & _) _].
        rewrite (M f F1 F2) in F3. discriminate.
      - pose proof H as (Hf & T & M & _). destruct (flow_post cfg s live S f pk es p' None Hf Hk M X) as (P & _).
        destruct (P T) as [A _]. exists es, [], 0. rewrite app_nil_r. split; [auto|]. split; [auto|]. right. split; [auto|]. left.
        intros [_ Y]. destruct (Y f H live) as (? & ? & Z). congruence.
      - pose proof H as (Hf & T & M & _). destruct (flow_post cfg s live S f pk es0 p' (Some t') Hf Hk M X) as (P & _).
        destruct (P T) as [A [B|[B [C1 [C2 [v' [pcp [D [E Pc]]]]]]]]]; [discriminate|]. injection B as ->.
        assert (v' = v) by (eapply belongs_unique; eauto). subst v'.
        assert (p' = carried pk v pcp).
        { destruct p' as [a b c]. cbn [pk_in pk_tags pk_hdr] in *. unfold carried. subst. reflexivity. }
        subst p'. pose proof (carried_frame pcp) as Hk'.
        destruct (rule_applies pcp Pc) as (f0 & F1 & F2 & F3 & F4).
        clear W. inversion W' as [t q Ms|t q g es1 q' G Y|t q g es1 q' t2 es2 G Y W2]; subst.
        + exists es0, [], pcp. split; [auto|]. split; [auto|]. right. split; [auto|]. right; left. intros [(g & G1 & G2 & G3 & _) _].
          rewrite (Ms g G1 G2) in G3. discriminate.
        + pose proof G as (Gf & Gt & Gm & _). destruct (flow_post cfg s live S g _ es' q' None Gf Hk' Gm Y) as (_ & Q & _).
          destruct (Q Gt) as [QA _]. exists (es0 ++ es'), [], pcp. split; [rewrite app_nil_r; auto|]. split.
          { intros x Hx. apply in_app_iff in Hx as [Hx|Hx]; [auto|]. left. rewrite (QA x Hx). reflexivity. }
          right. split; [auto|]. right; left. intros [_ Z]. destruct (Z g G live) as (? & ? & ? & Z'). congruence.
        + pose proof G as (Gf & Gt & Gm & _). destruct (flow_post cfg s live S g _ es1 q' (Some t2) Gf Hk' Gm Y) as (_ & Q & _).
          destruct (Q Gt) as [QA [QB|[QB QC]]]; [discriminate|]. subst q'.
          exists (es0 ++ es1), es2, pcp. split; [apply app_assoc|]. split.
          { intros x Hx. apply in_app_iff in Hx as [Hx|Hx]; [auto|]. left. rewrite (QA x Hx). reflexivity. }
          destruct QB as [[QB Hp]|QB]; injection QB as ->.
          * destruct (walk_hp_host s live evs l HI v mac e Fe (carried pk v pcp) pcp (tl (pk_tags pk)) Hk' eq_refl Hd es2 W2)
              as [Z|[Z|[Z1 Z2]]].
            -- left. exists true. exact Z.
            -- left. exists false. exact (walk_dst_host s live evs l HI v mac e Fe (carried pk v pcp) pcp (tl (pk_tags pk)) Hk' eq_refl Hd es2 f0 ltac:(assumption) F1 F2 F3 F4).
            -- right. auto.
          * left. exists false. exact (walk_dst_host s live evs l HI v mac e Fe (carried pk v pcp) pcp (tl (pk_tags pk)) Hk' eq_refl Hd es2 f0 ltac:(assumption) F1 F2 F3 F4).
    Qed.

    (** What reaches the wire *)
    Lemma host_only : forall es x, walk s live tv pk es -> In x (wire (pk_in pk) es) ->
      (together cfg (e_port e) (fst x) /\ delivered cfg pk v (fst x) (snd x)) \/
      (pk_hdr (snd x) = pk_hdr pk /\ exists p, In p (d_ports cfg) /\ In (fst x) (pc_mirror p) /\
         (pc_num p = pk_in pk \/ together cfg (e_port e) (pc_num p))) \/
      fst x = OFPP_CONTROLLER.
    Proof.
      intros es x W Hx. destruct (host_walk es W) as (a & c & pcp & -> & A & C). apply wire_in in Hx as (n & q & Hin & Hx).
      assert (Mr : forall p m, In p (d_ports cfg) -> In m (pc_mirror p) -> m <> OFPP_IN_PORT).
      { intros p m P1 P2. pose proof (proj1 (vc_mirrors cfg V p m P1 P2)). unfold OFPP_MAX, OFPP_IN_PORT in *. lia. }
      apply in_app_iff in Hin as [Hin|Hin].
      - destruct (A _ Hin) as [E|[E (p & P1 & P2 & P3)]]; simpl in E.
        + right; right. subst n. destruct Hx as [[X _]|[_ [_ ->]]]; [discriminate X|reflexivity].
        + right; left. destruct Hx as [[X _]|[_ [_ ->]]]; [exfalso; eapply Mr; eauto|]. split; [exact E|]. exists p. auto.
      - destruct C as [(hp & p & ext & P1 & P2 & P3 & P4 & ->)|[-> _]]; [|destruct Hin].
        destruct (output_shape (group_lookup s) live p v hp ext (carried pk v pcp) pcp (tl (pk_tags pk)) P1 P3 eq_refl) as (q0 & E & Q1 & Q2).
        rewrite E in Hin. apply together_sym in P2. apply in_app_iff in Hin as [Hin|[Hin|[]]].
        + apply in_map_iff in Hin as (m & Em & Hm). injection Em as <- <-.
          destruct Hx as [[X _]|[_ [_ ->]]]; [exfalso; eapply Mr; eauto|]. right; left.
          split; [destruct (native_is v p); [exact Q1|reflexivity]|]. exists p. auto.
        + injection Hin as <- <-. left.
          assert (F : fst x = pc_num p /\ snd x = q0).
          { destruct Hx as [[X ->]|[X [_ ->]]]; destruct hp; simpl; auto; try contradiction.
            exfalso. pose proof (vc_range cfg V p P1). unfold OFPP_MAX, OFPP_IN_PORT in *. lia. }


          destruct F as [-> ->]. split; [exact P2|]. split; [exact Q1|exact Q2].
    Qed.

    Lemma host_gets : forall es, walk s live tv pk es -> accepted cfg s pk -> (forall pcp, lets_through s ts (carried pk v pcp)) ->
      (forall f, miss_flow f -> In f (sw_flows s)) ->
      exists m, together cfg (e_port e) m /\
        (m = pk_in pk \/ exists q, In (m, q) (wire (pk_in pk) es) /\ delivered cfg pk v m q).
    Proof.
      intros es W Ac Lt Mi. destruct (host_walk es W) as (a & c & pcp & -> & A & C).
      destruct C as [(hp & p & ext & P1 & P2 & P3 & P4 & ->)|[_ [N|[N|[Hp N]]]]]; [|contradiction|exfalso; eauto|].
      2:{ exfalso. apply N, Mi. right. auto. }
      destruct (output_shape (group_lookup s) live p v hp ext (carried pk v pcp) pcp (tl (pk_tags pk)) P1 P3 eq_refl) as (q0 & E & Q1 & Q2).
      exists (pc_num p). split; [apply together_sym; exact P2|]. destruct (Z.eq_dec (pc_num p) (pk_in pk)) as [Eq|Ne]; [auto|]. right.
      exists q0. split; [|split; [exact Q1|exact Q2]].
      assert (hp = false) by (destruct hp; auto; exfalso; apply Ne; symmetry; apply P4; auto). subst hp.
      apply in_wire; [|pose proof (vc_range cfg V p P1); unfold OFPP_MAX, OFPP_IN_PORT in *; lia|exact Ne].
      rewrite E. apply in_app_iff. right. apply in_app_iff. right. left. reflexivity.
    Qed.
  End Whole.
End HostWalk.
