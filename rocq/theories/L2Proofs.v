(** * Isolation: every flow the controller installs keeps a frame in its VLAN *)
From Coq Require Import ZArith List Bool Lia Permutation.
From Verif Require Import PyBase PyBaseProofs OpenFlow ReorderModel ReorderSpec ReorderProofs TrimModel TrimProofs
  TableModel FloodModel FloodSpec FloodProofs FloodRulesModel FloodRulesSpec FloodRulesProofs BatchProofs
  HostCacheModel LearnModel L2Model L2Spec L2HostSpec.
Import ListNotations.
Open Scope Z_scope.

(** ** Executing rules *)

Lemma trim_sem : forall g live inst p es q nx, (applies inst <= 1)%nat ->
  exec_insts g live (trim inst) p = (es, q, nx) ->
  exists q0, exec_insts g live inst p = (es, q0, nx) /\ (nx <> None -> q = q0).
Proof.
  intros g live inst p es q nx Ha H. unfold trim in H. destruct (trim_inst None inst) as [i|] eqn:E; [|eauto].
  pose proof (trim_inst_preserves_lemma g live None inst i p Ha E) as X.
  destruct (exec_insts g live inst p) as [[es0 q0] nx0]. rewrite H in X. destruct X as [-> [-> X]]. eauto.
Qed.

Lemma none_match : forall p, item_matches p (vlan_item OFPVID_NONE) = true ->
  (forall v pcp r, pk_tags p = (v, pcp) :: r -> 0 <= v < 4096) -> pk_tags p = [].
Proof.
  intros p H Hr. change (vlan_item OFPVID_NONE) with (exact VlanVid 0) in H. apply item_exact in H. simpl in H.
  destruct (pk_tags p) as [|[v pcp] r] eqn:E; auto. exfalso.
  specialize (Hr v pcp r eq_refl). change (Z.lor v OFPVID_PRESENT) with (vid_present v) in H.
  rewrite vid_present_add in H by auto. injection H. unfold OFPVID_NONE. lia.
Qed.

Lemma vlan_match_tag : forall p vid, 0 < vid < 4096 -> item_matches p (vlan_item vid) = true ->
  (forall v pcp r, pk_tags p = (v, pcp) :: r -> 0 <= v < 4096) -> exists pcp r, pk_tags p = (vid, pcp) :: r.
Proof.
  intros p vid Hv H Hr. destruct (pk_tags p) as [|[v pcp] r] eqn:E.
  - exfalso. rewrite vlan_item_eq in H by auto. apply item_exact in H. simpl in H. rewrite E in H.
    injection H. unfold OFPVID_NONE. lia.
  - apply (vlan_item_match p vid v pcp r) in H; auto; [subst; eauto|]. apply (Hr v pcp r); auto.
Qed.

Lemma wire_in : forall k es e, In e (wire k es) -> exists n q, In (n, q) es /\
  ((n = OFPP_IN_PORT /\ e = (k, q)) \/ (n <> OFPP_IN_PORT /\ n <> k /\ e = (n, q))).
Proof.
  intros k es e H. unfold wire in H. apply in_flat_map in H as [[n q] [Hin H]]. exists n, q. split; auto.
  unfold transmit in H. destruct (Z.eqb_spec n OFPP_IN_PORT).
  - destruct H as [<-|[]]. auto.
  - destruct (Z.eqb_spec n k); [destruct H|]. destruct H as [<-|[]]. right; auto.
Qed.

Lemma in_wire : forall k es n q, In (n, q) es -> n <> OFPP_IN_PORT -> n <> k -> In (n, q) (wire k es).
Proof.
  intros k es n q H A B. unfold wire. apply in_flat_map. exists (n, q). split; auto. unfold transmit.
  destruct (Z.eqb_spec n OFPP_IN_PORT); [contradiction|]. destruct (Z.eqb_spec n k); [contradiction|]. left; auto.
Qed.

Lemma flooded_in : forall i ex l n, In n (flooded i ex l) ->
  (exists q, In q l /\ (n = p_num q \/ In n (p_mirror q))) \/
  (exists j q, i = Some j /\ n = OFPP_IN_PORT /\ In q l /\ p_num q = p_num j).
Proof.
  intros i ex l n H. unfold flooded in H. unfold dedupe_outputs in H. apply py_sorted_in, nodup_In in H.
  apply in_flat_map in H as [q [Hq H]]. unfold flood_one in H. destruct (is_in_port i q) eqn:E.
  - destruct i as [j|]; [|destruct H]. destruct (p_hairpin j); [|destruct H]. destruct H as [<-|[]].
    right. exists j, q. simpl in E. unfold port_eqb in E. apply Z.eqb_eq in E. auto.
  - destruct (in_ports q ex); [destruct H|]. left. exists q. split; auto.
    destruct H as [<-|H]; auto. destruct i as [j|]; auto. destruct (set_eqb _ _); [destruct H|auto].
Qed.

Lemma pcp_packet_tags : forall b p v pcp r, pk_tags p = (v, pcp) :: r ->
  pk_hdr (pcp_packet b p) = pk_hdr p /\ pk_in (pcp_packet b p) = pk_in p /\
  exists pcp', pk_tags (pcp_packet b p) = (v, pcp') :: r.
Proof. intros [] p v pcp r H; simpl; [rewrite H; simpl|]; eauto. Qed.

Section Iso.
  Variable cfg : dconf.
  Hypothesis V : valid_cfg cfg.

  Local Notation tv := (tb_id (d_tvlan cfg)).
  Local Notation ts := (tb_id (d_tsrc cfg)).
  Local Notation th := (tb_id (d_thp cfg)).
  Local Notation td := (tb_id (d_tdst cfg)).
  Local Notation tf := (tb_id (d_tflood cfg)).

  Lemma tables_distinct : tv <> ts /\ tv <> th /\ tv <> td /\ tv <> tf /\ ts <> th /\ ts <> td /\ ts <> tf /\
    th <> td /\ th <> tf /\ td <> tf.
  Proof.
    pose proof (vc_tables cfg V) as N. simpl in N.
    repeat match goal with H : NoDup (_ :: _) |- _ => inversion H; clear H; subst end. simpl in *.
    intuition congruence.
  Qed.

  (** ** What the flows of each table may do *)

  Definition out_ok (v : Z) (h : field -> option Z) (r : list (Z * Z)) (e : emission) : Prop :=
    pk_hdr (snd e) = h /\
    ((tagged_member cfg v (fst e) /\ exists pcp, pk_tags (snd e) = (v, pcp) :: r) \/
     (untagged_member cfg v (fst e) /\ pk_tags (snd e) = r) \/
     exists p, In p (d_ports cfg) /\ In (fst e) (pc_mirror p) /\ In v (port_vlans p)).
  Definition wire_ok (v : Z) (r : list (Z * Z)) (pk : packet) (es : list emission) : Prop :=
    forall e, In e (wire (pk_in pk) es) -> out_ok v (pk_hdr pk) r e.

  Definition group_good (g : group) : Prop :=
    exists v, 0 < v < 4096 /\ (g_id g = v \/ g_id g = v + 4096) /\
      forall live pk pcp r, pk_tags pk = (v, pcp) :: r -> wire_ok v r pk (exec_group live g pk).
  Definition lookup_good (g : Z -> option group) : Prop :=
    d_mode cfg = Grouped -> forall gid gr, g gid = Some gr -> g_id gr = gid /\ group_good gr.

  Definition control (pk : packet) : Prop :=
    exists p, In p (d_ports cfg) /\ pc_num p = pk_in pk /\
      ((pc_lacp p <> 0 /\ pk_hdr pk EthType = Some 0x8809) \/ (pc_lldp p = true /\ pk_hdr pk EthType = Some 0x88cc)).

  (** the PCP frames carry between tables, on datapaths with external ports *)
  Definition pcp_ok (pk : packet) (pcp : Z) : Prop :=
    has_externals cfg = true -> pcp = if from_external cfg pk then 0 else PCP_EXT_PORT_FLAG.
  Definition vlan_post (pk : packet) (es : list emission) (pk' : packet) (nx : option Z) : Prop :=
    (forall e, In e es -> (e = (OFPP_CONTROLLER, pk) /\ control pk) \/
       (snd e = pk /\ exists p, In p (d_ports cfg) /\ In (fst e) (pc_mirror p) /\ pc_num p = pk_in pk)) /\
    (nx = None \/ nx = Some ts /\ pk_in pk' = pk_in pk /\ pk_hdr pk' = pk_hdr pk /\
       exists v pcp, belongs cfg pk v /\ pk_tags pk' = (v, pcp) :: payload_tags pk /\ pcp_ok pk pcp).
  Definition src_post (pk : packet) (es : list emission) (pk' : packet) (nx : option Z) : Prop :=
    (forall e, In e es -> e = (OFPP_CONTROLLER, pk)) /\
    (nx = None \/ ((nx = Some th /\ has_hairpin cfg = true) \/ nx = Some td) /\ pk' = pk).
  Definition dst_post (next : Z) (v : Z) (r : list (Z * Z)) (pk : packet) (es : list emission) (pk' : packet)
      (nx : option Z) : Prop :=
    wire_ok v r pk es /\ (nx = None \/ nx = Some next /\ pk' = pk).

  Definition inst_ok (t : Z) (m : fmatch) (i : list instruction) : Prop :=
    forall g live pk es pk' nx, lookup_good g -> frame_ok pk -> matches pk m = true ->
      exec_insts g live i pk = (es, pk', nx) ->
      (t = tv -> vlan_post pk es pk' nx) /\
      (t = ts -> src_post pk es pk' nx) /\
      (forall v pcp r, pk_tags pk = (v, pcp) :: r -> t = th -> dst_post td v r pk es pk' nx) /\
      (forall v pcp r, pk_tags pk = (v, pcp) :: r -> t = td -> dst_post tf v r pk es pk' nx) /\
      (forall v pcp r, pk_tags pk = (v, pcp) :: r -> t = tf -> wire_ok v r pk es /\ nx = None).

  Definition msg_good (m : ofmsg) : Prop :=
    match m with
    | FlowMod w =>
        match fm_cmd w with
        | FAdd | FModifyStrict => inst_ok (fm_table w) (fm_match w) (fm_inst w)
        | FModify => False
        | _ => True
        end
    | GroupMod GAdd g => d_mode cfg = Grouped -> group_good g
    | GroupMod GModify _ => False
    | _ => True
    end.
  Definition switch_good (s : switch) : Prop :=
    (forall f, In f (sw_flows s) -> inst_ok (f_table f) (f_match f) (f_inst f)) /\
    (d_mode cfg = Grouped -> forall g, In g (sw_groups s) -> group_good g).

  Lemma batch_keeps : forall sh ub ms out s, (forall l, Permutation (sh l) l) ->
    valve_flowreorder sh ub ms = Some out -> Forall msg_good ms -> switch_good s -> switch_good (apply_msgs out s).
  Proof.
    intros sh ub ms out s Hsh R G [SF SG]. rewrite Forall_forall in G.
    assert (Sub : forall m, In m out -> m = Barrier \/ msg_good m).
    { intros m Hm. destruct (reorder_invents_nothing_lemma sh ub ms out m Hsh R Hm) as [E|E]; auto. }
    assert (HF : forall w, In (FlowMod w) out -> msg_good (FlowMod w)).
    { intros w Hw. destruct (Sub _ Hw); [discriminate|auto]. }
    split.
    - apply (apply_msgs_inv (fun f => inst_ok (f_table f) (f_match f) (f_inst f))); auto.
      + intros w Hw C. specialize (HF w Hw). simpl in HF. rewrite C in HF. exact HF.
      + intros w f Hw C S _. specialize (HF w Hw). simpl in HF. rewrite C in HF.
        apply wslot_spec in S as [A [B D]]. simpl. rewrite A, D. exact HF.
      + intros w Hw C. specialize (HF w Hw). simpl in HF. rewrite C in HF. exact HF.
    - intros Mode. apply apply_msgs_ginv; auto.
      + intros g Hg. destruct (Sub _ Hg); [discriminate|auto].
      + intros g Hg. destruct (Sub _ Hg); [discriminate|auto].
  Qed.

  Lemma batch_fresh_good : forall sh ub ms out s d, (forall l, Permutation (sh l) l) ->
    valve_flowreorder sh ub ms = Some out -> Forall msg_good ms -> In (FlowMod d) ms -> wipes d ->
    (d_mode cfg = Grouped -> exists g, In (GroupMod GDelete g) ms /\ g_id g = OFPG_ALL) ->
    switch_good (apply_msgs out s).
  Proof.
    intros sh ub ms out s d Hsh R G Hd W Hg. rewrite Forall_forall in G.
    assert (Sub : forall m, In m out -> m = Barrier \/ msg_good m).
    { intros m Hm. destruct (reorder_invents_nothing_lemma sh ub ms out m Hsh R Hm) as [E|E]; auto. }
    destruct (wipe_split sh ub ms out s d R Hd W) as [post [s1 [E1 [-> [E2 P]]]]].
    assert (HF : forall w, In (FlowMod w) post -> msg_good (FlowMod w)).
    { intros w Hw. destruct (Sub _ (P _ Hw)); [discriminate|auto]. }
    split.
    - apply (apply_msgs_inv (fun f => inst_ok (f_table f) (f_match f) (f_inst f))); auto.
      + intros w Hw C. specialize (HF w Hw). simpl in HF. rewrite C in HF. exact HF.
      + intros w f Hw C S _. specialize (HF w Hw). simpl in HF. rewrite C in HF.
        apply wslot_spec in S as [A [B D]]. simpl. rewrite A, D. exact HF.
      + intros w Hw C. specialize (HF w Hw). simpl in HF. rewrite C in HF. exact HF.
      + rewrite E1. intros f [].
    - intros Mode. destruct (Hg Mode) as [g0 [Hg0 Ig]]. apply apply_msgs_ginv.
      + intros g X. destruct (Sub _ (P _ X)); [discriminate|auto].
      + intros g X. destruct (Sub _ (P _ X)); [discriminate|auto].
      + rewrite (E2 g0 Hg0 Ig). intros g [].
  Qed.

  (** ** Walks through a good switch *)

  Lemma lookup_switch : forall s, switch_good s -> lookup_good (group_lookup s).
  Proof.
    intros s [_ G] M gid gr H. unfold group_lookup in H. apply find_some in H as [H E]. apply Z.eqb_eq in E.
    split; auto.
  Qed.

  Lemma member_range : forall v n, tagged_member cfg v n \/ untagged_member cfg v n -> 0 < n < OFPP_MAX.
  Proof. intros v n [[p [A [<- _]]]|[p [A [<- _]]]]; apply (vc_range cfg V); auto. Qed.
  Lemma out_ok_range : forall v h r e, out_ok v h r e -> 0 < fst e < OFPP_MAX.
  Proof.
    intros v h r e [_ [[A _]|[[A _]|[p [A [B _]]]]]]; [apply (member_range v)|apply (member_range v)|]; auto.
    apply (vc_mirrors cfg V p); auto.
  Qed.
  Lemma not_controller : forall v r pk es q, frame_ok pk -> wire_ok v r pk es -> ~ In (OFPP_CONTROLLER, q) es.
  Proof.
    intros v r pk es q [Hr _] W H.
    assert (X : In (OFPP_CONTROLLER, q) (wire (pk_in pk) es)).
    { apply in_wire; auto; [unfold OFPP_CONTROLLER, OFPP_IN_PORT; lia|]. unfold OFPP_CONTROLLER, OFPP_MAX in *. lia. }
    apply W, out_ok_range in X. simpl in X. unfold OFPP_CONTROLLER, OFPP_MAX in X. lia.
  Qed.

  Lemma wire_app : forall k a b, wire k (a ++ b) = wire k a ++ wire k b.
  Proof. intros. apply flat_map_app. Qed.

  Section Walk.
    Variables (s : switch) (live : Z -> bool).
    Hypothesis S : switch_good s.

    Lemma flow_post : forall f pk es pk' nx, In f (sw_flows s) -> frame_ok pk -> matches pk (f_match f) = true ->
      exec_insts (group_lookup s) live (f_inst f) pk = (es, pk', nx) ->
      (f_table f = tv -> vlan_post pk es pk' nx) /\
      (f_table f = ts -> src_post pk es pk' nx) /\
      (forall v pcp r, pk_tags pk = (v, pcp) :: r -> f_table f = th -> dst_post td v r pk es pk' nx) /\
      (forall v pcp r, pk_tags pk = (v, pcp) :: r -> f_table f = td -> dst_post tf v r pk es pk' nx) /\
      (forall v pcp r, pk_tags pk = (v, pcp) :: r -> f_table f = tf -> wire_ok v r pk es /\ nx = None).
    Proof.
      intros f pk es pk' nx Hf Hk Hm He. destruct S as [SF _].
      exact (SF f Hf _ live pk es pk' nx (lookup_switch s S) Hk Hm He).
    Qed.

    Lemma walk_flood : forall pk es v pcp r, walk s live tf pk es -> frame_ok pk -> pk_tags pk = (v, pcp) :: r ->
      wire_ok v r pk es.
    Proof.
      intros pk es v pcp r W Hk Ht. inversion W as [t p M|t p f es0 p' H X|t p f es0 p' t' es' H X W']; subst.
      - intros e [].
      - destruct H as [Hf [T [M _]]]. destruct (flow_post f pk es p' None Hf Hk M X) as (_ & _ & _ & _ & P).
        apply (P v pcp r); auto.
      - destruct H as [Hf [T [M _]]]. destruct (flow_post f pk es0 p' (Some t') Hf Hk M X) as (_ & _ & _ & _ & P).
        destruct (P v pcp r); auto. discriminate.
    Qed.

    Lemma walk_dst_gen : forall t next, (forall pk es v pcp r, walk s live next pk es -> frame_ok pk -> pk_tags pk = (v, pcp) :: r ->
        wire_ok v r pk es) ->
      (forall f pk es pk' nx v pcp r, In f (sw_flows s) -> frame_ok pk -> matches pk (f_match f) = true ->
        exec_insts (group_lookup s) live (f_inst f) pk = (es, pk', nx) -> pk_tags pk = (v, pcp) :: r -> f_table f = t ->
        dst_post next v r pk es pk' nx) ->
      forall pk es v pcp r, walk s live t pk es -> frame_ok pk -> pk_tags pk = (v, pcp) :: r -> wire_ok v r pk es.
    Proof.
      intros t0 next N P pk es v pcp r W Hk Ht. inversion W as [t p M|t p f es0 p' H X|t p f es0 p' t' es' H X W']; subst.
      - intros e [].
      - destruct H as [Hf [T [M _]]]. apply (P f pk es p' None v pcp r); auto.
      - destruct H as [Hf [T [M _]]]. destruct (P f pk es0 p' (Some t') v pcp r Hf Hk M X Ht T) as [A [B|[B C]]]; [discriminate|].
        injection B as ->. subst p'. intros e He. rewrite wire_app in He. apply in_app_iff in He as [He|He]; auto.
        apply (N pk es' v pcp r W' Hk Ht e He).
    Qed.
    Lemma walk_dst : forall pk es v pcp r, walk s live td pk es -> frame_ok pk -> pk_tags pk = (v, pcp) :: r ->
      wire_ok v r pk es.
    Proof.
      apply (walk_dst_gen td tf walk_flood). intros f pk es pk' nx v pcp r Hf Hk M X Ht T.
      destruct (flow_post f pk es pk' nx Hf Hk M X) as (_ & _ & _ & P & _). apply (P v pcp r); auto.
    Qed.
    Lemma walk_hairpin : forall pk es v pcp r, walk s live th pk es -> frame_ok pk -> pk_tags pk = (v, pcp) :: r ->
      wire_ok v r pk es.
    Proof.
      apply (walk_dst_gen th td walk_dst). intros f pk es pk' nx v pcp r Hf Hk M X Ht T.
      destruct (flow_post f pk es pk' nx Hf Hk M X) as (_ & _ & P & _ & _). apply (P v pcp r); auto.
    Qed.

    Lemma walk_src : forall pk es v pcp r, walk s live ts pk es -> frame_ok pk -> pk_tags pk = (v, pcp) :: r ->
      exists a b, es = a ++ b /\ (forall e, In e a -> e = (OFPP_CONTROLLER, pk)) /\ wire_ok v r pk b.
    Proof.
      intros pk es v pcp r W Hk Ht. inversion W as [t p M|t p f es0 p' H X|t p f es0 p' t' es' H X W']; subst.
      - exists [], []. split; [auto|]. split; intros e [].
      - destruct H as [Hf [T [M _]]]. destruct (flow_post f pk es p' None Hf Hk M X) as (_ & P & _).
        destruct (P T) as [A _]. exists es, []. rewrite app_nil_r. split; [auto|]. split; [exact A|]. intros e [].
      - destruct H as [Hf [T [M _]]]. destruct (flow_post f pk es0 p' (Some t') Hf Hk M X) as (_ & P & _).
        destruct (P T) as [A [B|[B C]]]; [discriminate|]. subst p'. exists es0, es'. split; [auto|]. split; [exact A|].
        destruct B as [[B _]|B]; injection B as ->; [eapply walk_hairpin|eapply walk_dst]; eauto.
    Qed.

    (** Emissions of a whole walk: [a] from the VLAN table, [b] to the controller
        from the learning table, [c] from the output tables. *)
    Lemma walk_all : forall pk es, walk s live tv pk es -> frame_ok pk ->
      (forall e, In e es -> (e = (OFPP_CONTROLLER, pk) /\ control pk) \/
         (snd e = pk /\ exists p, In p (d_ports cfg) /\ In (fst e) (pc_mirror p) /\ pc_num p = pk_in pk)) \/
      exists a b c v pcp pk', es = a ++ b ++ c /\
        (forall e, In e a -> (e = (OFPP_CONTROLLER, pk) /\ control pk) \/
           (snd e = pk /\ exists p, In p (d_ports cfg) /\ In (fst e) (pc_mirror p) /\ pc_num p = pk_in pk)) /\
        pk_in pk' = pk_in pk /\ pk_hdr pk' = pk_hdr pk /\ belongs cfg pk v /\
        pk_tags pk' = (v, pcp) :: payload_tags pk /\
        (forall e, In e b -> e = (OFPP_CONTROLLER, pk')) /\ wire_ok v (payload_tags pk) pk' c /\ frame_ok pk'.
    Proof.
      intros pk es W Hk. inversion W as [t p M|t p f es0 p' H X|t p f es0 p' t' es' H X W']; subst.
      - left. intros e [].
      - destruct H as [Hf [T [M _]]]. destruct (flow_post f pk es p' None Hf Hk M X) as (P & _).
        left. apply (P T).
      - destruct H as [Hf [T [M _]]]. destruct (flow_post f pk es0 p' (Some t') Hf Hk M X) as (P & _).
        destruct (P T) as [A [B|[B [C1 [C2 [v [pcp [D [E _]]]]]]]]]; [discriminate|]. injection B as ->.
        assert (Hk' : frame_ok p').
        { split; [rewrite C1; apply Hk|]. intros vid q r Ev. rewrite E in Ev. injection Ev as <- <- <-.
          unfold belongs in D. destruct (pk_tags pk) as [|[v0 pcp0] r0] eqn:Et.
          - destruct D as [p [Hp [_ Hn]]].
            assert (In v (map vc_vid (d_vlans cfg))).
            { apply (vc_member cfg V p); auto. unfold port_vlans. rewrite Hn. left; auto. }
            apply in_map_iff in H as [w [<- Hw]]. pose proof (vc_vrange cfg V w Hw). lia.
          - destruct D as [-> _]. apply (proj2 Hk _ _ _ Et). }
        destruct (walk_src p' es' v pcp _ W' Hk' E) as [a [b [-> [Ha Hb]]]].
        right. exists es0, a, b, v, pcp, p'.
        split; [reflexivity|]. split; [exact A|]. split; [exact C1|]. split; [exact C2|]. split; [exact D|].
        split; [exact E|]. split; [exact Ha|]. split; [exact Hb|exact Hk'].
    Qed.
  End Walk.

  Lemma isolation_walk : forall s live pk es, switch_good s -> frame_ok pk -> walk s live tv pk es ->
    forall e, In e (wire (pk_in pk) es) -> may_leave cfg pk e.
  Proof.
    intros s live pk es S Hk W e He. apply wire_in in He as [n [q [Hin He]]].
    assert (A : forall e0, (e0 = (OFPP_CONTROLLER, pk) /\ control pk) \/
       (snd e0 = pk /\ exists p, In p (d_ports cfg) /\ In (fst e0) (pc_mirror p) /\ pc_num p = pk_in pk) -> e0 = (n, q) ->
       may_leave cfg pk e).
    { intros e0 H ->. assert (N : n <> OFPP_IN_PORT).
      { destruct H as [[H _]|[_ [p [Hp [H _]]]]].
        - injection H as -> _. unfold OFPP_CONTROLLER, OFPP_IN_PORT. lia.
        - pose proof (proj1 (vc_mirrors cfg V p _ Hp H)) as R. simpl in R. unfold OFPP_MAX, OFPP_IN_PORT in *. lia. }
      destruct He as [[X _]|[_ [_ ->]]]; [contradiction|].
      destruct H as [[H _]|[H [p [Hp [Hm Hn]]]]].
      - injection H as -> _. right; right; reflexivity.
      - right; left. simpl in *. subst q. split; auto. exists p. auto. }
    destruct (walk_all s live S pk es W Hk) as [H|[a [b [c [v [pcp [pk' [-> [Ha [E1 [E2 [B [E3 [Hb [Hc Hk']]]]]]]]]]]]]]].
    - apply (A (n, q)); auto.
    - apply in_app_iff in Hin as [Hin|Hin]; [apply (A (n, q)); auto|].
      apply in_app_iff in Hin as [Hin|Hin].
      + apply Hb in Hin. injection Hin as -> ->. right; right.
        destruct He as [[X _]|[_ [_ ->]]]; [discriminate X|reflexivity].
      + assert (X : In e (wire (pk_in pk') c)).
        { rewrite E1. unfold wire. apply in_flat_map. exists (n, q). split; auto. unfold transmit.
          destruct He as [[-> ->]|[N1 [N2 ->]]]; [rewrite Z.eqb_refl; left; auto|].
          destruct (Z.eqb_spec n OFPP_IN_PORT); [contradiction|]. destruct (Z.eqb_spec n (pk_in pk)); [contradiction|]. left; auto. }
        apply Hc in X. destruct X as [X1 [[X2 X3]|[[X2 X3]|[p [X2 [X3 X4]]]]]]; rewrite E2 in X1.
        * left. exists v. split; auto. split; auto.
        * left. exists v. split; auto. split; auto.
        * right; left. split; auto. exists p. repeat split; auto. right. exists v. auto.
  Qed.

  (** Packet-ins are of frames classified into their VLAN. *)
  Definition pin_ok (q : packet) : Prop :=
    forall vid pcp r, pk_tags q = (vid, pcp) :: r -> member cfg vid (pk_in q).
  Lemma pins_walk : forall s live pk es, switch_good s -> frame_ok pk -> ~ foreign_control cfg pk ->
    walk s live tv pk es -> forall q, In q (to_controller es) -> pin_ok q.
  Proof.
    intros s live pk es S Hk NF W q Hq. unfold to_controller in Hq. apply in_map_iff in Hq as [[n q0] [<- Hin]].
    apply filter_In in Hin as [Hin E]. simpl in E. apply Z.eqb_eq in E. subst n. simpl.
    assert (A : forall e0, (e0 = (OFPP_CONTROLLER, pk) /\ control pk) \/
       (snd e0 = pk /\ exists p, In p (d_ports cfg) /\ In (fst e0) (pc_mirror p) /\ pc_num p = pk_in pk) ->
       e0 = (OFPP_CONTROLLER, q0) -> pin_ok q0).
    { intros e0 [[H C]|[_ [p [Hp [H _]]]]] ->.
      - injection H as ->. intros vid pcp r Ht. destruct C as [p [Hp [Hn C]]].
        destruct (in_dec Z.eq_dec vid (pc_tagged p)) as [I|I].
        + left. exists p. auto.
        + exfalso. apply NF. exists p, vid, pcp, r. auto.
      - exfalso. pose proof (proj1 (vc_mirrors cfg V p _ Hp H)) as R. simpl in R. unfold OFPP_MAX, OFPP_CONTROLLER in *. lia. }
    destruct (walk_all s live S pk es W Hk) as [H|[a [b [c [v [pcp [pk' [-> [Ha [E1 [E2 [B [E3 [Hb [Hc Hk']]]]]]]]]]]]]]].
    - apply (A (OFPP_CONTROLLER, q0)); auto.
    - apply in_app_iff in Hin as [Hin|Hin]; [apply (A (OFPP_CONTROLLER, q0)); auto|].
      apply in_app_iff in Hin as [Hin|Hin].
      + apply Hb in Hin. injection Hin as ->. intros vid p' r Ht. rewrite E3 in Ht. injection Ht as <- _ _.
        rewrite E1. unfold belongs in B. destruct (pk_tags pk) as [|[v0 pcp0] r0]; [right|left; destruct B as [_ B]]; exact B.
      + exfalso. eapply not_controller; eauto.
  Qed.

  (** ** Every message of the controller is good *)

  Definition post (t : Z) (pk : packet) (es : list emission) (pk' : packet) (nx : option Z) : Prop :=
    (t = tv -> vlan_post pk es pk' nx) /\
    (t = ts -> src_post pk es pk' nx) /\
    (forall v pcp r, pk_tags pk = (v, pcp) :: r -> t = th -> dst_post td v r pk es pk' nx) /\
    (forall v pcp r, pk_tags pk = (v, pcp) :: r -> t = td -> dst_post tf v r pk es pk' nx) /\
    (forall v pcp r, pk_tags pk = (v, pcp) :: r -> t = tf -> wire_ok v r pk es /\ nx = None).

  Lemma post_end : forall t pk es a b, post t pk es a None -> post t pk es b None.
  Proof.
    intros t pk es a b (A & B & C & D & E). split; [|split; [|split; [|split]]].
    - intros H. destruct (A H) as [X _]. split; auto.
    - intros H. destruct (B H) as [X _]. split; auto.
    - intros v pcp r H1 H2. destruct (C v pcp r H1 H2) as [X _]. split; auto.
    - intros v pcp r H1 H2. destruct (D v pcp r H1 H2) as [X _]. split; auto.
    - exact E.
  Qed.

  Lemma ok_trim : forall t m i, (applies i <= 1)%nat -> inst_ok t m i -> inst_ok t m (trim i).
  Proof.
    intros t m i Ha H g live pk es pk' nx Hg Hk Hm He.
    destruct (trim_sem g live i pk es pk' nx Ha He) as [q0 [E X]].
    specialize (H g live pk es q0 nx Hg Hk Hm E). destruct nx as [n|].
    - rewrite X by discriminate. exact H.
    - apply (post_end t pk es q0 pk' H).
  Qed.

  Ltac tdis := let D := fresh "D" in pose proof tables_distinct as D; decompose [and] D; clear D; congruence.

  Lemma ok_empty : forall t m, inst_ok t m (trim []).
  Proof.
    intros t m g live pk es pk' nx _ _ _ He. injection He as <- <- <-.
    assert (W : forall v r, wire_ok v r pk []) by (intros v r e []).
    split; [|split; [|split; [|split]]]; intros; unfold vlan_post, src_post, dst_post; auto;
      split; auto; intros e [].
  Qed.

  Lemma ok_miss : forall m,
    inst_ok ts m (trim [goto (d_tdst cfg)]) /\ inst_ok th m (trim [goto (d_tdst cfg)]) /\
    inst_ok td m (trim [goto (d_tflood cfg)]).
  Proof.
    intros m.
    assert (W : forall v r pk, wire_ok v r pk []) by (intros v r pk e []).
    split; [|split]; intros g live pk es pk' nx _ _ _ He; injection He as <- <- <-;
      (split; [|split; [|split; [|split]]]); intros; try (exfalso; tdis); unfold src_post, dst_post; auto.
    split; [intros e []|auto].
  Qed.

  Lemma output_next : (tb_id (output_table cfg) = th /\ has_hairpin cfg = true) \/ tb_id (output_table cfg) = td.
  Proof. unfold output_table. destruct (has_hairpin cfg); auto. Qed.

  Lemma ok_punt : forall m n, inst_ok ts m (trim [Apply [Output OFPP_CONTROLLER n]; goto (output_table cfg)]).
  Proof.
    intros m n. apply ok_trim; [unfold applies; simpl; lia|]. intros g live pk es pk' nx _ _ _ He. injection He as <- <- <-.
    (split; [|split; [|split; [|split]]]); intros; try (exfalso; tdis).
    split; [intros e [<-|[]]; auto|]. right. split; auto. destruct output_next as [[-> E]| ->]; auto.
  Qed.
  Lemma ok_src : forall m, inst_ok ts m (trim [goto (output_table cfg)]).
  Proof.
    intros m. apply ok_trim; [unfold applies; simpl; lia|]. intros g live pk es pk' nx _ _ _ He. injection He as <- <- <-.
    (split; [|split; [|split; [|split]]]); intros; try (exfalso; tdis).
    split; [intros e []; auto|]. right. split; auto. destruct output_next as [[-> E]| ->]; auto.
  Qed.

  Lemma ok_control : forall p m n, In p (d_ports cfg) ->
    (forall pk, matches pk m = true -> pk_in pk = pc_num p /\
       ((pc_lacp p <> 0 /\ pk_hdr pk EthType = Some 0x8809) \/ (pc_lldp p = true /\ pk_hdr pk EthType = Some 0x88cc))) ->
    inst_ok tv m (trim [Apply [Output OFPP_CONTROLLER n]]).
  Proof.
    intros p m n Hp Hc. apply ok_trim; [unfold applies; simpl; lia|]. intros g live pk es pk' nx _ _ Hm He. injection He as <- <- <-.
    destruct (Hc pk Hm) as [Hi H].
    (split; [|split; [|split; [|split]]]); intros; try (exfalso; tdis).
    split; [|auto]. intros e [<-|[]]. left. split; auto. exists p. auto.
  Qed.

  (** VLAN table rules *)
  Lemma in_port_match : forall pk n m, matches pk (exact InPort n :: m) = true -> pk_in pk = n /\ matches pk m = true.
  Proof.
    intros pk n m H. unfold matches in *. cbn [forallb] in H. apply andb_true_iff in H as [H1 H2].
    apply item_exact in H1. simpl in H1. injection H1 as ->. auto.
  Qed.
  Lemma item_match1 : forall pk i m, matches pk (i :: m) = true -> item_matches pk i = true /\ matches pk m = true.
  Proof. intros pk i m H. unfold matches in *. cbn [forallb] in H. apply andb_true_iff in H. auto. Qed.

  Lemma vids_range : forall p vid, In p (d_ports cfg) -> In vid (port_vlans p) -> 0 < vid < 4096.
  Proof.
    intros p vid Hp Hv. apply (vc_member cfg V p) in Hv; auto. apply in_map_iff in Hv as [w [<- Hw]].
    apply (vc_vrange cfg V w Hw).
  Qed.

  Lemma land_present : forall vid, 0 <= vid < 4096 -> Z.land (vid_present vid) 0xfff = vid.
  Proof.
    intros vid H. change 0xfff with (Z.ones 12). rewrite Z.land_ones by lia.
    rewrite vid_present_add by lia. change (2 ^ 12) with 4096.
    replace (vid + 4096) with (vid + 1 * 4096) by lia. rewrite Z.mod_add by lia. apply Z.mod_small. lia.
  Qed.

  Lemma port_vlan_good : forall p vid (push : bool), In p (d_ports cfg) ->
    (if push then pc_native p = Some vid else In vid (pc_tagged p)) ->
    msg_good (port_vlan_rule cfg p vid push).
  Proof.
    intros p vid push Hp Hv.
    assert (Pv : In vid (port_vlans p)).
    { unfold port_vlans. destruct push; [rewrite Hv; left; auto|apply in_app_iff; auto]. }
    pose proof (vids_range p vid Hp Pv) as R.
    unfold port_vlan_rule. simpl. apply ok_trim; [unfold applies; simpl; lia|].
    intros g live pk es pk' nx _ Hk Hm He. unfold goto in He. cbn [exec_insts] in He.
    rewrite exec_acts_app in He. unfold mirror_acts in He. rewrite exec_outs in He. cbn [fst snd] in He.
    assert (Rest : exists v pcp, fst (exec_acts g live ((if push then [PushVlan; SetField VlanVid (vid_present vid)] else []) ++
        (if has_externals cfg then [if pc_ext p then set_no_external else set_external_forwarding_requested] else [])) pk) = [] /\
        (belongs cfg pk v /\ pcp_ok pk pcp) /\
        exists q, snd (exec_acts g live ((if push then [PushVlan; SetField VlanVid (vid_present vid)] else []) ++
        (if has_externals cfg then [if pc_ext p then set_no_external else set_external_forwarding_requested] else [])) pk) = q /\
        pk_in q = pk_in pk /\ pk_hdr q = pk_hdr pk /\ pk_tags q = (v, pcp) :: payload_tags pk).
    { apply in_port_match in Hm as [Hi Hm]. apply item_match1 in Hm as [Hm _].
      assert (Ex : from_external cfg pk = pc_ext p).
      { unfold from_external. destruct (pc_ext p) eqn:X.
        - apply existsb_exists. exists p. split; auto. rewrite Hi, Z.eqb_refl, X. reflexivity.
        - apply not_true_iff_false. intros Y. apply existsb_exists in Y as [q [Hq Y]]. apply andb_true_iff in Y as [Y1 Y2].
          apply Z.eqb_eq in Y1. assert (q = p); [|congruence]. eapply NoDup_map_inj_in; eauto; [apply (vc_nums cfg V)|congruence]. }
      rewrite exec_acts_app. destruct push.
      - apply none_match in Hm; [|intros; eapply (proj2 Hk); eauto].
        unfold belongs, payload_tags. rewrite Hm.
        assert (U : untagged_member cfg vid (pk_in pk)) by (exists p; auto).
        cbn [exec_acts act_on fst snd]. unfold push_vlan. rewrite Hm. cbn [set_field pk_tags pk_in pk_hdr tl].
        rewrite land_present by lia.
        destruct (has_externals cfg) eqn:Hx; [destruct (pc_ext p)|];
          cbn [exec_acts set_no_external set_external_forwarding_requested act_on fst snd app set_field pk_tags pk_in pk_hdr];
          eexists _, _; (split; [reflexivity|]; split; [|eexists; split; [reflexivity|]; repeat split; reflexivity]);
          (split; [exact U|intros He'; rewrite Ex; first [reflexivity|congruence]]).
      - destruct (vlan_match_tag pk vid R Hm) as [pcp [r Et]]; [intros; eapply (proj2 Hk); eauto|].
        assert (B : belongs cfg pk vid). { unfold belongs. rewrite Et. split; auto. exists p; auto. }
        unfold payload_tags. rewrite Et. cbn [exec_acts fst snd tl].
        destruct (has_externals cfg) eqn:Hx; [destruct (pc_ext p)|];
          cbn [exec_acts set_no_external set_external_forwarding_requested act_on fst snd app set_field];
          rewrite ?Et; eexists _, _; (split; [reflexivity|]; split; [|eexists; split; [reflexivity|]; split; [reflexivity|]; split; [reflexivity|]; first [exact Et|reflexivity]]);
          (split; [exact B|intros He'; rewrite Ex; first [reflexivity|congruence]]). }
    destruct Rest as [v [pcp [E1 [[B B2] [q [E2 [E3 [E4 E5]]]]]]]].
    match type of He with context [fst (exec_acts g live ?a pk)] => set (acts := a) in * end.
    rewrite E1, E2 in He. cbn [app] in He. rewrite !app_nil_r in He. injection He as <- <- <-.
    apply in_port_match in Hm as [Hi _].
    (split; [|split; [|split; [|split]]]); intros; try (exfalso; tdis).
    split.
    - intros e He. apply in_map_iff in He as [n [<- Hn]]. right. split; auto. exists p. auto.
    - right. split; auto. split; auto. split; auto. exists v, pcp. auto.
  Qed.

  Lemma drop_good : forall t prio m hard, msg_good (FlowMod (tb_drop t prio m hard)).
  Proof. intros. simpl. apply ok_empty. Qed.
  Lemma del_good : forall t c prio m o, c = FDelete \/ c = FDeleteStrict -> msg_good (FlowMod (tb_del t c prio m o)).
  Proof. intros t c prio m o [->| ->]; simpl; auto. Qed.

  Ltac fa := repeat match goal with
    | |- Forall _ (_ ++ _) => apply Forall_app; split
    | |- Forall _ (_ :: _) => apply Forall_cons
    | |- Forall _ [] => apply Forall_nil
    end.

  Lemma switch_add_good : forall p, In p (d_ports cfg) -> Forall msg_good (switch_add_port cfg p).
  Proof.
    intros p Hp. unfold switch_add_port. destruct (nonempty _); [|constructor]. fa.
    - apply Forall_map, Forall_forall. intros vid Hv. apply port_vlan_good; auto.
    - destruct (pc_native p) eqn:E; [fa; apply port_vlan_good; auto|]. destruct (pc_count_miss p); fa. apply drop_good.
    - destruct (Z.eqb_spec (pc_lacp p) 0); fa. simpl. apply (ok_control p); auto.
      intros pk Hm. apply in_port_match in Hm as [Hi Hm]. apply item_match1 in Hm as [_ Hm].
      apply item_match1 in Hm as [Hm _]. apply item_exact in Hm. simpl in Hm. auto.
  Qed.
  Lemma lldp_add_good : forall p, In p (d_ports cfg) -> Forall msg_good (lldp_add_port cfg p).
  Proof.
    intros p Hp. unfold lldp_add_port. destruct (pc_lldp p) eqn:L; fa. simpl. apply (ok_control p); auto.
    intros pk Hm. apply in_port_match in Hm as [Hi Hm]. apply item_match1 in Hm as [_ Hm].
    apply item_match1 in Hm as [Hm _]. apply item_exact in Hm. simpl in Hm. auto.
  Qed.
  Lemma switch_del_good : forall p, Forall msg_good (switch_del_port cfg p).
  Proof.
    intros p. unfold switch_del_port. destruct (nonempty _); [|constructor].
    apply Forall_app; split; [|apply Forall_app; split; [|apply Forall_app; split]].
    - unfold del_host_flows. fa; try (apply del_good; auto). destruct (has_hairpin cfg); fa. apply del_good; auto.
    - destruct (pc_native p), (pc_count_miss p); fa; apply del_good; auto.
    - apply Forall_map, Forall_forall. intros. apply del_good; auto.
    - destruct (pc_lacp p =? 0); fa. apply del_good; auto.
  Qed.
  Lemma managers_add_good : forall p, In p (d_ports cfg) -> Forall msg_good (managers_add_port cfg p).
  Proof.
    intros p Hp. unfold managers_add_port. fa; [apply switch_add_good|apply lldp_add_good|]; auto.
    unfold outonly_add_port. destruct (pc_output_only p); fa. apply drop_good.
  Qed.
  Lemma managers_del_good : forall p, Forall msg_good (managers_del_port cfg p).
  Proof.
    intros p. unfold managers_del_port. fa; [apply switch_del_good| |].
    - unfold lldp_del_port. destruct (pc_lldp p); fa. apply del_good; auto.
    - unfold outonly_del_port. destruct (pc_output_only p); fa. apply del_good; auto.
  Qed.

  (** flooding *)
  Section FloodOk.
    Variables (st : dstate) (v : vconf).
    Hypothesis Hv : In v (d_vlans cfg).
    Local Notation sv := (snap_vlan cfg st v).

    Lemma memZ_in : forall x l, memZ x l = true <-> In x l.
    Proof. intros. apply existsb_Zeqb. Qed.
    Lemma native_is_spec : forall vid p, native_is vid p = true <-> pc_native p = Some vid.
    Proof.
      intros vid p. unfold native_is. destruct (pc_native p) as [w|]; [|split; discriminate].
      rewrite Z.eqb_eq. split; [intros ->; auto|intros E; injection E; auto].
    Qed.
    Lemma tagged_flood_conf : forall eu x, In x (tagged_flood_ports sv eu) ->
      exists p, In p (d_ports cfg) /\ x = snap_port st p /\ In (vc_vid v) (pc_tagged p).
    Proof.
      intros eu x H. apply flood_ports_in in H as [H _]. apply in_map_iff in H as [p [<- H]].
      apply filter_In in H as [H E]. apply memZ_in in E. apply py_sorted_in in H. exists p. auto.
    Qed.
    Lemma untagged_flood_conf : forall eu x, In x (untagged_flood_ports sv eu) ->
      exists p, In p (d_ports cfg) /\ x = snap_port st p /\ pc_native p = Some (vc_vid v).
    Proof.
      intros eu x H. apply flood_ports_in in H as [H _]. cbn [v_untagged v_dot1x snap_vlan] in H.
      rewrite app_nil_r in H. apply in_map_iff in H as [p [<- H]].
      apply filter_In in H as [H E]. apply native_is_spec in E. apply py_sorted_in in H. exists p. auto.
    Qed.

    Lemma flood_wire : forall i ex eu b T U pk pcp r,
      pk_tags pk = (vc_vid v, pcp) :: r -> (forall j, i = Some j -> pk_in pk = p_num j) ->
      (forall n, In n T -> In n (flooded i ex (tagged_flood_ports sv eu))) ->
      (forall n, In n U -> In n (flooded i ex (untagged_flood_ports sv eu))) ->
      wire_ok (vc_vid v) r pk (map (fun n => (n, pcp_packet b pk)) T ++ map (fun n => (n, pop_vlan (pcp_packet b pk))) U).
    Proof.
      intros i ex eu b T U pk pcp r Ht Hi HT HU e He. apply wire_in in He as [n [q [Hin He]]].
      destruct (pcp_packet_tags b pk _ _ _ Ht) as [Ph [Pi [pcp' Pt]]].
      assert (Key : forall (l : list port) (Q : pconf -> Prop), In n (flooded i ex l) ->
         (forall x, In x l -> exists p, In p (d_ports cfg) /\ x = snap_port st p /\ Q p) ->
         (exists p, In p (d_ports cfg) /\ Q p /\ fst e = pc_num p) \/
         (exists p, In p (d_ports cfg) /\ Q p /\ In (fst e) (pc_mirror p))).
      { intros l Q Hn Hl. apply flooded_in in Hn as [[x [Hx Hn]]|[j [x [Ej [-> [Hx Hn]]]]]].
        - destruct (Hl x Hx) as [p [Hp [-> HQ]]]. simpl in Hn.
          assert (R : 0 < n < OFPP_MAX).
          { destruct Hn as [->|Hn]; [apply (vc_range cfg V); auto|apply (vc_mirrors cfg V p); auto]. }
          assert (N : n <> OFPP_IN_PORT) by (unfold OFPP_MAX, OFPP_IN_PORT in *; lia).
          destruct He as [[He _]|[_ [_ ->]]]; [contradiction|]. simpl.
          destruct Hn as [->|Hn]; [left|right]; exists p; auto.
        - destruct (Hl x Hx) as [p [Hp [-> HQ]]]. simpl in Hn.
          destruct He as [[_ ->]|[He _]]; [|congruence]. simpl. left. exists p.
          rewrite (Hi j Ej), <- Hn. auto. }
      apply in_app_iff in Hin as [Hin|Hin]; apply in_map_iff in Hin as [n0 [E Hin]]; injection E as -> <-.
      - assert (Hs : snd e = pcp_packet b pk) by (destruct He as [[_ ->]|[_ [_ ->]]]; reflexivity).
        unfold out_ok. rewrite Hs, Ph. split; auto.
        destruct (Key _ (fun p => In (vc_vid v) (pc_tagged p)) (HT n Hin)) as [[p [A [B C]]]|[p [A [B C]]]];
          [intros x Hx; apply (tagged_flood_conf eu); auto| |].
        + left. split; [|eauto]. rewrite C. exists p. auto.
        + right; right. exists p. split; auto. split; auto. unfold port_vlans. apply in_app_iff; auto.
      - assert (Hs : snd e = pop_vlan (pcp_packet b pk)) by (destruct He as [[_ ->]|[_ [_ ->]]]; reflexivity).
        unfold out_ok. rewrite Hs. cbn [pop_vlan pk_hdr pk_tags]. rewrite Ph, Pt. split; auto.
        destruct (Key _ (fun p => pc_native p = Some (vc_vid v)) (HU n Hin)) as [[p [A [B C]]]|[p [A [B C]]]];
          [intros x Hx; apply (untagged_flood_conf eu); auto| |].
        + right; left. split; [|auto]. rewrite C. exists p. auto.
        + right; right. exists p. split; auto. split; auto. unfold port_vlans. rewrite B. left; auto.
    Qed.

    Lemma keep_new_sub : forall T U n, In n (keep_new true T U) -> In n U.
    Proof. intros T U n H. apply filter_In in H as [H _]; auto. Qed.

    Lemma vlan_acts_wire : forall g live eu pk pcp r, pk_tags pk = (vc_vid v, pcp) :: r ->
      wire_ok (vc_vid v) r pk (fst (exec_acts g live (flood_acts_for_vlan sv eu) pk)).
    Proof.
      intros g live eu pk pcp r Ht. unfold flood_acts_for_vlan. rewrite flood_emits.
      eapply flood_wire; eauto. discriminate.
    Qed.
    Lemma vlan_acts_dedupe_wire : forall g live eu pk pcp r, pk_tags pk = (vc_vid v, pcp) :: r ->
      wire_ok (vc_vid v) r pk (fst (exec_acts g live (dedupe_acts (flood_acts_for_vlan sv eu) [] []) pk)).
    Proof.
      intros g live eu pk pcp r Ht. unfold flood_acts_for_vlan. rewrite flood_emits_dedupe.
      eapply flood_wire; eauto; [discriminate|]. intros n Hn. apply keep_new_sub in Hn. exact Hn.
    Qed.
    Lemma port_acts_wire : forall g live eu q ae er pk pcp r, pk_tags pk = (vc_vid v, pcp) :: r -> pk_in pk = p_num q ->
      wire_ok (vc_vid v) r pk (fst (exec_acts g live (flood_acts_for_port sv eu q ae er) pk)).
    Proof.
      intros g live eu q ae er pk pcp r Ht Hi. unfold flood_acts_for_port.
      destruct (p_phys_up q); [|intros e []]. destruct (nonempty _); [|intros e []].
      rewrite flood_emits_dedupe. eapply flood_wire; eauto.
      - intros j Ej. injection Ej as <-. exact Hi.
      - intros n Hn. apply keep_new_sub in Hn. exact Hn.
    Qed.

    Lemma vid_range : 0 < vc_vid v < 4096.
    Proof. apply (vc_vrange cfg V v Hv). Qed.

    Lemma flood_rule_ok : forall m acts,
      (forall pk, frame_ok pk -> matches pk m = true -> forall w pcp r, pk_tags pk = (w, pcp) :: r ->
         forall g live, lookup_good g -> wire_ok w r pk (fst (exec_acts g live acts pk))) ->
      inst_ok tf m (trim [Apply acts]).
    Proof.
      intros m acts H g live pk es pk' nx Hg Hk Hm He.
      destruct (trim_apply g live acts pk) as [p' E]. rewrite He in E. injection E as -> -> ->.
      (split; [|split; [|split; [|split]]]); intros; try (exfalso; tdis). split; auto. eapply H; eauto.
    Qed.

    Lemma flood_mode_good : forall cmd cold, cmd = FAdd \/ cmd = FModifyStrict ->
      Forall msg_good (flood_rules (d_tflood cfg) (d_mode cfg) (any_restricted cfg) cmd cold sv).
    Proof.
      intros cmd cold Hcmd. pose proof vid_range as R. unfold flood_rules. apply Forall_app; split.
      - apply Forall_flat_map, Forall_forall. intros c Hc. unfold mask_flood_rules. apply Forall_app; split.
        + destruct (d_mode cfg); fa.
          assert (X : inst_ok tf (vlan_match (v_vid sv) c) (trim [Apply (flood_acts_for_vlan sv (fc_unicast c))])).
          { apply flood_rule_ok. intros pk Hk Hm w pcp r Ht g live _.
            destruct (proj1 (vlan_match_spec pk (vc_vid v) c w pcp r R (proj2 Hk _ _ _ Ht) Ht) Hm) as [_ ->].
            eapply vlan_acts_wire; eauto. }
          unfold flood_rule. destruct Hcmd as [->| ->]; exact X.
        + apply Forall_flat_map, Forall_forall. intros q Hq. unfold port_rule.
          assert (X : inst_ok tf (port_match (v_vid sv) (p_num q) c) (trim [Apply (class_port_acts sv c q)])).
          { apply flood_rule_ok. intros pk Hk Hm w pcp r Ht g live _.
            destruct (proj1 (port_match_spec pk (vc_vid v) (p_num q) c w pcp r R (proj2 Hk _ _ _ Ht) Ht) Hm) as [Hi [_ ->]].
            eapply port_acts_wire; eauto. }
          assert (Y : msg_good (flood_rule (d_tflood cfg) cmd (port_match (v_vid sv) (p_num q) c) (class_prio c + 1) (class_port_acts sv c q))).
          { unfold flood_rule. destruct Hcmd as [->| ->]; exact X. }
          cbv zeta. destruct (nonempty (class_port_acts sv c q)); [|constructor].
          destruct (d_mode cfg); try (destruct (same_as_vlan sv c q)); try destruct cold; fa; auto; apply del_good; auto.
      - destruct (d_mode cfg) eqn:Mode; [constructor|constructor|]. unfold group_flood_rules.
        set (acts := flood_acts_for_vlan sv false).
        set (uacts := dedupe_acts (flood_acts_for_vlan sv true) [] []).
        set (g0 := mkGroup (v_vid sv) GT_ALL (flood_buckets acts [])).
        set (u0 := mkGroup (v_vid sv + 4096) GT_ALL (flood_buckets uacts [])).
        assert (G0 : group_good g0).
        { exists (vc_vid v). split; [auto|]. split; [left; reflexivity|]. intros live pk pcp r Ht.
          unfold exec_group, g0. cbn [g_type g_buckets].
          rewrite (flood_buckets_emit (fun _ => None) live) by (auto using flood_no_groups; apply flood_no_groups).
          eapply vlan_acts_wire; eauto. }
        assert (U0 : group_good u0).
        { exists (vc_vid v). split; [auto|]. split; [right; reflexivity|]. intros live pk pcp r Ht.
          unfold exec_group, u0. cbn [g_type g_buckets].
          rewrite (flood_buckets_emit (fun _ => None) live) by (auto; apply dedupe_no_groups, flood_no_groups).
          eapply vlan_acts_dedupe_wire; eauto. }
        set (ug := if set_eqb (output_ports uacts) (output_ports (dedupe_acts acts [] [])) then g0 else u0).
        assert (UG : group_good ug) by (unfold ug; destruct (set_eqb _ _); auto).
        cbv zeta. fold g0 u0 ug. unfold group_add. fa; simpl; auto.
        apply Forall_map, Forall_forall. intros c Hc.
        assert (X : inst_ok tf (vlan_match (v_vid sv) c) (trim [Apply [GroupAct (g_id (if fc_unicast c then ug else g0))]])).
        { apply flood_rule_ok. intros pk Hk Hm w pcp r Ht g live Hg.
          destruct (proj1 (vlan_match_spec pk (vc_vid v) c w pcp r R (proj2 Hk _ _ _ Ht) Ht) Hm) as [_ ->].
          cbn [exec_acts fst]. rewrite app_nil_r.
          assert (I : g_id (if fc_unicast c then ug else g0) = vc_vid v \/ g_id (if fc_unicast c then ug else g0) = vc_vid v + 4096).
          { unfold ug. destruct (fc_unicast c); [|left; reflexivity]. destruct (set_eqb _ _); [left|right]; reflexivity. }
          destruct (g (g_id (if fc_unicast c then ug else g0))) as [gr|] eqn:E; [|intros e []].
          destruct (Hg Mode _ _ E) as [Ei [w [Rw [Ew Hw]]]].
          assert (w = vc_vid v) by lia. subst w. eapply Hw; eauto. }
        destruct Hcmd as [->| ->]; exact X.
    Qed.
  End FloodOk.

  Lemma find_vlan_in : forall vid v, find_vlan cfg vid = Some v -> In v (d_vlans cfg) /\ vc_vid v = vid.
  Proof. intros vid v H. apply find_some in H as [H E]. apply Z.eqb_eq in E. auto. Qed.
  Lemma find_port_in : forall n p, find_port cfg n = Some p -> In p (d_ports cfg) /\ pc_num p = n.
  Proof. intros n p H. apply find_some in H as [H E]. apply Z.eqb_eq in E. auto. Qed.

  Lemma add_vlans_good : forall st cold vids, Forall msg_good (add_vlans cfg st cold vids).
  Proof.
    intros st cold vids. apply Forall_flat_map, Forall_forall. intros vid _.
    destruct (find_vlan cfg vid) as [v|] eqn:E; [|constructor]. apply find_vlan_in in E as [Hv _].
    unfold add_vlan. fa.
    - destruct (d_drop_spoof cfg); fa. apply drop_good.
    - simpl. apply ok_punt.
    - apply flood_mode_good; auto.
  Qed.
  Lemma update_vlans_good : forall st vids, Forall msg_good (update_vlans cfg st vids).
  Proof.
    intros st vids. apply Forall_flat_map, Forall_forall. intros vid _.
    destruct (find_vlan cfg vid) as [v|] eqn:E; [|constructor]. apply find_vlan_in in E as [Hv _].
    apply flood_mode_good; auto.
  Qed.

  Lemma lacp_update_good : forall st p up now pkt cold st' ms, In p (d_ports cfg) ->
    lacp_update cfg st p up now pkt cold = (st', ms) -> Forall msg_good ms.
  Proof.
    intros st p up now pkt cold st' ms Hp H.
    assert (A : forall st1, Forall msg_good (enable_forwarding cfg p :: add_vlans cfg st1 false (port_vlans p))).
    { intros. fa; [apply del_good; auto|apply add_vlans_good]. }
    assert (B : forall st1, Forall msg_good (disable_forwarding cfg p ::
      (if cold then [] else switch_del_port cfg p ++ switch_add_port cfg p ++ add_vlans cfg st1 false (port_vlans p)))).
    { intros. apply Forall_cons; [apply drop_good|]. destruct cold; fa;
      [apply switch_del_good|apply switch_add_good|apply add_vlans_good]; auto. }
    unfold lacp_update in H.
    destruct (actor_eq_dec _ _); [destruct (role_eq_dec _ _)|]; injection H as <- <-; auto;
      destruct (is_sel _ && is_up _); auto.
  Qed.

  Lemma ports_add_good : forall cold st ps st' ms, (forall p, In p ps -> In p (d_ports cfg)) ->
    ports_add cfg cold st ps = (st', ms) -> Forall msg_good ms.
  Proof.
    intros cold st ps st' ms Hps H. unfold ports_add in H.
    destruct (ports_add_each cfg cold st ps) as [st1 ms1] eqn:E. injection H as <- <-.
    apply Forall_app; split; [|destruct cold; [constructor|apply add_vlans_good]].
    revert st st1 ms1 E. induction ps as [|p ps IH]; intros st st1 ms1 E; simpl in E.
    - injection E as <- <-. constructor.
    - destruct (port_add_one cfg cold st p) as [sa ma] eqn:Ea.
      destruct (ports_add_each cfg cold sa ps) as [sb mb] eqn:Eb. injection E as <- <-.
      apply Forall_app; split; [|eapply IH; eauto; intros; apply Hps; right; auto].
      assert (Hp : In p (d_ports cfg)) by (apply Hps; left; auto).
      unfold port_add_one in Ea. destruct (port_running _ _); [|injection Ea as <- <-; constructor].
      destruct (pc_lacp p =? 0); [injection Ea as <- <-; apply managers_add_good; auto|].
      destruct (lacp_update _ _ _ _ _ _ _) as [sc mc] eqn:Ec. injection Ea as <- <-.
      apply Forall_app; split; [apply managers_add_good; auto|]. eapply lacp_update_good; eauto.
  Qed.

  Lemma ports_delete_good : forall keep now st ps st' ms, (forall p, In p ps -> In p (d_ports cfg)) ->
    ports_delete cfg keep now st ps = Some (st', ms) -> Forall msg_good ms.
  Proof.
    intros keep now st ps st' ms Hps H. unfold ports_delete in H.
    destruct (ports_delete_each cfg keep now st ps) as [[st1 ms1]|] eqn:E; [|discriminate]. injection H as <- <-.
    apply Forall_app; split; [|apply update_vlans_good].
    revert st st1 ms1 E. induction ps as [|p ps IH]; intros st st1 ms1 E; cbn [ports_delete_each] in E.
    - injection E as <- <-. constructor.
    - destruct (port_delete_one cfg keep now st p) as [[sa ma]|] eqn:Ea; [|discriminate].
      destruct (ports_delete_each cfg keep now sa ps) as [[sb mb]|] eqn:Eb; [|discriminate]. injection E as <- <-.
      apply Forall_app; split; [|eapply IH; eauto; intros; apply Hps; right; auto].
      assert (Hp : In p (d_ports cfg)) by (apply Hps; left; auto).
      unfold port_delete_one in Ea. cbv zeta in Ea. destruct (pc_lacp p =? 0).
      + destruct keep; [injection Ea as <- <-; apply managers_del_good|].
        destruct (clear_vlans _ _ _); [|discriminate]. injection Ea as <- <-. apply managers_del_good.
      + injection Ea as Ea. eapply lacp_update_good; eauto.
  Qed.

  (** learning *)
  Definition host_fits (m : host_msg) : Prop :=
    match m with
    | MDst vid n _ _ | MDstNonExt vid n _ _ | MHairpin vid n _ _ => member cfg vid n
    | _ => True
    end.

  Lemma nums_inj : forall p q, In p (d_ports cfg) -> In q (d_ports cfg) -> pc_num p = pc_num q -> p = q.
  Proof. intros p q Hp Hq E. eapply NoDup_map_inj_in; eauto. apply (vc_nums cfg V). Qed.
  Lemma find_port_some : forall p, In p (d_ports cfg) -> find_port cfg (pc_num p) = Some p.
  Proof.
    intros p Hp. destruct (find_port cfg (pc_num p)) as [q|] eqn:E.
    - apply find_port_in in E as [Hq E]. f_equal. apply nums_inj; auto.
    - exfalso. pose proof (find_none _ _ E p Hp) as X. simpl in X. rewrite Z.eqb_refl in X. discriminate.
  Qed.

  Lemma output_wire : forall g live p vid hp ext pk pcp r, In p (d_ports cfg) -> member cfg vid (pc_num p) ->
    pk_tags pk = (vid, pcp) :: r -> (hp = true -> pk_in pk = pc_num p) ->
    wire_ok vid r pk (fst (exec_acts g live (output_port cfg p vid hp ext) pk)).
  Proof.
    intros g live p vid hp ext pk pcp r Hp Hmem Ht Hi e He.
    assert (Num : forall q, (exists q0, In (q0, q) [(if hp then OFPP_IN_PORT else pc_num p, q)] /\
       ((q0 = OFPP_IN_PORT /\ e = (pk_in pk, q)) \/ (q0 <> OFPP_IN_PORT /\ q0 <> pk_in pk /\ e = (q0, q)))) -> e = (pc_num p, q)).
    { intros q [q0 [[E|[]] [[A B]|[A [C B]]]]]; injection E as <-.
      - destruct hp; [rewrite Hi in B; auto|].
        exfalso. pose proof (vc_range cfg V p Hp). unfold OFPP_MAX, OFPP_IN_PORT in *. lia.
      - destruct hp; [contradiction|auto]. }
    assert (Mir : forall n q, In n (pc_mirror p) ->
       ((n = OFPP_IN_PORT /\ e = (pk_in pk, q)) \/ (n <> OFPP_IN_PORT /\ n <> pk_in pk /\ e = (n, q))) -> e = (n, q)).
    { intros n q Hn [[A _]|[_ [_ B]]]; auto.
      exfalso. pose proof (proj1 (vc_mirrors cfg V p n Hp Hn)). unfold OFPP_MAX, OFPP_IN_PORT in *. lia. }
    assert (Vp : In vid (port_vlans p)).
    { unfold port_vlans. destruct Hmem as [[q [A [B C]]]|[q [A [B C]]]]; assert (q = p) by (apply nums_inj; auto); subst q;
        [apply in_app_iff; auto|rewrite C; left; auto]. }
    apply wire_in in He as [n [q [Hin He]]]. unfold output_port in Hin.
    destruct (native_is vid p) eqn:Na.
    - apply native_is_spec in Na. change ((PopVlan :: mirror_acts p) ++ ?x) with (PopVlan :: (mirror_acts p ++ x)) in Hin.
      cbn [exec_acts act_on] in Hin. rewrite exec_acts_app in Hin. unfold mirror_acts in Hin. rewrite exec_outs in Hin.
      cbn [fst snd exec_acts out] in Hin. apply in_app_iff in Hin as [Hin|Hin].
      + apply in_map_iff in Hin as [n0 [E Hn]]. injection E as -> <-. rewrite (Mir n _ Hn He).
        split; [reflexivity|]. right; right. exists p. auto.
      + destruct Hin as [E|[]]. injection E as <- <-. rewrite (Num (pop_vlan pk)); [|eexists; split; [left; reflexivity|exact He]].
        split; [reflexivity|]. right; left. split; [exists p; auto|]. simpl. rewrite Ht. reflexivity.
    - assert (Tg : In vid (pc_tagged p)).
      { unfold port_vlans in Vp. destruct (pc_native p) as [w|] eqn:En; [|exact Vp].
        destruct Vp as [->|Vp]; [|exact Vp]. exfalso.
        assert (native_is vid p = true) by (apply native_is_spec; auto). congruence. }
      rewrite <- app_assoc, exec_acts_app in Hin. unfold mirror_acts in Hin. rewrite exec_outs in Hin.
      cbn [fst snd] in Hin. apply in_app_iff in Hin as [Hin|Hin].
      + apply in_map_iff in Hin as [n0 [E Hn]]. injection E as -> <-. rewrite (Mir n _ Hn He).
        split; [reflexivity|]. right; right. exists p. auto.
      + assert (X : exists q', q = q' /\ n = (if hp then OFPP_IN_PORT else pc_num p) /\ pk_hdr q' = pk_hdr pk /\ exists pcp', pk_tags q' = (vid, pcp') :: r).
        { destruct ext; cbn [app exec_acts out set_external_forwarding_requested act_on set_field fst] in Hin.
          - rewrite Ht in Hin. destruct Hin as [E|[]]. injection E as <- <-. eexists; split; [reflexivity|]. simpl. eauto.
          - destruct Hin as [E|[]]. injection E as <- <-. eexists; split; [reflexivity|]. eauto. }
        destruct X as [q' [<- [-> [Hh [pcp' Hq]]]]]. rewrite (Num q); [|eexists; split; [left; reflexivity|exact He]].
        split; [exact Hh|]. left. split; [exists p; auto|]. eauto.
  Qed.

  Lemma host_good : forall m, host_fits m -> (forall vid n mac i, m = MDst vid n mac i \/ m = MDstNonExt vid n mac i \/ m = MHairpin vid n mac i ->
      0 < vid < 4096) -> Forall msg_good (host_ofmsgs cfg m).
  Proof.
    intros m Hf Hr. destruct m as [vid mac|vid n mac h i|vid n mac i|vid n mac i|vid n mac i|n|vid|mac n];
      simpl in Hf; cbn [host_ofmsgs].
    - fa; try (apply del_good; auto). destruct (has_hairpin cfg); fa. apply del_good; auto.
    - fa. simpl. apply ok_src.
    - destruct (find_port cfg n) as [p|] eqn:E; fa. apply find_port_in in E as [Hp <-].
      simpl. intros g live pk es pk' nx Hg Hk Hm He. destruct (trim_apply g live (output_port cfg p vid false (has_externals cfg)) pk) as [p' X].
      rewrite He in X. injection X as -> -> ->.
      apply item_match1 in Hm as [_ Hm]. apply item_match1 in Hm as [Hm _].
      (split; [|split; [|split; [|split]]]); intros; try (exfalso; tdis). split; auto.
      assert (Rv : 0 < vid < 4096) by (eapply Hr; eauto).
      apply (proj1 (vlan_item_match pk vid v pcp r Rv (proj2 Hk _ _ _ H) H)) in Hm. subst v.
      eapply output_wire; eauto. discriminate.
    - destruct (find_port cfg n) as [p|] eqn:E; fa. apply find_port_in in E as [Hp <-].
      simpl. intros g live pk es pk' nx Hg Hk Hm He. destruct (trim_apply g live (output_port cfg p vid false (has_externals cfg)) pk) as [p' X].
      rewrite He in X. injection X as -> -> ->.
      apply item_match1 in Hm as [_ Hm]. apply item_match1 in Hm as [Hm _].
      (split; [|split; [|split; [|split]]]); intros; try (exfalso; tdis). split; auto.
      assert (Rv : 0 < vid < 4096) by (eapply Hr; eauto).
      apply (proj1 (vlan_item_match pk vid v pcp r Rv (proj2 Hk _ _ _ H) H)) in Hm. subst v.
      eapply output_wire; eauto. discriminate.
    - destruct (find_port cfg n) as [p|] eqn:E; fa. apply find_port_in in E as [Hp <-].
      simpl. intros g live pk es pk' nx Hg Hk Hm He. destruct (trim_apply g live (output_port cfg p vid true false) pk) as [p' X].
      rewrite He in X. injection X as -> -> ->.
      apply in_port_match in Hm as [Hi Hm]. apply item_match1 in Hm as [_ Hm]. apply item_match1 in Hm as [Hm _].
      (split; [|split; [|split; [|split]]]); intros; try (exfalso; tdis). split; auto.
      assert (Rv : 0 < vid < 4096) by (eapply Hr; eauto).
      apply (proj1 (vlan_item_match pk vid v pcp r Rv (proj2 Hk _ _ _ H) H)) in Hm. subst v.
      eapply output_wire; eauto.
    - fa. apply drop_good.
    - fa. apply drop_good.
    - fa. apply drop_good.
  Qed.

  Definition about (vid n : Z) (m : host_msg) : Prop :=
    match m with
    | MDst w k _ _ | MDstNonExt w k _ _ | MHairpin w k _ _ => w = vid /\ k = n
    | _ => True
    end.

  Lemma learn_about : forall l now vid n mac l' hs,
    vlan_rcv_packet (learn_cfg cfg) l now vid n mac = Some (l', hs) -> Forall (about vid n) hs.
  Proof.
    intros l now vid n mac l' hs H. unfold vlan_rcv_packet in H.
    assert (B : Forall (about vid n) (ban_rules (learn_cfg cfg) l vid n mac)).
    { unfold ban_rules. destruct (cached_host _ _); [constructor|].
      apply Forall_app; split; destruct (_ && _); repeat constructor. }
    destruct (ban_rules (learn_cfg cfg) l vid n mac) as [|b bs]; [|injection H as <- <-; exact B].
    unfold learn_host in H.
    assert (K : Forall (about vid n) (ck_msgs (learn_host_on_vlan_ports (learn_cfg cfg) l now n vid mac))).
    { unfold learn_host_on_vlan_ports.
      assert (P : forall e m p a b, Forall (about vid n) (ck_msgs (perm_learn_check (learn_cfg cfg) e m p a b))).
      { intros e m p a b. unfold perm_learn_check. destruct e as [x|]; [|constructor]. destruct (c_perm _ _); [|constructor].
        simpl. destruct (_ =? _); repeat constructor. }
      assert (Q : forall e p a b, Forall (about vid n) (ck_msgs (learn_cache_check (learn_cfg cfg) l now e p a b))).
      { intros e p a b. unfold learn_cache_check. destruct e as [x|]; [|constructor].
        repeat match goal with |- context [if ?c then _ else _] => destruct c end; constructor. }
      assert (R : forall e p a b, Forall (about vid n) (ck_msgs (loop_protect_check (learn_cfg cfg) l now e p a b))).
      { intros e p a b. unfold loop_protect_check. destruct (_ && _); repeat constructor. }
      cbv zeta. destruct (ck_exit _); [apply P|]. destruct (ck_exit _); [apply Q|]. destruct (ck_exit _); [apply R|].
      unfold learn_check. cbn [ck_msgs]. unfold learn_flows. destruct (learn_host_timeouts _ _ _) as [[a b] c].
      apply Forall_app; split; [destruct (ck_delete _); repeat constructor|]. constructor; [simpl; auto|].
      destruct (_ && _); [constructor|]. constructor; [simpl; auto|]. apply Forall_app; split.
      - destruct (_ && _); repeat constructor.
      - destruct (c_hairpin _ _); repeat constructor. }
    destruct (ck_update _).
    - destruct (add_cache_host _ _ _ _); [|discriminate]. injection H as <- <-. exact K.
    - injection H as <- <-. exact K.
  Qed.

  Lemma expire_about : forall l now vids l' hs, hosts_expire_each cfg l now vids = Some (l', hs) ->
    Forall (fun h => match h with MDelHost _ _ => True | _ => False end) hs.
  Proof.
    intros l now vids. revert l. induction vids as [|v vids IH]; intros l l' hs H; cbn [hosts_expire_each] in H.
    - injection H as <- <-. constructor.
    - destruct (state_expire_vlan (learn_cfg cfg) l now v) as [[l1 h1]|] eqn:E; [|discriminate].
      destruct (hosts_expire_each cfg l1 now vids) as [[l2 h2]|] eqn:E2; [|discriminate]. injection H as <- <-.
      apply Forall_app; split; [|eapply IH; eauto].
      unfold state_expire_vlan in E. destruct (expire_hosts_from_vlan _ _ _ _) as [[l3 ex]|]; [|discriminate].
      injection E as <- E. rewrite <- E. destruct (d_idle_dst cfg); [constructor|]. apply Forall_map, Forall_forall. auto.
  Qed.

  Lemma lacp_expire_good : forall now ps st st' ms, (forall p, In p ps -> In p (d_ports cfg)) ->
    lacp_expire_each cfg st now ps = (st', ms) -> Forall msg_good ms.
  Proof.
    intros now. induction ps as [|p ps IH]; intros st st' ms Hps H; cbn [lacp_expire_each] in H.
    - injection H as <- <-. constructor.
    - destruct (lacp_update cfg st p false (Some now) false false) as [s1 m1] eqn:E1.
      destruct (lacp_expire_each cfg s1 now ps) as [s2 m2] eqn:E2. injection H as <- <-.
      apply Forall_app; split; [eapply lacp_update_good; eauto; apply Hps; left; auto|].
      eapply IH; eauto. intros; apply Hps; right; auto.
  Qed.

  Lemma step_good : forall st pins ev st' ms, (forall q, In q pins -> pin_ok q) ->
    (forall s, sent_by_switch (mkWorld st s pins) ev) ->
    cstep cfg st ev = Some (st', ms) -> Forall msg_good ms.
  Proof.
    intros st pins ev st' ms HP HS H. destruct ev as [now ups|now|now n reason down blocked|now n vid mac|now n sync|now];
      cbn [cstep] in H.
    - destruct (HS empty_switch).
    - destruct (datapath_disconnect cfg st now); [|discriminate]. injection H as <- <-. constructor.
    - destruct (ds_running st); [|injection H as <- <-; constructor].
      unfold port_status_handler in H. cbv zeta in H.
      destruct (find_port cfg n) as [p|] eqn:E; [|injection H as <- <-; constructor].
      apply find_port_in in E as [Hp _].
      assert (Hp1 : forall x, In x [p] -> In x (d_ports cfg)) by (intros x [<-|[]]; auto).
      destruct (negb (pc_opstatus p)); [injection H as <- <-; constructor|].
      assert (K : forall b st1, (if eqb b (ds_phys st1 n)
           then if b && (blocked || down) then ports_delete cfg true None st1 [p] else Some (st1, [])
           else if b then Some (ports_add cfg false st1 [p]) else ports_delete cfg true None st1 [p]) = Some (st', ms) ->
           Forall msg_good ms).
      { clear H. intros b st1 X. destruct (eqb b (ds_phys st1 n)).
        - destruct (b && (blocked || down)); [eapply ports_delete_good; eauto|injection X as <- <-; constructor].
        - destruct b; [|eapply ports_delete_good; eauto]. injection X as X. eapply ports_add_good; eauto. }
      destruct reason; try (eapply K; exact H). injection H as <- <-; constructor.
    - unfold rcv_vlan_packet in H. destruct (negb _); [injection H as <- <-; constructor|].
      destruct (find_port cfg n) as [p|] eqn:Ep; [|injection H as <- <-; constructor].
      destruct (find_vlan cfg vid) as [v|] eqn:Ev; [|injection H as <- <-; constructor].
      destruct (learnable_mac mac); [|injection H as <- <-; constructor].
      destruct (vlan_rcv_packet (learn_cfg cfg) (ds_learn st) now vid n mac) as [[l hs]|] eqn:E; [|discriminate].
      injection H as <- <-. apply learn_about in E.
      apply find_vlan_in in Ev as [Hv <-]. pose proof (vc_vrange cfg V v Hv) as R.
      destruct (HS empty_switch) as [q [pcp [r [Hq [<- [Ht _]]]]]]. simpl in Hq.
      pose proof (HP q Hq _ _ _ Ht) as M.
      rewrite Forall_forall in E. apply Forall_flat_map, Forall_forall. intros h Hh. specialize (E h Hh).
      apply host_good.
      + destruct h; simpl in *; auto; destruct E as [-> ->]; auto.
      + intros w k m i [->|[->| ->]]; simpl in E; destruct E as [-> _]; auto.
    - injection H as H. unfold rcv_lacp in H. destruct (negb _); [injection H as <- <-; constructor|].
      destruct (find_port cfg n) as [p|] eqn:E; [|injection H as <- <-; constructor].
      apply find_port_in in E as [Hp _]. destruct (pc_lacp p =? 0); [injection H as <- <-; constructor|].
      eapply lacp_update_good; eauto.
    - unfold state_expire in H. destruct (negb (ds_running st)); [injection H as <- <-; constructor|].
      destruct (lacp_expire_each cfg st now _) as [s1 m1] eqn:E1.
      destruct (hosts_expire_each cfg (ds_learn s1) now _) as [[l hs]|] eqn:E2; [|discriminate]. injection H as <- <-.
      apply Forall_app; split.
      + eapply lacp_expire_good; [|exact E1]. intros p Hp. apply filter_In in Hp as [Hp _]; auto.
      + apply expire_about in E2. rewrite Forall_forall in E2. apply Forall_flat_map, Forall_forall. intros h Hh.
        specialize (E2 h Hh). destruct h; try contradiction. apply host_good; [simpl; auto|].
        intros w k m i [X|[X|X]]; discriminate.
  Qed.

  Lemma connect_good : forall st now ups st' ms, datapath_connect cfg st now ups = (st', ms) ->
    Forall msg_good ms /\ (exists d, In (FlowMod d) ms /\ wipes d) /\
    (d_mode cfg = Grouped -> exists g, In (GroupMod GDelete g) ms /\ g_id g = OFPG_ALL).
  Proof.
    intros st now ups st' ms H. unfold datapath_connect in H. cbv zeta in H.
    destruct (ports_add cfg true _ _) as [s2 m2] eqn:E.
    assert (E2 : ms = delete_all_msgs cfg ++ default_msgs cfg ++ init_msgs cfg ++ [ConfigMsg 0] ++ m2
                      ++ add_vlans cfg s2 true (map vc_vid (d_vlans cfg))) by congruence.
    clear H. subst ms.
    split; [|split].
    - destruct (ok_miss []) as [A [B C]].
      fa.
      + unfold delete_all_msgs. apply Forall_cons; [apply del_good; auto|]. destruct (d_mode cfg); fa; simpl; auto.
      + unfold default_msgs. cbv zeta. fa; try apply drop_good; auto. destruct (has_hairpin cfg); fa. exact B.
      + unfold init_msgs. fa; try apply drop_good; [destruct (d_drop_bcast cfg); fa; apply drop_good|].
        unfold initialise_msgs. apply Forall_map, Forall_forall. intros. apply drop_good.
      + simpl; auto.
      + eapply ports_add_good; [|eauto]. intros p Hp. apply filter_In in Hp as [Hp _]. apply filter_In in Hp as [Hp _]; auto.
      + apply add_vlans_good.
    - eexists. split; [left; reflexivity|]. repeat split; auto.
    - intros M. eexists. split; [apply in_app_iff; left; right; rewrite M; left; reflexivity|reflexivity].
  Qed.

  Lemma iso_inv : forall (F : packet -> Prop) evs w, (forall pk, F pk -> ~ foreign_control cfg pk) -> reach cfg F evs w ->
    switch_good (w_sw w) /\ forall q, In q (w_pins w) -> pin_ok q.
  Proof.
    intros F evs w HF R. induction R as
      [now ups sh ub out s0 Hsh Hr|evs w now ups sh ub out s0 R [SG PG] Hsh Hr|evs w ev st ms sh ub out R [SG PG] HS Hc Hsh Hr
      |evs w live pk es R [SG PG] Hk Fk W|evs w f l1 l2 R [SG PG] E T]; cbn [w_sw w_pins].
    - destruct (datapath_connect cfg dstate_init now ups) as [st ms] eqn:E. simpl in Hr.
      destruct (connect_good _ _ _ _ _ E) as [G [[d [Hd W]] Hg]]. split; [|intros q []].
      eapply batch_fresh_good; eauto.
    - destruct (datapath_connect cfg (w_ctl w) now ups) as [st ms] eqn:E. simpl in Hr.
      destruct (connect_good _ _ _ _ _ E) as [G [[d [Hd W]] Hg]]. split; [|exact PG].
      eapply batch_fresh_good; eauto.
    - split; [|exact PG]. eapply batch_keeps; eauto. apply (step_good (w_ctl w) (w_pins w) ev st ms); auto.
    - split; [exact SG|]. intros q Hq. apply in_app_iff in Hq as [Hq|Hq]; auto.
      eapply pins_walk; eauto.
    - destruct SG as [SF SGr]. split; [|exact PG]. split; [|exact SGr]. intros g Hg. apply SF. rewrite E.
      simpl in Hg. apply in_app_iff in Hg. apply in_app_iff. simpl. tauto.
  Qed.

  Lemma isolation_lemma : forall (F : packet -> Prop) evs w live pk es, (forall pk, F pk -> ~ foreign_control cfg pk) ->
    reach cfg F evs w -> frame_ok pk -> walk (w_sw w) live tv pk es ->
    forall e, In e (wire (pk_in pk) es) -> may_leave cfg pk e.
  Proof. intros F evs w live pk es HF R Hk W. apply (isolation_walk (w_sw w) live); auto. apply (iso_inv F evs w HF R). Qed.
End Iso.
