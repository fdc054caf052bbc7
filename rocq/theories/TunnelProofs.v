(** * Tunnels: lemmas *)
From Coq Require Import ZArith List Bool Lia Permutation.
From Verif Require Import PyBase PyBaseProofs OpenFlow ReorderModel ReorderSpec ReorderProofs BatchProofs SlotProofs TrimModel TrimProofs
  TableModel L2Proofs AclModel AclSpec AclProofs AclMatchProofs StackModel StackSpec StackProofs StackFloodProofs StackNextProofs TunnelModel TunnelSpec.
Import ListNotations.
Open Scope Z_scope.

(** ** The last of several writes to a slot *)
Section Last.
  Variables (sh : list ofmsg -> list ofmsg) (ub : bool) (pre ms out : list ofmsg).
  Hypothesis Hsh : forall l, Permutation (sh l) l.
  Hypothesis R : valve_flowreorder sh ub (pre ++ ms) = Some out.
  Hypothesis NM : forall w, In (FlowMod w) (pre ++ ms) -> fm_cmd w <> FModify.
  Variables (s : switch) (t p : Z) (m : fmatch) (F : flow).
  Hypothesis C : forall a b, In (FlowMod a) (pre ++ ms) -> In (FlowMod b) ms -> is_flow_write (FlowMod a) = true -> is_flow_write (FlowMod b) = true ->
    same_flow_slot a b -> fm_cookie a = fm_cookie b.
  Hypothesis U : forall w, In (FlowMod w) ms -> is_flow_write (FlowMod w) = true -> fm_at t p m w -> fm_cmd w = FAdd /\ flow_of w = F.
  Lemma slot_last : (exists w, In (FlowMod w) ms /\ is_flow_write (FlowMod w) = true /\ fm_at t p m w) ->
    forall f, at_slot t p m f -> (In f (sw_flows (apply_msgs out s)) <-> f = F).
  Proof.
    intros [w [Hw [Ww A]]] f Hf. destruct (reorder_pieces sh ub _ out R) as [d [Hd ->]].
    repeat rewrite apply_msgs_app.
    assert (FK : forall x, In x (p_adds (pre ++ ms)) -> exists wx, x = FlowMod wx /\ is_flow_write x = true /\ In x (pre ++ ms)).
    { intros x Hx. apply p_adds_sub in Hx as [Hx K]. apply kind_flow_write in K. destruct x; try discriminate. eauto. }
    assert (LAST : forall wx, In (FlowMod wx) (p_adds (pre ++ ms)) -> fm_at t p m wx -> In (FlowMod wx) ms).
    { intros wx Hx Ax. destruct (FK _ Hx) as (w' & E & Wx & Ix). injection E as <-.
      unfold p_adds, sort_flows, dedupe_key in Hx. apply py_sorted_in in Hx. apply (dict_of_vals _ okey_eqb_spec) in Hx.
      unfold of_kind in Hx. rewrite filter_app, rev_app_distr in Hx.
      assert (K : none_flowmodkey (FlowMod wx) = none_flowmodkey (FlowMod w)).
      { simpl. unfold flowmodkey. destruct A as (A1 & A2 & A3), Ax as (B1 & B2 & B3).
        rewrite (C wx w Ix Hw Wx Ww ltac:(repeat split; congruence)). congruence. }
      assert (FS : exists y, find (fun x => okey_eqb (none_flowmodkey (FlowMod wx)) (none_flowmodkey x)) (rev (of_kind ms KFlowAddMod)) = Some y).
      { destruct (find _ (rev (of_kind ms KFlowAddMod))) as [y|] eqn:E; [eexists; reflexivity|]. exfalso. assert (X := find_none _ _ E (FlowMod w)). cbn beta in X.
        rewrite K in X. assert (okey_eqb (none_flowmodkey (FlowMod w)) (none_flowmodkey (FlowMod w)) = true) by (apply okey_eqb_spec; reflexivity).
        rewrite X in H; [discriminate|]. apply -> in_rev. apply of_kind_in. split; auto. apply kind_flow_write; auto. }
      destruct FS as (y & FS). unfold of_kind in FS.
      assert (APP : forall (a b : list ofmsg) g y, find g a = Some y -> find g (a ++ b) = Some y).
      { intros a b g z. induction a as [|x a IH]; simpl; [discriminate|]. destruct (g x); auto. }
      rewrite (APP _ _ _ _ FS) in Hx. injection Hx as ->. apply find_some in FS as [FS _]. apply in_rev, of_kind_in in FS. apply FS. }
    rewrite (no_flow_change (sh _)), (no_flow_change (p_simple _ KOther)).
    - apply (fun l s0 a b c => proj1 (writes_slot l s0 t p m F a b c)); auto.
      + intros x Hx. apply FK in Hx as (wx & -> & Wx & _). exact Wx.
      + intros x Hx. apply FK in Hx as (wx & _ & _ & Ix). apply NM; auto.
      + intros x Hx Ax. assert (L := LAST x Hx Ax). apply FK in Hx as (wx & E & Wx & _). apply U; auto.
      + assert (Hk : In (FlowMod w) (of_kind (pre ++ ms) KFlowAddMod)).
        { apply of_kind_in; split; [apply in_or_app; auto|apply kind_flow_write; auto]. }
        destruct (dict_of_covers okey_eqb okey_eqb_spec none_flowmodkey _ _ Hk) as [y [Hy Ey]].
        change (In y (dedupe_key (of_kind (pre ++ ms) KFlowAddMod))) in Hy.
        destruct y as [wy| | | | | | |]; try discriminate. exists wy. split.
        * unfold p_adds, sort_flows. apply py_sorted_in. exact Hy.
        * simpl in Ey. injection Ey as E1 _ E2 E3. destruct A as [A1 [A2 A3]]. repeat split; congruence.
    - intros x Hx. apply p_simple_kind in Hx as [_ K]. split.
      + destruct (is_flow_write x) eqn:E; auto. apply kind_flow_write in E. congruence.
      + destruct (is_delete x) eqn:E; auto. apply kind_delete in E. destruct E; congruence.
    - intros x Hx. apply (perm_sub sh Hsh), dedupe_str_in, of_kind_in in Hx as [_ K]. split.
      + destruct (is_flow_write x) eqn:E; auto. apply kind_flow_write in E. congruence.
      + destruct (is_delete x) eqn:E; auto. apply kind_delete in E. destruct E; congruence.
  Qed.
End Last.

(** ** One entry decides *)
Lemma walk_decided : forall s live t pk F es0 q nx, hit (sw_flows s) t pk F -> (forall e, hit (sw_flows s) t pk e -> e = F) ->
  exec_insts (group_lookup s) live (f_inst F) pk = (es0, q, nx) ->
  forall es, walk s live t pk es <-> exists es', then_ s live nx q es' /\ es = es0 ++ es'.
Proof.
  intros s live t pk F es0 q nx H U E es. split.
  - intros W. inversion W as [t0 p0 M|t0 p0 e es1 p' He Ee|t0 p0 e es1 p' t' es' He Ee W']; subst.
    + exfalso. destruct H as (I & T & MM & _). rewrite (M F I T) in MM. discriminate.
    + apply U in He as X. subst e. rewrite E in Ee. injection Ee as <- <- ->. exists []. split; [reflexivity|rewrite app_nil_r; reflexivity].
    + apply U in He as X. subst e. rewrite E in Ee. injection Ee as <- <- ->. exists es'. split; [exact W'|reflexivity].
  - intros (es' & T & ->). destruct nx as [t'|]; cbn [then_] in T.
    + exact (walk_goto s live t pk F es0 q t' es' H E T).
    + subst es'. rewrite app_nil_r. exact (walk_end s live t pk F es0 q H E).
Qed.

(** ** The messages of an update *)

Lemma sequence_some : forall {A} (l : list (option (list A))) ms, sequence l = Some ms ->
  (forall o, In o l -> exists a, o = Some a) /\ forall x, In x ms <-> exists a, In (Some a) l /\ In x a.
Proof.
  intros A. induction l as [|o l IH]; intros ms H; cbn in H.
  - injection H as <-. split; [intros o []|]. intros x. split; [intros []|intros (a & [] & _)].
  - destruct o as [a|]; [|discriminate]. fold (sequence l) in H. destruct (sequence l) as [b|] eqn:E; [|discriminate]. injection H as <-.
    destruct (IH b eq_refl) as [S I]. split.
    + intros o [<-|H]; [eauto|apply S, H].
    + intros x. rewrite in_app_iff, I. split.
      * intros [H|(c & H & Hx)]; [exists a; split; [left; reflexivity|exact H]|exists c; split; [right; exact H|exact Hx]].
      * intros (c & [H|H] & Hx); [left; injection H as <-; exact Hx|right; eauto].
Qed.
Lemma tsource_eqb_spec : forall a b, tsource_eqb a b = true <-> a = b.
Proof. intros a b. unfold tsource_eqb. destruct (tsource_eq_dec a b); split; auto; discriminate. Qed.
Lemma first_of_each_in : forall l x, In x (first_of_each l) <-> In x l.
Proof.
  induction l as [|y l IH]; intros x; [reflexivity|]. cbn [first_of_each]. cbn [In]. rewrite filter_In, IH. split; [tauto|].
  intros [H|H]; [auto|]. destruct (tsource_eq_dec y x) as [E|NE]; [auto|]. right. split; [exact H|].
  destruct (tsource_eqb x y) eqn:E; [|reflexivity]. apply tsource_eqb_spec in E. congruence.
Qed.
Lemma own_pairs_in : forall me l s tid, (In (s, tid) (own_pairs me l) <->
  exists d, In d (tl_dests l) /\ td_id d = tid /\ In s (tl_sources l) /\ fwd_updated me d s = true /\ ts_dp s = sn_name me).
Proof.
  intros me l s tid. unfold own_pairs. rewrite in_flat_map. split.
  - intros (d & D & H). apply in_map_iff in H as (s' & E & H). injection E as -> <-. apply filter_In in H as [S H].
    apply andb_true_iff in H as [F N]. apply Z.eqb_eq in N. exists d. auto 10.
  - intros (d & D & <- & S & F & N). exists d. split; [exact D|]. apply in_map_iff. exists s. split; [reflexivity|]. apply filter_In.
    split; [exact S|]. rewrite F, N, Z.eqb_refl. reflexivity.
Qed.
Lemma source_msgs_in : forall c me l dy m1, source_msgs c me l dy = Some m1 -> 
  (forall s tid, In (s, tid) (own_pairs me l) -> exists a, build_tunnel_acl_rule_ofmsgs c l dy s tid = Some a) /\
  forall x, In x m1 <-> exists s tid a, In (s, tid) (own_pairs me l) /\ build_tunnel_acl_rule_ofmsgs c l dy s tid = Some a /\ In x a.
Proof.
  intros c me l dy m1 H. apply sequence_some in H as [S I].
  assert (K : forall o, In o (flat_map (fun s => map (fun p => build_tunnel_acl_rule_ofmsgs c l dy s (snd p)) (filter (fun p => tsource_eqb (fst p) s) (own_pairs me l)))
      (first_of_each (map fst (own_pairs me l)))) <-> exists s tid, In (s, tid) (own_pairs me l) /\ o = build_tunnel_acl_rule_ofmsgs c l dy s tid).
  { intros o. rewrite in_flat_map. split.
    - intros (s & _ & H). apply in_map_iff in H as ((s' & tid) & <- & H). apply filter_In in H as [H E]. apply tsource_eqb_spec in E. cbn [fst] in E. subst s'. exists s, tid. auto.
    - intros (s & tid & H & ->). exists s. split; [apply first_of_each_in, in_map_iff; exists (s, tid); auto|].
      apply in_map_iff. exists (s, tid). split; [reflexivity|]. apply filter_In. split; [exact H|]. apply tsource_eqb_spec. reflexivity. }
  split.
  - intros s tid H. apply S. apply K. eauto.
  - intros x. rewrite I. split.
    + intros (a & H & Hx). apply K in H as (s & tid & H & E). exists s, tid, a. auto.
    + intros (s & tid & a & H & E & Hx). exists a. split; [apply K; exists s, tid; auto|exact Hx].
Qed.
Lemma add_tunnel_in : forall c me acls acls' ms, add_tunnel_acls c me acls = (acls', Some ms) ->
  acls' = map (fun p => (fst p, dyn_update c me (fst p) (snd p))) acls /\
  (forall l dy, In (l, dy) acls -> exists m1, source_msgs c me l (dyn_update c me l dy) = Some m1) /\
  forall x, In x ms <-> exists l dy, In (l, dy) acls /\
    (In x (flat_map (tunnel_msgs c me l) (tl_dests l)) \/ exists m1, source_msgs c me l (dyn_update c me l dy) = Some m1 /\ In x m1).
Proof.
  intros c me. induction acls as [|[l dy] r IH]; intros acls' ms H; cbn in H.
  - injection H as <- <-. split; [reflexivity|]. split; [intros l dy []|]. intros x. split; [intros []|intros (l & dy & [] & _)].
  - destruct (add_tunnel_acls c me r) as [r' o'] eqn:E.
    destruct (source_msgs c me l (dyn_update c me l dy)) as [m1|] eqn:SM; cbn [option_map] in H; [|discriminate].
    destruct o' as [b|]; [|discriminate]. injection H as <- <-. destruct (IH r' b eq_refl) as (E1 & E2 & E3). split; [cbn; rewrite <- E1; reflexivity|]. split.
    + intros l0 dy0 [H|H]; [injection H as <- <-; eauto|exact (E2 l0 dy0 H)].
    + intros x. rewrite in_app_iff, in_app_iff, E3. split.
      * intros [[H|H]|(l0 & dy0 & I & H)].
        -- exists l, dy. split; [left; reflexivity|left; exact H].
        -- exists l, dy. split; [left; reflexivity|right; eauto].
        -- exists l0, dy0. split; [right; exact I|exact H].
      * intros (l0 & dy0 & [I|I] & H).
        -- injection I as <- <-. left. destruct H as [H|(m & S & H)]; [left; exact H|right]. rewrite SM in S. injection S as <-. exact H.
        -- right. eauto.
Qed.

(** Outputs bring no flow mods but those of groups. *)
Lemma item_msgs : forall i w, ~ In (FlowMod w) (snd (fst (item_out i))).
Proof. intros i w. destruct i; cbn; try tauto. intros [H|[H|[]]]; discriminate. Qed.
Lemma plain_msgs : forall l w, ~ In (FlowMod w) (snd (fst (plain_items l))).
Proof.
  induction l as [|i l IH]; intros w; [cbn; tauto|]. cbn [plain_items fold_right]. fold (plain_items l). assert (X := item_msgs i w). specialize (IH w).
  destruct (item_out i) as [[a m] n], (plain_items l) as [[a' m'] n']. cbn [outs_app fst snd] in *. rewrite in_app_iff. tauto.
Qed.
Lemma ordered_msgs : forall tun l w, ~ In (FlowMod w) (snd (fst (ordered_items tun l))).
Proof.
  intros tun. induction l as [|i l IH]; intros w; [cbn; tauto|]. cbn [ordered_items fold_right]. fold (ordered_items tun l). specialize (IH w).
  assert (X : ~ In (FlowMod w) (snd (fst (match i, tun with OTunnel t, Some rules => plain_items (rules t) | _, _ => item_out i end)))).
  { destruct i; try apply item_msgs. destruct tun; [apply plain_msgs|apply item_msgs]. }
  destruct (match i, tun with OTunnel t, Some rules => plain_items (rules t) | _, _ => item_out i end) as [[a m] n], (ordered_items tun l) as [[a' m'] n'].
  cbn [outs_app fst snd] in *. rewrite in_app_iff. tauto.
Qed.
Lemma rule_msgs : forall tun pl r w, ~ In (FlowMod w) (snd (rule_inst tun pl r)).
Proof.
  intros tun pl r w. unfold rule_inst. destruct (ru_actions r) as [a|]; [|cbn; tauto]. unfold build_actions.
  destruct (ac_output a) as [o|]; [|cbn; tauto]. destruct (build_output_actions tun o) as [[[po ac] mm] ii] eqn:E.
  assert (X : ~ In (FlowMod w) mm).
  { unfold build_output_actions in E. destruct o as [l|u].
    - assert (Y := ordered_msgs tun l w). destruct (ordered_items tun l) as [[a1 m1] i1]. injection E as <- <- <- <-. exact Y.
    - injection E as <- <- <- <-. unfold opt_list. destruct (u_failover u) as [[g ns]|]; cbn; [intros [H|[H|[]]]; discriminate|tauto]. }
  destruct (negb _ && po); exact X.
Qed.
Definition rule_add (tun : option (Z -> list out_item)) (pl : place) (r : rule) (prio : Z) : flowmod :=
  tb_add_cookie (pl_table pl) (ru_cookie r) (if pl_exact pl then pl_high pl else prio) (rule_match pl r) (fst (rule_inst tun pl r)).
Lemma rule_writes : forall tun fd pl r prio w, In (FlowMod w) (build_rule_ofmsgs tun fd pl r prio) ->
  (fm_cmd w = FDelete /\ fm_table w = tb_id (pl_table pl)) \/ w = rule_add tun pl r prio.
Proof.
  intros tun fd pl r prio w H. unfold build_rule_ofmsgs, rule_add in *. assert (X := rule_msgs tun pl r w). destruct (rule_inst tun pl r) as [i m]. cbn [fst snd] in *.
  rewrite !in_app_iff in H. destruct H as [H|[H|[H|[]]]]; [contradiction| |right; congruence].
  left. destruct fd; [|destruct H]. destruct H as [H|[]]. injection H as <-. split; reflexivity.
Qed.
Lemma rule_writes_in : forall tun fd pl r prio, In (FlowMod (rule_add tun pl r prio)) (build_rule_ofmsgs tun fd pl r prio).
Proof.
  intros tun fd pl r prio. unfold build_rule_ofmsgs, rule_add. destruct (rule_inst tun pl r) as [i m]. rewrite !in_app_iff. right. right. left. reflexivity.
Qed.
Lemma rules_writes : forall tun fd pl rs prio w, In (FlowMod w) (build_rules tun fd pl rs prio) ->
  (fm_cmd w = FDelete /\ fm_table w = tb_id (pl_table pl)) \/ exists i r, nth_error rs i = Some r /\ w = rule_add tun pl r (prio - Z.of_nat i).
Proof.
  intros tun fd pl. induction rs as [|r rs IH]; intros prio w H; [destruct H|]. cbn [build_rules] in H. apply in_app_iff in H as [H|H].
  - apply rule_writes in H as [H|H]; [left; exact H|]. right. exists 0%nat, r. split; [reflexivity|]. rewrite H. f_equal. lia.
  - apply IH in H as [H|(i & r' & N & H)]; [left; exact H|]. right. exists (S i), r'. split; [exact N|]. rewrite H. f_equal. lia.
Qed.
Lemma rules_writes_in : forall tun fd pl rs prio i r, nth_error rs i = Some r ->
  In (FlowMod (rule_add tun pl r (prio - Z.of_nat i))) (build_rules tun fd pl rs prio).
Proof.
  intros tun fd pl. induction rs as [|r0 rs IH]; intros prio i r H; [destruct i; discriminate|]. cbn [build_rules]. apply in_or_app. destruct i as [|i].
  - injection H as ->. left. replace (prio - Z.of_nat 0) with prio by lia. apply rule_writes_in.
  - right. replace (prio - Z.of_nat (S i)) with (prio - 1 - Z.of_nat i) by lia. apply IH. exact H.
Qed.

Definition tunnel_add (t : table) (items : list out_item) (tid : Z) (reverse : bool) : flowmod :=
  tb_add t OVERRIDE_PRIORITY (tunnel_match tid (if reverse then PCP_TUNNEL_REVERSE_DIRECTION_FLAG else PCP_TUNNEL_FLAG))
    (snd (plain_items items) ++ [Apply (fst (fst (plain_items items)))]).
Lemma tunnel_writes : forall t items tid rv w, In (FlowMod w) (build_tunnel_ofmsgs t items tid rv) ->
  (fm_cmd w = FDelete /\ fm_table w = tb_id t) \/ w = tunnel_add t items tid rv.
Proof.
  intros t items tid rv w H. unfold build_tunnel_ofmsgs, tunnel_add in *. assert (X := plain_msgs items w). destruct (plain_items items) as [[a m] i]. cbn [fst snd] in *.
  rewrite in_app_iff in H. destruct H as [H|[H|[H|[]]]]; [contradiction| |right; congruence]. left. injection H as <-. split; reflexivity.
Qed.
Lemma tunnel_writes_in : forall t items tid rv, In (FlowMod (tunnel_add t items tid rv)) (build_tunnel_ofmsgs t items tid rv).
Proof.
  intros t items tid rv. unfold build_tunnel_ofmsgs, tunnel_add. destruct (plain_items items) as [[a m] i]. apply in_or_app. right. right. left. reflexivity.
Qed.

Lemma index_nonneg : forall r l, 0 <= index_of r l.
Proof. intros r. induction l as [|x l IH]; cbn [index_of]; [lia|]. destruct (rule_eqb x r); lia. Qed.
Lemma rule_eqb_spec : forall a b, rule_eqb a b = true <-> a = b.
Proof. intros a b. unfold rule_eqb. destruct (rule_eq_dec a b); split; auto; discriminate. Qed.
Lemma index_inj : forall l r r', In r l -> In r' l -> index_of r l = index_of r' l -> r = r'.
Proof.
  induction l as [|x l IH]; intros r r' H H' E; [destruct H|]. cbn [index_of] in E. assert (P := index_nonneg r l). assert (P' := index_nonneg r' l).
  destruct (rule_eqb x r) eqn:E1; destruct (rule_eqb x r') eqn:E2.
  - apply rule_eqb_spec in E1, E2. congruence.
  - lia.
  - lia.
  - apply IH; try lia.
    + destruct H as [H|H]; [|exact H]. apply rule_eqb_spec in H. congruence.
    + destruct H' as [H'|H']; [|exact H']. apply rule_eqb_spec in H'. congruence.
Qed.

Section Updates.
  Variables (c : tconf) (me : snode) (acls acls' : list (tacl * dyn)) (ms : list ofmsg).
  Hypothesis E : add_tunnel_acls c me acls = (acls', Some ms).
  Let T := tc_table c.

  Definition fwd_write (w : flowmod) (l : tacl) (d : tdest) (s : tsource) : Prop :=
    In l (map fst acls) /\ In d (tl_dests l) /\ In s (tl_sources l) /\ fwd_updated me d s = true /\ sn_name me <> ts_dp s /\
    w = tunnel_add T (fwd_rules c me d s) (td_id d) (td_reverse d).
  Definition rev_write (w : flowmod) (l : tacl) (d : tdest) (s : tsource) : Prop :=
    In l (map fst acls) /\ In d (tl_dests l) /\ In s (tl_sources l) /\ rev_updated me d s = true /\
    w = tunnel_add T (rev_rules c me d s) (td_id d) true.
  Definition src_write (w : flowmod) (l : tacl) (dy : dyn) (d : tdest) (s : tsource) (pl : place) (r : rule) (prio : Z) : Prop :=
    In (l, dy) acls /\ In d (tl_dests l) /\ In s (tl_sources l) /\ fwd_updated me d s = true /\ ts_dp s = sn_name me /\
    w = rule_add (Some (tun_of (dyn_update c me l dy) s)) pl r prio /\ tb_id (pl_table pl) = tb_id T /\ pl_high pl = FILTER_PRIORITY /\ prio <= FILTER_PRIORITY /\
    ((mem acl_eqb (tl_acl l) (am_dp_acls (tc_am c)) = false /\ pl = source_place c l s /\ In r (get_tunnel_rules (tl_acl l) (td_id d)) /\
      prio = FILTER_PRIORITY - index_of r (al_rules (tl_acl l))) \/
     (mem acl_eqb (tl_acl l) (am_dp_acls (tc_am c)) = true /\ pl = dp_place (tc_am c) (tc_table c) /\
      exists i, nth_error (flat_map al_rules (am_dp_acls (tc_am c))) i = Some r /\ prio = FILTER_PRIORITY - Z.of_nat i)).

  Lemma own_writes : forall l dy s tid a, In (l, dy) acls -> In (s, tid) (own_pairs me l) ->
    build_tunnel_acl_rule_ofmsgs c l (dyn_update c me l dy) s tid = Some a -> forall w, In (FlowMod w) a ->
    (fm_cmd w = FDelete /\ fm_table w = tb_id T) \/ exists d pl r prio, src_write w l dy d s pl r prio.
  Proof.
    intros l dy s tid a L O B w W. apply own_pairs_in in O as (d & D & ET & S & F & N). subst tid. unfold build_tunnel_acl_rule_ofmsgs in B.
    destruct (mem acl_eqb (tl_acl l) (am_dp_acls (tc_am c))) eqn:M.
    - destruct (known _ _ _); [|discriminate]. injection B as <-. unfold build_acl_ofmsgs in W. apply rules_writes in W as [H|(i & r & NI & H)]; [left; exact H|].
      right. exists d, (dp_place (tc_am c) (tc_table c)), r, (FILTER_PRIORITY - Z.of_nat i). unfold src_write. repeat (split; [first [assumption|reflexivity|lia]|]).
      right. split; [assumption|]. split; [reflexivity|]. exists i. split; [exact NI|reflexivity].
    - destruct (known _ _ _); [|discriminate]. injection B as <-. apply in_flat_map in W as (r & R & W). apply rule_writes in W as [H|H]; [left; exact H|].
      right. exists d, (source_place c l s), r, (FILTER_PRIORITY - index_of r (al_rules (tl_acl l))). unfold src_write. assert (P := index_nonneg r (al_rules (tl_acl l))).
      repeat (split; [first [assumption|reflexivity|lia]|]). left. auto.
  Qed.

  Lemma update_writes : forall w, In (FlowMod w) ms ->
    (fm_cmd w = FDelete /\ fm_table w = tb_id T) \/ (exists l d s, fwd_write w l d s) \/ (exists l d s, rev_write w l d s) \/
    (exists l dy d s pl r prio, src_write w l dy d s pl r prio).
  Proof.
    intros w W. destruct (add_tunnel_in c me acls acls' ms E) as (_ & _ & I). apply I in W as (l & dy & L & [W|(m1 & S1 & W)]).
    - assert (L' : In l (map fst acls)) by (apply in_map_iff; exists (l, dy); auto). apply in_flat_map in W as (d & D & W).
      unfold tunnel_msgs in W. apply in_app_iff in W as [W|W]; apply in_flat_map in W as (s & S & W); apply filter_In in S as [S U]; apply tunnel_writes in W as [W|W];
        try (left; exact W); right.
      + left. apply andb_true_iff in U as [U N]. apply negb_true_iff, Z.eqb_neq in N. exists l, d, s. repeat (split; [assumption|]). assumption.
      + right. left. exists l, d, s. repeat (split; [assumption|]). assumption.
    - apply (source_msgs_in c me l _ m1 S1) in W as (s & tid & a & O & B & W). destruct (own_writes l dy s tid a L O B w W) as [H|(d & pl & r & prio & H)]; [left; exact H|].
      right. right. right. exists l, dy, d, s, pl, r, prio. exact H.
  Qed.

  Lemma fwd_written : forall w l d s, fwd_write w l d s -> In (FlowMod w) ms.
  Proof.
    intros w l d s (L & D & S & U & N & ->). destruct (add_tunnel_in c me acls acls' ms E) as (_ & _ & I). apply in_map_iff in L as ((l' & dy) & EL & L). cbn in EL. subst l'.
    apply I. exists l, dy. split; [exact L|]. left. apply in_flat_map. exists d. split; [exact D|]. unfold tunnel_msgs. apply in_or_app. left. apply in_flat_map. exists s.
    split; [|apply tunnel_writes_in]. apply filter_In. split; [exact S|]. rewrite U. cbn. apply negb_true_iff, Z.eqb_neq, N.
  Qed.
  Lemma rev_written : forall w l d s, rev_write w l d s -> In (FlowMod w) ms.
  Proof.
    intros w l d s (L & D & S & U & ->). destruct (add_tunnel_in c me acls acls' ms E) as (_ & _ & I). apply in_map_iff in L as ((l' & dy) & EL & L). cbn in EL. subst l'.
    apply I. exists l, dy. split; [exact L|]. left. apply in_flat_map. exists d. split; [exact D|]. unfold tunnel_msgs. apply in_or_app. right. apply in_flat_map. exists s.
    split; [|apply tunnel_writes_in]. apply filter_In. split; assumption.
  Qed.
  Lemma src_written : forall w l dy d s pl r prio, src_write w l dy d s pl r prio -> In (FlowMod w) ms.
  Proof.
    intros w l dy d s pl r prio (L & D & S & U & N & EW & _ & _ & _ & K). destruct (add_tunnel_in c me acls acls' ms E) as (_ & SM & I).
    destruct (SM l dy L) as (m1 & M1). apply I. exists l, dy. split; [exact L|]. right. exists m1. split; [exact M1|].
    destruct (source_msgs_in c me l _ m1 M1) as [DEF IN]. assert (O : In (s, td_id d) (own_pairs me l)) by (apply own_pairs_in; exists d; auto).
    destruct (DEF s (td_id d) O) as (a & B). apply IN. exists s, (td_id d), a. split; [exact O|]. split; [exact B|].
    unfold build_tunnel_acl_rule_ofmsgs in B. rewrite EW. destruct K as [(M & -> & R & ->)|(M & -> & i & NI & ->)]; rewrite M in B.
    - destruct (known _ _ _); [|discriminate]. injection B as <-. apply in_flat_map. exists r. split; [exact R|]. apply rule_writes_in.
    - destruct (known _ _ _); [|discriminate]. injection B as <-. unfold build_acl_ofmsgs. apply rules_writes_in. exact NI.
  Qed.

  Lemma update_cmd : forall w, In (FlowMod w) ms -> fm_cmd w = FAdd \/ fm_cmd w = FDelete.
  Proof.
    intros w W. destruct (update_writes w W) as [[H _]|[(l & d & s & (_ & _ & _ & _ & _ & ->))|[(l & d & s & (_ & _ & _ & _ & ->))|(l & dy & d & s & pl & r & prio & (_ & _ & _ & _ & _ & -> & _))]]]; auto.
  Qed.
  Lemma src_prio : forall w l dy d s pl r prio, src_write w l dy d s pl r prio -> fm_prio w < OVERRIDE_PRIORITY.
  Proof.
    intros w l dy d s pl r prio (_ & _ & _ & _ & _ & -> & _ & H & P & _). unfold rule_add, tb_add_cookie, OVERRIDE_PRIORITY. cbn [fm_prio]. destruct (pl_exact pl); lia.
  Qed.
End Updates.

Section States.
  Variables (c : tconf) (stack_ports : list Z) (ls : list tacl) (name : Z).
  Let T := tb_id (tc_table c).

  Lemma update_acls : forall me acls acls' ms, add_tunnel_acls c me acls = (acls', Some ms) -> map fst acls' = map fst acls.
  Proof. intros me acls acls' ms E. apply add_tunnel_in in E as (-> & _). rewrite map_map. reflexivity. Qed.
  Lemma reach_acls : forall w, treach c stack_ports ls name w -> map fst (tw_acls w) = ls.
  Proof.
    intros w R. induction R as [|w w' R IH O|me w w' R IH N U].
    - cbn. rewrite map_map. cbn. apply map_id.
    - destruct O. exact IH.
    - destruct U as [w acls' pre ms sh ub out E _ _ _ _]. cbn. rewrite (update_acls _ _ _ _ E). exact IH.
  Qed.
  Lemma now_acls : forall me w, up_to_date c stack_ports ls name me w -> map fst (tw_acls w) = ls.
  Proof.
    intros me w U. induction U as [w w' R U|w ms sh ub out U IH Q S V].
    - destruct U as [w acls' pre ms sh ub out E _ _ _ _]. cbn. rewrite (update_acls _ _ _ _ E). exact (reach_acls w R).
    - exact IH.
  Qed.

  (** Entries above the ordinary ones belong to tunnels, or to ports that are not
      stack ports. *)
  Definition high_ok (e : flow) : Prop :=
    f_table e = T -> OVERRIDE_PRIORITY <= f_prio e ->
    (f_prio e = OVERRIDE_PRIORITY /\ exists l d pcp, In l ls /\ In d (tl_dests l) /\ f_match e = tunnel_match (td_id d) pcp) \/
    exists n, In (exact InPort n) (f_match e) /\ ~ In n stack_ports.

  Lemma high_modify : forall w e, wslot w e = true -> high_ok e -> high_ok (with_inst (fm_inst w) e).
  Proof. intros w e _ H. exact H. Qed.
  Lemma ordinary_high : forall ms w, ordinary c stack_ports ms -> In (FlowMod w) ms -> fm_cmd w = FAdd -> high_ok (flow_of w).
  Proof.
    intros ms w O W C HT HP. destruct (O w W) as [_ K]. destruct (K C HT) as [K'|(n & I & N)]; [cbn [f_prio flow_of] in HP; lia|]. right. exists n. auto.
  Qed.
  Lemma update_high : forall me acls acls' ms w, add_tunnel_acls c me acls = (acls', Some ms) -> map fst acls = ls ->
    In (FlowMod w) ms -> fm_cmd w = FAdd -> high_ok (flow_of w).
  Proof.
    intros me acls acls' ms w E L W C HT HP.
    destruct (update_writes c me acls acls' ms E w W) as [[H _]|[(l & d & s & (IL & D & _ & _ & _ & ->))|[(l & d & s & (IL & D & _ & _ & ->))|(l & dy & d & s & pl & r & prio & SW)]]].
    - congruence.
    - left. split; [reflexivity|]. rewrite L in IL. exists l, d. eexists. split; [exact IL|]. split; [exact D|]. reflexivity.
    - left. split; [reflexivity|]. rewrite L in IL. exists l, d. eexists. split; [exact IL|]. split; [exact D|]. reflexivity.
    - apply src_prio in SW. cbn [f_prio flow_of] in HP. lia.
  Qed.
  Lemma no_modify_update : forall me acls acls' pre ms w, add_tunnel_acls c me acls = (acls', Some ms) -> ordinary c stack_ports pre ->
    In (FlowMod w) (pre ++ ms) -> fm_cmd w <> FModify.
  Proof.
    intros me acls acls' pre ms w E O W. apply in_app_iff in W as [W|W]; [apply (O w W)|].
    destruct (update_cmd c me acls acls' ms E w W) as [-> | ->]; discriminate.
  Qed.
  Lemma tupdate_high : forall me w w', map fst (tw_acls w) = ls -> tupdate c stack_ports me w w' ->
    (forall e, In e (sw_flows (tw_sw w)) -> high_ok e) -> forall e, In e (sw_flows (tw_sw w')) -> high_ok e.
  Proof.
    intros me w w' L U H. destruct U as [w acls' pre ms sh ub out E O Hsh CK R]. cbn [tw_sw].
    apply (reorder_inv high_ok sh ub (pre ++ ms) out (tw_sw w) Hsh R); [| | |exact H].
    - intros w0 W C. apply in_app_iff in W as [W|W]; [exact (ordinary_high pre w0 O W C)|exact (update_high me _ acls' ms w0 E L W C)].
    - intros w0 e W C S. apply high_modify. exact S.
    - intros w0 W. exact (no_modify_update me _ acls' pre ms w0 E O W).
  Qed.
  Lemma reach_high : forall w, treach c stack_ports ls name w -> forall e, In e (sw_flows (tw_sw w)) -> high_ok e.
  Proof.
    intros w R. induction R as [|w w' R IH O|me w w' R IH N U].
    - intros e [].
    - destruct O as [w ms sh ub out O Hsh V]. cbn [tw_sw]. apply (reorder_inv high_ok sh ub ms out (tw_sw w) Hsh V); [| | |exact IH].
      + intros w0 W C. exact (ordinary_high ms w0 O W C).
      + intros w0 e W C S. apply high_modify. exact S.
      + intros w0 W. apply (O w0 W).
    - apply (tupdate_high me w w' (reach_acls w R) U IH).
  Qed.
  Lemma now_high : forall me w, up_to_date c stack_ports ls name me w -> forall e, In e (sw_flows (tw_sw w)) -> high_ok e.
  Proof.
    intros me w U. induction U as [w w' R U|w ms sh ub out U IH Q Hsh V].
    - apply (tupdate_high me w w' (reach_acls w R) U (reach_high w R)).
    - cbn [tw_sw]. apply (reorder_inv high_ok sh ub ms out (tw_sw w) Hsh V); [| | |exact IH].
      + intros w0 W C HT HP. destruct (proj1 Q w0 W) as (_ & _ & K). destruct (K HT) as (n & I & N & _). right. exists n. auto.
      + intros w0 e W C S. apply high_modify. exact S.
      + intros w0 W. apply (proj1 Q w0 W).
  Qed.
End States.

(** ** What a slot holds *)
Section Held.
  Variables (c : tconf) (stack_ports : list Z) (ls : list tacl) (name : Z).
  Let T := tb_id (tc_table c).
  Hypothesis NT : T <> OFPTT_ALL.
  Variable me : snode.
  Variables (prio : Z) (m : fmatch) (F : flow).
  Hypothesis INST : forall acls acls' ms, add_tunnel_acls c me acls = (acls', Some ms) -> map fst acls = ls ->
    (forall x, In (FlowMod x) ms -> fm_cmd x = FAdd -> fm_at T prio m x -> flow_of x = F) /\
    exists x, In (FlowMod x) ms /\ fm_cmd x = FAdd /\ fm_at T prio m x.
  Hypothesis PORTS : forall v, In (exact InPort v) m -> In v stack_ports \/ In v (source_ports ls name).
  Hypothesis NOGROUP : any_group F = false.

  Lemma covers_port : forall n g, In (exact InPort n) g -> covers g m = true -> In (exact InPort n) m.
  Proof.
    intros n g I H. unfold covers in H. rewrite forallb_forall in H. apply H in I. apply existsb_exists in I as ([f [v k]] & I & H').
    unfold item_covers, exact in H'. apply andb_true_iff in H' as [H1 H2]. apply andb_true_iff in H1 as [H1 H3].
    apply field_eqb_spec in H1. apply Z.eqb_eq in H2, H3. rewrite Z.land_m1_r in H3. rewrite !Z.land_m1_r in H2. subst. exact I.
  Qed.
  Lemma any_group_uses : forall g, uses_group g F = false.
  Proof.
    intros g. unfold any_group, uses_group in *. destruct (existsb (fun a => match a with GroupAct n => n =? g | _ => false end) (flow_actions F)) eqn:E; [|reflexivity].
    apply existsb_exists in E as (a & I & H). assert (X : existsb (fun a => match a with GroupAct _ => true | _ => false end) (flow_actions F) = true).
    { apply existsb_exists. exists a. split; [exact I|]. destruct a; auto; discriminate. }
    congruence.
  Qed.
  Lemma slot_held : forall w, up_to_date c stack_ports ls name me w -> forall f, at_slot T prio m f -> (In f (sw_flows (tw_sw w)) <-> f = F).
  Proof.
    intros w U. induction U as [w w' R U|w ms sh ub out U IH Q Hsh V]; intros f A.
    - destruct U as [w acls' pre ms sh ub out E O Hsh CK RO]. cbn [tw_sw]. destruct (INST _ _ _ E (reach_acls c stack_ports ls name w R)) as [UQ (x & X & XA & XT)].
      apply (slot_last sh ub pre ms out Hsh RO (fun y Y => no_modify_update c stack_ports me _ _ pre ms y E O Y) (tw_sw w) T prio m F CK); [| |exact A].
      + intros y Y W AT. assert (CA : fm_cmd y = FAdd).
        { destruct (update_cmd c me _ _ _ E y Y) as [C|C]; [exact C|]. cbn in W. rewrite C in W. discriminate. }
        split; [exact CA|]. exact (UQ y Y CA AT).
      + exists x. split; [exact X|]. split; [cbn; rewrite XA; reflexivity|exact XT].
    - cbn [tw_sw]. destruct Q as [Q1 Q2].
      assert (NW : forall y, In (FlowMod y) ms -> fm_at T prio m y -> False).
      { intros y Y (A1 & A2 & A3). destruct (Q1 y Y) as (_ & _ & K). destruct (K A1) as (n & I & N1 & N2). rewrite A3 in I. destruct (PORTS n I); auto. }
      rewrite (slot_unwritten sh ub ms out Hsh V (fun y Y => proj1 (Q1 y Y)) (tw_sw w) T prio m F (fun y Y _ AT => False_ind _ (NW y Y AT)) (fun y Y _ AT => NW y Y AT) f A).
      rewrite (IH f A). split; [tauto|]. intros ->. split; [reflexivity|]. intros x X D. apply (out_delete sh ub ms out Hsh V) in X; [|exact D].
      destruct x as [y|gc g|mc id b| | | | |]; cbn [del_flow]; try reflexivity.
      + destruct (Q1 y X) as (_ & NA & K). unfold del_hits, table_sel. destruct A as (A1 & A2 & A3). rewrite A1, A2, A3.
        destruct (Z.eqb_spec (fm_table y) OFPTT_ALL) as [EE|_]; [contradiction|]. cbn [orb].
        assert (G : T = fm_table y -> covers (fm_match y) m = false /\ fmatch_eqb m (fm_match y) = false).
        { intros ET. destruct (K (eq_sym ET)) as (n & I & N1 & N2). split.
          - destruct (covers (fm_match y) m) eqn:C; [|reflexivity]. destruct (PORTS n (covers_port n _ I C)); contradiction.
          - unfold fmatch_eqb. destruct (fmatch_eq_dec m (fm_match y)) as [EM|]; [|reflexivity]. rewrite <- EM in I. destruct (PORTS n I); contradiction. }
        destruct (Z.eqb_spec T (fm_table y)) as [ET|_]; [|destruct (fm_cmd y); reflexivity]. destruct (G ET) as [-> ->].
        destruct (fm_cmd y); rewrite ?andb_false_r; reflexivity.
      + destruct gc; try reflexivity. destruct (g_id g =? OFPG_ALL); [exact NOGROUP|apply any_group_uses].
      + destruct mc; try reflexivity. exfalso. exact (Q2 id b X).
  Qed.
End Held.

(** ** Numbers in matches *)
Lemma tag_matches : forall pk vid pcp r tid q, pk_tags pk = (vid, pcp) :: r -> 0 <= vid < 4096 -> 0 <= tid < 4096 ->
  (matches pk (tunnel_match tid q) = true <-> tid = vid /\ q = pcp).
Proof.
  intros pk vid pcp r tid q E V1 V2. unfold matches, tunnel_match, item_matches, exact. cbn [forallb pk_get]. rewrite E, !Z.land_m1_r, !andb_true_iff, !Z.eqb_eq.
  change (Z.lor vid OFPVID_PRESENT) with (vid_present vid). split.
  - intros (A & B & _). apply vid_present_inj_lemma in A; auto.
  - intros [-> ->]. auto.
Qed.

(** ** The entry for a tagged frame from another switch *)
Section Tagged.
  Variables (c : tconf) (stack_ports : list Z) (ls : list tacl) (name : Z) (me : snode) (w : tworld).
  Let T := tb_id (tc_table c).
  Hypothesis U : up_to_date c stack_ports ls name me w.
  Hypothesis IDS : forall l d, In l ls -> In d (tl_dests l) -> 0 <= td_id d < 4096.

  Lemma tagged_hit : forall tid pcp F pk r, (forall f, at_slot T OVERRIDE_PRIORITY (tunnel_match tid pcp) f -> (In f (sw_flows (tw_sw w)) <-> f = F)) ->
    at_slot T OVERRIDE_PRIORITY (tunnel_match tid pcp) F -> 0 <= tid < 4096 -> (In (pk_in pk) stack_ports \/ not_overridden (tw_sw w) T pk) -> pk_tags pk = (tid, pcp) :: r ->
    forall e, hit (sw_flows (tw_sw w)) T pk e <-> e = F.
  Proof.
    intros tid pcp F pk r HF AF TI IN TG.
    assert (HI : In F (sw_flows (tw_sw w))) by (apply HF; auto). assert (MF : matches pk (f_match F) = true).
    { destruct AF as (_ & _ & ->). apply (tag_matches pk tid pcp r tid pcp TG TI TI). auto. }
    assert (ONE : forall e, In e (sw_flows (tw_sw w)) -> f_table e = T -> matches pk (f_match e) = true -> OVERRIDE_PRIORITY <= f_prio e -> e = F).
    { intros e I ET M P. destruct (now_high c stack_ports ls name me w U e I ET P) as [(EP & l & d & q & L & D & EM)|(n & IP & NI)].
      - rewrite EM in M. apply (tag_matches pk tid pcp r (td_id d) q TG TI (IDS l d L D)) in M as [M1 M2]. apply HF; [|exact I]. split; [exact ET|]. split; [exact EP|]. congruence.
      - exfalso. assert (IP' := IP). unfold matches in M. rewrite forallb_forall in M. apply M in IP. unfold item_matches, exact in IP. cbn [pk_get] in IP.
        rewrite !Z.land_m1_r in IP. apply Z.eqb_eq in IP. subst n. destruct IN as [IN|IN]; [contradiction|]. specialize (IN e I ET IP'). lia. }
    intros e. split.
    - intros (I & ET & M & P). apply (ONE e I ET M). destruct AF as (AF1 & AF2 & AF3). rewrite <- AF2. apply P; auto.
    - intros ->. destruct AF as (AF1 & AF2 & AF3). split; [exact HI|]. split; [exact AF1|]. split; [exact MF|]. intros g I ET M.
      destruct (Z_le_gt_dec OVERRIDE_PRIORITY (f_prio g)) as [LE|GT]; [|lia]. rewrite (ONE g I ET M LE). lia.
  Qed.
End Tagged.

(** ** What the entries of tunnels are *)
Definition tunnel_flow (c : tconf) (items : list out_item) (tid : Z) (reverse : bool) : flow := flow_of (tunnel_add (tc_table c) items tid reverse).
Lemma tunnel_at : forall c items tid (rv : bool), at_slot (tb_id (tc_table c)) OVERRIDE_PRIORITY
  (tunnel_match tid (if rv then PCP_TUNNEL_REVERSE_DIRECTION_FLAG else PCP_TUNNEL_FLAG)) (tunnel_flow c items tid rv).
Proof. intros. repeat split. Qed.
Lemma tunnel_match_inj : forall t p t' p', 0 <= t < 4096 -> 0 <= t' < 4096 -> tunnel_match t p = tunnel_match t' p' -> t = t' /\ p = p'.
Proof.
  intros t p t' p' A B H. unfold tunnel_match, exact in H. assert (H2 : p = p') by congruence. assert (H1 : vid_present t = vid_present t') by congruence. apply vid_present_inj_lemma in H1; [|assumption..]. split; assumption.
Qed.
Lemma tunnel_no_port : forall tid pcp v, ~ In (exact InPort v) (tunnel_match tid pcp).
Proof. intros tid pcp v [H|[H|[]]]; discriminate H. Qed.

(** What a switch away from the source does does not depend on the source. *)
Lemma fwd_same : forall c me d s s', fwd_updated me d s = true -> fwd_updated me d s' = true -> sn_name me <> ts_dp s -> sn_name me <> ts_dp s' ->
  fwd_rules c me d s = fwd_rules c me d s'.
Proof.
  intros c me d s s' U U' N N'.
  assert (P : fwd_port me d s = fwd_port me d s').
  { unfold fwd_updated, fwd_port, tunnel_outport in *. destruct (is_in_path me (ts_dp s) (td_dp d)) eqn:I1, (is_in_path me (ts_dp s') (td_dp d)) eqn:I2; cbn [negb] in *; auto.
    - destruct (td_port d) as [n|]; destruct (Z.eqb_spec (td_dp d) (sn_name me)) as [ED|ND]; cbn in *; try discriminate. rewrite ED, Z.eqb_refl. reflexivity.
    - destruct (td_port d) as [n|]; destruct (Z.eqb_spec (td_dp d) (sn_name me)) as [ED|ND]; cbn in *; try discriminate. rewrite ED, Z.eqb_refl. reflexivity. }
  unfold fwd_rules, source_rules. rewrite P, (proj2 (Z.eqb_neq _ _) N), (proj2 (Z.eqb_neq _ _) N'). reflexivity.
Qed.

Section Slots.
  Variables (c : tconf) (stack_ports : list Z) (ls : list tacl) (name : Z) (me : snode) (w : tworld).
  Hypothesis U : up_to_date c stack_ports ls name me w.
  Hypothesis NT : tb_id (tc_table c) <> OFPTT_ALL.
  Hypothesis IDS : forall l d, In l ls -> In d (tl_dests l) -> 0 <= td_id d < 4096.
  Hypothesis MEAN : forall l d l' d', In l ls -> In d (tl_dests l) -> In l' ls -> In d' (tl_dests l') -> td_id d = td_id d' -> d = d'.
  Hypothesis ONEWAY : forall l d, In l ls -> In d (tl_dests l) -> td_reverse d = true -> td_bidir d = false.

  Lemma fwd_slot : forall l d s, In l ls -> In d (tl_dests l) -> In s (tl_sources l) -> fwd_updated me d s = true -> sn_name me <> ts_dp s ->
    any_group (tunnel_flow c (fwd_rules c me d s) (td_id d) (td_reverse d)) = false ->
    forall f, at_slot (tb_id (tc_table c)) OVERRIDE_PRIORITY (tunnel_match (td_id d) (pcp_of d)) f ->
    (In f (sw_flows (tw_sw w)) <-> f = tunnel_flow c (fwd_rules c me d s) (td_id d) (td_reverse d)).
  Proof.
    intros l d s L D S F N G. apply (slot_held c stack_ports ls name me OVERRIDE_PRIORITY (tunnel_match (td_id d) (pcp_of d)) (tunnel_flow c (fwd_rules c me d s) (td_id d) (td_reverse d))).
    - intros acls acls' ms E EL. split.
      + intros x X CA (A1 & A2 & A3).
        destruct (update_writes c me acls acls' ms E x X) as [[H _]|[(l' & d' & s' & (L' & D' & S' & F' & N' & ->))|[(l' & d' & s' & (L' & D' & S' & F' & ->))|(l' & dy & d' & s' & pl & r & prio & SW)]]].
        * congruence.
        * rewrite EL in L'. cbn [fm_match tunnel_add tb_add tb_write] in A3. apply tunnel_match_inj in A3 as [A3 _]; [|eauto..].
          assert (d' = d) by (apply (MEAN l' d' l d); auto). subst d'. unfold tunnel_flow. rewrite (fwd_same c me d s s' F F' N N'). reflexivity.
        * exfalso. rewrite EL in L'. cbn [fm_match tunnel_add tb_add tb_write] in A3. apply tunnel_match_inj in A3 as [A3 A4]; [|eauto..].
          assert (d' = d) by (apply (MEAN l' d' l d); auto). subst d'. unfold pcp_of in A4. destruct (td_reverse d) eqn:RV; [|discriminate A4].
          unfold rev_updated in F'. rewrite (ONEWAY l d L D RV), andb_false_r in F'. discriminate.
        * exfalso. apply src_prio in SW. lia.
      + exists (tunnel_add (tc_table c) (fwd_rules c me d s) (td_id d) (td_reverse d)). split.
        * apply (fwd_written c me acls acls' ms E _ l d s). unfold fwd_write. rewrite EL. auto 10.
        * split; [reflexivity|]. repeat split.
    - intros v I. exfalso. exact (tunnel_no_port _ _ _ I).
    - exact G.
    - exact U.
  Qed.

  Lemma rev_slot : forall l d s, In l ls -> In d (tl_dests l) -> In s (tl_sources l) -> rev_updated me d s = true ->
    (forall l' s', In l' ls -> In d (tl_dests l') -> In s' (tl_sources l') -> s' = s) ->
    any_group (tunnel_flow c (rev_rules c me d s) (td_id d) true) = false ->
    forall f, at_slot (tb_id (tc_table c)) OVERRIDE_PRIORITY (tunnel_match (td_id d) PCP_TUNNEL_REVERSE_DIRECTION_FLAG) f ->
    (In f (sw_flows (tw_sw w)) <-> f = tunnel_flow c (rev_rules c me d s) (td_id d) true).
  Proof.
    intros l d s L D S F N G. apply (slot_held c stack_ports ls name me OVERRIDE_PRIORITY (tunnel_match (td_id d) PCP_TUNNEL_REVERSE_DIRECTION_FLAG) (tunnel_flow c (rev_rules c me d s) (td_id d) true)).
    - intros acls acls' ms E EL. split.
      + intros x X CA (A1 & A2 & A3).
        destruct (update_writes c me acls acls' ms E x X) as [[H _]|[(l' & d' & s' & (L' & D' & S' & F' & N' & ->))|[(l' & d' & s' & (L' & D' & S' & F' & ->))|(l' & dy & d' & s' & pl & r & prio & SW)]]].
        * congruence.
        * exfalso. rewrite EL in L'. cbn [fm_match tunnel_add tb_add tb_write] in A3. apply tunnel_match_inj in A3 as [A3 A4]; [|eauto..].
          assert (d' = d) by (apply (MEAN l' d' l d); auto). subst d'. destruct (td_reverse d) eqn:RV; [|discriminate A4].
          unfold rev_updated in F. rewrite (ONEWAY l d L D RV), andb_false_r in F. discriminate.
        * rewrite EL in L'. cbn [fm_match tunnel_add tb_add tb_write] in A3. apply tunnel_match_inj in A3 as [A3 _]; [|eauto..].
          assert (d' = d) by (apply (MEAN l' d' l d); auto). subst d'. rewrite (N l' s' L' D' S'). reflexivity.
        * exfalso. apply src_prio in SW. lia.
      + exists (tunnel_add (tc_table c) (rev_rules c me d s) (td_id d) true). split.
        * apply (rev_written c me acls acls' ms E _ l d s). unfold rev_write. rewrite EL. auto 10.
        * split; [reflexivity|]. repeat split.
    - intros v I. exfalso. exact (tunnel_no_port _ _ _ I).
    - exact G.
    - exact U.
  Qed.
End Slots.
