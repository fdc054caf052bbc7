(** * Updates of tunnels leave the rest alone *)
From Coq Require Import ZArith List Bool Lia Permutation.
From Verif Require Import PyBase PyBaseProofs OpenFlow ReorderModel ReorderSpec ReorderProofs BatchProofs SlotProofs TableModel AclModel AclSpec AclProofs AclMatchProofs
  StackModel TunnelModel TunnelSpec TunnelProofs TunnelWalkProofs TunnelRestSpec.
Import ListNotations.
Open Scope Z_scope.

(** A delete under the key of a write is not sent. *)
Lemma delete_dropped : forall sh ub ms out y w, (forall l, Permutation (sh l) l) -> valve_flowreorder sh ub ms = Some out ->
  In (FlowMod y) out -> is_delete (FlowMod y) = true -> fm_table y <> OFPTT_ALL ->
  In (FlowMod w) ms -> is_flow_write (FlowMod w) = true -> flowmodkey w <> flowmodkey y.
Proof.
  intros sh ub ms out y w Hsh R Y D NT W WW K. destruct (reorder_pieces sh ub ms out R) as (d & E & ->).
  assert (KD : msg_kind (FlowMod y) = KDelete).
  { assert (X := D). apply kind_delete in X as [X|X]; auto. exfalso. cbn [msg_kind] in X. unfold is_global_flowdel in X.
    destruct (is_flowdel_cmd (fm_cmd y)); simpl in X; [|discriminate]. destruct (Z.eqb_spec (fm_table y) OFPTT_ALL); auto; discriminate. }
  rewrite !in_app_iff, !with_barrier_in in Y. rewrite !p_simple_kind, pkt_kind in Y by auto. assert (N1 : ~ In (FlowMod y) (p_dg ms)).
  { intros X. apply (p_simple_kind ms KDelGlobal) in X as [_ X]. congruence. }
  assert (N2 : ~ In (FlowMod y) (p_adds ms)) by (intros X; apply p_adds_sub in X as [_ X]; congruence).
  rewrite KD in Y. assert (P : In (FlowMod y) (p_dels ms d)). { repeat destruct Y as [Y|Y]; try tauto; try (destruct Y; congruence). }
  assert (A : exists z, In z (p_adds ms) /\ none_flowmodkey z = Some (flowmodkey w)).
  { destruct (find (fun y => okey_eqb (Some (flowmodkey w)) (none_flowmodkey y)) (rev (filter is_flow_write ms))) as [z|] eqn:F.
    - assert (F' := F). apply find_some in F' as [_ F']. apply okey_eqb_spec in F'. exists z. split; [|auto].
      unfold p_adds, sort_flows, dedupe_key. rewrite py_sorted_in, of_kind_writes. apply (dict_of_vals _ okey_eqb_spec none_flowmodkey). rewrite <- F'. exact F.
    - exfalso. apply find_none with (x := FlowMod w) in F; [|apply -> in_rev; apply filter_In; auto]. cbn [none_flowmodkey] in F.
      rewrite (proj2 (okey_eqb_spec _ _) eq_refl) in F. discriminate. }
  destruct A as (z & IZ & KZ). unfold p_dels in P. destruct (p_adds ms) as [|a0 ar] eqn:EA; [destruct IZ|]. rewrite <- EA in *.
  assert (NN : is_nil (p_adds ms) = false) by (rewrite EA; reflexivity). rewrite NN, orb_false_r in P. destruct (is_nil (p_del1 ms d)) eqn:ND; [apply is_nil_true in ND; rewrite ND in P; destruct P|].
  unfold remove_overlap in P. apply filter_In in P as [_ P]. cbn [none_flowmodkey] in P. apply negb_true_iff in P.
  assert (X : existsb (fun a => okey_eqb (none_flowmodkey a) (Some (flowmodkey y))) (p_adds ms) = true) by (apply existsb_exists; exists z; split; [exact IZ|]; apply okey_eqb_spec; congruence).
  congruence.
Qed.

(** Every delete of an update is paired with a write. *)
Lemma rule_paired : forall tun fd pl r prio w, ru_cookie r = None -> In (FlowMod w) (build_rule_ofmsgs tun fd pl r prio) -> fm_cmd w <> FAdd ->
  flowmodkey (rule_add tun pl r prio) = flowmodkey w.
Proof.
  intros tun fd pl r prio w CK H D. unfold build_rule_ofmsgs, rule_add in *. assert (X := rule_msgs tun pl r w). destruct (rule_inst tun pl r) as [i m]. cbn [fst snd] in *.
  rewrite !in_app_iff in H. destruct H as [H|[H|[H|[]]]]; [contradiction| |injection H as <-; contradiction D; reflexivity].
  destruct fd; [|destruct H]. destruct H as [H|[]]. injection H as <-. unfold flowmodkey. cbn. rewrite CK. reflexivity.
Qed.
Lemma rules_paired : forall tun fd pl rs prio w, (forall r, In r rs -> ru_cookie r = None) -> In (FlowMod w) (build_rules tun fd pl rs prio) -> fm_cmd w <> FAdd ->
  exists x, In (FlowMod x) (build_rules tun fd pl rs prio) /\ fm_cmd x = FAdd /\ flowmodkey x = flowmodkey w.
Proof.
  intros tun fd pl. induction rs as [|r rs IH]; intros prio w CK H D; [destruct H|]. cbn [build_rules] in *. apply in_app_iff in H as [H|H].
  - exists (rule_add tun pl r prio). split; [apply in_or_app; left; apply rule_writes_in|]. split; [reflexivity|]. exact (rule_paired tun fd pl r prio w (CK r (or_introl eq_refl)) H D).
  - destruct (IH _ w ltac:(intros; apply CK; right; assumption) H D) as (x & X & P). exists x. split; [apply in_or_app; right; exact X|exact P].
Qed.
Lemma tunnel_paired : forall t items tid rv w, In (FlowMod w) (build_tunnel_ofmsgs t items tid rv) -> fm_cmd w <> FAdd -> flowmodkey (tunnel_add t items tid rv) = flowmodkey w.
Proof.
  intros t items tid rv w H D. unfold build_tunnel_ofmsgs, tunnel_add in *. assert (X := plain_msgs items w). destruct (plain_items items) as [[a m] i]. cbn [fst snd] in *.
  rewrite in_app_iff in H. destruct H as [H|[H|[H|[]]]]; [contradiction| |injection H as <-; contradiction D; reflexivity]. injection H as <-. reflexivity.
Qed.

(** Without failover groups the outputs bring no messages. *)
Lemma items_quiet : forall l, Forall no_failover l -> snd (fst (plain_items l)) = [].
Proof.
  induction l as [|i l IH]; intros F; [reflexivity|]. inversion F as [|? ? A B]; subst. cbn [plain_items fold_right]. fold (plain_items l). specialize (IH B).
  destruct (plain_items l) as [[a' m'] n']. cbn in IH. subst m'. destruct i; cbn; try reflexivity. destruct A.
Qed.
Lemma ordered_quiet : forall tun l, Forall no_failover l -> (forall t, Forall no_failover (tun t)) -> snd (fst (ordered_items (Some tun) l)) = [].
Proof.
  intros tun. induction l as [|i l IH]; intros F Q; [reflexivity|]. inversion F as [|? ? A B]; subst. cbn [ordered_items fold_right]. fold (ordered_items (Some tun) l). specialize (IH B Q).
  destruct (ordered_items (Some tun) l) as [[a' m'] n']. cbn in IH. subst m'. destruct i; cbn -[plain_items]; try reflexivity; [destruct A|].
  match goal with |- context [plain_items (tun ?y)] => assert (X := items_quiet _ (Q y)); destruct (plain_items (tun y)) as [[a1 m1] n1] end. cbn in *. subst m1. reflexivity.
Qed.
Lemma rule_quiet : forall tun pl r, plain_rule r -> (forall t, Forall no_failover (tun t)) -> snd (rule_inst (Some tun) pl r) = [].
Proof.
  intros tun pl r [_ P] Q. unfold rule_inst. destruct (ru_actions r) as [a|]; [|reflexivity]. specialize (P a). unfold build_actions.
  destruct (ac_output a) as [o|]; [|reflexivity]. specialize (P o eq_refl eq_refl). destruct (build_output_actions (Some tun) o) as [[[po ac] mm] ii] eqn:E.
  assert (X : mm = []).
  { unfold build_output_actions in E. destruct o as [l|u]; cbn [plain_output] in P.
    - assert (Y := ordered_quiet tun l P Q). destruct (ordered_items (Some tun) l) as [[a1 m1] i1]. cbn in Y. congruence.
    - injection E as <- <- <- <-. rewrite P. reflexivity. }
  subst mm. destruct (negb _ && po); reflexivity.
Qed.

Definition dyn_plain (dy : dyn) : Prop := forall k l, In (k, l) dy -> Forall no_failover l.
Lemma source_rules_plain : forall curr s d out t, Forall no_failover (td_exit d) -> Forall no_failover (source_rules curr s d out t).
Proof.
  intros curr s d out t H. unfold source_rules. assert (L : Forall no_failover [leave out t]) by (destruct out; repeat constructor).
  assert (TP : Forall no_failover (to_port out)) by (destruct out; repeat constructor).
  destruct (curr =? ts_dp s), (curr =? td_dp d).
  - apply Forall_app. split; [exact H|]. apply Forall_app. split; [destruct (td_maintain d); repeat constructor|exact L].
  - apply Forall_app. split; [repeat constructor|]. apply Forall_app. split; [exact TP|repeat constructor].
  - apply Forall_app. split; [destruct (td_maintain d); repeat constructor|]. apply Forall_app. split; [exact H|exact L].
  - exact TP.
Qed.
Lemma reverse_rules_plain : forall curr s d out t, Forall no_failover (reverse_rules curr s d out t).
Proof. intros curr s d out t. unfold reverse_rules. destruct (curr =? td_dp d), (curr =? ts_dp s), out; repeat constructor. Qed.
Lemma dyn_put_plain : forall dy k l, dyn_plain dy -> Forall no_failover l -> dyn_plain (dict_put dkey_eqb k l dy).
Proof.
  intros dy k l. induction dy as [|[k0 l0] dy IH]; intros P H k1 l1 I; cbn in I.
  - destruct I as [I|[]]. injection I as <- <-. exact H.
  - destruct (dkey_eqb k k0); destruct I as [I|I].
    + injection I as <- <-. exact H.
    + apply (P k1). right. exact I.
    + injection I as <- <-. apply (P k0). left. reflexivity.
    + revert k1 l1 I. apply IH; [|exact H]. intros k2 l2 I2. apply (P k2). right. exact I2.
Qed.
Lemma dyn_update_plain : forall c me l dy, (forall d, In d (tl_dests l) -> Forall no_failover (td_exit d)) -> dyn_plain dy -> dyn_plain (dyn_update c me l dy).
Proof.
  intros c me l dy H P. unfold dyn_update. revert dy P. induction (tl_dests l) as [|d ds IH]; intros dy P; [exact P|]. cbn [fold_left]. apply IH; [intros; apply H; right; assumption|].
  assert (HD := H d (or_introl eq_refl)). clear IH H. revert dy P. induction (tl_sources l) as [|s ss IHs]; intros dy P; [exact P|]. cbn [fold_left]. apply IHs.
  destruct (fwd_updated me d s); [|exact P]. apply dyn_put_plain; [exact P|]. apply source_rules_plain. exact HD.
Qed.
Lemma tun_plain : forall dy s t, dyn_plain dy -> Forall no_failover (tun_of dy s t).
Proof.
  intros dy s t P. unfold tun_of, dyn_get. destruct (dict_get dkey_eqb (t, s) dy) as [l|] eqn:E; [|constructor].
  revert E. induction dy as [|[k l0] dy IH]; cbn; [discriminate|]. destruct (dkey_eqb (t, s) k).
  - intros E. injection E as <-. apply (P k). left. reflexivity.
  - apply IH. intros k2 l2 I2. apply (P k2). right. exact I2.
Qed.

Section Rest.
  Variables (c : tconf) (stack_ports : list Z) (ls : list tacl) (name : Z).
  Hypothesis PL : plain_tunnels c ls.

  Lemma reach_plain : forall w, treach c stack_ports ls name w -> forall l dy, In (l, dy) (tw_acls w) -> In l ls /\ dyn_plain dy.
  Proof.
    intros w R. induction R as [|w w' R IH O|me w w' R IH N U].
    - intros l dy I. cbn in I. apply in_map_iff in I as (l' & E & I). injection E as <- <-. split; [exact I|intros k x []].
    - destruct O. exact IH.
    - destruct U as [w acls' pre ms sh ub out E _ _ _ _]. cbn. intros l dy I. apply add_tunnel_in in E as (-> & _). apply in_map_iff in I as ((l' & dy') & EQ & I).
      cbn in EQ. injection EQ as <- <-. destruct (IH l' dy' I) as [L P]. split; [exact L|]. apply dyn_update_plain; [|exact P]. apply (proj2 PL l' L).
  Qed.

  (** All messages of an update are flow mods. *)
  Lemma update_flows : forall me acls acls' ms, (forall l dy, In (l, dy) acls -> In l ls /\ dyn_plain dy) -> add_tunnel_acls c me acls = (acls', Some ms) ->
    forall x, In x ms -> exists y, x = FlowMod y /\ (fm_cmd y <> FAdd -> exists z, In (FlowMod z) ms /\ fm_cmd z = FAdd /\ flowmodkey z = flowmodkey y).
  Proof.
    intros me acls acls' ms IV E x X. assert (E0 := E). destruct (add_tunnel_in c me acls acls' ms E) as (_ & _ & I). apply I in X as (l & dy & L & [X|(m1 & S1 & X)]).
    - destruct (IV l dy L) as [LL _]. assert (X0 := X). apply in_flat_map in X as (d & D & X). destruct (proj2 PL l LL) as [_ PD]. specialize (PD d D).
      assert (IN : forall y, In (FlowMod y) (tunnel_msgs c me l d) -> In (FlowMod y) ms).
      { intros y Y. apply I. exists l, dy. split; [exact L|]. left. apply in_flat_map. exists d. auto. }
      unfold tunnel_msgs in X, IN. apply in_app_iff in X as [X|X]; apply in_flat_map in X as (s & S & X).
      + assert (Q := items_quiet _ (source_rules_plain (sn_name me) s d (fwd_port me d s) (tc_output c) PD)). fold (fwd_rules c me d s) in Q.
        assert (FM : exists y, x = FlowMod y).
        { unfold build_tunnel_ofmsgs in X. destruct (plain_items (fwd_rules c me d s)) as [[a m] i]. cbn in Q. subst m. destruct X as [<-|[<-|[]]]; eauto. }
        destruct FM as (y & ->). exists y. split; [reflexivity|]. intros NA. exists (tunnel_add (tc_table c) (fwd_rules c me d s) (td_id d) (td_reverse d)). split; [|split; [reflexivity|]].
        * apply IN. apply in_or_app. left. apply in_flat_map. exists s. split; [exact S|apply tunnel_writes_in].
        * exact (tunnel_paired _ _ _ _ _ X NA).
      + assert (Q := items_quiet _ (reverse_rules_plain (sn_name me) s d (rev_port me d s) (tc_output c))). fold (rev_rules c me d s) in Q.
        assert (FM : exists y, x = FlowMod y).
        { unfold build_tunnel_ofmsgs in X. destruct (plain_items (rev_rules c me d s)) as [[a m] i]. cbn in Q. subst m. destruct X as [<-|[<-|[]]]; eauto. }
        destruct FM as (y & ->). exists y. split; [reflexivity|]. intros NA. exists (tunnel_add (tc_table c) (rev_rules c me d s) (td_id d) true). split; [|split; [reflexivity|]].
        * apply IN. apply in_or_app. right. apply in_flat_map. exists s. split; [exact S|apply tunnel_writes_in].
        * exact (tunnel_paired _ _ _ _ _ X NA).
    - destruct (IV l dy L) as [LL PD]. assert (PU : dyn_plain (dyn_update c me l dy)) by (apply dyn_update_plain; [apply (proj2 PL l LL)|exact PD]).
      assert (IN : forall y, In y m1 -> In y ms). { intros y Y. apply I. exists l, dy. split; [exact L|]. right. exists m1. auto. }
      destruct (source_msgs_in c me l _ m1 S1) as [_ I1]. apply I1 in X as (s & tid & a & O & B & X).
      assert (IN' : forall y, In y a -> In y ms). { intros y Y. apply IN, I1. exists s, tid, a. auto. }
      assert (RM : forall pl r prio y, plain_rule r -> In y (build_rule_ofmsgs (Some (tun_of (dyn_update c me l dy) s)) true pl r prio) -> exists z, y = FlowMod z).
      { intros pl r prio y PR Y. unfold build_rule_ofmsgs in Y. assert (Q := rule_quiet (tun_of (dyn_update c me l dy) s) pl r PR (fun t => tun_plain _ _ t PU)).
        destruct (rule_inst (Some (tun_of (dyn_update c me l dy) s)) pl r) as [i m]. cbn in Q. subst m. destruct Y as [<-|[<-|[]]]; eauto. }
      unfold build_tunnel_acl_rule_ofmsgs in B. destruct (mem acl_eqb (tl_acl l) (am_dp_acls (tc_am c))).
      + destruct (known _ _ _); [|discriminate]. injection B as <-. unfold build_acl_ofmsgs in *.
        assert (FM : forall rs prio, (forall r, In r rs -> plain_rule r) -> In x (build_rules (Some (tun_of (dyn_update c me l dy) s)) true (dp_place (tc_am c) (tc_table c)) rs prio) -> exists y, x = FlowMod y).
        { induction rs as [|r rs IH]; intros prio PR Y; [destruct Y|]. cbn [build_rules] in Y. apply in_app_iff in Y as [Y|Y]; [exact (RM _ r _ _ (PR r (or_introl eq_refl)) Y)|].
          apply (IH (prio - 1)); [intros; apply PR; right; assumption|exact Y]. }
        destruct (FM _ _ (proj1 PL) X) as (y & ->). exists y. split; [reflexivity|]. intros NA.
        destruct (rules_paired _ _ _ _ _ y (fun r R => proj1 (proj1 PL r R)) X NA) as (z & Z & P). exists z. split; [apply IN'; exact Z|exact P].
      + destruct (known _ _ _); [|discriminate]. injection B as <-. apply in_flat_map in X as (r & R & X).
        assert (PR : plain_rule r). { apply (proj1 (proj2 PL l LL)). unfold get_tunnel_rules in R. apply filter_In in R. apply R. }
        destruct (RM _ _ _ _ PR X) as (y & ->). exists y. split; [reflexivity|]. intros NA. eexists. split; [|split; [|exact (rule_paired _ _ _ _ _ _ (proj1 PR) X NA)]]; [|reflexivity].
        apply IN'. apply in_flat_map. exists r. split; [exact R|apply rule_writes_in].
  Qed.

  Hypothesis NT : tb_id (tc_table c) <> OFPTT_ALL.

  Lemma update_owned : forall me acls acls' ms, map fst acls = ls -> add_tunnel_acls c me acls = (acls', Some ms) ->
    forall w, In (FlowMod w) ms -> fm_cmd w = FAdd -> owned c ls (sn_name me) (flow_of w).
  Proof.
    intros me acls acls' ms EL E w W A.
    destruct (update_writes c me acls acls' ms E w W) as [[H _]|[(l & d & s & (L & D & S & _ & _ & ->))|[(l & d & s & (L & D & S & _ & ->))|(l & dy & d & s & pl & r & prio & (L & D & S & F & N & -> & PT & PH & PP & K))]]].
    - congruence.
    - rewrite EL in L. split; [reflexivity|]. left. split; [reflexivity|]. exists l, d. eexists. split; [exact L|]. split; [exact D|]. reflexivity.
    - rewrite EL in L. split; [reflexivity|]. left. split; [reflexivity|]. exists l, d. eexists. split; [exact L|]. split; [exact D|]. reflexivity.
    - assert (L2 : In l ls) by (rewrite <- EL; apply in_map_iff; exists (l, dy); auto). split; [exact PT|]. right. destruct K as [(M & -> & R & ->)|(M & -> & i & NI & ->)].
      + left. assert (RI : In r (al_rules (tl_acl l)) /\ rule_tunnels r <> []).
        { unfold get_tunnel_rules in R. apply filter_In in R as [R1 R2]. split; [exact R1|]. intros X. rewrite X in R2. discriminate. }
        destruct RI as [RI RT]. assert (IX : exists i, nth_error (al_rules (tl_acl l)) i = Some r /\ index_of r (al_rules (tl_acl l)) = Z.of_nat i).
        { revert RI. generalize (al_rules (tl_acl l)) as rs. induction rs as [|x rs IH]; intros I; [destruct I|]. cbn [index_of]. destruct (rule_eqb x r) eqn:EX.
          - apply rule_eqb_spec in EX. subst x. exists 0%nat. split; reflexivity.
          - destruct I as [->|I]; [rewrite (proj2 (rule_eqb_spec r r) eq_refl) in EX; discriminate|]. destruct (IH I) as (i & A1 & A2). exists (Datatypes.S i). split; [exact A1|]. lia. }
        destruct IX as (i & N1 & N2). exists l, s, r, i. split; [exact L2|]. split; [exact S|]. split; [exact N|]. split; [exact N1|]. split; [exact RT|]. split; [|reflexivity].
        cbn [f_prio flow_of rule_add tb_add_cookie fm_prio pl_exact source_place pl_high]. rewrite N2. reflexivity.
      + right. exists l, s, r, i. split; [exact L2|]. split; [exact S|]. split; [exact N|]. split; [apply (mem_spec _ acl_eqb acl_eqb_spec); exact M|]. split; [exact NI|]. split; reflexivity.
  Qed.

  Theorem rest_untouched : forall me w acls' ms sh ub out, treach c stack_ports ls name w -> add_tunnel_acls c me (tw_acls w) = (acls', Some ms) ->
    (forall l, Permutation (sh l) l) -> valve_flowreorder sh ub ms = Some out ->
    forall s e, ~ owned c ls (sn_name me) e -> (In e (sw_flows (apply_msgs out s)) <-> In e (sw_flows s)).
  Proof.
    intros me w acls' ms sh ub out R E Hsh V s e NO. assert (IV := reach_plain w R). assert (EL := reach_acls c stack_ports ls name w R).
    assert (UF := update_flows me _ _ _ IV E).
    assert (NM : forall y, In (FlowMod y) ms -> fm_cmd y <> FModify).
    { intros y Y. destruct (update_cmd c me _ _ _ E y Y) as [X|X]; rewrite X; discriminate. }
    assert (NW : forall y, In (FlowMod y) ms -> is_flow_write (FlowMod y) = true -> ~ fm_at (f_table e) (f_prio e) (f_match e) y).
    { intros y Y WY (A1 & A2 & A3). assert (CA : fm_cmd y = FAdd). { destruct (update_cmd c me _ _ _ E y Y) as [X|X]; [exact X|]. cbn in WY. rewrite X in WY. discriminate. }
      apply NO. assert (O := update_owned me _ _ _ EL E y Y CA). destruct O as [O1 O2]. cbn [flow_of f_table f_prio f_match] in *. rewrite A1 in O1. rewrite A2, A3 in O2. split; assumption. }
    rewrite (slot_unwritten sh ub ms out Hsh V NM s (f_table e) (f_prio e) (f_match e) e (fun y Y W A => False_ind _ (NW y Y W A)) NW e (conj eq_refl (conj eq_refl eq_refl))).
    split; [tauto|]. intros I. split; [exact I|]. intros x X D. exfalso. assert (XM := out_delete sh ub ms out Hsh V x X D). destruct (UF x XM) as (y & -> & P).
    assert (NA : fm_cmd y <> FAdd) by (intros A; cbn in D; rewrite A in D; discriminate). destruct (P NA) as (z & Z & CZ & K).
    apply (delete_dropped sh ub ms out y z Hsh V X D); [|exact Z|cbn; rewrite CZ; reflexivity|exact K].
    destruct (update_writes c me _ _ _ E y XM) as [[_ T]|[(l & d & s0 & (_ & _ & _ & _ & _ & ->))|[(l & d & s0 & (_ & _ & _ & _ & ->))|(l & dy & d & s0 & pl & r & prio & (_ & _ & _ & _ & _ & -> & _))]]];
      try (contradiction NA; reflexivity). rewrite T. exact NT.
  Qed.
  Lemma flows_only : forall ms s, (forall x, In x ms -> x = Barrier \/ exists y, x = FlowMod y) ->
    sw_groups (apply_msgs ms s) = sw_groups s /\ sw_meters (apply_msgs ms s) = sw_meters s.
  Proof.
    induction ms as [|x ms IH]; intros s H; [split; reflexivity|]. cbn [apply_msgs fold_left]. fold (apply_msgs ms (apply_msg x s)).
    destruct (IH (apply_msg x s)) as [A B]; [intros y Y; apply H; right; exact Y|]. rewrite A, B. destruct (H x (or_introl eq_refl)) as [->|(y & ->)]; split; reflexivity.
  Qed.
  Lemma rest_groups : forall me w acls' ms sh ub out, treach c stack_ports ls name w -> add_tunnel_acls c me (tw_acls w) = (acls', Some ms) ->
    (forall l, Permutation (sh l) l) -> valve_flowreorder sh ub ms = Some out ->
    forall s, sw_groups (apply_msgs out s) = sw_groups s /\ sw_meters (apply_msgs out s) = sw_meters s.
  Proof.
    intros me w acls' ms sh ub out R E Hsh V s. apply flows_only. intros x X. destruct (reorder_invents_nothing_lemma sh ub ms out x Hsh V X) as [->|XM]; [auto|].
    right. destruct (update_flows me _ _ _ (reach_plain w R) E x XM) as (y & -> & _). exists y. reflexivity.
  Qed.
End Rest.
