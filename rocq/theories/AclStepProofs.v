(** * What a batch that refreshes some spots does to the switch

    [c x] are the messages that program spot [x] (a port, a VLAN, ...).  A batch
    re-sends the messages of some spots and deletes the entries of some; the switch
    then again holds exactly the entries of all spots. *)
From Coq Require Import ZArith List Bool Lia Permutation.
From Verif Require Import PyBase PyBaseProofs OpenFlow ReorderModel ReorderSpec ReorderProofs
  TableModel FloodRulesProofs BatchProofs AclModel AclSpec.
Import ListNotations.
Open Scope Z_scope.

Definition wipe_msg (h : group) : ofmsg := GroupMod GDelete h.

(** the messages of one spot: flow entries and failover groups *)
Definition spot_msgs (ms : list ofmsg) : Prop :=
  forall m, In m ms ->
    (exists w, m = FlowMod w /\ fm_cmd w = FAdd /\
       forall g, uses_group g (flow_of w) = true -> exists ns, In (GroupMod GAdd (ff_group g ns)) ms) \/
    (exists g ns, g <> OFPG_ALL /\ In m (groupadd_ff g ns) /\ incl (groupadd_ff g ns) ms).

Record holds {X : Type} (acl_table : Z -> Prop) (c : X -> list ofmsg) (s : switch) : Prop := {
  ho_there : forall x w, In (FlowMod w) (c x) -> In (flow_of w) (sw_flows s);
  ho_only : forall f, In f (sw_flows s) -> acl_table (f_table f) -> exists x w, In (FlowMod w) (c x) /\ f = flow_of w;
  ho_groups : forall x g ns, In (GroupMod GAdd (ff_group g ns)) (c x) ->
     In (ff_group g ns) (sw_groups s) /\ forall h, In h (sw_groups s) -> g_id h = g -> h = ff_group g ns
}.

Section Step.
  Variables (X : Type) (acl_table : Z -> Prop) (c c' : X -> list ofmsg) (R D : X -> bool).
  Variables (sh : list ofmsg -> list ofmsg) (ub : bool) (ms out : list ofmsg) (s : switch).
  Hypothesis Hsh : forall l, Permutation (sh l) l.
  Hypothesis Ro : valve_flowreorder sh ub ms = Some out.
  Hypothesis Sp : forall x, spot_msgs (c' x).
  Hypothesis Cross : forall x1 x2 w1 w2, In (FlowMod w1) (c' x1) -> In (FlowMod w2) (c' x2) -> same_flow_slot w1 w2 -> x1 = x2 /\ w1 = w2.
  Hypothesis Apart : forall x1 x2 g ns1 ns2, In (GroupMod GAdd (ff_group g ns1)) (c' x1) -> In (GroupMod GAdd (ff_group g ns2)) (c' x2) ->
    x1 = x2 /\ ns1 = ns2.
  Hypothesis In1 : forall x m, R x = true -> In m (c' x) -> In m ms.
  Hypothesis In2 : forall m, In m ms ->
    (exists x, R x = true /\ In m (c' x)) \/
    (exists d, m = FlowMod d /\ fm_cmd d = FDelete /\ fm_out_port d = OFPP_ANY /\ fm_out_group d = OFPG_ANY /\
       (forall x w, In (FlowMod w) (c x) -> del_hits d (flow_of w) = true -> D x = true) /\
       (forall x w, R x = true -> In (FlowMod w) (c' x) -> ~ same_flow_slot d w)) \/
    (exists h, m = GroupMod GDelete h /\ g_id h = OFPG_ALL /\ forall x, R x = true).
  Hypothesis Kept : forall x, R x = false -> D x = false -> c' x = c x.
  Hypothesis Gone : forall x, R x = false -> D x = true -> c' x = [].
  Hypothesis Same : forall x, R x = true -> D x = false -> c' x = c x \/ c x = [].
  Hypothesis Del : forall x w, D x = true -> In (FlowMod w) (c x) ->
    exists d, In (FlowMod d) ms /\ fm_cmd d = FDelete /\ del_hits d (flow_of w) = true.
  Hypothesis Old1 : forall x w, In (FlowMod w) (c x) -> In (flow_of w) (sw_flows s).
  Hypothesis Old2 : forall f, In f (sw_flows s) -> acl_table (f_table f) ->
    (exists x w, In (FlowMod w) (c x) /\ f = flow_of w) \/ (exists m, In m ms /\ is_delete m = true /\ del_flow m f = true).
  Hypothesis Old3 : forall x g ns, In (GroupMod GAdd (ff_group g ns)) (c x) ->
     In (ff_group g ns) (sw_groups s) /\ forall h, In h (sw_groups s) -> g_id h = g -> h = ff_group g ns.

  Lemma write_from : forall w, In (FlowMod w) ms -> is_flow_write (FlowMod w) = true ->
    fm_cmd w = FAdd /\ exists x, R x = true /\ In (FlowMod w) (c' x).
  Proof.
    intros w H K. destruct (In2 _ H) as [[x [A B]]|[[d [E [F _]]]|[h [E _]]]].
    - split; eauto. destruct (Sp x _ B) as [[w' [E [F _]]]|[g [ns [_ [[E|[E|[]]] _]]]]]; try discriminate. injection E as <-. auto.
    - injection E as <-. simpl in K. rewrite F in K. discriminate.
    - discriminate.
  Qed.
  Lemma gadd_from : forall h, In (GroupMod GAdd h) ms -> exists x ns, R x = true /\ In (GroupMod GAdd h) (c' x) /\ h = ff_group (g_id h) ns.
  Proof.
    intros h H. destruct (In2 _ H) as [[x [A B]]|[[d [E _]]|[h' [E _]]]]; try discriminate.
    destruct (Sp x _ B) as [[w' [E _]]|[g [ns [_ [[E|[E|[]]] _]]]]]; try discriminate. injection E as <-. exists x, ns. auto.
  Qed.
  Lemma gdel_from : forall h, In (GroupMod GDelete h) ms ->
    (g_id h <> OFPG_ALL /\ exists x ns, R x = true /\ In (GroupMod GAdd (ff_group (g_id h) ns)) (c' x)) \/
    (g_id h = OFPG_ALL /\ forall x, R x = true).
  Proof.
    intros h H. destruct (In2 _ H) as [[x [A B]]|[[d [E _]]|[h' [E [F G]]]]]; try discriminate.
    - left. destruct (Sp x _ B) as [[w' [E _]]|[g [ns [N [[E|[E|[]]] I]]]]]; try discriminate. injection E as <-. simpl.
      split; auto. exists x, ns. split; auto. apply I. right. left. auto.
    - right. injection E as <-. auto.
  Qed.

  Lemma batch_clean : clean_batch ms.
  Proof.
    constructor.
    - intros g H. destruct (In2 _ H) as [[x [A B]]|[[d [E _]]|[h' [E _]]]]; try discriminate.
      destruct (Sp x _ B) as [[w' [E _]]|[g' [ns [_ [[E|[E|[]]] _]]]]]; discriminate.
    - intros i b H. destruct (In2 _ H) as [[x [A B]]|[[d [E _]]|[h' [E _]]]]; try discriminate.
      destruct (Sp x _ B) as [[w' [E _]]|[g' [ns [_ [[E|[E|[]]] _]]]]]; discriminate.
    - intros fm H K T. destruct (In2 _ H) as [[x [A B]]|[[d [E [F [G [I _]]]]]|[h' [E _]]]]; try discriminate.
      + destruct (Sp x _ B) as [[w' [E [F _]]]|[g' [ns [_ [[E|[E|[]]] _]]]]]; try discriminate. injection E as <-.
        simpl in K. rewrite F in K. discriminate.
      + injection E as <-. auto.
    - intros d w Hd Hw Kd Kw S. exfalso. destruct (write_from w Hw Kw) as [_ [x [A B]]].
      destruct (In2 _ Hd) as [[x' [A' B']]|[[d' [E [_ [_ [_ [_ N]]]]]]|[h' [E _]]]]; try discriminate.
      + destruct (Sp x' _ B') as [[w' [E [F _]]]|[g' [ns [_ [[E|[E|[]]] _]]]]]; try discriminate. injection E as <-. congruence.
      + injection E as <-. apply (N x w); auto.
    - intros w1 w2 A1 A2 B1 B2 S. destruct (write_from w1 A1 B1) as [K1 [x1 [_ C1]]]. destruct (write_from w2 A2 B2) as [K2 [x2 [_ C2]]].
      destruct (Cross x1 x2 w1 w2 C1 C2 S) as [_ ->]. auto.
    - intros w H K. destruct (write_from w H) as [E _]; [simpl; rewrite K; auto|]. congruence.
    - intros d w Hd Hw Kd Kw. destruct (write_from w Hw) as [E _]; [simpl; rewrite Kw; auto|]. congruence.
    - intros g1 g2 H1 H2 E. destruct (gadd_from g1 H1) as [x1 [ns1 [_ [A1 B1]]]]. destruct (gadd_from g2 H2) as [x2 [ns2 [_ [A2 B2]]]].
      rewrite B1 in A1. rewrite B2 in A2. rewrite <- E in A2. destruct (Apart _ _ _ _ _ A1 A2) as [_ ->]. rewrite B1, B2, E. reflexivity.
    - intros i b1 b2 H _. destruct (In2 _ H) as [[x [A B]]|[[d [E _]]|[h' [E _]]]]; try discriminate.
      destruct (Sp x _ B) as [[w' [E _]]|[g' [ns [_ [[E|[E|[]]] _]]]]]; discriminate.
  Qed.

  Lemma deletes : forall m f, In m ms -> is_delete m = true -> del_flow m f = true ->
    (exists d, m = FlowMod d /\ fm_cmd d = FDelete /\ del_hits d f = true /\
       forall x w, In (FlowMod w) (c x) -> del_hits d (flow_of w) = true -> D x = true) \/
    (exists g x ns, R x = true /\ In (GroupMod GAdd (ff_group g ns)) (c' x) /\ uses_group g f = true) \/
    (forall x, R x = true).
  Proof.
    intros m f H K F. destruct (In2 _ H) as [[x [A B]]|[[d [-> [E [_ [_ [G _]]]]]]|[h [-> [E A]]]]].
    - destruct (Sp x _ B) as [[w' [-> [E _]]]|[g [ns [N [[<-|[<-|[]]] I]]]]].
      + simpl in K. rewrite E in K. discriminate.
      + right. left. simpl in F. replace (g =? OFPG_ALL) with false in F by (symmetry; apply Z.eqb_neq; auto).
        exists g, x, ns. split; auto. split; auto. apply I. right; left; auto.
      + discriminate.
    - left. exists d. auto.
    - auto.
  Qed.

  Lemma batch_kept : forall f, In f (sw_flows s) ->
    (forall w, In (FlowMod w) ms -> is_flow_write (FlowMod w) = true ->
       ~ (fm_table w = f_table f /\ fm_prio w = f_prio f /\ fm_match w = f_match f)) ->
    (forall m, In m ms -> is_delete m = true -> del_flow m f = false) ->
    In f (sw_flows (apply_msgs out s)).
  Proof.
    intros f Hf Hn Hd.
    destruct (reorder_effect_lemma sh ub ms out s batch_clean (perm_sub sh Hsh) Ro) as [F _].
    apply F, intended_flows; [apply batch_clean|].
    destruct (last_write _ _ _ _) as [x|] eqn:E; auto.
    apply last_write_some in E as [w' [-> [Hin [A [B C]]]]]. apply filter_In in Hin as [Hin Hwr].
    exfalso. eapply Hn; eauto.
  Qed.

  Lemma batch_groups : forall h, In h (sw_groups (apply_msgs out s)) <->
    (In h (sw_groups s) /\ forall m, In m ms -> is_delete m = true -> del_group m h = false) \/
    (In (GroupMod GAdd h) ms /\ forall k, In k (sw_groups s) ->
       (forall m, In m ms -> is_delete m = true -> del_group m k = false) -> g_id k <> g_id h).
  Proof.
    intros h. destruct (reorder_effect_lemma sh ub ms out s batch_clean (perm_sub sh Hsh) Ro) as [_ [G _]].
    rewrite G. unfold intended.
    set (s1 := apply_msgs (filter is_delete ms) s). set (s2 := apply_msgs (filter is_group_add ms) s1).
    assert (E1 : forall g, In g (sw_groups s1) <-> In g (sw_groups s) /\ forall m, In m ms -> is_delete m = true -> del_group m g = false).
    { intros g. unfold s1. rewrite (proj1 (proj2 (apply_deletes (filter is_delete ms) s
        ltac:(intros m H; apply filter_In in H; tauto))) g).
      split; intros [A B]; split; auto.
      - intros m H1 H2. apply B. apply filter_In; auto.
      - intros m H. apply filter_In in H as [H1 H2]. auto. }
    assert (E2 : forall g, In g (sw_groups s2) <-> In g (sw_groups s1) \/ (In (GroupMod GAdd g) ms /\ forall k, In k (sw_groups s1) -> g_id k <> g_id g)).
    { intros g. unfold s2. destruct (apply_group_adds (filter is_group_add ms) s1) as [_ [_ A]].
      - intros m H; apply filter_In in H; tauto.
      - intros g1 g2 H1 H2. apply filter_In in H1, H2. apply (cb_groups ms batch_clean); tauto.
      - rewrite A. rewrite filter_In. simpl. tauto. }
    assert (E3 : sw_groups (apply_msgs (filter is_flow_write ms) (apply_msgs (filter is_meter_add ms) s2)) = sw_groups s2).
    { rewrite <- (apply_msgs_app (filter is_meter_add ms) (filter is_flow_write ms) s2).
      assert (Z0 : forall l t, (forall m, In m l -> match m with GroupMod _ _ => False | _ => True end) -> sw_groups (apply_msgs l t) = sw_groups t).
      { clear. induction l as [|m l IH]; intros t H; [reflexivity|]. cbn [apply_msgs fold_left].
        change (fold_left (fun s0 m0 => apply_msg m0 s0) l (apply_msg m t)) with (apply_msgs l (apply_msg m t)).
        rewrite IH by (intros; apply H; right; auto). specialize (H m (or_introl eq_refl)).
        destruct m as [fm|c0 g|c0 id b| | | | |]; simpl; auto; [destruct H|].
        destruct c0; simpl; [destruct (existsb _ _)| |destruct (id =? OFPM_ALL)]; auto. }
      apply Z0. intros m H. apply in_app_iff in H as [H|H]; apply filter_In in H as [_ H]; destruct m; auto; discriminate. }
    rewrite E3, E2, E1. split.
    - intros [A|[A B]]; auto. right. split; auto. intros k K1 K2. apply B. apply E1; auto.
    - intros [A|[A B]]; auto. right. split; auto. intros k K. apply E1 in K as [K1 K2]. auto.
  Qed.

  Theorem step_holds : holds acl_table c' (apply_msgs out s).
  Proof.
    constructor.
    - intros x w H. destruct (R x) eqn:ER.
      + destruct (Sp x _ H) as [[w' [E [K _]]]|[g [ns [_ [[E|[E|[]]] _]]]]]; try discriminate. injection E as <-.
        apply (batch_written sh ub ms out s batch_clean Hsh Ro w); auto; [eapply In1; eauto|].
        intros w' H' K' S. destruct (write_from w' H' K') as [_ [x' [_ B]]]. destruct (Cross _ _ _ _ H B S) as [_ ->]. auto.
      + destruct (D x) eqn:ED; [rewrite Gone in H by auto; destruct H|]. assert (Hc := H). rewrite Kept in Hc by auto.
        apply batch_kept; auto; [eapply Old1; eauto| |].
        * intros w' H' K' [S1 [S2 S3]]. destruct (write_from w' H' K') as [_ [x' [A B]]].
          destruct (Cross _ _ _ _ H B) as [-> _]; [|congruence]. simpl in *. unfold same_flow_slot. auto.
        * intros m Hm K. destruct (del_flow m (flow_of w)) eqn:E; auto. exfalso.
          destruct (deletes m _ Hm K E) as [[d [-> [_ [F G]]]]|[[g [x' [ns [A [B U]]]]]|A]].
          -- rewrite (G x w) in ED; auto. discriminate.
          -- destruct (Sp x _ H) as [[w' [E' [_ U']]]|[g' [ns' [_ [[E'|[E'|[]]] _]]]]]; try discriminate. injection E' as <-.
             destruct (U' g U) as [ns' Y]. destruct (Apart _ _ _ _ _ B Y) as [-> _]. congruence.
          -- rewrite A in ER. discriminate.
    - intros f Hf T.
      destruct (existsb (fun m => match m with FlowMod w => is_flow_write (FlowMod w) && wslot w f | _ => false end) ms) eqn:EW.
      + apply existsb_exists in EW as [m [Hm EW]]. destruct m as [w| | | | | | |]; try discriminate.
        apply andb_true_iff in EW as [K W]. apply wslot_spec in W as [W1 [W2 W3]].
        destruct (write_from w Hm K) as [Kc [x [A B]]]. exists x, w. split; auto.
        destruct (batch_written sh ub ms out s batch_clean Hsh Ro w Hm Kc) as [_ U].
        * intros w' H' K' S. destruct (write_from w' H' K') as [_ [x' [_ B']]]. destruct (Cross _ _ _ _ B B' S) as [_ ->]. auto.
        * apply U; auto.
      + destruct (batch_unwritten sh ub ms out s batch_clean Hsh Ro f Hf) as [Fs Fd].
        * intros w Hw K [W1 [W2 W3]].
          assert (Y : existsb (fun m => match m with FlowMod w => is_flow_write (FlowMod w) && wslot w f | _ => false end) ms = true).
          { apply existsb_exists. exists (FlowMod w). split; auto. rewrite K. apply wslot_spec; auto. }
          congruence.
        * destruct (Old2 f Fs T) as [[x [w [B E]]]|[m [Hm [K Y]]]]; [|rewrite Fd in Y by auto; discriminate].
          destruct (D x) eqn:ED.
          -- destruct (Del x w ED B) as [d [Hd [Kd Y]]]. rewrite <- E in Y. specialize (Fd (FlowMod d) Hd). simpl in Fd.
             rewrite Kd, Y in Fd. discriminate Fd. reflexivity.
          -- destruct (R x) eqn:ER.
             ++ destruct (Same x ER ED) as [E'|E']; [|rewrite E' in B; destruct B]. rewrite <- E' in B. exists x, w. auto.
             ++ rewrite <- Kept in B by auto. exists x, w. auto.
    - intros x g ns H.
      assert (Gid : g_id (ff_group g ns) = g) by reflexivity.
      destruct (R x) eqn:ER.
      + assert (HA : In (GroupMod GAdd (ff_group g ns)) ms) by (eapply In1; eauto).
        assert (HD : exists m, In m ms /\ is_delete m = true /\ forall k, g_id k = g -> del_group m k = true).
        { destruct (Sp x _ H) as [[w' [E' _]]|[g' [ns' [N [[E'|[E'|[]]] I]]]]]; try discriminate.
          assert (g' = g) by (injection E'; auto). subst g'. exists (GroupMod GDelete (mkGroup g GT_ALL [])). split; [|split; auto].
          - eapply In1; eauto. apply I. left; auto.
          - intros k K. simpl. rewrite K, Z.eqb_refl. apply orb_true_r. }
        destruct HD as [md [M1 [M2 M3]]]. split.
        * apply batch_groups. right. split; auto. intros k K1 K2 K3. rewrite Gid in K3. specialize (K2 md M1 M2). rewrite M3 in K2; auto. discriminate.
        * intros h Hh E. apply batch_groups in Hh as [[A B]|[A B]].
          -- specialize (B md M1 M2). rewrite M3 in B; auto. discriminate.
          -- destruct (gadd_from h A) as [x' [ns' [_ [A' B']]]]. rewrite B' in A'. rewrite E in A'.
             destruct (Apart _ _ _ _ _ H A') as [_ ->]. rewrite B', E. reflexivity.
      + destruct (D x) eqn:ED; [rewrite Gone in H by auto; destruct H|]. assert (Hc := H). rewrite Kept in Hc by auto.
        destruct (Old3 x g ns Hc) as [A B].
        assert (ND : forall m k, In m ms -> is_delete m = true -> g_id k = g -> del_group m k = false).
        { intros m k Hm K E. destruct m as [fm|cc h|cc id b| | | | |]; auto. destruct cc; auto. simpl.
          destruct (gdel_from h Hm) as [[N [x' [ns' [Rx Y]]]]|[_ Y]]; [|rewrite Y in ER; discriminate].
          replace (g_id h =? OFPG_ALL) with false by (symmetry; apply Z.eqb_neq; auto). apply Z.eqb_neq. simpl.
          intros Z0. rewrite <- Z0, E in Y. destruct (Apart _ _ _ _ _ H Y) as [-> _]. congruence. }
        split.
        * apply batch_groups. left. split; auto.
        * intros h Hh E. apply batch_groups in Hh as [[A' _]|[A' _]]; [apply B; auto|].
          destruct (gadd_from h A') as [x' [ns' [Rx [Y Z0]]]]. rewrite Z0, E in Y. destruct (Apart _ _ _ _ _ H Y) as [-> _]. congruence.
  Qed.
End Step.
