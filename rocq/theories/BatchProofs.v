(** * Consequences of the reorder theorem used by the flow-level proofs *)
From Coq Require Import ZArith List Bool Lia Permutation.
From Verif Require Import PyBase PyBaseProofs OpenFlow ReorderModel ReorderSpec ReorderProofs.
Import ListNotations.
Open Scope Z_scope.

Lemma intended_flows : forall ms s, clean_batch ms ->
  forall f, In f (sw_flows (intended ms s)) <->
    match last_write (f_table f) (f_prio f) (f_match f) (filter is_flow_write ms) with
    | Some (FlowMod w) =>
        if match fm_cmd w with FAdd => true | _ => false end then f = flow_of w
        else exists f0, (In f0 (sw_flows s) /\ forall m, In m ms -> is_delete m = true -> del_flow m f0 = false) /\
                        wslot w f0 = true /\ f = with_inst (fm_inst w) f0
    | _ => In f (sw_flows s) /\ forall m, In m ms -> is_delete m = true -> del_flow m f = false
    end.
Proof.
  intros ms s CB f. unfold intended.
  set (s1 := apply_msgs (filter is_delete ms) s).
  set (s2 := apply_msgs (filter is_group_add ms) s1).
  set (s3 := apply_msgs (filter is_meter_add ms) s2).
  assert (E1 : forall f, In f (sw_flows s1) <->
     In f (sw_flows s) /\ forall m, In m ms -> is_delete m = true -> del_flow m f = false).
  { intros g. unfold s1. rewrite (proj1 (apply_deletes (filter is_delete ms) s
      ltac:(intros m H; apply filter_In in H; tauto)) g).
    split; intros [A B]; split; auto.
    - intros m H1 H2. apply B. apply filter_In; auto.
    - intros m H. apply filter_In in H as [H1 H2]. auto. }
  assert (E2 : sw_flows s2 = sw_flows s1).
  { apply apply_group_adds.
    - intros m H; apply filter_In in H; tauto.
    - intros g1 g2 H1 H2. apply filter_In in H1, H2. apply (cb_groups ms CB); tauto. }
  assert (E3 : sw_flows s3 = sw_flows s2).
  { apply apply_meter_adds.
    - intros m H; apply filter_In in H; tauto.
    - intros i b1 b2 H1 H2. apply filter_In in H1, H2. apply (cb_meters ms CB i); tauto. }
  rewrite (proj2 (proj2 (apply_writes (filter is_flow_write ms) s3 (uniform_writes ms CB))) f).
  rewrite E3, E2.
  destruct (last_write _ _ _ _) as [[w| | | | | | |]|]; try apply E1.
  destruct (match fm_cmd w with FAdd => true | _ => false end); [tauto|].
  split; intros [f0 [A B]]; exists f0; split; auto; apply E1; auto.
Qed.

Lemma last_write_none : forall t p m l, last_write t p m l = None ->
  forall w, In (FlowMod w) l -> ~ (fm_table w = t /\ fm_prio w = p /\ fm_match w = m).
Proof.
  intros t p m l H w Hw E. unfold last_write in H.
  assert (X := find_none _ _ H (FlowMod w) (proj1 (in_rev _ _) Hw)).
  assert (Y : slot_eq t p m (FlowMod w) = true) by (apply slot_eq_spec; eauto).
  congruence.
Qed.

Lemma perm_sub : forall sh : list ofmsg -> list ofmsg, (forall l, Permutation (sh l) l) ->
  forall l x, In x (sh l) -> In x l.
Proof. intros sh H l x. apply Permutation_in, H. Qed.

Section Batch.
  Variables (sh : list ofmsg -> list ofmsg) (ub : bool) (ms out : list ofmsg) (s : switch).
  Hypothesis CB : clean_batch ms.
  Hypothesis Hsh : forall l, Permutation (sh l) l.
  Hypothesis R : valve_flowreorder sh ub ms = Some out.

  (** a slot all of whose writes in the batch are the same add *)
  Lemma batch_written : forall w, In (FlowMod w) ms -> fm_cmd w = FAdd ->
    (forall w', In (FlowMod w') ms -> is_flow_write (FlowMod w') = true -> same_flow_slot w w' ->
       flow_of w' = flow_of w) ->
    In (flow_of w) (sw_flows (apply_msgs out s)) /\
    forall f, In f (sw_flows (apply_msgs out s)) ->
      f_table f = fm_table w -> f_prio f = fm_prio w -> f_match f = fm_match w -> f = flow_of w.
  Proof.
    intros w Hw Hc Hu.
    destruct (reorder_effect_lemma sh ub ms out s CB (perm_sub sh Hsh) R) as [F _].
    assert (Ww : is_flow_write (FlowMod w) = true) by (simpl; rewrite Hc; auto).
    assert (L : exists w', last_write (fm_table w) (fm_prio w) (fm_match w) (filter is_flow_write ms) = Some (FlowMod w') /\
              fm_cmd w' = FAdd /\ flow_of w' = flow_of w).
    { destruct (last_write _ _ _ _) as [x|] eqn:E.
      - apply last_write_some in E as [w' [-> [Hin [A [B C]]]]]. apply filter_In in Hin as [Hin Hwr].
        exists w'. split; auto. split.
        + destruct (cb_writes ms CB w w'); auto; try congruence. unfold same_flow_slot; auto.
        + apply Hu; auto. unfold same_flow_slot; auto.
      - exfalso. eapply last_write_none; eauto. apply filter_In; auto. }
    destruct L as [w' [L [Lc Lf]]]. split.
    - apply F, intended_flows; auto. simpl. rewrite L, Lc. auto.
    - intros f Hf A B C. apply F, intended_flows in Hf; auto. rewrite A, B, C, L, Lc in Hf. congruence.
  Qed.

  (** a flow whose slot the batch does not write *)
  Lemma batch_unwritten : forall f, In f (sw_flows (apply_msgs out s)) ->
    (forall w, In (FlowMod w) ms -> is_flow_write (FlowMod w) = true ->
       ~ (fm_table w = f_table f /\ fm_prio w = f_prio f /\ fm_match w = f_match f)) ->
    In f (sw_flows s) /\ forall m, In m ms -> is_delete m = true -> del_flow m f = false.
  Proof.
    intros f Hf Hn. destruct (reorder_effect_lemma sh ub ms out s CB (perm_sub sh Hsh) R) as [F _].
    apply F, intended_flows in Hf; auto.
    destruct (last_write _ _ _ _) as [x|] eqn:E; auto.
    apply last_write_some in E as [w' [-> [Hin [A [B C]]]]]. apply filter_In in Hin as [Hin Hwr].
    exfalso. eapply Hn; eauto.
  Qed.
End Batch.

(** ** Where the flows of a switch come from, for any message sequence *)

Lemma apply_msg_flows : forall m s f, In f (sw_flows (apply_msg m s)) ->
  In f (sw_flows s) \/
  (exists w, m = FlowMod w /\ fm_cmd w = FAdd /\ f = flow_of w) \/
  (exists w f0, m = FlowMod w /\ fm_cmd w = FModifyStrict /\ In f0 (sw_flows s) /\ wslot w f0 = true /\
     f = with_inst (fm_inst w) f0) \/
  (exists w f0, m = FlowMod w /\ fm_cmd w = FModify /\ In f0 (sw_flows s) /\
     f = with_inst (fm_inst w) f0).
Proof.
  intros m s f H. destruct m as [fm|c g|c id b| | | | |]; simpl in H; auto.
  - unfold apply_flowmod in H. destruct (fm_cmd fm) eqn:E.
    + apply in_app_iff in H as [H|[<-|[]]]; [apply filter_In in H; tauto|]. right; left; eauto.
    + apply in_map_iff in H as [f0 [E0 H]]. destruct (table_sel _ _ && _) eqn:S; subst; auto.
      right; right; right. exists fm, f0; auto.
    + apply in_map_iff in H as [f0 [E0 H]]. destruct (same_slot _ _ _ _) eqn:S; subst; auto.
      right; right; left. exists fm, f0; auto.
    + apply filter_In in H; tauto.
    + apply filter_In in H; tauto.
  - destruct c; simpl in H.
    + destruct (existsb _ _); simpl in H; auto.
    + auto.
    + destruct (g_id g =? OFPG_ALL); simpl in H; apply filter_In in H; tauto.
  - destruct c; simpl in H.
    + destruct (existsb _ _); simpl in H; auto.
    + auto.
    + destruct (id =? OFPM_ALL); simpl in H; apply filter_In in H; tauto.
Qed.

(** An invariant of flows that adds establish and strict modifies keep holds
    after any sequence of messages. *)
Lemma apply_msgs_inv : forall (P : flow -> Prop) ms s,
  (forall w, In (FlowMod w) ms -> fm_cmd w = FAdd -> P (flow_of w)) ->
  (forall w f, In (FlowMod w) ms -> fm_cmd w = FModifyStrict -> wslot w f = true -> P f ->
     P (with_inst (fm_inst w) f)) ->
  (forall w, In (FlowMod w) ms -> fm_cmd w <> FModify) ->
  (forall f, In f (sw_flows s) -> P f) ->
  forall f, In f (sw_flows (apply_msgs ms s)) -> P f.
Proof.
  intros P. induction ms as [|m ms IH]; intros s HA HM HN HS f Hf; simpl in Hf; [auto|].
  apply (IH (apply_msg m s)); auto.
  - intros w Hw. apply HA; right; auto.
  - intros w g Hw. apply HM; right; auto.
  - intros w Hw. apply HN; right; auto.
  - intros g Hg. apply apply_msg_flows in Hg as [Hg|[[w [-> [C ->]]]|[[w [f0 [-> [C [Hf0 [S ->]]]]]]|[w [f0 [-> [C _]]]]]]]; auto.
    + apply HA; auto. left; auto.
    + apply HM; auto. left; auto.
    + exfalso. eapply HN; eauto. left; auto.
Qed.

(** The same for a reordered batch. *)
Lemma reorder_inv : forall (P : flow -> Prop) sh ub ms out s,
  (forall l, Permutation (sh l) l) ->
  valve_flowreorder sh ub ms = Some out ->
  (forall w, In (FlowMod w) ms -> fm_cmd w = FAdd -> P (flow_of w)) ->
  (forall w f, In (FlowMod w) ms -> fm_cmd w = FModifyStrict -> wslot w f = true -> P f ->
     P (with_inst (fm_inst w) f)) ->
  (forall w, In (FlowMod w) ms -> fm_cmd w <> FModify) ->
  (forall f, In f (sw_flows s) -> P f) ->
  forall f, In f (sw_flows (apply_msgs out s)) -> P f.
Proof.
  intros P sh ub ms out s Hsh R HA HM HN HS.
  assert (Sub : forall w, In (FlowMod w) out -> In (FlowMod w) ms).
  { intros w Hw. destruct (reorder_invents_nothing_lemma sh ub ms out (FlowMod w) Hsh R Hw) as [E|E]; auto. discriminate. }
  apply apply_msgs_inv; auto.
Qed.

(** The groups of a switch come from group additions. *)
Lemma apply_msgs_ginv : forall (P : group -> Prop) ms s,
  (forall g, In (GroupMod GAdd g) ms -> P g) -> (forall g, ~ In (GroupMod GModify g) ms) ->
  (forall g, In g (sw_groups s) -> P g) ->
  forall g, In g (sw_groups (apply_msgs ms s)) -> P g.
Proof.
  intros P. induction ms as [|m ms IH]; intros s HA HM HS g Hg; simpl in Hg; [auto|].
  apply (IH (apply_msg m s)); auto.
  - intros h Hh. apply HA; right; auto.
  - intros h Hh. apply (HM h); right; auto.
  - intros h Hh. destruct m as [fm|c g0|c id b| | | | |]; simpl in Hh; auto.
    + destruct c; simpl in Hh.
      * destruct (existsb _ _); auto. simpl in Hh. apply in_app_iff in Hh as [Hh|[<-|[]]]; auto. apply HA; left; auto.
      * exfalso. apply (HM g0); left; auto.
      * destruct (g_id g0 =? OFPG_ALL); simpl in Hh; [destruct Hh|apply filter_In in Hh; apply HS; tauto].
    + destruct c; simpl in Hh; [destruct (existsb _ _)| |destruct (id =? OFPM_ALL)]; auto.
Qed.

(** A batch that deletes everything leaves nothing of the old switch. *)
Definition wipes (d : flowmod) : Prop :=
  fm_cmd d = FDelete /\ fm_table d = OFPTT_ALL /\ fm_match d = [] /\ fm_out_port d = OFPP_ANY /\ fm_out_group d = OFPG_ANY.
Lemma wipe_split : forall sh ub ms out s d, valve_flowreorder sh ub ms = Some out -> In (FlowMod d) ms -> wipes d ->
  exists post s1, sw_flows s1 = [] /\ apply_msgs out s = apply_msgs post s1 /\
      (forall g, In (GroupMod GDelete g) ms -> g_id g = OFPG_ALL -> sw_groups s1 = []) /\ (forall m, In m post -> In m out).
Proof.
  intros sh ub ms out s d R Hd [C [T [M [O1 O2]]]].
  apply reorder_pieces in R as [ds [_ ->]].
  rewrite apply_msgs_app, apply_msgs_app.
  eexists _, (apply_msgs (with_barrier ub (p_dg ms)) (apply_msgs (with_barrier ub (p_simple ms KConfig)) s)).
  split; [|split; [reflexivity|split]].
  - rewrite apply_with_barrier.
    assert (D : forall m, In m (p_dg ms) -> is_delete m = true).
    { intros m Hm. unfold p_dg in Hm. apply simple_in, of_kind_in in Hm as [_ K]. apply kind_delete; auto. }
    destruct (apply_deletes _ (apply_msgs (with_barrier ub (p_simple ms KConfig)) s) D) as [F _].
    destruct (sw_flows _) as [|f l] eqn:E; auto. exfalso.
    assert (X : In f (f :: l)) by (left; auto). apply F in X as [_ X].
    specialize (X (FlowMod d)). simpl in X. unfold del_hits in X. rewrite C, T, M in X.
    unfold table_sel, out_sel in X. rewrite O1, O2 in X. discriminate X.
    apply simple_in, of_kind_in. split; auto. cbn [msg_kind]. unfold is_global_flowdel, is_flowdel_cmd. rewrite C, T, M. reflexivity.
  - intros g Hg Eg. rewrite apply_with_barrier.
    assert (D : forall m, In m (p_dg ms) -> is_delete m = true).
    { intros m Hm. unfold p_dg in Hm. apply simple_in, of_kind_in in Hm as [_ K]. apply kind_delete; auto. }
    destruct (apply_deletes _ (apply_msgs (with_barrier ub (p_simple ms KConfig)) s) D) as [_ [G _]].
    destruct (sw_groups _) as [|h l] eqn:E; auto. exfalso.
    assert (X : In h (h :: l)) by (left; auto). apply G in X as [_ X].
    specialize (X (GroupMod GDelete g)). simpl in X. rewrite Eg in X. discriminate X.
    apply simple_in, of_kind_in. split; auto. cbn [msg_kind]. rewrite Eg. reflexivity.
  - intros m Hm. rewrite !in_app_iff. rewrite !in_app_iff in Hm. tauto.
Qed.

(** ** Clean batches that only add and delete *)

Section Exact.
  Variables (sh : list ofmsg -> list ofmsg) (ub : bool) (ms out : list ofmsg) (s : switch).
  Hypothesis CB : clean_batch ms.
  Hypothesis Hsh : forall l, Permutation (sh l) l.
  Hypothesis Ro : valve_flowreorder sh ub ms = Some out.
  Hypothesis Adds : forall w, In (FlowMod w) ms -> is_flow_write (FlowMod w) = true -> fm_cmd w = FAdd.

  Lemma exact_from : forall f, In f (sw_flows (apply_msgs out s)) ->
    (exists w, In (FlowMod w) ms /\ fm_cmd w = FAdd /\ f = flow_of w) \/
    (In f (sw_flows s) /\ forall m, In m ms -> is_delete m = true -> del_flow m f = false).
  Proof.
    intros f Hf. pose proof Hf as Hf0. destruct (reorder_effect_lemma sh ub ms out s CB (perm_sub sh Hsh) Ro) as [F _].
    apply F, intended_flows in Hf; auto.
    destruct (last_write _ _ _ _) as [x|] eqn:E.
    - apply last_write_some in E as [w [-> [Hin [A [B C]]]]]. apply filter_In in Hin as [Hin Hwr].
      rewrite (Adds w Hin Hwr) in Hf. left. exists w. auto.
    - right. apply (batch_unwritten sh ub ms out s CB Hsh Ro f Hf0). intros w W1 W2 W3.
      apply (last_write_none _ _ _ _ E w); auto. apply filter_In. auto.
  Qed.
  Lemma exact_written : forall w, In (FlowMod w) ms -> fm_cmd w = FAdd ->
    (forall w', In (FlowMod w') ms -> is_flow_write (FlowMod w') = true -> same_flow_slot w w' -> flow_of w' = flow_of w) ->
    In (flow_of w) (sw_flows (apply_msgs out s)).
  Proof. intros w A B C. apply (batch_written sh ub ms out s CB Hsh Ro w A B C). Qed.
  Lemma exact_kept : forall f, In f (sw_flows s) ->
    (forall w, In (FlowMod w) ms -> is_flow_write (FlowMod w) = true ->
       (fm_table w = f_table f /\ fm_prio w = f_prio f /\ fm_match w = f_match f) -> flow_of w = f) ->
    (forall m, In m ms -> is_delete m = true -> del_flow m f = false) ->
    In f (sw_flows (apply_msgs out s)).
  Proof.
    intros f Hf Hn Hd. destruct (reorder_effect_lemma sh ub ms out s CB (perm_sub sh Hsh) Ro) as [F _].
    apply F, intended_flows; auto.
    destruct (last_write _ _ _ _) as [x|] eqn:E; auto.
    apply last_write_some in E as [w' [-> [Hin [A [B C]]]]]. apply filter_In in Hin as [Hin Hwr].
    rewrite (Adds w' Hin Hwr). symmetry. apply Hn; auto.
  Qed.
End Exact.

Lemma clean_of : forall ms,
  (forall m, In m ms -> (exists w, m = FlowMod w /\ fm_cmd w = FAdd) \/
     (exists d, m = FlowMod d /\ (fm_cmd d = FDelete \/ fm_cmd d = FDeleteStrict) /\
        (fm_table d = OFPTT_ALL -> fm_cmd d = FDelete /\ fm_out_port d = OFPP_ANY /\ fm_out_group d = OFPG_ANY)) \/
     (exists g, m = GroupMod GDelete g)) ->
  (forall w w', In (FlowMod w) ms -> In (FlowMod w') ms -> fm_cmd w = FAdd -> fm_cmd w' = FAdd -> same_flow_slot w w' -> w = w') ->
  (forall d w, In (FlowMod d) ms -> In (FlowMod w) ms -> fm_cmd d = FDelete -> fm_cmd w = FAdd -> ~ same_flow_slot d w) ->
  clean_batch ms /\ forall w, In (FlowMod w) ms -> is_flow_write (FlowMod w) = true -> fm_cmd w = FAdd.
Proof.
  intros ms K S W.
  assert (KW : forall w, In (FlowMod w) ms -> is_flow_write (FlowMod w) = true -> fm_cmd w = FAdd).
  { intros w H F. destruct (K _ H) as [[w' [E A]]|[[d [E [A _]]]|[g E]]]; try discriminate; injection E as <-; auto.
    simpl in F. destruct A as [A|A]; rewrite A in F; discriminate. }
  split; auto. constructor.
  - intros g H. destruct (K _ H) as [[w' [E A]]|[[d [E [A _]]]|[g' E]]]; discriminate.
  - intros i b H. destruct (K _ H) as [[w' [E A]]|[[d [E [A _]]]|[g' E]]]; discriminate.
  - intros fm H D T. destruct (K _ H) as [[w' [E A]]|[[d [E [A B]]]|[g' E]]]; try discriminate; injection E as <-; auto.
    simpl in D. rewrite A in D. discriminate.
  - intros d w Hd Hw C F X. exfalso. apply (W d w); auto.
  - intros w1 w2 A1 A2 F1 F2 X. rewrite (S w1 w2); auto.
  - intros w H C. destruct (K _ H) as [[w' [E A]]|[[d [E [A B]]]|[g' E]]]; try discriminate; injection E as <-; [congruence|].
    destruct A; congruence.
  - intros d w Hd Hw C1 C2. assert (fm_cmd w = FAdd); [|congruence]. apply KW; auto. simpl. rewrite C2. auto.
  - intros g1 g2 H. destruct (K _ H) as [[w' [E A]]|[[d [E [A _]]]|[g' E]]]; discriminate.
  - intros i b1 b2 H. destruct (K _ H) as [[w' [E A]]|[[d [E [A _]]]|[g' E]]]; discriminate.
Qed.

(** What a batch neither writes nor deletes stays as it is. *)
Lemma apply_frame : forall (P : flow -> Prop) ms s,
  (forall m, In m ms -> match m with
     | FlowMod w => match fm_cmd w with
                    | FAdd => forall f, P f -> same_slot (fm_table w) (fm_prio w) (fm_match w) f = false
                    | FDelete | FDeleteStrict => forall f, P f -> del_hits w f = false
                    | _ => False end
     | Barrier => True
     | _ => False
     end) ->
  forall f, P f -> (In f (sw_flows (apply_msgs ms s)) <-> In f (sw_flows s)).
Proof.
  intros P ms. induction ms as [|m ms IH]; intros s H f Hf; [reflexivity|].
  change (apply_msgs (m :: ms) s) with (apply_msgs ms (apply_msg m s)). rewrite IH; auto; [|intros x Hx; apply H; right; auto].
  specialize (H m (or_introl eq_refl)). destruct m as [w| | | | | | |]; try contradiction; [|reflexivity].
  simpl. unfold apply_flowmod. destruct (fm_cmd w) eqn:E; try contradiction.
  - rewrite in_app_iff, filter_In. simpl. split.
    + intros [[A _]|[<-|[]]]; auto. exfalso. specialize (H _ Hf). unfold same_slot, flow_of in H. simpl in H.
      rewrite !Z.eqb_refl in H. simpl in H. unfold fmatch_eqb in H. destruct (fmatch_eq_dec _ _); congruence.
    + intros A. left. split; auto. rewrite H; auto.
  - rewrite filter_In, H; auto. simpl. tauto.
  - rewrite filter_In, H; auto. simpl. tauto.
Qed.
