(** * The effect of a reordered batch on one flow slot *)
From Coq Require Import ZArith List Bool Lia Permutation.
From Verif Require Import PyBase PyBaseProofs OpenFlow ReorderModel ReorderSpec ReorderProofs BatchProofs.
Import ListNotations.
Open Scope Z_scope.

Definition at_slot (t p : Z) (m : fmatch) (f : flow) : Prop := f_table f = t /\ f_prio f = p /\ f_match f = m.
Definition fm_at (t p : Z) (m : fmatch) (w : flowmod) : Prop := fm_table w = t /\ fm_prio w = p /\ fm_match w = m.

Lemma writes_slot : forall l s t p m F,
  (forall x, In x l -> is_flow_write x = true) ->
  (forall w, In (FlowMod w) l -> fm_cmd w <> FModify) ->
  (forall w, In (FlowMod w) l -> fm_at t p m w -> fm_cmd w = FAdd /\ flow_of w = F) ->
  ((exists w, In (FlowMod w) l /\ fm_at t p m w) ->
     forall f, at_slot t p m f -> (In f (sw_flows (apply_msgs l s)) <-> f = F)) /\
  ((forall w, In (FlowMod w) l -> ~ fm_at t p m w) ->
     forall f, at_slot t p m f -> (In f (sw_flows (apply_msgs l s)) <-> In f (sw_flows s))).
Proof.
  intros l s t p m F HW HM HU.
  assert (Other : forall w s f, fm_cmd w = FAdd \/ fm_cmd w = FModifyStrict -> ~ fm_at t p m w -> at_slot t p m f ->
     (In f (sw_flows (apply_msg (FlowMod w) s)) <-> In f (sw_flows s))).
  { intros w s0 f C N [A [B D]]. simpl. unfold apply_flowmod.
    assert (NS : same_slot (fm_table w) (fm_prio w) (fm_match w) f = false).
    { destruct (same_slot _ _ _ f) eqn:E; auto. exfalso. apply (wslot_spec w f) in E as [E1 [E2 E3]].
      apply N. repeat split; congruence. }
    destruct C as [C|C]; rewrite C.
    - rewrite in_app_iff, filter_In, NS. simpl. split; [intros [[X _]|[X|[]]]; auto|auto].
      exfalso. apply N. rewrite <- X in A, B, D. repeat split; assumption.
    - rewrite in_map_iff. split.
      + intros [g [E Hg]]. destruct (same_slot _ _ _ g) eqn:S; [|congruence].
        exfalso. apply (wslot_spec w g) in S as [E1 [E2 E3]]. apply N.
        subst f. simpl in A, B, D. repeat split; congruence.
      + intros H. exists f. rewrite NS. auto. }
  induction l as [|x l IH] using rev_ind.
  { split; [intros [w [[] _]]|]. intros _ f _. reflexivity. }
  destruct IH as [I1 I2].
  { intros y Hy; apply HW, in_app_iff; auto. }
  { intros y Hy; apply HM, in_app_iff; auto. }
  { intros y Hy; apply HU, in_app_iff; auto. }
  assert (Wx : is_flow_write x = true) by (apply HW, in_app_iff; right; left; auto).
  destruct x as [w| | | | | | |]; try discriminate.
  assert (Hx : In (FlowMod w) (l ++ [FlowMod w])) by (apply in_app_iff; right; left; auto).
  assert (Cw : fm_cmd w = FAdd \/ fm_cmd w = FModifyStrict).
  { pose proof (HM w Hx). simpl in Wx. destruct (fm_cmd w); try discriminate; auto; congruence. }
  rewrite apply_msgs_app. cbn [apply_msgs fold_left].
  assert (D : fm_at t p m w \/ ~ fm_at t p m w).
  { unfold fm_at. destruct (Z.eq_dec (fm_table w) t), (Z.eq_dec (fm_prio w) p), (fmatch_eq_dec (fm_match w) m);
      first [left; repeat split; assumption | right; tauto]. }
  destruct D as [D|D].
  - destruct (HU w Hx D) as [C <-]. split.
    + intros _ f [A [B Em]]. simpl. unfold apply_flowmod. rewrite C, in_app_iff, filter_In. destruct D as [D1 [D2 D3]].
      assert (S : same_slot (fm_table w) (fm_prio w) (fm_match w) f = true) by (apply (wslot_spec w f); repeat split; congruence).
      rewrite S. simpl. split; [intros [[_ X]|[X|[]]]; [discriminate|auto]|auto].
    + intros N. exfalso. apply (N w); auto.
  - split.
    + intros [w0 [H0 A0]] f Hf. rewrite (Other w _ f Cw D Hf). apply I1; auto.
      apply in_app_iff in H0 as [H0|[H0|[]]]; [eauto|]. injection H0 as ->. contradiction.
    + intros N f Hf. rewrite (Other w _ f Cw D Hf). apply I2; auto.
      intros w0 H0. apply N, in_app_iff; auto.
Qed.

Lemma no_flow_change : forall l s, (forall x, In x l -> is_flow_write x = false /\ is_delete x = false) ->
  sw_flows (apply_msgs l s) = sw_flows s.
Proof.
  induction l as [|x l IH]; intros s H; auto. cbn [apply_msgs fold_left].
  change (sw_flows (apply_msgs l (apply_msg x s)) = sw_flows s). rewrite IH by (intros; apply H; right; auto).
  destruct (H x (or_introl eq_refl)) as [A B]. destruct x as [w|c g|c i b| | | | |]; auto.
  - simpl in A, B. destruct (fm_cmd w); discriminate.
  - destruct c; simpl in *; try discriminate; auto. destruct (existsb _ _); auto.
  - destruct c; simpl in *; try discriminate; auto. destruct (existsb _ _); auto.
Qed.

Section Slot.
  Variables (sh : list ofmsg -> list ofmsg) (ub : bool) (ms out : list ofmsg).
  Hypothesis Hsh : forall l, Permutation (sh l) l.
  Hypothesis R : valve_flowreorder sh ub ms = Some out.
  Hypothesis NM : forall w, In (FlowMod w) ms -> fm_cmd w <> FModify.
  Variables (s : switch) (t p : Z) (m : fmatch) (F : flow).
  Hypothesis U : forall w, In (FlowMod w) ms -> is_flow_write (FlowMod w) = true -> fm_at t p m w -> fm_cmd w = FAdd /\ flow_of w = F.

  (** A slot that the batch writes holds what is written. *)
  Lemma slot_written : (exists w, In (FlowMod w) ms /\ is_flow_write (FlowMod w) = true /\ fm_at t p m w) ->
    forall f, at_slot t p m f -> (In f (sw_flows (apply_msgs out s)) <-> f = F).
  Proof.
    intros [w [Hw [Ww A]]] f Hf. destruct (reorder_pieces sh ub ms out R) as [d [Hd ->]].
    repeat rewrite apply_msgs_app.
    rewrite (no_flow_change (sh _)), (no_flow_change (p_simple ms KOther)).
    - apply (fun l s0 a b c => proj1 (writes_slot l s0 t p m F a b c)); auto.
      + intros x Hx. apply p_adds_sub in Hx as [_ K]. apply kind_flow_write; auto.
      + intros x Hx. apply p_adds_sub in Hx as [Hx _]. apply NM; auto.
      + intros x Hx. apply p_adds_sub in Hx as [Hx K]. apply U; auto. apply kind_flow_write; auto.
      + assert (Hk : In (FlowMod w) (of_kind ms KFlowAddMod)) by (apply of_kind_in; split; auto; apply kind_flow_write; auto).
        destruct (dict_of_covers okey_eqb okey_eqb_spec none_flowmodkey _ _ Hk) as [y [Hy Ey]].
        change (In y (dedupe_key (of_kind ms KFlowAddMod))) in Hy.
        destruct y as [wy| | | | | | |]; try discriminate. exists wy. split.
        * unfold p_adds, sort_flows. apply py_sorted_in. exact Hy.
        * simpl in Ey. injection Ey as E1 _ E2 E3. destruct A as [A1 [A2 A3]]. repeat split; congruence.
    - intros x Hx. apply p_simple_kind in Hx as [_ K]. split.
      + destruct (is_flow_write x) eqn:E; auto. apply kind_flow_write in E. congruence.
      + destruct (is_delete x) eqn:E; auto. apply kind_delete in E. destruct E; congruence.
    - intros x Hx. apply (perm_sub sh Hsh), dedupe_str_in, of_kind_in in Hx as [_ K]. split.
      + destruct (is_flow_write x) eqn:E; auto. apply kind_flow_write in E. congruence.
      + destruct (is_delete x) eqn:E; auto. apply kind_delete in E. destruct E; congruence.
  Qed.

  (** A slot that the batch does not write keeps what no transmitted delete hits. *)
  Lemma slot_unwritten : (forall w, In (FlowMod w) ms -> is_flow_write (FlowMod w) = true -> ~ fm_at t p m w) ->
    forall f, at_slot t p m f ->
    (In f (sw_flows (apply_msgs out s)) <->
     In f (sw_flows s) /\ forall x, In x out -> is_delete x = true -> del_flow x f = false).
  Proof.
    intros N f Hf. destruct (reorder_pieces sh ub ms out R) as [d [Hd ->]].
    assert (Q : forall k x, k <> KFlowAddMod -> k <> KDelGlobal -> k <> KDelete ->
       In x (p_simple ms k) -> is_flow_write x = false /\ is_delete x = false).
    { intros k x K1 K2 K3 Hx. apply p_simple_kind in Hx as [_ K]. split.
      - destruct (is_flow_write x) eqn:E; auto. apply kind_flow_write in E. congruence.
      - destruct (is_delete x) eqn:E; auto. apply kind_delete in E. destruct E; congruence. }
    assert (Qp : forall x, In x (sh (dedupe_str (of_kind ms KPacketOut))) -> is_flow_write x = false /\ is_delete x = false).
    { intros x Hx. apply (perm_sub sh Hsh), dedupe_str_in, of_kind_in in Hx as [_ K]. split.
      - destruct (is_flow_write x) eqn:E; auto. apply kind_flow_write in E. congruence.
      - destruct (is_delete x) eqn:E; auto. apply kind_delete in E. destruct E; congruence. }
    assert (Dd : forall x, In x (p_dels ms d) -> is_delete x = true).
    { intros x Hx. apply (p_dels_kind _ _ _ Hd) in Hx as [_ K]. apply kind_delete; auto. }
    assert (Dg : forall x, In x (p_dg ms) -> is_delete x = true).
    { intros x Hx. unfold p_dg in Hx. apply simple_in, of_kind_in in Hx as [_ K]. apply kind_delete; auto. }
    assert (Da : forall x, In x (p_adds ms) -> is_delete x = false).
    { intros x Hx. apply p_adds_sub in Hx as [_ K]. apply kind_flow_write in K.
      destruct x as [w| | | | | | |]; try discriminate. simpl in *. destruct (fm_cmd w); auto; discriminate. }
    repeat rewrite apply_msgs_app. rewrite !apply_with_barrier.
    rewrite (no_flow_change (sh _)) by auto.
    rewrite (no_flow_change (p_simple ms KOther)) by (intros x Hx; apply (Q KOther); auto; discriminate).
    rewrite (proj2 (writes_slot (p_adds ms) _ t p m F
      ltac:(intros x Hx; apply p_adds_sub in Hx as [_ K]; apply kind_flow_write; auto)
      ltac:(intros x Hx; apply p_adds_sub in Hx as [Hx _]; apply NM; auto)
      ltac:(intros x Hx; apply p_adds_sub in Hx as [Hx K]; apply U; auto; apply kind_flow_write; auto))
      ltac:(intros w Hw; apply p_adds_sub in Hw as [Hw K]; apply N; auto; apply kind_flow_write; auto) f Hf).
    rewrite (no_flow_change (p_simple ms KMeterAdd)) by (intros x Hx; apply (Q KMeterAdd); auto; discriminate).
    rewrite (no_flow_change (p_simple ms KGroupAdd)) by (intros x Hx; apply (Q KGroupAdd); auto; discriminate).
    rewrite (no_flow_change (p_simple ms KTfm)) by (intros x Hx; apply (Q KTfm); auto; discriminate).
    rewrite (proj1 (apply_deletes (p_dels ms d) _ Dd) f), (proj1 (apply_deletes (p_dg ms) _ Dg) f).
    rewrite (no_flow_change (p_simple ms KConfig)) by (intros x Hx; apply (Q KConfig); auto; discriminate).
    split.
    - intros [[A B] C]. split; auto. intros x Hx Dx.
      assert (X : In x (p_dg ms) \/ In x (p_dels ms d)).
      { rewrite !in_app_iff, !with_barrier_in in Hx.
        assert (NB : x <> Barrier) by (intros ->; discriminate).
        repeat (destruct Hx as [Hx|Hx]); try tauto;
          try (exfalso; match type of Hx with In _ (p_simple ms ?k) => destruct (Q k x) as [_ Y]; auto; try discriminate; congruence end).
        - exfalso. rewrite Da in Dx by auto. discriminate.
        - exfalso. destruct (Qp x Hx). congruence. }
      destruct X; auto.
    - intros [A B]. split; [split; auto|]; intros x Hx; apply B; auto; rewrite !in_app_iff, !with_barrier_in; tauto.
  Qed.

  (** A transmitted delete is one of the batch. *)
  Lemma out_delete : forall x, In x out -> is_delete x = true -> In x ms.
  Proof.
    intros x Hx Dx. destruct (reorder_invents_nothing_lemma sh ub ms out x Hsh R Hx) as [->|H]; auto. discriminate.
  Qed.
End Slot.

(** A delete is transmitted unless the batch writes under its key, or deletes
    across tables. *)
Lemma delete_sent : forall sh ub ms out d, valve_flowreorder sh ub ms = Some out ->
  In (FlowMod d) ms -> is_delete (FlowMod d) = true ->
  (forall g, In (FlowMod g) ms -> is_delete (FlowMod g) = true -> fm_table g <> OFPTT_ALL) ->
  (forall w, In (FlowMod w) ms -> is_flow_write (FlowMod w) = true -> flowmodkey w <> flowmodkey d) ->
  In (FlowMod d) out.
Proof.
  intros sh ub ms out d R Hd Dd NA NK. destruct (reorder_pieces sh ub ms out R) as [d0 [E ->]].
  assert (K : forall g, In (FlowMod g) ms -> is_delete (FlowMod g) = true -> msg_kind (FlowMod g) = KDelete).
  { intros g Hg Dg. assert (X := Dg). apply kind_delete in X as [X|X]; auto. exfalso.
    apply (NA g Hg Dg). cbn [msg_kind] in X. unfold is_global_flowdel in X.
    destruct (is_flowdel_cmd (fm_cmd g)); simpl in X; [|discriminate].
    destruct (Z.eqb_spec (fm_table g) OFPTT_ALL); auto; discriminate. }
  assert (H0 : In (FlowMod d) (p_del0 ms)).
  { apply p_del0_in. split; auto. split; [apply K; auto|]. intros g Hg Kg T.
    destruct g as [g| | | | | | |]; try discriminate T.
    assert (Dg : is_delete (FlowMod g) = true) by (apply kind_delete; auto).
    rewrite K in Kg by auto. discriminate. }
  assert (X : In (FlowMod d) (p_dels ms d0)).
  { destruct (p_dels_fate ms d0 _ E H0) as [[X|[fm [w [Ef [Hw [Ww Ek]]]]]]|[fo [fm [_ [Hfo [_ [T _]]]]]]]; auto.
    - injection Ef as <-. exfalso. eapply NK; eauto.
    - exfalso. apply p_del0_in in Hfo as [Hfo [Kf _]]. apply (NA fo Hfo); auto. apply kind_delete; auto. }
  rewrite !in_app_iff, !with_barrier_in. tauto.
Qed.
