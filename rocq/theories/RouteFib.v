(** * Batches of FIB messages take effect in the order they were generated *)
From Coq Require Import ZArith List Bool Lia Permutation.
From Verif Require Import PyBase PyBaseProofs OpenFlow ReorderModel ReorderSpec ReorderProofs BatchProofs SlotProofs.
Import ListNotations.
Open Scope Z_scope.

(** Adds and strict deletes in one table, and packet outs. *)
Definition one_table (t k : Z) (x : ofmsg) : Prop :=
  match x with
  | FlowMod w => fm_table w = t /\ fm_cookie w = k /\
      (fm_cmd w = FAdd \/ (fm_cmd w = FDeleteStrict /\ fm_out_port w = OFPP_ANY /\ fm_out_group w = OFPG_ANY))
  | PacketOut _ _ => True
  | _ => False
  end.

(** The last message for the slot of [f]. *)
Definition last_msg (f : flow) (ms : list ofmsg) : option ofmsg :=
  find (slot_eq (f_table f) (f_prio f) (f_match f)) (rev ms).

Lemma last_msg_snoc f ms x : last_msg f (ms ++ [x]) =
  if slot_eq (f_table f) (f_prio f) (f_match f) x then Some x else last_msg f ms.
Proof. unfold last_msg. rewrite rev_app_distr. reflexivity. Qed.

Lemma same_slot_eq w f : same_slot (fm_table w) (fm_prio w) (fm_match w) f = slot_eq (f_table f) (f_prio f) (f_match f) (FlowMod w).
Proof.
  apply eq_true_iff_eq. rewrite slot_eq_spec. fold (wslot w f). rewrite wslot_spec. split.
  - intros (A & B & C). exists w. repeat split; congruence.
  - intros (w' & E & A & B & C). injection E as <-. repeat split; congruence.
Qed.

Lemma seq_flows t k ms s : t <> OFPTT_ALL -> (forall x, In x ms -> one_table t k x) ->
  forall f, In f (sw_flows (apply_msgs ms s)) <->
    match last_msg f ms with
    | Some (FlowMod w) => match fm_cmd w with FAdd => f = flow_of w | _ => False end
    | _ => In f (sw_flows s)
    end.
Proof.
  intros T. induction ms as [|x ms IH] using rev_ind; intros O f.
  - cbn. tauto.
  - rewrite apply_msgs_app, last_msg_snoc.
    assert (forall y, In y ms -> one_table t k y) as O' by (intros y Hy; apply O, in_or_app; now left).
    specialize (IH O' f). pose proof (O x ltac:(apply in_or_app; right; now left)) as Ox.
    destruct x as [w| | |ps q| | | |]; cbn [one_table] in Ox; try contradiction.
    + destruct Ox as (E1 & E2 & E3).
      cbn [apply_msgs fold_left apply_msg sw_flows]. unfold apply_flowmod. destruct E3 as [E3|(E3 & E4 & E5)]; rewrite E3.
      * rewrite in_app_iff, filter_In, same_slot_eq.
        destruct (slot_eq (f_table f) (f_prio f) (f_match f) (FlowMod w)) eqn:S.
        -- rewrite E3. cbn [negb In]. split; [intros [[_ X]|[X|[]]]; [discriminate|auto]|intros ->; auto].
        -- cbn [negb]. rewrite IH. split; [intros [[X _]|[X|[]]]; [exact X|]|auto].
           exfalso. subst f. cbn in S. rewrite !Z.eqb_refl in S. cbn in S. unfold fmatch_eqb in S. destruct (fmatch_eq_dec _ _); congruence.
      * rewrite filter_In. unfold del_hits. rewrite E3, negb_true_iff.
        assert (table_sel (fm_table w) f && (f_prio f =? fm_prio w) && fmatch_eqb (f_match f) (fm_match w) && out_sel w f
                = slot_eq (f_table f) (f_prio f) (f_match f) (FlowMod w)) as ->.
        { unfold out_sel, table_sel. rewrite E4, E5, !Z.eqb_refl. cbn [orb andb]. rewrite andb_true_r.
          assert (fm_table w =? OFPTT_ALL = false) as -> by (apply Z.eqb_neq; congruence).
          cbn [orb]. rewrite <- same_slot_eq. reflexivity. }
        destruct (slot_eq _ _ _ (FlowMod w)) eqn:S.
        -- rewrite E3. split; [intros [_ X]; discriminate|tauto].
        -- rewrite IH. tauto.
    + cbn [slot_eq]. cbn [apply_msgs fold_left apply_msg]. apply IH.
Qed.

(** No slot is deleted after being written, unless it is written again. *)
Definition tidy (ms : list ofmsg) : Prop :=
  forall f d, last_msg f ms = Some (FlowMod d) -> fm_cmd d = FDeleteStrict ->
    forall w, In (FlowMod w) ms -> fm_cmd w = FAdd -> wslot w f = false.

Lemma one_table_clean t k ms : t <> OFPTT_ALL -> (forall x, In x ms -> one_table t k x) -> clean_batch ms.
Proof.
  intros T O.
  assert (forall w, In (FlowMod w) ms -> is_flow_write (FlowMod w) = true -> fm_cmd w = FAdd) as W.
  { intros w Hw I. destruct (O _ Hw) as (_ & _ & [E|(E & _)]); [exact E|]. cbn in I. rewrite E in I. discriminate. }
  constructor.
  - intros g H. exact (O _ H).
  - intros i b H. exact (O _ H).
  - intros fm H _ E. destruct (O _ H) as (A & _). congruence.
  - intros d w Hd _ C. destruct (O _ Hd) as (_ & _ & [E|(E & _)]); congruence.
  - intros w1 w2 H1 H2 I1 I2 _. destruct (O _ H1) as (_ & A & _), (O _ H2) as (_ & B & _). rewrite (W _ H1 I1), (W _ H2 I2). split; congruence.
  - intros w H E. destruct (O _ H) as (_ & _ & [E'|(E' & _)]); congruence.
  - intros d w Hd Hw _ E. destruct (O _ Hw) as (_ & _ & [E'|(E' & _)]); congruence.
  - intros g1 g2 H. destruct (O _ H).
  - intros i b1 b2 H. destruct (O _ H).
Qed.

Lemma in_last_msg f ms w : In (FlowMod w) ms -> wslot w f = true ->
  exists d, last_msg f ms = Some (FlowMod d) /\ In (FlowMod d) ms /\ wslot d f = true.
Proof.
  intros H S. unfold last_msg. destruct (find _ (rev ms)) as [y|] eqn:F.
  - apply find_some in F as [F1 F2]. apply in_rev in F1. apply slot_eq_spec in F2 as (d & -> & A & B & C).
    exists d. split; [reflexivity|]. split; [exact F1|]. apply wslot_spec. repeat split; congruence.
  - exfalso. pose proof (find_none _ _ F (FlowMod w) (proj1 (in_rev _ _) H)) as N. rewrite <- same_slot_eq in N. unfold wslot in S. congruence.
Qed.

Lemma last_msg_in f ms x : last_msg f ms = Some x -> exists d, x = FlowMod d /\ In x ms /\ wslot d f = true.
Proof.
  intros H. unfold last_msg in H. apply find_some in H as [A B]. apply in_rev in A. apply slot_eq_spec in B as (d & -> & B1 & B2 & B3).
  exists d. split; [reflexivity|]. split; [exact A|]. apply wslot_spec. repeat split; congruence.
Qed.

(** The last add, for a slot whose last message is an add. *)
Lemma last_write_last_msg t k f ms d : (forall x, In x ms -> one_table t k x) ->
  last_msg f ms = Some (FlowMod d) -> fm_cmd d = FAdd ->
  last_write (f_table f) (f_prio f) (f_match f) (filter is_flow_write ms) = Some (FlowMod d).
Proof.
  induction ms as [|x ms IH] using rev_ind; intros O L C; [discriminate|].
  rewrite last_msg_snoc in L. rewrite filter_app. unfold last_write. rewrite rev_app_distr.
  destruct (slot_eq _ _ _ x) eqn:S.
  - injection L as ->. cbn [filter is_flow_write]. rewrite C. cbn [rev app find]. rewrite S. reflexivity.
  - assert (forall y, In y ms -> one_table t k y) as O' by (intros y Hy; apply O, in_or_app; now left).
    cbn [filter]. destruct (is_flow_write x); cbn [rev app find]; [rewrite S|]; apply IH; auto.
Qed.

Theorem batch_in_order t k sh ub ms out s : t <> OFPTT_ALL -> (forall x, In x ms -> one_table t k x) ->
  tidy ms -> (forall l, Permutation (sh l) l) -> valve_flowreorder sh ub ms = Some out ->
  forall f, In f (sw_flows (apply_msgs out s)) <-> In f (sw_flows (apply_msgs ms s)).
Proof.
  intros T O Ti Hsh R f.
  pose proof (one_table_clean t k ms T O) as CB.
  destruct (reorder_effect_lemma sh ub ms out s CB (perm_sub sh Hsh) R) as [F _].
  rewrite F, (intended_flows ms s CB), (seq_flows t k ms s T O).
  assert (forall x, In x ms -> is_delete x = true -> del_flow x f = slot_eq (f_table f) (f_prio f) (f_match f) x) as D.
  { intros x Hx I. pose proof (O x Hx) as Ox. destruct x as [w| | |ps q| | | |]; try discriminate; try contradiction.
    cbn [del_flow]. destruct Ox as (E1 & E2 & [E3|(E3 & E4 & E5)]); [cbn in I; rewrite E3 in I; discriminate|].
    unfold del_hits. rewrite E3. unfold out_sel, table_sel. rewrite E4, E5, !Z.eqb_refl. cbn [orb andb]. rewrite andb_true_r.
    assert (fm_table w =? OFPTT_ALL = false) as -> by (apply Z.eqb_neq; congruence).
    cbn [orb]. rewrite <- same_slot_eq. reflexivity. }
  destruct (last_msg f ms) as [x|] eqn:L.
  - destruct (last_msg_in _ _ _ L) as (d & -> & Hd & Sd).
    destruct (O _ Hd) as (_ & _ & [C|(C & _)]).
    + rewrite (last_write_last_msg t k f ms d O L C), C. tauto.
    + rewrite C. destruct (last_write _ _ _ _) as [y|] eqn:LW.
      * destruct (last_write_some _ _ _ _ _ LW) as (w & -> & Hw & A & B & E). apply filter_In in Hw as [Hw Iw].
        destruct (O _ Hw) as (_ & _ & [C'|(C' & _)]); [|cbn in Iw; rewrite C' in Iw; discriminate].
        pose proof (Ti f d L C w Hw C') as N. exfalso. assert (wslot w f = true) by (apply wslot_spec; repeat split; congruence). congruence.
      * split; [|tauto]. intros [_ X]. specialize (X (FlowMod d) Hd). cbn [is_delete] in X. rewrite C in X. specialize (X eq_refl).
        rewrite (D (FlowMod d) Hd) in X by (cbn; now rewrite C). rewrite <- same_slot_eq in X. unfold wslot in Sd. congruence.
  - assert (last_write (f_table f) (f_prio f) (f_match f) (filter is_flow_write ms) = None) as ->.
    { destruct (last_write _ _ _ _) as [y|] eqn:LW; [|reflexivity]. exfalso.
      destruct (last_write_some _ _ _ _ _ LW) as (w & -> & Hw & A & B & E). apply filter_In in Hw as [Hw Iw].
      destruct (in_last_msg f ms w Hw) as (d & X & _); [apply wslot_spec; repeat split; congruence|congruence]. }
    split; [tauto|]. intros H. split; [exact H|]. intros m Hm I. rewrite (D m Hm I).
    unfold last_msg in L. apply (find_none _ _ L m). now apply -> in_rev.
Qed.
