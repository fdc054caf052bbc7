(** * The FIB and the routes in histories without replaced routes *)
From Coq Require Import ZArith List Bool Lia Permutation.
From Verif Require Import PyBase PyBaseProofs OpenFlow TrimModel TrimProofs TableModel ReorderModel ReorderSpec ReorderProofs BatchProofs
  FloodRulesProofs IpModel IpSpec IpProofs RouteModel RouteSpec RouteFib RouteRib RouteMicro RouteShape RouteInv RouteCalm RouteTidy.
Import ListNotations.
Open Scope Z_scope.

(** ** A switch has one flow per table, priority and match *)

Definition uniq (fs : list flow) : Prop :=
  forall f g, In f fs -> In g fs -> f_table f = f_table g -> f_prio f = f_prio g -> f_match f = f_match g -> f = g.

Lemma uniq_sub l l' : (forall f, In f l' -> In f l) -> uniq l -> uniq l'.
Proof. intros S U f g Hf Hg. apply U; auto. Qed.

Lemma apply_msg_uniq m s : uniq (sw_flows s) -> uniq (sw_flows (apply_msg m s)).
Proof.
  intros U. destruct m as [w|cm g|cm i b| | | | |]; cbn [apply_msg]; try exact U.
  - cbn [sw_flows]. unfold apply_flowmod. destruct (fm_cmd w).
    + intros f g Hf Hg E1 E2 E3. apply in_app_iff in Hf as [Hf|[<-|[]]], Hg as [Hg|[<-|[]]]; [| | |reflexivity].
      * apply filter_In in Hf as [Hf _]. apply filter_In in Hg as [Hg _]. now apply U.
      * apply filter_In in Hf as [_ Hf]. apply negb_true_iff in Hf. fold (wslot w f) in Hf.
        assert (wslot w f = true) as X by (apply wslot_spec; cbn in *; repeat split; congruence). congruence.
      * apply filter_In in Hg as [_ Hg]. apply negb_true_iff in Hg. fold (wslot w g) in Hg.
        assert (wslot w g = true) as X by (apply wslot_spec; cbn in *; repeat split; congruence). congruence.
    + intros f g Hf Hg E1 E2 E3. apply in_map_iff in Hf as (f0 & <- & Hf). apply in_map_iff in Hg as (g0 & <- & Hg).
      assert (f0 = g0) as <-; [|reflexivity].
      apply U; auto; revert E1 E2 E3; destruct (_ && _), (_ && _); cbn; auto.
    + intros f g Hf Hg E1 E2 E3. apply in_map_iff in Hf as (f0 & <- & Hf). apply in_map_iff in Hg as (g0 & <- & Hg).
      assert (f0 = g0) as <-; [|reflexivity].
      apply U; auto; revert E1 E2 E3; destruct (same_slot _ _ _ f0), (same_slot _ _ _ g0); cbn; auto.
    + eapply uniq_sub; [|exact U]. intros f Hf. now apply filter_In in Hf as [Hf _].
    + eapply uniq_sub; [|exact U]. intros f Hf. now apply filter_In in Hf as [Hf _].
  - destruct cm; cbn; try exact U; repeat match goal with |- context [if ?b then _ else _] => destruct b end; cbn; try exact U;
      (eapply uniq_sub; [|exact U]; intros f Hf; now apply filter_In in Hf as [Hf _]).
  - destruct cm; cbn; try exact U; repeat match goal with |- context [if ?b then _ else _] => destruct b end; cbn; try exact U;
      (eapply uniq_sub; [|exact U]; intros f Hf; now apply filter_In in Hf as [Hf _]).
Qed.
Lemma apply_msgs_uniq ms s : uniq (sw_flows s) -> uniq (sw_flows (apply_msgs ms s)).
Proof. revert s. induction ms as [|m ms IH]; intros s U; [exact U|]. cbn. apply IH. now apply apply_msg_uniq. Qed.

Section History.
  Variable c : rconf.
  Hypothesis K : route_cfg c.
  Variable static : Z -> list (net * ip).
  Hypothesis So : static_ok c static.

  Lemma connect_uniq sh ub out s0 : valve_flowreorder sh ub (connect_flows c) = Some out -> uniq (sw_flows (apply_msgs out s0)).
  Proof.
    intros R.
    destruct (wipe_split sh ub (connect_flows c) out s0 (tb_del (mkTable OFPTT_ALL 0 0) FDelete 0 [] OFPP_ANY) R) as (post & s1 & E1 & E2 & _).
    { now left. } { repeat split. }
    rewrite E2. apply apply_msgs_uniq. rewrite E1. intros f g [].
  Qed.

  Theorem history_uniq P evs w : rreach c static P evs w -> rw_up w = true -> uniq (sw_flows (rw_sw w)).
  Proof.
    intros R. induction R; cbn [rw_up rw_sw]; intros Up; try discriminate.
    - rewrite Up. apply apply_msgs_uniq; auto.
    - cbn [route_step] in H. injection H as <- <-. eapply connect_uniq; eauto.
    - eapply uniq_sub; [|apply IHR, Up]. intros x. rewrite H. cbn [sw_flows]. rewrite !in_app_iff. cbn [In]. tauto.
  Qed.

  Hypothesis Su : static_unique c static.

  Lemma static_linked v d g : In (d, g) (static v) -> linked c v g.
  Proof.
    intros I. constructor.
    - apply (so_good c static So v d g I).
    - destruct (in_dec Z.eq_dec v (map vl_id (rc_vlans c))) as [H|H]; [exact H|].
      rewrite (so_conf c static So v H) in I. destruct I.
    - eapply (su_link c static Su); eauto.
  Qed.

  Lemma start_both : both c (start static).
  Proof.
    split; [apply start_base; [exact So|apply static_linked]|].
    assert (forall v d g, rget d (start static v) = Some g -> In (d, g) (static v)) as G.
    { intros v d g E. now apply (static_rib_spec (static v)) in E. }
    constructor.
    - intros v g d H. destruct (static_rib_spec (static v)) as (A & B & C & _). apply A in H.
      destruct (C d g H) as [g' E]. transitivity (Some g'); [exact E|]. f_equal. eapply (su_one c static Su v v); eauto.
    - intros v v' d g g' E E'. eapply (su_one c static Su); eauto.
    - intros v v' h g E O. eapply (su_host c static Su); eauto.
  Qed.

  Lemma reset_both s : both c s -> both c (fun v => reset_caches (s v)).
  Proof. intros [B C]. split; [now apply reset_base|]. apply (calm_same c s); auto. Qed.

  Definition linked_conf : forall v a, linked c v a -> linked c v a := fun _ _ H => H.

  Theorem calm_history evs w : rreach c static (no_replacement c) evs w ->
    both c (rw_st w) /\ (rw_up w = true -> forall f, In f (sw_flows (rw_sw w)) -> fibent c (live c (rw_st w)) f) /\
    (subnets_apart c -> rw_up w = true -> complete c (rw_st w) (sw_flows (rw_sw w))).
  Proof.
    intros R.
    induction R as [s0|evs w e ev s ms sh ub out R (B & F & Co) Eo Ok Hp Ne St Hsh Ro|evs w e s ms sh ub out s0 R (B & F & Co) St Hsh Ro|evs w R (B & F & Co)|evs w f l1 l2 R (B & F & Co) El Hh];
      cbn [rw_st rw_sw rw_up].
    - split; [apply start_both|]. split; discriminate.
    - pose proof B as [Ba Ca].
      assert (api_event (fresh c) (rw_st w) ev) as Ap.
      { destruct ev; cbn; auto. right. destruct Hp as [H1 H2]. split; [|exact H2].
        intros x g E. eapply H1. apply route_get; [apply (ba_rib c _ _ Ba)|exact E]. }
      destruct (step_staged c K (linked c) (fresh c) linked_conf e ev (rw_st w) s ms Ba Ok Ap Ne St) as (m1 & s1 & m2 & Em & M1 & M2).
      assert (micros c (linked c) (fresh c) any (rw_st w) ms s) as M.
      { rewrite Em. eapply micros_app; [eapply micros_weaken; [|exact M1]|eapply micros_weaken; [|exact M2]]; intros; exact Logic.I. }
      pose proof (step_tidy c K e ev (rw_st w) s ms B Ok Ap Ne St) as Ti.
      pose proof (micros_one_table c K any _ _ _ M B) as O.
      pose proof (fun sw0 => batch_in_order _ _ sh ub ms out sw0 (rk_table c K) O Ti Hsh Ro) as Bi.
      split; [eapply micros_both; eauto|]. split.
      + intros Up. rewrite Up. intros f Hf. apply Bi in Hf. eapply micros_sound; eauto.
      + intros SA Up. rewrite Up. intros v d g e0 u Hr Hc Hu. apply Bi. eapply (micros_complete c K SA); eauto.
    - cbn [route_step] in St. injection St as <- <-. split; [now apply reset_both|]. split.
      + intros _. eapply connect_shape; eauto.
      + intros _ _ v d g e0 u _ Hc. cbn in Hc. discriminate.
    - split; [exact B|]. split; discriminate.
    - split; [exact B|]. split.
      + intros Up g Hg. apply F; [exact Up|]. rewrite El. apply in_app_iff in Hg as [Hg|Hg]; apply in_or_app; [now left|right; now right].
      + intros SA Up v d g e0 u Hr Hc Hu. specialize (Co SA Up v d g e0 u Hr Hc Hu). rewrite El in Co.
        apply in_app_iff in Co as [X|[X|X]]; apply in_or_app; auto. subst f. cbn in Hh. destruct Hh; congruence.
  Qed.
End History.
