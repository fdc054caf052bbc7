(** * Proofs about meters *)
From Coq Require Import ZArith List Bool Lia Permutation.
From Verif Require Import PyBase PyBaseProofs OpenFlow ReorderModel ReorderSpec ReorderProofs TrimModel TrimProofs
  TableModel FloodRulesProofs BatchProofs L2Proofs AclModel AclSpec AclProofs AclMatchProofs AclStepProofs AclHistProofs
  AclEventProofs AclWalkProofs MeterModel MeterSpec.
Import ListNotations.
Open Scope Z_scope.

(** ** Messages and meters *)

Definition no_meter (m : ofmsg) : Prop := match m with MeterMod _ _ _ => False | _ => True end.

(** equal but for meters *)
Definition sim (a b : switch) : Prop := sw_flows a = sw_flows b /\ sw_groups a = sw_groups b.
Lemma sim_refl : forall s, sim s s. Proof. split; reflexivity. Qed.
Lemma sim_trans : forall a b c, sim a b -> sim b c -> sim a c.
Proof. intros a b c [A B] [C D]. split; congruence. Qed.

Lemma sim_step : forall m a b, no_meter m -> sim a b -> sim (apply_msg m a) (apply_msg m b).
Proof.
  intros m a b N [F G]. destruct m as [fm|c g|c id bd| | | | |]; try (split; assumption); [|destruct c|destruct N].
  - split; cbn; congruence.
  - cbn. rewrite G. destruct (existsb _ (sw_groups b)); split; cbn; congruence.
  - split; cbn; congruence.
  - cbn. destruct (g_id g =? OFPG_ALL); split; cbn; congruence.
Qed.
Lemma sim_msgs : forall l a b, (forall m, In m l -> no_meter m) -> sim a b -> sim (apply_msgs l a) (apply_msgs l b).
Proof.
  induction l as [|m l IH]; intros a b N S; [exact S|]. cbn. apply IH; [intros; apply N; right; auto|].
  apply sim_step; auto. apply N. left; auto.
Qed.
Lemma sim_adds : forall l a b, (forall m, In m l -> is_meter_add m = true) -> sim a b -> sim (apply_msgs l a) b.
Proof.
  induction l as [|m l IH]; intros a b N S; [exact S|]. cbn. apply IH; [intros; apply N; right; auto|].
  pose proof (N m (or_introl eq_refl)) as M. destruct m as [| |c id bd| | | | |]; try discriminate M. destruct c; try discriminate M.
  cbn. destruct (existsb _ (sw_meters a)); exact S.
Qed.
Lemma meters_kept : forall l s, (forall m, In m l -> no_meter m) -> sw_meters (apply_msgs l s) = sw_meters s.
Proof.
  induction l as [|m l IH]; intros s N; [reflexivity|]. cbn. rewrite IH; [|intros; apply N; right; auto].
  pose proof (N m (or_introl eq_refl)) as M. destruct m as [|c g| | | | | |]; try reflexivity; [|destruct M].
  cbn. destruct c; [destruct (existsb _ _)| |destruct (_ =? _)]; reflexivity.
Qed.

(** the messages of the ACL manager have nothing to do with meters *)
Lemma group_no_meter : forall g ns m, In m (groupadd_ff g ns) -> no_meter m.
Proof. intros g ns m [<-|[<-|[]]]; exact I. Qed.
Lemma item_no_meter : forall i m, In m (snd (fst (item_out i))) -> no_meter m.
Proof. intros i m H. destruct i; cbn in H; try destruct H; subst; try exact I. destruct H; subst; [exact I|destruct H]. Qed.
Lemma ordered_no_meter : forall l m, In m (snd (fst (ordered_items None l))) -> no_meter m.
Proof.
  induction l as [|i l IH]; intros m H; [destruct H|]. unfold ordered_items in *. cbn [fold_right] in H.
  destruct (fold_right _ _ l) as [[ra rm] ri]. cbn [fst snd] in IH.
  assert (E : match i with OTunnel t => match @None (Z -> list out_item) with Some rules => plain_items (rules t) | None => item_out i end
                | _ => item_out i end = item_out i) by (destruct i; auto). rewrite E in H. clear E.
  pose proof (item_no_meter i m) as X. destruct (item_out i) as [[xa xm] xi]. cbn in H, X. apply in_app_iff in H as [H|H]; auto.
Qed.
Lemma rule_no_meter : forall pl r m, In m (snd (rule_inst None pl r)) -> no_meter m.
Proof.
  intros pl r m H. unfold rule_inst in H. destruct (ru_actions r) as [a|]; [|destruct H].
  unfold build_actions in H. destruct (ac_output a) as [[l|u]|]; cbn [build_output_actions] in H.
  - pose proof (ordered_no_meter l m) as X. destruct (ordered_items None l) as [[xa xm] xi]. cbn [fst snd] in X.
    destruct (negb (is_allowed a) && true); cbn in H; auto.
  - match type of H with context [if ?c then _ else _] => destruct c end; cbn in H;
      (destruct (u_failover u) as [[g ns]|]; cbn in H; [destruct H as [<-|[<-|[]]]; exact I|destruct H]).
  - destruct H.
Qed.
Lemma rules_no_meter : forall fd pl rs prio m, In m (build_rules None fd pl rs prio) -> no_meter m.
Proof.
  intros fd pl rs. induction rs as [|r rs IH]; intros prio m H; [destruct H|]. cbn in H. apply in_app_iff in H as [H|H]; [|eauto].
  unfold build_rule_ofmsgs in H. pose proof (rule_no_meter pl r m) as X. destruct (rule_inst None pl r) as [insts msgs].
  cbn in X. rewrite !in_app_iff in H. destruct H as [H|[H|[<-|[]]]]; auto; [|exact I].
  destruct fd; [|destruct H]. destruct H as [<-|[]]. exact I.
Qed.
Lemma add_port_no_meter : forall am p m, In m (add_port am p) -> no_meter m.
Proof.
  intros am p m H. unfold add_port in H. destruct (port_acls_allowed am p) as [t|]; [|destruct H].
  destruct (ap_acls p) as [|a l].
  - destruct (ap_dot1x p); [destruct H|]. destruct H as [<-|[]]. exact I.
  - eapply rules_no_meter. exact H.
Qed.
Lemma del_port_no_meter : forall am p m, In m (del_port am p) -> no_meter m.
Proof. intros am p m H. unfold del_port in H. destruct (port_acls_allowed am p); [|destruct H]. destruct H as [<-|[]]. exact I. Qed.
Lemma add_vlan_no_meter : forall am v m, In m (add_vlan am v) -> no_meter m.
Proof.
  intros am v m H. rewrite add_vlan_split in H. apply in_app_iff in H as [H|H].
  - unfold vlan_in in H. destruct (av_in v); [destruct H|]. destruct (am_vlan am); [|destruct H]. eapply rules_no_meter. exact H.
  - unfold vlan_out in H. destruct (am_egress am); [|destruct H]. destruct (av_out v).
    + destruct H as [<-|[]]. exact I.
    + eapply rules_no_meter. exact H.
Qed.
Lemma del_vlan_no_meter : forall am v m, In m (del_vlan am v) -> no_meter m.
Proof.
  intros am v m H. unfold del_vlan in H. apply in_app_iff in H as [H|H].
  - destruct (am_vlan am); [|destruct H]. destruct H as [<-|[]]. exact I.
  - destruct (am_egress am); [|destruct H]. destruct H as [<-|[]]. exact I.
Qed.
Lemma abatch_no_meter : forall am lowest e m, In m (abatch am lowest e) -> no_meter m.
Proof.
  intros am lowest e m H. destruct e as [vs ps|p vs|p|p|gone new_]; cbn [abatch] in H.
  - rewrite !in_app_iff in H. destruct H as [H|[H|[H|[H|H]]]].
    + unfold wipe_all in H. destruct H as [<-|H]; [exact I|]. destruct (am_groups am); [|destruct H]. destruct H as [<-|[]]. exact I.
    + unfold default_drops in H. apply in_map_iff in H as [t [<- _]]. exact I.
    + unfold initialise_tables in H. destruct (am_dp_acls am); [destruct H|]. destruct (am_port am); [|destruct H].
      eapply rules_no_meter. exact H.
    + apply in_flat_map in H as [v [_ H]]. eapply add_vlan_no_meter; eauto.
    + apply in_flat_map in H as [v [_ H]]. eapply add_port_no_meter; eauto.
  - apply in_app_iff in H as [H|H]; [eapply add_port_no_meter; eauto|].
    apply in_flat_map in H as [v [_ H]]. eapply add_vlan_no_meter; eauto.
  - eapply del_port_no_meter; eauto.
  - unfold cold_start_port in H. apply in_app_iff in H as [H|H]; [eapply del_port_no_meter|eapply add_port_no_meter]; eauto.
  - apply in_app_iff in H as [H|H]; apply in_flat_map in H as [v [_ H]]; [eapply del_vlan_no_meter|eapply add_vlan_no_meter]; eauto.
Qed.

(** ** Batches that begin with messages about meters *)

Definition meter_msg (m : ofmsg) : Prop :=
  match m with MeterMod MAdd _ _ => True | MeterMod MDelete id _ => id = OFPM_ALL | _ => False end.

Lemma of_kind_app : forall a b k, of_kind (a ++ b) k = of_kind a k ++ of_kind b k.
Proof. intros. unfold of_kind. apply filter_app. Qed.
Lemma of_kind_meters : forall mm k, (forall m, In m mm -> meter_msg m) -> k <> KDelGlobal -> k <> KMeterAdd -> of_kind mm k = [].
Proof.
  intros mm k H N1 N2. destruct (of_kind mm k) as [|m l] eqn:E; auto. exfalso.
  assert (X : In m (of_kind mm k)) by (rewrite E; left; auto). apply of_kind_in in X as [X K]. specialize (H m X).
  destruct m as [| |c id b| | | | |]; try contradiction. destruct c; cbn in H; try contradiction; cbn in K; [congruence|].
  subst id. rewrite Z.eqb_refl in K. congruence.
Qed.

Section Prefix.
  Variables (sh : list ofmsg -> list ofmsg) (ub : bool) (mm ms out out' : list ofmsg).
  Hypothesis Hsh : forall l, Permutation (sh l) l.
  Hypothesis Hmm : forall m, In m mm -> meter_msg m.
  Hypothesis Hms : forall m, In m ms -> no_meter m.
  Hypothesis R : valve_flowreorder sh ub (mm ++ ms) = Some out.

  Let other : forall k, k <> KDelGlobal -> k <> KMeterAdd -> of_kind (mm ++ ms) k = of_kind ms k.
  Proof. intros k A B. rewrite of_kind_app, of_kind_meters; auto. Qed.
  Let simple_other : forall k, k <> KDelGlobal -> k <> KMeterAdd -> p_simple (mm ++ ms) k = p_simple ms k.
  Proof. intros k A B. unfold p_simple. rewrite other; auto. Qed.

  Lemma del0_same : p_del0 (mm ++ ms) = p_del0 ms.
  Proof.
    unfold p_del0. rewrite (other KDelete) by discriminate.
    assert (G : forall m, In m (of_kind ms KDelete) ->
      existsb (fun g => mtype_eqb (msg_type m) (msg_type g)) (of_kind (mm ++ ms) KDelGlobal) =
      existsb (fun g => mtype_eqb (msg_type m) (msg_type g)) (of_kind ms KDelGlobal)).
    { intros m Hm. rewrite of_kind_app, existsb_app. apply of_kind_in in Hm as [Hm _]. specialize (Hms m Hm).
      assert (X : existsb (fun g => mtype_eqb (msg_type m) (msg_type g)) (of_kind mm KDelGlobal) = false); [|rewrite X; reflexivity].
      destruct (existsb _ (of_kind mm KDelGlobal)) eqn:E; auto. apply existsb_exists in E as [g [Hg E]].
      apply of_kind_in in Hg as [Hg _]. specialize (Hmm g Hg). exfalso.
      destruct g as [| |c id b| | | | |]; try contradiction; destruct m; try discriminate E. destruct Hms. }
    assert (F : filter (fun m => negb (existsb (fun g => mtype_eqb (msg_type m) (msg_type g)) (of_kind (mm ++ ms) KDelGlobal))) (of_kind ms KDelete)
              = filter (fun m => negb (existsb (fun g => mtype_eqb (msg_type m) (msg_type g)) (of_kind ms KDelGlobal))) (of_kind ms KDelete)).
    { apply filter_ext_in. intros m Hm. rewrite (G m Hm). reflexivity. }
    assert (FN : is_nil (of_kind ms KDelGlobal) = true ->
      filter (fun m => negb (existsb (fun g => mtype_eqb (msg_type m) (msg_type g)) (of_kind ms KDelGlobal))) (of_kind ms KDelete) = of_kind ms KDelete).
    { intros N. apply is_nil_true in N. rewrite N. cbn [existsb negb]. clear. induction (of_kind ms KDelete) as [|x l IH]; cbn; [reflexivity|rewrite IH; reflexivity]. }
    rewrite F. destruct (is_nil (of_kind (mm ++ ms) KDelGlobal)) eqn:E1, (is_nil (of_kind ms KDelGlobal)) eqn:E2; auto.
    apply is_nil_true in E1. rewrite of_kind_app in E1. apply app_eq_nil in E1 as [_ E1]. rewrite E1 in E2. discriminate E2.
  Qed.

  Lemma prefix_pieces : exists d, dedupe_overlaps (p_del0 ms) = Some d /\
    out = with_barrier ub (p_simple ms KConfig) ++ with_barrier ub (p_dg (mm ++ ms))
          ++ with_barrier ub (p_dels ms d)
          ++ with_barrier ub (p_simple ms KTfm)
          ++ with_barrier ub (p_simple ms KGroupAdd)
          ++ with_barrier ub (p_simple mm KMeterAdd)
          ++ p_adds ms ++ p_simple ms KOther
          ++ sh (dedupe_str (of_kind ms KPacketOut)).
  Proof.
    destruct (reorder_pieces _ _ _ _ R) as [d [D E]]. rewrite del0_same in D. exists d. split; auto.
    rewrite E. clear E.
    rewrite (simple_other KConfig), (simple_other KTfm), (simple_other KGroupAdd), (simple_other KOther), (other KPacketOut) by discriminate.
    assert (A : p_adds (mm ++ ms) = p_adds ms) by (unfold p_adds; rewrite other by discriminate; reflexivity).
    assert (B : p_dels (mm ++ ms) d = p_dels ms d) by (unfold p_dels, p_del1; rewrite A, del0_same; reflexivity).
    assert (C : p_simple (mm ++ ms) KMeterAdd = p_simple mm KMeterAdd).
    { unfold p_simple. rewrite of_kind_app. replace (of_kind ms KMeterAdd) with (@nil ofmsg); [rewrite app_nil_r; auto|].
      destruct (of_kind ms KMeterAdd) as [|m l] eqn:E; auto. exfalso.
      assert (X : In m (of_kind ms KMeterAdd)) by (rewrite E; left; auto). apply of_kind_in in X as [X K]. specialize (Hms m X).
      destruct m as [fm|c g| | | | | |]; try discriminate K; [| |destruct Hms].
      - cbn in K. destruct (is_global_flowdel fm), (is_flowdel_cmd (fm_cmd fm)); discriminate K.
      - cbn in K. destruct c; [| |destruct (g_id g =? OFPG_ALL)]; discriminate K. }
    rewrite A, B, C. reflexivity.
  Qed.

  Lemma kind_no_meter : forall k m, In m (of_kind ms k) -> no_meter m.
  Proof. intros k m H. apply of_kind_in in H as [H _]. auto. Qed.
  Lemma simple_no_meter : forall k m, In m (p_simple ms k) -> no_meter m.
  Proof. intros k m H. apply (kind_no_meter k). apply (proj1 (simple_in _ _)). exact H. Qed.
  Lemma barrier_no_meter : forall l m, (forall m, In m l -> no_meter m) -> In m (with_barrier ub l) -> no_meter m.
  Proof.
    intros l m N H. unfold with_barrier in H. destruct (is_nil l); [destruct H|]. destruct ub; auto.
    apply in_app_iff in H as [H|[<-|[]]]; [auto|exact I].
  Qed.
  Lemma dels_no_meter : forall d m, dedupe_overlaps (p_del0 ms) = Some d -> In m (p_dels ms d) -> no_meter m.
  Proof. intros d m D H. apply (p_dels_sub ms d m D) in H. apply p_del0_in in H as [H _]. auto. Qed.
  Lemma adds_no_meter : forall m, In m (p_adds ms) -> no_meter m.
  Proof. intros m H. apply adds_in in H. eapply kind_no_meter; eauto. Qed.
  Lemma outs_no_meter : forall m, In m (sh (dedupe_str (of_kind ms KPacketOut))) -> no_meter m.
  Proof. intros m H. apply (perm_sub sh Hsh) in H. apply (kind_no_meter KPacketOut). apply (proj1 (dedupe_str_in _ _)). exact H. Qed.
  Lemma adds_are : forall m, In m (p_simple mm KMeterAdd) -> is_meter_add m = true.
  Proof.
    intros m H. apply simple_in, of_kind_in in H as [H K]. specialize (Hmm m H).
    destruct m as [| |c id b| | | | |]; try contradiction. destruct c; cbn in Hmm; try contradiction; [reflexivity|].
    subst id. discriminate K.
  Qed.

  (** additions only *)
  Lemma sim_prefix : forall s s', (forall m, In m mm -> is_meter_add m = true) ->
    valve_flowreorder sh ub ms = Some out' -> sim s s' -> sim (apply_msgs out s) (apply_msgs out' s').
  Proof.
    intros s s' A R' S. destruct prefix_pieces as [d [D E]]. destruct (reorder_pieces _ _ _ _ R') as [d' [D' E']].
    rewrite D in D'. injection D' as <-.
    assert (G : p_dg (mm ++ ms) = p_dg ms).
    { unfold p_dg. rewrite of_kind_app. replace (of_kind mm KDelGlobal) with (@nil ofmsg); auto.
      destruct (of_kind mm KDelGlobal) as [|m l] eqn:EG; auto. exfalso.
      assert (X : In m (of_kind mm KDelGlobal)) by (rewrite EG; left; auto). apply of_kind_in in X as [X K]. specialize (A m X).
      destruct m as [| |c id b| | | | |]; try discriminate A. destruct c; try discriminate A. discriminate K. }
    assert (M : p_simple ms KMeterAdd = []).
    { destruct (p_simple ms KMeterAdd) as [|m l] eqn:EM; auto. exfalso.
      assert (X : In m (p_simple ms KMeterAdd)) by (rewrite EM; left; auto). pose proof (simple_no_meter _ _ X) as N.
      apply simple_in, of_kind_in in X as [_ K]. apply kind_meter_add in K. destruct m; try discriminate K. destruct N. }
    rewrite M in E'. rewrite G in E. subst out out'.
    rewrite !apply_msgs_app, !apply_with_barrier.
    match goal with |- context [apply_msgs [] ?x] => change (apply_msgs [] x) with x end.
    repeat (apply sim_msgs; [intros m Hm|]).
    - eapply outs_no_meter; eauto.
    - eapply simple_no_meter; eauto.
    - eapply adds_no_meter; eauto.
    - apply sim_adds; [apply adds_are|].
      repeat (apply sim_msgs; [intros m Hm|]); auto; try (eapply simple_no_meter; eauto; fail).
      eapply dels_no_meter; eauto.
  Qed.

  Definition is_gmod (m : ofmsg) : bool := match m with GroupMod _ _ => true | _ => false end.
  Lemma groups_global : forall l s, (forall m, In m l -> msg_kind m = KDelGlobal) ->
    sw_groups (apply_msgs l s) = if existsb is_gmod l then [] else sw_groups s.
  Proof.
    induction l as [|m l IH]; intros s K; [reflexivity|]. cbn [apply_msgs fold_left existsb].
    change (fold_left (fun s m => apply_msg m s) l (apply_msg m s)) with (apply_msgs l (apply_msg m s)).
    rewrite IH; [|intros; apply K; right; auto]. specialize (K m (or_introl eq_refl)).
    destruct m as [fm|c g|c id b| | | | |]; try discriminate K; cbn [is_gmod orb].
    - reflexivity.
    - destruct c; try discriminate K. cbn in K |- *. destruct (g_id g =? OFPG_ALL); [|discriminate K].
      cbn. destruct (existsb is_gmod l); reflexivity.
    - destruct c; try discriminate K. cbn in K |- *. destruct (id =? OFPM_ALL); [|discriminate K]. reflexivity.
  Qed.
  Lemma existsb_same : forall (f : ofmsg -> bool) a b, (forall m, f m = true -> (In m a <-> In m b)) -> existsb f a = existsb f b.
  Proof.
    intros f a b H. destruct (existsb f a) eqn:A, (existsb f b) eqn:B; auto; exfalso.
    - apply existsb_exists in A as [m [M F]]. apply H in M; auto.
      assert (existsb f b = true) by (apply existsb_exists; eauto). congruence.
    - apply existsb_exists in B as [m [M F]]. apply H in M; auto.
      assert (existsb f a = true) by (apply existsb_exists; eauto). congruence.
  Qed.
  Lemma wiped : forall l s d, (forall m, In m l -> msg_kind m = KDelGlobal) -> In (FlowMod d) l -> wipes d -> sw_flows (apply_msgs l s) = [].
  Proof.
    intros l s d K Hd [C [T [M [O1 O2]]]].
    assert (D : forall m, In m l -> is_delete m = true) by (intros m Hm; apply kind_delete; auto).
    destruct (apply_deletes l s D) as [F _]. destruct (sw_flows (apply_msgs l s)) as [|f fs]; auto. exfalso.
    destruct (proj1 (F f) (or_introl eq_refl)) as [_ X]. specialize (X _ Hd). cbn in X. unfold del_hits in X. rewrite C, T, M in X.
    unfold table_sel, out_sel in X. rewrite O1, O2 in X. discriminate X.
  Qed.
  Lemma dg_kind : forall l m, In m (p_dg l) -> msg_kind m = KDelGlobal.
  Proof. intros l m H. apply (proj1 (simple_in _ _)) in H. apply of_kind_in in H. tauto. Qed.

  (** a batch that deletes everything *)
  Lemma sim_wipe : forall s d, In (FlowMod d) ms -> wipes d ->
    valve_flowreorder sh ub ms = Some out' -> sim (apply_msgs out s) (apply_msgs out' s).
  Proof.
    intros s w Hw W R'. destruct prefix_pieces as [d [D E]]. destruct (reorder_pieces _ _ _ _ R') as [d' [D' E']].
    rewrite D in D'. injection D' as <-.
    assert (M : p_simple ms KMeterAdd = []).
    { destruct (p_simple ms KMeterAdd) as [|m l] eqn:EM; auto. exfalso.
      assert (X : In m (p_simple ms KMeterAdd)) by (rewrite EM; left; auto). pose proof (simple_no_meter _ _ X) as N.
      apply simple_in, of_kind_in in X as [_ K]. apply kind_meter_add in K. destruct m; try discriminate K. destruct N. }
    rewrite M in E'. subst out out'.
    rewrite !apply_msgs_app, !apply_with_barrier.
    match goal with |- context [apply_msgs [] ?x] => change (apply_msgs [] x) with x end.
    repeat (apply sim_msgs; [intros m Hm|]).
    - eapply outs_no_meter; eauto.
    - eapply simple_no_meter; eauto.
    - eapply adds_no_meter; eauto.
    - apply sim_adds; [apply adds_are|].
      do 3 (apply sim_msgs; [intros m Hm; try (eapply simple_no_meter; eauto; fail); eapply dels_no_meter; eauto|]).
      set (s1 := apply_msgs (p_simple ms KConfig) s).
      assert (KW : msg_kind (FlowMod w) = KDelGlobal).
      { destruct W as [C [T [Mt _]]]. cbn [msg_kind]. unfold is_global_flowdel, is_flowdel_cmd. rewrite C, T, Mt. reflexivity. }
      split.
      + rewrite (wiped (p_dg (mm ++ ms)) s1 w), (wiped (p_dg ms) s1 w); auto; try apply dg_kind.
        * apply simple_in, of_kind_in. auto.
        * apply simple_in, of_kind_in. split; auto. apply in_app_iff; auto.
      + rewrite !groups_global by apply dg_kind.
        rewrite (existsb_same is_gmod (p_dg (mm ++ ms)) (p_dg ms)); auto.
        intros m G. unfold p_dg. rewrite !simple_in. unfold of_kind. rewrite !filter_In, in_app_iff.
        split; [|tauto]. intros [[X|X] K]; [|tauto]. specialize (Hmm m X). destruct m; try discriminate G. destruct Hmm.
  Qed.

  (** the meters afterwards *)
  Lemma meters_after : forall s,
    (forall i b1 b2, In (MeterMod MAdd i b1) mm -> In (MeterMod MAdd i b2) mm -> b1 = b2) ->
    let kept h := In h (sw_meters s) /\ (forall i b, ~ In (MeterMod MDelete i b) mm) in
    forall i b, In (i, b) (sw_meters (apply_msgs out s)) <->
      kept (i, b) \/ (In (MeterMod MAdd i b) mm /\ forall h, kept h -> fst h <> i).
  Proof.
    intros s U kept i b. destruct prefix_pieces as [d [D E]]. rewrite E.
    rewrite !apply_msgs_app, !apply_with_barrier.
    rewrite (meters_kept (sh _)) by apply outs_no_meter.
    rewrite (meters_kept (p_simple ms KOther)) by apply simple_no_meter.
    rewrite (meters_kept (p_adds ms)) by apply adds_no_meter.
    set (s3 := apply_msgs (p_simple ms KGroupAdd) _).
    assert (M3 : forall h, In h (sw_meters s3) <-> kept h).
    { intros h. unfold s3. rewrite (meters_kept (p_simple ms KGroupAdd)) by apply simple_no_meter.
      rewrite (meters_kept (p_simple ms KTfm)) by apply simple_no_meter.
      rewrite (meters_kept (p_dels ms d)) by (intros m; apply dels_no_meter; auto).
      set (s1 := apply_msgs (p_simple ms KConfig) s).
      assert (X : forall m, In m (p_dg (mm ++ ms)) -> is_delete m = true) by (intros m Hm; apply kind_delete; left; eapply dg_kind; eauto).
      destruct (apply_deletes _ s1 X) as [_ [_ F]]. rewrite F. unfold s1. rewrite meters_kept by apply simple_no_meter. unfold kept.
      split; intros [A B]; split; auto.
      - intros j bj Hj. specialize (Hmm _ Hj). cbn in Hmm. subst j. specialize (B (MeterMod MDelete OFPM_ALL bj)). cbn in B.
        assert (true = false); [|discriminate]. apply B. apply simple_in, of_kind_in. split; [apply in_app_iff; auto|reflexivity].
      - intros m Hm. destruct m as [| |c j bj| | | | |]; try reflexivity. destruct c; try reflexivity.
        exfalso. apply (proj1 (simple_in _ _)) in Hm. apply of_kind_in in Hm as [Hm _]. apply in_app_iff in Hm as [Hm|Hm].
        + apply (B j bj Hm).
        + apply (Hms _ Hm). }
    destruct (apply_meter_adds (p_simple mm KMeterAdd) s3) as [_ [_ G]].
    - apply adds_are.
    - intros j b1 b2 A1 A2. apply (U j); [apply (proj1 (simple_in _ _)) in A1; apply of_kind_in in A1; tauto|
        apply (proj1 (simple_in _ _)) in A2; apply of_kind_in in A2; tauto].
    - rewrite G, M3. split; (intros [A|[A B]]; [left; exact A|right; split]).
      + apply (proj1 (simple_in _ _)) in A. apply of_kind_in in A. tauto.
      + intros h Hh. apply B, M3, Hh.
      + apply simple_in, of_kind_in. auto.
      + intros h Hh. apply B. apply M3. exact Hh.
  Qed.
End Prefix.

Lemma reorder_some : forall sh ub ms d, dedupe_overlaps (p_del0 ms) = Some d -> exists out, valve_flowreorder sh ub ms = Some out.
Proof.
  intros sh ub ms d D. unfold valve_flowreorder. cbv zeta. fold (of_kind ms KDelGlobal). fold (of_kind ms KDelete).
  fold (p_del0 ms). rewrite D. eexists. reflexivity.
Qed.

(** ** The messages about meters *)

Lemma get_in : forall A k (l : list (Z * A)) v, dict_get Z.eqb k l = Some v -> In (k, v) l.
Proof.
  intros A k. induction l as [|[k' v'] l IH]; intros v H; cbn in H; [discriminate|].
  destruct (Z.eqb_spec k k'); [injection H as ->; subst; left; auto|right; auto].
Qed.
Lemma in_get : forall A k (l : list (Z * A)) v, NoDup (map fst l) -> In (k, v) l -> dict_get Z.eqb k l = Some v.
Proof.
  intros A k. induction l as [|[k' v'] l IH]; intros v N H; cbn in *; [destruct H|]. inversion N; subst.
  destruct H as [H|H].
  - injection H as -> ->. rewrite Z.eqb_refl. reflexivity.
  - destruct (Z.eqb_spec k k'); [|auto]. subst. exfalso. apply H2. apply in_map_iff. exists (k', v). auto.
Qed.
Lemma nodup_inj : forall A (f : A -> Z) l x y, NoDup (map f l) -> In x l -> In y l -> f x = f y -> x = y.
Proof.
  intros A f l x y N X Y E. pose proof (find_nodup A f l x N X) as P. pose proof (find_nodup A f l y N Y) as Q.
  rewrite <- E in Q. congruence.
Qed.
Lemma meter_eqb_refl : forall a, meter_eqb a a = true.
Proof. intros [i b]. unfold meter_eqb. cbn [fst snd]. rewrite Z.eqb_refl. destruct (list_eq_dec Z.eq_dec b b) as [E|E]; [reflexivity|destruct E; reflexivity]. Qed.

Lemma connect_msgs : forall c m, In m (connect_meters c) -> meter_msg m.
Proof.
  intros c m H. unfold connect_meters in H. rewrite !in_app_iff in H. destruct H as [H|[H|[H|H]]].
  - destruct (limited c); [|destruct H]. destruct H as [<-|[]]. reflexivity.
  - destruct (li_packetin c); [|destruct H]. destruct H as [<-|[]]. exact I.
  - destruct (li_slowpath c); [|destruct H]. destruct H as [<-|[]]. exact I.
  - apply in_map_iff in H as [x [<- _]]. exact I.
Qed.
Lemma connect_del : forall c, limited c = true -> In (MeterMod MDelete OFPM_ALL []) (connect_meters c).
Proof. intros c H. unfold connect_meters. rewrite H. left. reflexivity. Qed.
Lemma connect_add : forall c i b, In (MeterMod MAdd i b) (connect_meters c) <-> wanted c i b.
Proof.
  intros c i b. unfold connect_meters, wanted. rewrite !in_app_iff. split.
  - intros [H|[H|[H|H]]].
    + destruct (limited c); [|destruct H]. destruct H as [H|[]]. discriminate H.
    + destruct (li_packetin c) as [p|]; [|destruct H]. destruct H as [H|[]]. injection H as <- <-. right. left. eauto.
    + destruct (li_slowpath c) as [p|]; [|destruct H]. destruct H as [H|[]]. injection H as <- <-. right. right. eauto.
    + apply in_map_iff in H as [[n [i' b']] [H X]]. injection H as <- <-. left. eauto.
  - intros [[n H]|[[-> [p [H ->]]]|[-> [p [H ->]]]]].
    + right. right. right. apply in_map_iff. exists (n, (i, b)). auto.
    + right. left. rewrite H. left. reflexivity.
    + right. right. left. rewrite H. left. reflexivity.
Qed.
Lemma wanted_one : forall c i b1 b2, ids_ok (li_meters c) -> wanted c i b1 -> wanted c i b2 -> b1 = b2.
Proof.
  intros c i b1 b2 [N B] [[n1 A1]|[[-> [p1 [A1 ->]]]|[-> [p1 [A1 ->]]]]] [[n2 A2]|[[E2 [p2 [A2 ->]]]|[E2 [p2 [A2 ->]]]]]; try congruence.
  - assert (X := nodup_inj _ _ _ _ _ N A1 A2 eq_refl). congruence.
  - specialize (B _ A1). cbn in B. unfold OFPM_CONTROLLER in E2. lia.
  - specialize (B _ A1). cbn in B. unfold OFPM_SLOWPATH in E2. lia.
  - specialize (B _ A2). cbn in B. unfold OFPM_CONTROLLER in B. lia.
  - discriminate E2.
  - specialize (B _ A2). cbn in B. unfold OFPM_SLOWPATH in B. lia.
  - discriminate E2.
Qed.

Section Reload.
  Variables (old new_ : meters_conf).
  Hypothesis No : names_ok new_.
  Hypothesis Inc : incl old new_.

  Lemma same_meter : forall k x y, In (k, x) old -> In (k, y) new_ -> x = y.
  Proof. intros k x y A B. pose proof (nodup_inj _ fst new_ (k, x) (k, y) No (Inc _ A) B eq_refl). congruence. Qed.
  Lemma none_changed : changed_meters old new_ = [].
  Proof.
    unfold changed_meters. assert (G : forall l, incl l new_ -> flat_map (fun x => match dict_get Z.eqb (fst x) old with
        | Some y => if meter_eqb y (snd x) then [] else [fst x] | None => [] end) l = []); [|apply G, incl_refl].
    induction l as [|[k x] l IH]; intros L; [reflexivity|]. cbn [flat_map fst snd]. rewrite IH by (intros a Ha; apply L; right; auto).
    destruct (dict_get Z.eqb k old) as [y|] eqn:E; [|reflexivity]. apply get_in in E.
    rewrite (same_meter k y x E (L _ (or_introl eq_refl))), meter_eqb_refl. reflexivity.
  Qed.
  Lemma none_deleted : deleted_meters old new_ = [].
  Proof.
    unfold deleted_meters. rewrite none_changed, app_nil_r.
    assert (G : forall l, incl l (map fst old) -> filter (fun k => match dict_get Z.eqb k new_ with Some _ => false | None => true end) l = []);
      [|apply G, incl_refl].
    induction l as [|k l IH]; intros L; [reflexivity|]. cbn [filter]. rewrite IH by (intros a Ha; apply L; right; auto).
    assert (K : In k (map fst old)) by (apply L; left; auto). apply in_map_iff in K as [[k' x] [E K]]. cbn in E. subst k'.
    rewrite (in_get _ k new_ x No (Inc _ K)). reflexivity.
  Qed.
  Lemma reload_adds : forall m, In m (reload_meters old new_) <->
    exists k i b, m = MeterMod MAdd i b /\ In (k, (i, b)) new_ /\ forall x, ~ In (k, x) old.
  Proof.
    intros m. unfold reload_meters. rewrite none_deleted. cbn [del_meters flat_map app].
    unfold add_meters, added_meters. rewrite none_changed, app_nil_r, in_flat_map. split.
    - intros [k [K M]]. apply filter_In in K as [K O]. destruct (dict_get Z.eqb k new_) as [[i b]|] eqn:E; [|destruct M].
      destruct M as [<-|[]]. exists k, i, b. split; [reflexivity|]. split; [apply get_in; auto|].
      intros x X. destruct (dict_get Z.eqb k old) as [y|] eqn:EO; [discriminate O|].
      assert (G : forall (l : meters_conf), In (k, x) l -> dict_get Z.eqb k l <> None); [|apply (G old X EO)].
      clear. induction l as [|[k' y] l IH]; intros H; [destruct H|]. cbn. destruct (Z.eqb_spec k k'); [discriminate|].
      destruct H as [H|H]; [congruence|auto].
    - intros [k [i [b [-> [H O]]]]]. exists k. split.
      + apply filter_In. split; [apply in_map_iff; exists (k, (i, b)); auto|].
        destruct (dict_get Z.eqb k old) as [y|] eqn:E; auto. exfalso. apply get_in in E. apply (O y E).
      + rewrite (in_get _ k new_ (i, b) No H). left. reflexivity.
  Qed.
End Reload.

(** ** Histories *)

Lemma wipe_in : forall am lowest vs ps, exists d, In (FlowMod d) (abatch am lowest (AConnect vs ps)) /\ wipes d.
Proof. intros am lowest vs ps. eexists. split; [left; reflexivity|]. repeat split. Qed.

Section Hist.
  Variables (am : amanager) (lowest : Z).

  Lemma history_sim : forall evs s, mhistory am lowest evs s -> only_adds evs ->
    exists s', history am lowest (acl_events evs) s' /\ sim s s'.
  Proof.
    induction 1 as [s c vs ps sh ub out Hsh [N EO] CO L R|evs s e sh ub out H IH Hsh NC EO CO R]; intros OA.
    - destruct (wipe_in am lowest vs ps) as [d [Hd W]]. cbn [mbatch] in R.
      destruct (prefix_pieces sh ub (connect_meters c) (abatch am lowest (AConnect vs ps)) out (connect_msgs c) (abatch_no_meter am lowest _) R) as [dd [D _]].
      destruct (reorder_some sh ub _ _ D) as [out' R'].
      exists (apply_msgs out' s). split; [eapply hi_connect; eauto|].
      eapply sim_wipe; eauto; [apply connect_msgs|apply abatch_no_meter].
    - destruct e as [c vs ps|m [e|]|e]; [exfalso; eapply NC; reflexivity| | |]; cbn [only_adds acl_events mevent_ok mbatch] in *.
      + destruct OA as [Inc OA]. destruct EO as [No [NA EO]]. destruct (IH OA) as [s' [H' S']].
        pose proof (reload_adds _ _ No Inc) as RA.
        assert (MM : forall x, In x (reload_meters (li_meters (limits_now evs)) m) -> meter_msg x)
          by (intros x Hx; apply RA in Hx as [k [i [b [-> _]]]]; exact I).
        destruct (prefix_pieces sh ub _ (abatch am lowest e) out MM (abatch_no_meter am lowest _) R) as [dd [D _]].
        destruct (reorder_some sh ub _ _ D) as [out' R'].
        exists (apply_msgs out' s'). split; [eapply hi_event; eauto|].
        eapply sim_prefix; eauto; [apply abatch_no_meter|].
        intros x Hx. apply RA in Hx as [k [i [b [-> _]]]]. reflexivity.
      + destruct OA as [Inc OA]. destruct (IH OA) as [s' [H' S']]. exists s'. split; auto.
        pose proof (reload_adds _ _ EO Inc) as RA.
        assert (R' : valve_flowreorder sh ub [] = Some (sh [])) by reflexivity.
        assert (X : sim (apply_msgs out s) (apply_msgs (sh []) s')).
        { apply (sim_prefix sh ub (reload_meters (li_meters (limits_now evs)) m) [] out (sh [])); auto.
          - intros x Hx; apply RA in Hx as [k [i [b [-> _]]]]; exact I.
          - intros x [].
          - intros x Hx; apply RA in Hx as [k [i [b [-> _]]]]; reflexivity. }
        replace (sh []) with (@nil ofmsg) in X; auto. symmetry. apply Permutation_nil, Permutation_sym, Hsh.
      + destruct (IH OA) as [s' [H' S']]. destruct EO as [NA EO]. exists (apply_msgs out s'). split; [eapply hi_event; eauto|].
        apply sim_msgs; auto. intros x Hx. destruct (reorder_invents_nothing_lemma sh ub _ out x Hsh R Hx) as [-> |Y]; [exact I|].
        eapply abatch_no_meter; eauto.
  Qed.

  Lemma sim_walk : forall a b live t q es, sim a b -> walk a live t q es -> walk b live t q es.
  Proof.
    intros a b live t q es [F G] W. assert (GL : group_lookup a = group_lookup b) by (unfold group_lookup; rewrite G; reflexivity).
    induction W as [t p N|t p f es p' HI X|t p f es p' t' es' HI X W IH].
    - apply walk_miss. intros f. rewrite <- F. apply N.
    - eapply walk_end; [rewrite <- F; exact HI|]. rewrite <- GL. exact X.
    - eapply walk_goto; [rewrite <- F; exact HI|rewrite <- GL; exact X|exact IH].
  Qed.

  Lemma limits_ids : forall evs s, mhistory am lowest evs s -> ids_differ evs -> ids_ok (li_meters (limits_now evs)).
  Proof.
    induction 1 as [s c vs ps sh ub out Hsh [N EO] CO L R|evs s e sh ub out H IH Hsh NC EO CO R]; intros D; [exact D|].
    destruct e as [c vs ps|m e|e]; [exfalso; eapply NC; reflexivity|apply D|apply IH, D].
  Qed.

  Lemma meters_exact : forall evs s, mhistory am lowest evs s -> only_adds evs -> ids_differ evs ->
    forall i b, In (i, b) (sw_meters s) <-> wanted (limits_now evs) i b.
  Proof.
    induction 1 as [s c vs ps sh ub out Hsh [N EO] CO L R|evs s e sh ub out H IH Hsh NC EO CO R]; intros OA ID i b.
    - cbn [mbatch limits_now] in *.
      pose proof (meters_after sh ub _ _ out Hsh (connect_msgs c) (abatch_no_meter am lowest _) R s) as MA. cbv zeta in MA.
      rewrite MA.
      + rewrite connect_add. assert (K : forall h, ~ (In h (sw_meters s) /\ (forall i b, ~ In (MeterMod MDelete i b) (connect_meters c)))).
        { intros h [A B]. destruct (limited c) eqn:EL; [apply (B OFPM_ALL []), connect_del, EL|].
          destruct L as [L|[L|[L|[L|L]]]]; [| | | |rewrite L in A; destruct A];
            unfold limited in EL; destruct (li_meters c), (li_packetin c), (li_slowpath c); congruence. }
        split; [intros [A|[A _]]; [exfalso; eapply K; eauto|auto]|]. intros A. right. split; auto. intros h A'. exfalso. eapply K; eauto.
      + intros j b1 b2 A1 A2. apply connect_add in A1. apply connect_add in A2. eapply wanted_one; eauto.
    - destruct e as [c vs ps|m e|e]; [exfalso; eapply NC; reflexivity| |]; cbn [only_adds ids_differ mbatch limits_now] in *.
      + destruct OA as [Inc OA]. destruct ID as [Im ID]. specialize (IH OA ID).
        assert (No : names_ok m) by (cbn in EO; destruct e; [apply EO|exact EO]).
        pose proof (reload_adds _ _ No Inc) as RA.
        set (ms := match e with Some e => abatch am lowest e | None => [] end) in *.
        assert (NM : forall x, In x ms -> no_meter x) by (unfold ms; destruct e; [apply abatch_no_meter|intros x []]).
        assert (MM : forall x, In x (reload_meters (li_meters (limits_now evs)) m) -> meter_msg x)
          by (intros x Hx; apply RA in Hx as [k [j [bj [-> _]]]]; exact I).
        pose proof (meters_after sh ub _ _ out Hsh MM NM R s) as MA. cbv zeta in MA. rewrite MA; clear MA.
        * assert (KD : forall j bj, ~ In (MeterMod MDelete j bj) (reload_meters (li_meters (limits_now evs)) m)).
          { intros j bj X. apply RA in X as [k [j' [bj' [X _]]]]. discriminate X. }
          assert (KE : forall h, (In h (sw_meters s) /\ (forall j bj, ~ In (MeterMod MDelete j bj) (reload_meters (li_meters (limits_now evs)) m)))
            <-> wanted (limits_now evs) (fst h) (snd h)).
          { intros [j bj]. rewrite <- IH. cbn. tauto. }
          rewrite (KE (i, b)). cbn [fst snd]. split.
          -- intros [[[n A]|A]|[A B]].
             ++ left. exists n. apply Inc, A.
             ++ right. exact A.
             ++ apply RA in A as [k [j [bj [X [A _]]]]]. injection X as <- <-. left. exists k. exact A.
          -- intros [[n A]|A]; [|left; right; exact A].
             destruct (dict_get Z.eqb n (li_meters (limits_now evs))) as [y|] eqn:E.
             ++ apply get_in in E. left. left. exists n. rewrite <- (same_meter _ _ No Inc n y (i, b) E A). exact E.
             ++ right.
                assert (NO : forall x, ~ In (n, x) (li_meters (limits_now evs))).
                { intros x X. assert (G : forall (l : meters_conf), In (n, x) l -> dict_get Z.eqb n l <> None); [|apply (G _ X E)].
                  clear. induction l as [|[k' y] l IH]; intros H; [destruct H|]. cbn. destruct (Z.eqb_spec n k'); [discriminate|].
                  destruct H as [H|H]; [congruence|auto]. }
                split; [apply RA; exists n, i, b; auto|].
                intros [j bj] K. apply KE in K. cbn [fst snd] in *. intros ->. destruct Im as [I1 I2].
                destruct K as [[n' K]|[[-> _]|[-> _]]].
                ** assert (Y := nodup_inj _ _ _ _ _ I1 (Inc _ K) A eq_refl). injection Y as -> ->. eapply NO; eauto.
                ** specialize (I2 _ A). cbn in I2. unfold OFPM_CONTROLLER in I2. lia.
                ** specialize (I2 _ A). cbn in I2. unfold OFPM_SLOWPATH in I2. lia.
        * intros j b1 b2 A1 A2. apply RA in A1 as [k1 [j1 [c1 [E1 [A1 _]]]]]. apply RA in A2 as [k2 [j2 [c2 [E2 [A2 _]]]]].
          injection E1 as -> ->. injection E2 as <- ->. assert (Y := nodup_inj _ _ _ _ _ (proj1 Im) A1 A2 eq_refl). congruence.
      + rewrite <- (IH OA ID). rewrite meters_kept; [reflexivity|]. intros x Hx.
        destruct (reorder_invents_nothing_lemma sh ub _ out x Hsh R Hx) as [-> |Y]; [exact I|]. eapply abatch_no_meter; eauto.
  Qed.
End Hist.

(** ** The meter of a flow entry *)

Lemma trim_meters : forall inst id, In (MeterI id) (trim inst) <-> In (MeterI id) inst.
Proof.
  intros inst id. unfold trim. destruct (trim_inst None inst) as [i|] eqn:E; [|tauto].
  unfold trim_inst in E. destruct (existsb is_apply inst); [|injection E as <-; tauto].
  generalize (existsb is_goto inst), E. clear E. intros b. revert i. induction inst as [|x l IH]; intros i E; simpl in E.
  - injection E as <-. tauto.
  - destruct (trim_one None b x) as [a|] eqn:E1; [|discriminate]. destruct (trim_list None b l) as [r|] eqn:E2; [|discriminate].
    injection E as <-. rewrite in_app_iff, (IH r eq_refl). simpl.
    assert (X : In (MeterI id) a <-> x = MeterI id).
    { destruct x; simpl in E1; try (injection E1 as <-; simpl; intuition congruence).
      split; [|discriminate]. intros Y.
      match type of E1 with match ?o with Some _ => _ | None => _ end = _ => destruct o as [[|z zs]|] end;
        [injection E1 as <-; destruct Y|injection E1 as <-; destruct Y as [Y|[]]; discriminate Y|discriminate E1]. }
    tauto.
Qed.

Lemma rule_meters : forall pl next l2 r id, pl_allow pl = [Goto next] -> pl_force pl = [Goto l2] ->
  (In (MeterI id) (fst (rule_inst None pl r)) <-> rule_meter r = Some id).
Proof.
  intros pl next l2 r id HA HF. unfold rule_inst, rule_meter. destruct (ru_actions r) as [a|]; [|cbn; split; [intros []|discriminate]].
  unfold build_actions. rewrite HA, HF.
  set (nx := match ac_force a with Some 1 => [Goto l2] | _ => [Goto next] end).
  assert (Hnx : ~ In (MeterI id) nx).
  { unfold nx. intros X. destruct (ac_force a) as [[|[| |]|]|]; destruct X as [X|[]]; discriminate X. }
  assert (Hal : ~ In (MeterI id) (if is_allowed a then nx else [])) by (destruct (is_allowed a); auto).
  assert (Hme : In (MeterI id) (opt_list (fun m => [MeterI m]) (ac_meter a)) <-> ac_meter a = Some id).
  { destruct (ac_meter a); cbn; [|split; [intros []|discriminate]]. split; [intros [X|[]]; congruence|intros X; left; congruence]. }
  assert (Hap : forall acts : list action, ~ In (MeterI id) (match acts with [] => [] | _ => [Apply acts] end)).
  { intros [|x acts]; [intros []|]. intros [X|[]]; discriminate X. }
  destruct (ac_output a) as [[l|u]|]; cbn [build_output_actions].
  - assert (OI : ~ In (MeterI id) (snd (ordered_items None l))).
    { clear. induction l as [|i l IH]; [intros []|]. unfold ordered_items in *. cbn [fold_right].
      destruct (fold_right _ _ l) as [[ra rm] ri]. cbn [snd] in IH.
      destruct i; cbn; auto. intros [X|X]; [discriminate X|auto]. }
    destruct (ordered_items None l) as [[x y] z]. cbn [snd] in OI. cbn [fst].
    destruct (negb (is_allowed a) && true); cbn [fst]; rewrite !in_app_iff, Hme; specialize (Hap (opt_list (fun n => [out_port n]) (ac_mirror a) ++ x)) as H1;
      pose proof (Hap (opt_list (fun n => [out_port n]) (ac_mirror a) ++ x ++ opt_list (fun c => [build_ct c]) (ac_ct a))) as H2; tauto.
  - assert (GI : ~ In (MeterI id) (snd (match u_tunnel u with Some _ => ([], [], []) | None => ([] : list action, [] : list ofmsg, []) end) ++ opt_list (fun t => [Goto t]) (u_goto u))).
    { destruct (u_tunnel u), (u_goto u); cbn; intros X; repeat (destruct X as [X|X]; try discriminate X); try contradiction. }
    match goal with |- context [if ?c then _ else _] => destruct c end; cbn [fst]; rewrite in_app_iff;
      match goal with |- context [match ?acts with [] => [] | _ :: _ => [Apply _] end] => pose proof (Hap acts) end.
    + rewrite in_app_iff, Hme. tauto.
    + rewrite !in_app_iff, Hme. rewrite in_app_iff in GI. tauto.
  - cbn [fst]. rewrite !in_app_iff, Hme. pose proof (Hap (opt_list (fun n => [out_port n]) (ac_mirror a) ++ opt_list (fun c => [build_ct c]) (ac_ct a))). tauto.
Qed.

Lemma spot_meter : forall am lowest evs s sp t q r f, manager_ok am lowest -> history am lowest evs s ->
  tab am sp = Some t -> packet_ok q -> at_spot sp q ->
  (sp = SDp <-> am_dp_acls am <> [] /\ (forall v, sp <> SVlanIn v /\ sp <> SVlanOut v)) ->
  decides (rule_covers (option_map fst (spot_item sp)) q) (rules_of (acls_at am evs sp)) r ->
  content am lowest evs (XS sp) <> [] ->
  hit (sw_flows s) (tb_id t) q f -> forall id, In (MeterI id) (f_inst f) <-> rule_meter r = Some id.
Proof.
  intros am lowest evs s sp t q r f Hm Hh T PK A DP DE NC HI.
  destruct (history_holds am lowest Hm evs s Hh) as [NM [CO HO]].
  assert (TI : In t (opt_tables am)) by (eapply tab_in; eauto).
  assert (DX := fun f => dp_excl am lowest evs s Hm Hh sp t q f T PK A DP).
  assert (NE : acls_at am evs sp <> []).
  { intros X. rewrite X in DE. inversion DE. }
  assert (Q : exists pl, place_for am sp pl /\ content am lowest evs (XS sp) = build_rules None false pl (rules_of (acls_at am evs sp)) FILTER_PRIORITY).
  { pose proof (content_cases am lowest evs NM CO sp) as CC.
    set (cc := content am lowest evs (XS sp)) in *. clearbody cc. inversion CC as [E|pl PF NE' E|t' i' T' I' NE' E]; [congruence|eauto|contradiction]. }
  destruct Q as [pl [PF E]]. destruct PF as [P1 P2 P3 P4 P5 P6].
  assert (TP : pl_table pl = t) by congruence.
  destruct (spot_rules_ok am lowest evs CO sp) as [RO RL].
  assert (FW := flow_writes pl (rules_of (acls_at am evs sp)) FILTER_PRIORITY P2 RO).
  rewrite <- TP in HI.
  apply (rhit_decides s (fun _ => true) pl (rule_match pl) (rules_of (acls_at am evs sp)) FILTER_PRIORITY lowest q
      (rule_covers (option_map fst (spot_item sp)) q) (flow_of (tb_drop t lowest [] 0))) in HI; auto.
  - destruct HI as [[i [r' [N [DE' [-> _]]]]]|[U _]].
    + intros id. cbn [f_inst flow_of rw tb_add_cookie fm_inst]. rewrite trim_meters.
      rewrite (decides_fun _ _ _ _ DE DE'). eapply rule_meters; eauto.
    + exfalso. apply (U r); apply decides_in in DE; tauto.
  - intros r0 Hr. rewrite rule_matches; auto; [|rewrite Forall_forall in RO; apply RO; auto]. rewrite P6.
    destruct (spot_item sp) as [[F y]|] eqn:SI; simpl; [|tauto].
    split; [tauto|]. intros X. split; auto. eapply at_spot_item; eauto.
  - intros i r0 N. apply (ho_there _ _ _ HO (XS sp)). rewrite E. apply FW. exists i, r0. auto.
  - intros g Hf Ft M. rewrite TP in Ft. destruct (DX g Hf Ft M) as [[w [Hw Ef]]|Ef]; auto. left.
    rewrite E in Hw. apply FW in Hw as [i [r0 [N ->]]]. exists i, r0. auto.
  - split; [eapply drop_there; eauto|]. rewrite TP. repeat split.
Qed.
