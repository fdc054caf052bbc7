(** * Proofs about learning with idle timeouts *)
From Coq Require Import List Bool ZArith Lia.
From Verif Require Import PyBase PyBaseProofs OpenFlow TrimModel TrimProps FloodModel HostCacheSpec HostCacheModel HostCacheProofs LearnModel LearnSpec LearnProofs.
From Verif Require Import IdleModel IdleSpec.
Import ListNotations.
Open Scope Z_scope.

Lemma memb_in : forall x l, memb x l = true <-> In x l.
Proof.
  intros x l. unfold memb. rewrite existsb_exists. split.
  - intros (y & I & E). apply Z.eqb_eq in E. subst; auto.
  - intros I. exists x. split; [auto|apply Z.eqb_refl].
Qed.

Lemma in_put_rule : forall r x rs, In x (put_rule r rs) <-> x = r \/ (In x rs /\ same_rule x r = false).
Proof.
  intros r x rs. unfold put_rule. cbn [In]. rewrite filter_In, negb_true_iff.
  split; intros [H|H]; auto.
Qed.

Section P.
  Variable ic : iconf.
  Let cfg := i_cfg ic.
  Hypothesis NL : no_loop ic.

  (** Without loop protection, a learning ends in one of two ways. *)
  Lemma idle_learn_cases : forall s now p vid mac del,
    let e := cached_host (s_cache s vid) mac in
    let k := idle_learn ic s now p vid mac del in
    ck_ban k = None /\
    ((ck_update k = false /\ e <> None /\ (ck_msgs k = [] \/ ck_msgs k = [MFilter mac p])) \/
     (ck_update k = true /\ exists d r, ck_msgs k = learn_flows cfg p vid mac d r (learn_host_timeouts_removed cfg p mac) /\
        (e = None -> d = del /\ r = false) /\
        (forall x, e = Some x -> e_port x <> p -> no_lag ic -> d = del /\ r = false) /\
        (forall x u, e = Some x -> e_port x = p -> c_lacp cfg p = 0 -> s_upd s p = Some u -> u <= e_time x -> r = true /\ d = false))).
  Proof.
    intros s now p vid mac del e k. subst k. unfold idle_learn. fold e.
    unfold perm_learn_check. destruct e as [x|] eqn:Ee; [destruct (c_perm (i_cfg ic) (e_port x))|]; cbn [ck_exit ck_delete ck_refresh].
    - split; [reflexivity|]. left. split; [reflexivity|]. split; [discriminate|]. cbn [ck_msgs]. destruct (e_port x =? p); auto.
    - unfold learn_cache_check.
      destruct ((e_port x =? p) || (negb (c_lacp (i_cfg ic) p =? 0) && (c_lacp (i_cfg ic) p =? c_lacp (i_cfg ic) (e_port x)))) eqn:Es.
      + match goal with |- context [if ?b then {| ck_exit := true |} else _] => destruct b end; cbn [ck_exit ck_delete ck_refresh].
        * split; [reflexivity|]. left. split; [reflexivity|]. split; [discriminate|]. left; reflexivity.
        * unfold loop_protect_check. rewrite (NL p). cbn [andb ck_exit]. split; [reflexivity|]. right. split; [reflexivity|].
          eexists _, _. split; [reflexivity|]. split; [discriminate|]. split.
          -- intros y Y Np L. injection Y as <-. exfalso. rewrite (L p) in Es. rewrite Z.eqb_refl in Es. cbn [negb andb] in Es.
             rewrite orb_false_r in Es. apply Z.eqb_eq in Es. auto.
          -- intros y u Y Ep _ U Le. injection Y as <-. rewrite U. replace (u <=? e_time x) with true by (symmetry; apply Z.leb_le; lia). auto.
      + cbn [ck_exit ck_delete ck_refresh]. unfold loop_protect_check. rewrite (NL p). cbn [andb ck_exit]. split; [reflexivity|]. right. split; [reflexivity|].
        eexists _, _. split; [reflexivity|]. split; [discriminate|]. split.
        * intros; auto.
        * intros y u Y Ep. injection Y as <-. exfalso. rewrite Ep, Z.eqb_refl in Es. discriminate.
    - cbn [learn_cache_check ck_exit ck_delete ck_refresh]. unfold loop_protect_check. rewrite (NL p). cbn [andb ck_exit]. split; [reflexivity|]. right. split; [reflexivity|].
      eexists _, _. split; [reflexivity|]. split; [auto|]. split; intros; discriminate.
  Qed.

  (** What the messages of a learning do to the rules. *)
  Lemma learn_flows_src : forall rs p vid mac d r si sh di v q m i,
    In (RSrc v q m i) (fold_left (apply_host_msg ic) (learn_flows cfg p vid mac d r (si, sh, di)) rs) <->
    (v = vid /\ q = p /\ m = mac /\ i = si) \/
    (In (RSrc v q m i) rs /\ ~ (v = vid /\ q = p /\ m = mac) /\ ~ (d = true /\ v = vid /\ m = mac)).
  Proof.
    intros. unfold learn_flows. rewrite !fold_left_app.
    assert (A : forall l rs', Forall (fun x => match x with MDst _ _ _ _ | MDstNonExt _ _ _ _ | MHairpin _ _ _ _ => True | _ => False end) l ->
      (In (RSrc v q m i) (fold_left (apply_host_msg ic) l rs') <-> In (RSrc v q m i) rs')).
    { induction l as [|x l IH]; intros rs' F; [reflexivity|]. inversion F as [|? ? F1 F2]; subst. cbn [fold_left]. rewrite IH; auto.
      destruct x; try contradiction; cbn [apply_host_msg]; rewrite in_put_rule; cbn [same_rule];
        split; try tauto; intros [Y|Y]; try discriminate; tauto. }
    rewrite A.
    2:{ destruct (r && negb (c_hairpin cfg p)); [constructor|]. apply Forall_app. split; [repeat constructor|]. apply Forall_app.
        split; [destruct (_ && _)|destruct (c_hairpin cfg p)]; repeat constructor. }
    cbn [fold_left apply_host_msg]. rewrite in_put_rule. cbn [same_rule].
    assert (B : In (RSrc v q m i) (fold_left (apply_host_msg ic) (if d then [MDelHost vid mac] else []) rs) <->
                In (RSrc v q m i) rs /\ ~ (d = true /\ v = vid /\ m = mac)).
    { destruct d; cbn [fold_left apply_host_msg].
      - rewrite filter_In, negb_true_iff. cbn [rule_of]. rewrite andb_false_iff, !Z.eqb_neq. split; intros [X Y]; split; auto; [intuition congruence|].
        destruct (Z.eq_dec v vid); [right|left; auto]. intros ->. apply Y; auto.
      - split; [intros X; split; [auto|]; intros [Y _]; discriminate|tauto]. }
    rewrite B. rewrite !andb_false_iff, !Z.eqb_neq. split.
    - intros [X|[[X Y] Z]]; [left; injection X as -> -> -> ->; auto|right]. split; [auto|]. split; [|auto]. intros (-> & -> & ->).
      intuition congruence.
    - intros [(-> & -> & -> & ->)|(X & Y & Z)]; [left; reflexivity|right]. split; [split; auto|].
      destruct (Z.eq_dec v vid); [|auto]. destruct (Z.eq_dec q p); [|auto]. destruct (Z.eq_dec m mac); [|auto]. subst; tauto.
  Qed.

  Definition dst_keys (x : option Z) : Prop :=
    if c_externals cfg then x = Some PCP_EXT_PORT_FLAG \/ x = Some 0 else x = None.

  Lemma learn_flows_dst : forall rs p vid mac d r si sh di v m x q i,
    In (RDst v m x q i) (fold_left (apply_host_msg ic) (learn_flows cfg p vid mac d r (si, sh, di)) rs) ->
    (v = vid /\ m = mac /\ q = p /\ dst_keys x /\ (r = false \/ c_hairpin cfg p = true)) \/
    (In (RDst v m x q i) rs /\
     (v = vid -> m = mac -> d = false /\
        ((r = true /\ c_hairpin cfg p = false) \/ (plain_externals ic -> ~ dst_keys x)))).
  Proof.
    intros until i. unfold learn_flows. rewrite !fold_left_app.
    set (rs1 := fold_left (apply_host_msg ic) (if d then [MDelHost vid mac] else []) rs).
    assert (B : In (RDst v m x q i) rs1 -> In (RDst v m x q i) rs /\ (v = vid -> m = mac -> d = false)).
    { subst rs1. destruct d; cbn [fold_left apply_host_msg]; [|auto].
      rewrite filter_In, negb_true_iff. cbn [rule_of]. intros [X Y]. split; auto. intros -> ->. rewrite !Z.eqb_refl in Y. discriminate. }
    clearbody rs1. cbn [fold_left apply_host_msg].
    assert (C : forall rs2 z, (forall v' m' x' q' i', z <> RDst v' m' x' q' i') -> In (RDst v m x q i) (put_rule z rs2) -> In (RDst v m x q i) rs2).
    { intros rs2 z Hz. rewrite in_put_rule. intros [Y|[Y _]]; auto. exfalso. apply (Hz v m x q i). auto. }
    destruct (r && negb (c_hairpin cfg p)) eqn:R.
    - cbn [fold_left]. intros H. apply C in H; [|discriminate]. apply B in H as [H1 H2]. right. split; [exact H1|]. intros V M. split; [auto|]. left.
      apply andb_true_iff in R as [R1 R2]. rewrite negb_true_iff in R2. auto.
    - assert (R' : r = false \/ c_hairpin cfg p = true). { apply andb_false_iff in R as [R|R]; [auto|]. rewrite negb_false_iff in R. auto. }
      rewrite !fold_left_app. cbn [fold_left apply_host_msg].
      intros H.
      assert (H' : In (RDst v m x q i) (fold_left (apply_host_msg ic) (if c_externals cfg && negb (c_loop_ext cfg p) then [MDstNonExt vid p mac di] else [])
           (put_rule (RDst vid mac (if c_externals cfg then Some PCP_EXT_PORT_FLAG else None) p di) (put_rule (RSrc vid p mac si) rs1)))).
      { destruct (c_hairpin cfg p); [|exact H]. cbn [fold_left apply_host_msg] in H. apply C in H; [exact H|discriminate]. }
      clear H. destruct (c_externals cfg) eqn:X; cbn [andb] in H'.
      + assert (K : In (RDst v m x q i) (put_rule (RDst vid mac (Some PCP_EXT_PORT_FLAG) p di) (put_rule (RSrc vid p mac si) rs1)) ->
           (v = vid /\ m = mac /\ q = p /\ dst_keys x) \/ (In (RDst v m x q i) rs1 /\ ~ (v = vid /\ m = mac /\ x = Some PCP_EXT_PORT_FLAG))).
        { intros H. apply in_put_rule in H as [H|[H1 H2]].
          - injection H as -> -> -> -> ->. left. unfold dst_keys. rewrite X. auto 8.
          - right. split; [apply C in H1; [auto|discriminate]|]. intros (-> & -> & ->). cbn [same_rule] in H2. rewrite !Z.eqb_refl in H2. discriminate. }
        destruct (c_loop_ext cfg p) eqn:LE; cbn [negb] in H'; cbn [fold_left apply_host_msg] in H'.
        * destruct (K H') as [(? & ? & ? & ?)|[H1 H2]]; [left; auto|]. apply B in H1 as [H1 H3]. right. split; [auto|]. intros -> ->. split; [auto|]. right.
          intros PE. exfalso. fold cfg in PE. specialize (PE X p). fold cfg in PE. congruence.
        * apply in_put_rule in H' as [H|[H1 H2]].
          -- injection H as -> -> -> -> ->. left. unfold dst_keys. rewrite X. auto 8.
          -- destruct (K H1) as [(? & ? & ? & ?)|[H3 H4]]; [left; auto|]. apply B in H3 as [H3 H5]. right. split; [auto|]. intros -> ->. split; [auto|]. right.
             intros _ D. unfold dst_keys in D. rewrite X in D. destruct D as [D|D]; [apply H4; auto|]. subst x. cbn [same_rule] in H2. rewrite !Z.eqb_refl in H2. discriminate.
      + cbn [fold_left] in H'. apply in_put_rule in H' as [H|[H1 H2]].
        * injection H as -> -> -> -> ->. left. unfold dst_keys. rewrite X. auto 8.
        * apply C in H1; [|discriminate]. apply B in H1 as [H1 H3]. right. split; [auto|]. intros -> ->. split; [auto|]. right.
          intros _ D. unfold dst_keys in D. rewrite X in D. subst x. cbn [same_rule] in H2. rewrite !Z.eqb_refl in H2. discriminate.
  Qed.

  Lemma learn_flows_dst_other : forall rs p vid mac d r t, r = true -> c_hairpin cfg p = false -> d = false ->
    forall v m x q i, In (RDst v m x q i) (fold_left (apply_host_msg ic) (learn_flows cfg p vid mac d r t) rs) -> In (RDst v m x q i) rs.
  Proof.
    intros rs p vid mac d r [[si sh] di] -> Hp -> v m x q i H. apply learn_flows_dst in H as [(_ & _ & _ & _ & [X|X])|[H _]]; [discriminate|congruence|auto].
  Qed.
End P.

Definition is_ban (x : host_msg) : Prop := match x with MBanPort _ | MBanVlan _ => True | _ => False end.
Lemma ban_apply : forall ic l, Forall is_ban l -> forall rs, fold_left (apply_host_msg ic) l rs = rs.
Proof.
  intros ic. induction l as [|y l IH]; intros F rs; [reflexivity|]. inversion F as [|? ? Y F']; subst. cbn [fold_left]. rewrite IH by auto.
  destruct y; try contradiction; reflexivity.
Qed.

Lemma ban_rules_ban : forall cfg s v p m, Forall is_ban (ban_rules cfg s v p m).
Proof.
  intros. unfold ban_rules. destruct (cached_host _ _); [constructor|]. apply Forall_app.
  split; match goal with |- Forall _ (if ?b then _ else _) => destruct b end; repeat constructor.
Qed.

Section I.
  Variable ic : iconf.
  Let cfg := i_cfg ic.
  Hypothesis OK : iconf_ok ic.
  Hypothesis NL : no_loop ic.
  Hypothesis NG : no_lag ic.

  Definition rule_conf (r : hrule) : Prop :=
    match r with
    | RSrc v p m i => In v (i_vids ic) /\ In p (i_ports ic) /\ i = fst (fst (learn_host_timeouts_removed cfg p m))
    | RDst v _ x _ _ => In v (i_vids ic) /\ dst_keys ic x
    | RHair _ _ _ _ => True
    end.
  Record iinv (st : istate) : Prop := {
    iv_l : linv (is_l st);
    iv_conf : forall v m e, cached_host (s_cache (is_l st) v) m = Some e -> In v (c_pvlans cfg (e_port e)) /\ In (e_port e) (i_ports ic);
    iv_rules : forall r, In r (is_rules st) -> rule_conf r;
    iv_agree : forall v m p, known st v m p <-> passes st v m p;
  }.
  Definition dst_inv (st : istate) : Prop := forall v m p q, known st v m p -> sends st v m q -> q = p.

  Lemma vids_of : forall v p, In v (c_pvlans cfg p) -> In v (i_vids ic).
  Proof. intros v p I. destruct OK as (_ & _ & H & _). apply (H p). exact I. Qed.

  (** Learning a host on a port where the cache then has it. *)
  Lemma learned_inv : forall st s' p vid mac d r,
    iinv st -> linv s' -> In vid (c_pvlans cfg p) -> In p (i_ports ic) ->
    (forall v m q, (exists e, cached_host (s_cache s' v) m = Some e /\ e_port e = q) <->
       if (v =? vid) && (m =? mac) then q = p else known st v m q) ->
    (d = false -> forall q, known st vid mac q -> q = p) ->
    iinv {| is_l := s'; is_rules := fold_left (apply_host_msg ic) (learn_flows cfg p vid mac d r (learn_host_timeouts_removed cfg p mac)) (is_rules st) |}.
  Proof.
    intros st s' p vid mac d r I L V P K D. destruct (learn_host_timeouts_removed cfg p mac) as [[si sh] di] eqn:T.
    constructor; cbn [is_l is_rules].
    - exact L.
    - intros v m e E. specialize (K v m (e_port e)). destruct ((v =? vid) && (m =? mac)) eqn:B.
      + apply andb_true_iff in B as [B _]. apply Z.eqb_eq in B. subst v. rewrite (proj1 K (ex_intro _ e (conj E eq_refl))). auto.
      + destruct (proj1 K (ex_intro _ e (conj E eq_refl))) as (e' & E' & <-). apply (iv_conf _ I v m). exact E'.
    - intros z Hz. destruct z as [v q m i|v m x q i|v q m i]; [| |exact Logic.I].
      + apply learn_flows_src in Hz as [(-> & -> & -> & ->)|(Hz & _)]; [split; [apply (vids_of _ p); auto|split; [auto|rewrite T; reflexivity]]|]. apply (iv_rules _ I). exact Hz.
      + apply learn_flows_dst in Hz as [(-> & _ & _ & X & _)|(Hz & _)]; [split; [apply (vids_of _ p); auto|auto]|]. apply (iv_rules _ I). exact Hz.
    - intros v m q. change (known _ v m q) with (exists e, cached_host (s_cache s' v) m = Some e /\ e_port e = q). rewrite K.
      unfold passes. cbn [is_rules]. destruct ((v =? vid) && (m =? mac)) eqn:B.
      + apply andb_true_iff in B as [B1 B2]. apply Z.eqb_eq in B1, B2. subst v m. split.
        * intros ->. exists si. apply learn_flows_src. left; auto.
        * intros [i H]. apply learn_flows_src in H as [(_ & -> & _)|(H & N1 & N2)]; [reflexivity|].
          destruct d; [exfalso; apply N2; auto|]. apply (D eq_refl). apply (iv_agree _ I). exists i. exact H.
      + rewrite (iv_agree _ I). unfold passes. assert (N : ~ (v = vid /\ m = mac)) by (intros [-> ->]; rewrite !Z.eqb_refl in B; discriminate). split; intros [i H]; exists i.
        * apply learn_flows_src. right. split; [exact H|]. split; intros Y; apply N; tauto.
        * apply learn_flows_src in H as [(-> & _ & -> & _)|(H & _)]; [exfalso; auto|exact H].
  Qed.
  Lemma learned_dst : forall st s' p vid mac d r, plain_externals ic ->
    iinv st -> dst_inv st ->
    (forall v m q, (exists e, cached_host (s_cache s' v) m = Some e /\ e_port e = q) <->
       if (v =? vid) && (m =? mac) then q = p else known st v m q) ->
    (r = true -> known st vid mac p) ->
    dst_inv {| is_l := s'; is_rules := fold_left (apply_host_msg ic) (learn_flows cfg p vid mac d r (learn_host_timeouts_removed cfg p mac)) (is_rules st) |}.
  Proof.
    intros st s' p vid mac d r PE I Hd K R v m q q' Kn (x & i & S). cbn [is_rules] in S. apply K in Kn.
    destruct (learn_host_timeouts_removed cfg p mac) as [[si sh] di].
    pose proof S as S'. apply learn_flows_dst in S as [(-> & -> & -> & _ & _)|(S & C)].
    - rewrite !Z.eqb_refl in Kn. cbn [andb] in Kn. congruence.
    - destruct ((v =? vid) && (m =? mac)) eqn:B.
      + apply andb_true_iff in B as [B1 B2]. apply Z.eqb_eq in B1, B2. subst v m q. destruct (C eq_refl eq_refl) as [_ [[R1 _]|N]].
        * apply (Hd vid mac p q' (R R1)). exists x, i. exact S.
        * exfalso. apply (N PE). apply (iv_rules _ I) in S. apply S.
      + apply (Hd v m q q' Kn). exists x, i. exact S.
  Qed.

  Lemma iinv_same : forall st, iinv st -> iinv {| is_l := is_l st; is_rules := is_rules st |}.
  Proof. intros [l r] H. exact H. Qed.

  Lemma known_cache : forall st v m p, known st v m p -> exists e, cached_host (s_cache (is_l st) v) m = Some e /\ e_port e = p.
  Proof. auto. Qed.

  (** Packets *)
  Lemma packet_inv : forall st now vid p mac, iinv st -> In p (i_ports ic) -> In vid (c_pvlans cfg p) ->
    exists st', istep ic st (IPacket now vid p mac) = Some st' /\ iinv st' /\
      (plain_externals ic -> dst_inv st -> dst_inv st').
  Proof.
    intros st now vid p mac I P V. cbn [istep]. unfold idle_rcv_packet.
    assert (Z0 : forall ms, fold_left (apply_host_msg ic) ms (is_rules st) = is_rules st ->
       exists st', answered ic st (Some (is_l st, ms)) = Some st' /\ iinv st' /\ (plain_externals ic -> dst_inv st -> dst_inv st')).
    { intros ms E. eexists. split; [reflexivity|]. rewrite E. destruct st as [l rs]. auto. }
    destruct (ban_rules cfg (is_l st) vid p mac) as [|b bs] eqn:Eb; fold cfg; rewrite Eb.
    2:{ apply Z0. assert (F : Forall is_ban (b :: bs)).
        { rewrite <- Eb. unfold ban_rules. destruct (cached_host _ _); [constructor|]. apply Forall_app.
          split; match goal with |- Forall _ (if ?b then _ else _) => destruct b end; repeat constructor. }
        apply ban_apply. exact F. }
    set (e := cached_host (s_cache (is_l st) vid) mac). set (del := delete_default (is_l st) vid e).
    destruct (idle_learn_cases ic NL (is_l st) now p vid mac del) as [Kb [(Ku & Ne & Km)|(Ku & d & r & Km & K1 & K2 & K3)]].
    - unfold note_ban. rewrite Kb, Ku. apply Z0. destruct Km as [->| ->]; reflexivity.
    - unfold note_ban. rewrite Kb, Ku. destruct (add_cache_host_ok mac p now (s_cache (is_l st) vid) (iv_l _ I vid)) as (c & -> & Hc & G & _).
      cbn [answered]. rewrite Km. eexists. split; [reflexivity|].
      assert (GK : forall v m q, (exists e, cached_host (s_cache (with_cache (is_l st) vid c) v) m = Some e /\ e_port e = q) <->
         if (v =? vid) && (m =? mac) then q = p else known st v m q).
      { intros v m q. unfold with_cache, upd. cbn [s_cache]. destruct (v =? vid) eqn:Ev; cbn [andb]; [|unfold known; reflexivity].
        apply Z.eqb_eq in Ev. subst v. rewrite G. destruct (m =? mac) eqn:Em.
        - apply Z.eqb_eq in Em. subst m. split; [intros (y & Y & <-); injection Y as <-; reflexivity|intros ->; eexists; split; reflexivity].
        - unfold known. reflexivity. }
      split.
      + apply learned_inv; auto; [apply linv_with_cache; [apply (iv_l _ I)|auto]|].
        intros -> q (y & Y & <-). fold e in Y. destruct (Z.eq_dec (e_port y) p); [auto|exfalso].
        destruct (K2 y Y n NG) as [X _]. subst del. rewrite Y in X. cbn in X. discriminate.
      + intros PE D. apply learned_dst; auto. intros R. fold e in K1, K2. destruct e as [y|] eqn:Ee.
        * exists y. split; [exact Ee|]. destruct (Z.eq_dec (e_port y) p); [auto|exfalso]. destruct (K2 y eq_refl n NG). congruence.
        * destruct (K1 eq_refl). congruence.
  Qed.

  Lemma known_fun : forall st v m p q, known st v m p -> known st v m q -> p = q.
  Proof. intros st v m p q (e & E & <-) (e' & E' & <-). congruence. Qed.

  Lemma flow_timeout_rule : forall s now r, rule_conf r ->
    flow_timeout ic s now (rule_table ic r) (rule_match r) =
    match r with
    | RSrc v p m _ => src_rule_expire s v p m
    | RDst v m _ _ _ => Some (dst_rule_expire ic s now v m)
    | RHair _ _ _ _ => Some (s, [])
    end.
  Proof.
    intros s now r C. destruct OK as (O1 & O2 & _ & N1 & N2 & N3).
    assert (D : forall v, In v (i_vids ic) -> devid_present (vid_present v) = v).
    { intros v V. apply C05_vid_round_trip. rewrite Forall_forall in O1. specialize (O1 v V). lia. }
    unfold flow_timeout. destruct r as [v p m i|v m x p i|v p m i]; cbn [rule_table rule_match].
    - destruct C as (V & P & _). rewrite Z.eqb_refl. cbn [orb item_value fold_left fst snd exact].
      unfold item_value, exact. cbn -[devid_present vid_present memb]. rewrite (D v V), (proj2 (memb_in v _) V).
      rewrite Forall_forall in O2. specialize (O2 p P). replace (p =? 0) with false by (symmetry; apply Z.eqb_neq; lia).
      rewrite (proj2 (memb_in p _) P). reflexivity.
    - destruct C as (V & _). rewrite Z.eqb_refl, orb_true_r. unfold item_value, exact.
      destruct x as [x|]; cbn -[devid_present vid_present memb dst_rule_expire]; rewrite (D v V), (proj2 (memb_in v _) V); reflexivity.
    - apply Z.eqb_neq in N2, N3. rewrite N2, N3. reflexivity.
  Qed.

  (** Dropping rules other than those for sources *)
  Lemma fewer_inv : forall st rs, iinv st -> (forall r, In r rs -> In r (is_rules st)) ->
    (forall v p m i, In (RSrc v p m i) (is_rules st) -> In (RSrc v p m i) rs) -> iinv {| is_l := is_l st; is_rules := rs |}.
  Proof.
    intros st rs I S1 S2. constructor; cbn [is_l is_rules].
    - apply (iv_l _ I).
    - apply (iv_conf _ I).
    - intros r R. apply (iv_rules _ I). auto.
    - intros v m p. transitivity (known st v m p); [reflexivity|]. rewrite (iv_agree _ I). unfold passes. cbn [is_rules].
      split; intros [i H]; exists i; auto.
  Qed.
  Lemma fewer_dst : forall st rs, dst_inv st -> (forall r, In r rs -> In r (is_rules st)) -> dst_inv {| is_l := is_l st; is_rules := rs |}.
  Proof. intros st rs D S v m p q K (x & i & H). apply (D v m p q K). exists x, i. apply S. exact H. Qed.

  Lemma dst_expire_inv : forall st now vid mac, iinv st ->
    exists st', answered ic st (Some (dst_rule_expire ic (is_l st) now vid mac)) = Some st' /\ iinv st' /\
      (plain_externals ic -> dst_inv st -> dst_inv st') /\ is_l st' = is_l st.
  Proof.
    intros st now vid mac I. unfold dst_rule_expire. destruct (cached_host (s_cache (is_l st) vid) mac) as [e|] eqn:E.
    2:{ eexists. split; [reflexivity|]. destruct st as [l rs]. auto. }
    destruct (idle_learn_cases ic NL (is_l st) now (e_port e) vid mac false) as [Kb [(Ku & Ne & Km)|(Ku & d & r & Km & K1 & K2 & K3)]].
    - unfold note_ban. rewrite Kb. eexists. split; [reflexivity|]. destruct Km as [->| ->]; destruct st as [l rs]; auto.
    - unfold note_ban. rewrite Kb. eexists. split; [reflexivity|]. rewrite Km.
      assert (GK : forall v m q, (exists e, cached_host (s_cache (is_l st) v) m = Some e /\ e_port e = q) <->
         if (v =? vid) && (m =? mac) then q = e_port e else known st v m q).
      { intros v m q. destruct ((v =? vid) && (m =? mac)) eqn:B; [|unfold known; reflexivity].
        apply andb_true_iff in B as [B1 B2]. apply Z.eqb_eq in B1, B2. subst v m. rewrite E.
        split; [intros (y & Y & <-); congruence|intros ->; eauto]. }
      destruct (iv_conf _ I vid mac e E) as [V P]. split; [|split; [|reflexivity]].
      + apply learned_inv; auto; [apply (iv_l _ I)|]. intros _ q Q. apply (known_fun st vid mac); [exact Q|exists e; auto].
      + intros PE D. apply learned_dst; auto. intros _. exists e; auto.
  Qed.

  Lemma istep_inv : forall st ev, iinv st -> frame_ok ic ev ->
    exists st', istep ic st ev = Some st' /\ iinv st' /\ (plain_externals ic -> dst_inv st -> dst_inv st').
  Proof.
    intros st ev I F. destruct ev as [now vid p mac|now r|now p|now p|now].
    - destruct F as [P V]. apply packet_inv; auto.
    - cbn [istep]. destruct (in_dec hrule_eq_dec r (is_rules st)) as [R|R]; [|eauto]. destruct (rule_idle r =? 0); [eauto|].
      pose proof (iv_rules _ I r R) as C. rewrite (flow_timeout_rule _ now r C).
      assert (S1 : forall x, In x (remove hrule_eq_dec r (is_rules st)) -> In x (is_rules st)) by (intros x X; eapply in_remove; exact X).
      destruct r as [v p m i|v m x p i|v p m i].
      + destruct (proj2 (iv_agree _ I v m p) (ex_intro _ i R)) as (e & E & Ep). unfold src_rule_expire, cached_host_on_port. rewrite E, Ep, Z.eqb_refl.
        destruct (expire_cache_host_ok m (s_cache (is_l st) v) (iv_l _ I v)) as (c & -> & Hc & G & _).
        cbn [answered fold_left is_rules]. eexists. split; [reflexivity|].
        assert (GK : forall v' m' q, (exists e, cached_host (s_cache (with_cache (is_l st) v c) v') m' = Some e /\ e_port e = q) <->
           ~ (v' = v /\ m' = m) /\ known st v' m' q).
        { intros v' m' q. unfold with_cache, upd, known. cbn [s_cache]. destruct (v' =? v) eqn:Ev.
          - apply Z.eqb_eq in Ev. subst v'. rewrite G. destruct (m' =? m) eqn:Em.
            + apply Z.eqb_eq in Em. subst m'. split; [intros (y & Y & _); discriminate|intros [N _]; exfalso; auto].
            + apply Z.eqb_neq in Em. split; [intros Y; split; [intros [_ ->]; auto|exact Y]|intros [_ Y]; exact Y].
          - apply Z.eqb_neq in Ev. split; [intros Y; split; [intros [-> _]; auto|exact Y]|intros [_ Y]; exact Y]. }
        split.
        * constructor; cbn [is_l is_rules].
          -- apply linv_with_cache; [apply (iv_l _ I)|auto].
          -- intros v' m' e' E'. destruct (proj1 (GK v' m' (e_port e')) (ex_intro _ e' (conj E' eq_refl))) as [_ (y & Y & <-)]. apply (iv_conf _ I v' m'). exact Y.
          -- intros z Z. apply (iv_rules _ I). auto.
          -- intros v' m' q. transitivity (~ (v' = v /\ m' = m) /\ known st v' m' q); [apply GK|]. unfold passes. cbn [is_rules]. split.
             ++ intros [N K]. apply (iv_agree _ I) in K as [j J]. exists j. apply in_in_remove; [|exact J]. intros X. injection X as -> -> -> ->. apply N; auto.
             ++ intros [j J]. apply in_remove in J as [J N]. split; [|apply (iv_agree _ I); exists j; exact J].
                intros [-> ->]. assert (q = p) by (apply (known_fun st v m); apply (iv_agree _ I); [exists j|exists i]; auto). subst q.
                destruct (iv_rules _ I _ J) as (_ & _ & ->). destruct C as (_ & _ & ->). auto.
        * intros _ D v' m' p' q' K (y & j & J). apply GK in K as [_ K]. apply (D v' m' p' q' K). exists y, j. apply S1. exact J.
      + destruct (dst_expire_inv {| is_l := is_l st; is_rules := remove hrule_eq_dec (RDst v m x p i) (is_rules st) |} now v m) as (st' & A & B & D & _).
        { apply fewer_inv; auto. intros v' p' m' j J. apply in_in_remove; [discriminate|exact J]. }
        exists st'. split; [exact A|]. split; [exact B|]. intros PE Hd. apply D; auto. apply fewer_dst; auto.
      + cbn [answered fold_left is_rules]. eexists. split; [reflexivity|]. split.
        * apply fewer_inv; auto. intros v' p' m' j J. apply in_in_remove; [discriminate|exact J].
        * intros _ Hd. apply fewer_dst; auto.
    - cbn [istep lstep answered fold_left]. eexists. split; [reflexivity|]. split.
      + constructor; cbn [is_l is_rules]; apply I.
      + intros _ D v m q q'. apply D.
    - cbn [istep lstep]. assert (H1 : linv (with_upd (is_l st) (upd p (Some now) (s_upd (is_l st))))) by exact (iv_l _ I).
      destruct (clear_vlans_ok p (c_pvlans (i_cfg ic) p) _ H1) as (s1 & -> & L & _ & _ & G). cbn [answered fold_left is_rules]. eexists. split; [reflexivity|].
      assert (GK : forall v m q, (exists e, cached_host (s_cache s1 v) m = Some e /\ e_port e = q) <-> q <> p /\ known st v m q).
      { intros v m q. rewrite G. cbn [with_upd s_cache]. unfold known. destruct (cached_host (s_cache (is_l st) v) m) as [e|] eqn:E.
        - destruct (e_port e =? p) eqn:Ep.
          + apply Z.eqb_eq in Ep. destruct (iv_conf _ I v m e E) as [V _]. rewrite Ep in V. replace (existsb (Z.eqb v) (c_pvlans (i_cfg ic) p)) with true by (symmetry; apply memb_in; exact V). cbn [andb].
            split; [intros (y & Y & _); discriminate|intros [N (y & Y & <-)]; exfalso; apply N; congruence].
          + rewrite andb_false_r. apply Z.eqb_neq in Ep. split; [intros (y & Y & <-); split; [congruence|exists y; auto]|intros [_ Y]; exact Y].
        - split; [intros (y & Y & _); discriminate|intros [_ (y & Y & _)]; discriminate]. }
      assert (S1 : forall r, In r (del_port_rules p (is_rules st)) -> In r (is_rules st)) by (intros r R; apply filter_In in R; tauto).
      split.
      + constructor; cbn [is_l is_rules].
        * exact L.
        * intros v m e E. destruct (proj1 (GK v m (e_port e)) (ex_intro _ e (conj E eq_refl))) as [_ (y & Y & <-)]. apply (iv_conf _ I v m). exact Y.
        * intros z Z. apply (iv_rules _ I). auto.
        * intros v m q. transitivity (q <> p /\ known st v m q); [apply GK|]. rewrite (iv_agree _ I). unfold passes, del_port_rules. cbn [is_rules]. split.
          -- intros [N [i H]]. exists i. apply filter_In. split; [exact H|]. apply negb_true_iff, Z.eqb_neq. exact N.
          -- intros [i H]. apply filter_In in H as [H N]. apply negb_true_iff, Z.eqb_neq in N. split; [exact N|exists i; exact H].
      + intros _ D v m q q' K (x & i & S). apply GK in K as [_ K]. apply (D v m q q' K). exists x, i. apply S1. exact S.
    - cbn [istep lstep answered fold_left is_rules]. eexists. split; [reflexivity|]. split.
      + constructor; cbn [is_l is_rules].
        * intros v. apply hinv_reset.
        * intros v m e E. discriminate.
        * intros r [].
        * intros v m q. split; [intros (e & E & _); discriminate|intros [i []]].
      + intros _ _ v m q q' (e & E & _). discriminate.
  Qed.

  Lemma iinv_init : iinv istate_init /\ dst_inv istate_init.
  Proof.
    split.
    - constructor; cbn [is_l is_rules istate_init].
      + apply linv_init.
      + intros v m e E. discriminate.
      + intros r [].
      + intros v m q. split; [intros (e & E & _); discriminate|intros [i []]].
    - intros v m q q' (e & E & _). discriminate.
  Qed.
  Lemma irun_inv : forall evs st, iinv st -> Forall (frame_ok ic) evs ->
    exists st', irun ic st evs = Some st' /\ iinv st' /\ (plain_externals ic -> dst_inv st -> dst_inv st').
  Proof.
    induction evs as [|ev evs IH]; intros st I F; cbn [irun]; [eauto|]. inversion F as [|? ? F1 F2]; subst.
    destruct (istep_inv st ev I F1) as (st1 & -> & I1 & D1). destruct (IH st1 I1 F2) as (st' & E & I' & D'). exists st'. auto.
  Qed.
End I.

Section L.
  Variable ic : iconf.
  Let cfg := i_cfg ic.
  Hypothesis OK : iconf_ok ic.
  Hypothesis NL : no_loop ic.
  Hypothesis NG : no_lag ic.
  Variables (v mac p u : Z).
  Hypothesis HP : c_hairpin cfg p = false.

  (** A host known where it is, to which no rule sends. *)
  Definition lost (st : istate) : Prop :=
    (exists e, cached_host (s_cache (is_l st) v) mac = Some e /\ e_port e = p /\ u <= e_time e) /\
    s_upd (is_l st) p = Some u /\ forall q, ~ sends st v mac q.

  Lemma lost_fewer : forall l rs rs', lost {| is_l := l; is_rules := rs |} -> (forall r, In r rs' -> In r rs) -> lost {| is_l := l; is_rules := rs' |}.
  Proof. intros l rs rs' (A & B & C) S. split; [exact A|]. split; [exact B|]. intros q (x & i & H). apply (C q). exists x, i. apply S. exact H. Qed.

  Lemma lost_flows : forall rs p' v' m' d r t, (forall x q i, ~ In (RDst v mac x q i) rs) ->
    (v' = v -> m' = mac -> p' = p /\ r = true) ->
    forall x q i, ~ In (RDst v mac x q i) (fold_left (apply_host_msg ic) (learn_flows cfg p' v' m' d r t) rs).
  Proof.
    intros rs p' v' m' d r [[si sh] di] N H x q i X. apply learn_flows_dst in X as [(<- & <- & _ & _ & Y)|(X & _)].
    - destruct (H eq_refl eq_refl) as [-> ->]. fold cfg in Y. destruct Y; congruence.
    - apply (N x q i X).
  Qed.

  Lemma lost_step : forall st ev st', iinv ic st -> frame_ok ic ev -> lost st -> stays_put v mac p u ev -> istep ic st ev = Some st' -> lost st'.
  Proof.
    intros st ev st' I F L S E. pose proof L as ((e & Ee & Ep & Et) & U & N).
    assert (N' : forall x q i, ~ In (RDst v mac x q i) (is_rules st)) by (intros x q i X; apply (N q); exists x, i; exact X).
    destruct ev as [now v' p' m'|now r|now q|now q|now]; cbn [istep] in E.
    - unfold idle_rcv_packet in E. destruct S as [Tu S]. destruct (ban_rules (i_cfg ic) (is_l st) v' p' m') as [|b bs] eqn:Eb.
      2:{ assert (B : Forall is_ban (b :: bs)).
          { rewrite <- Eb. apply ban_rules_ban. }
          unfold answered in E. rewrite (ban_apply ic (b :: bs) B) in E. injection E as <-. destruct st; exact L. }
      destruct (idle_learn_cases ic NL (is_l st) now p' v' m' (delete_default (is_l st) v' (cached_host (s_cache (is_l st) v') m'))) as [Kb [(Ku & Ne & Km)|(Ku & d & r & Km & K1 & K2 & K3)]].
      + unfold note_ban in E. rewrite Kb, Ku in E. cbn [answered] in E. injection E as <-. destruct Km as [->| ->]; destruct st; exact L.
      + unfold note_ban in E. rewrite Kb, Ku in E. destruct (add_cache_host_ok m' p' now (s_cache (is_l st) v') (iv_l _ _ I v')) as (c & Ec & Hc & G & _).
        rewrite Ec in E. cbn [answered] in E. rewrite Km in E. injection E as <-. split; [|split].
        * cbn [is_l with_cache s_cache]. unfold upd. destruct (v =? v') eqn:Ev; [|eauto]. apply Z.eqb_eq in Ev. subst v'. rewrite G.
          destruct (mac =? m') eqn:Em; [|eauto]. apply Z.eqb_eq in Em. subst m'. eexists. split; [reflexivity|]. cbn [fst snd e_port e_time]. split; [auto|lia].
        * exact U.
        * intros q (x & i & X). revert X. cbn [is_rules]. refine (lost_flows (is_rules st) p' v' m' d r (learn_host_timeouts_removed cfg p' m') N' _ x q i). intros -> ->. rewrite (S eq_refl eq_refl) in *. split; [reflexivity|].
          apply (K3 e u); auto.
    - destruct (in_dec hrule_eq_dec r (is_rules st)) as [R|R]; [|injection E as <-; exact L]. destruct (rule_idle r =? 0); [injection E as <-; exact L|].
      rewrite (flow_timeout_rule ic OK _ now r (iv_rules _ _ I r R)) in E.
      assert (L1 : lost {| is_l := is_l st; is_rules := remove hrule_eq_dec r (is_rules st) |}).
      { apply (lost_fewer _ (is_rules st)); [destruct st; exact L|]. intros x X. eapply in_remove. exact X. }
      destruct r as [v' p' m' i|v' m' x p' i|v' p' m' i].
      + unfold src_rule_expire in E. destruct (cached_host_on_port (s_cache (is_l st) v') m' p') as [e'|] eqn:Eh.
        2:{ cbn [answered fold_left] in E. injection E as <-. exact L1. }
        destruct (expire_cache_host_ok m' (s_cache (is_l st) v') (iv_l _ _ I v')) as (c & Ec & Hc & G & _). rewrite Ec in E. cbn [answered fold_left] in E. injection E as <-.
        destruct L1 as (_ & _ & L3). split; [|split; [exact U|exact L3]]. cbn [is_l with_cache s_cache]. unfold upd. destruct (v =? v') eqn:Ev; [|eauto]. apply Z.eqb_eq in Ev. subst v'.
        rewrite G. destruct (mac =? m') eqn:Em; [|eauto]. apply Z.eqb_eq in Em. subst m'. exfalso. cbn in S. apply S. split; [auto|]. split; [|auto].
        unfold cached_host_on_port in Eh. rewrite Ee in Eh. destruct (p' =? e_port e) eqn:Y; [|discriminate]. apply Z.eqb_eq in Y. congruence.
      + unfold dst_rule_expire in E. destruct (cached_host (s_cache (is_l st) v') m') as [e'|] eqn:Eh.
        2:{ cbn [answered fold_left] in E. injection E as <-. exact L1. }
        assert (O : v' = v -> m' = mac -> False) by (intros -> ->; apply (N' x p' i); exact R).
        destruct (idle_learn_cases ic NL (is_l st) now (e_port e') v' m' false) as [Kb [(Ku & Ne & Km)|(Ku & d & r & Km & _)]];
          unfold note_ban in E; rewrite Kb in E; cbn [answered] in E; injection E as <-.
        * destruct Km as [->| ->]; exact L1.
        * rewrite Km. destruct L1 as (A1 & A2 & A3). split; [exact A1|]. split; [exact A2|].
          intros q (y & j & X). revert X. cbn [is_rules].
          refine (lost_flows (remove hrule_eq_dec (RDst v' m' x p' i) (is_rules st)) (e_port e') v' m' d r (learn_host_timeouts_removed cfg (e_port e') m') _ _ y q j); [|intros X Y; destruct (O X Y)].
          intros y' q' j' X. apply in_remove in X as [X _]. apply (N' y' q' j'). exact X.
      + cbn [answered fold_left] in E. injection E as <-. exact L1.
    - cbn [lstep answered fold_left] in E. injection E as <-. cbn in S. split; [exact (ex_intro _ e (conj Ee (conj Ep Et)))|].
      cbn [is_l with_upd s_upd]. rewrite upd_other by auto. auto.
    - assert (H1 : linv (with_upd (is_l st) (upd q (Some now) (s_upd (is_l st))))) by exact (iv_l _ _ I).
      cbn [lstep] in E. destruct (clear_vlans_ok q (c_pvlans (i_cfg ic) q) _ H1) as (s1 & Es & _ & U1 & _ & G). rewrite Es in E. cbn [answered fold_left] in E. injection E as <-.
      cbn in S. split; [|split].
      + exists e. cbn [is_l]. rewrite G. cbn [with_upd s_cache]. rewrite Ee. replace (e_port e =? q) with false by (symmetry; apply Z.eqb_neq; congruence).
        rewrite andb_false_r. auto.
      + cbn [is_l]. rewrite U1. cbn [with_upd s_upd]. rewrite upd_other by auto. exact U.
      + intros q' (x & i & X). cbn [is_rules] in X. apply filter_In in X as [X _]. apply (N' x q' i X).
    - destruct S.
  Qed.
  Lemma lost_run : forall evs st st', iinv ic st -> Forall (frame_ok ic) evs -> lost st -> Forall (stays_put v mac p u) evs -> irun ic st evs = Some st' -> lost st'.
  Proof.
    induction evs as [|ev evs IH]; intros st st' I F L S E; cbn [irun] in E; [congruence|]. inversion F as [|? ? F1 F2]; subst. inversion S as [|? ? S1 S2]; subst.
    destruct (istep_inv ic OK NL NG st ev I F1) as (st1 & E1 & I1 & _). rewrite E1 in E. apply (IH st1 st'); auto. apply (lost_step st ev); auto.
  Qed.
End L.
