(** * A flood reaches every switch once *)
From Coq Require Import ZArith List Bool Permutation Lia Arith.
From Verif Require Import PyBase PyBaseProofs StackModel StackSpec StackProofs StackFloodProofs StackRoleProofs.
Import ListNotations.
Open Scope Z_scope.

Section Once.
  Variables (f : fabric) (root : Z).
  Hypothesis AG : agreed f root.
  Variable s0 : snode.
  Hypothesis S0 : In s0 f.
  Notation path := (path root s0).
  Notation conn := (conn root s0).
  Notation child := (child root s0).
  Notation sub := (sub root s0).
  Notation all s := (canonical (up_ports (sn_ports s))).
  Notation rl s := (reset_peer_distances f s).
  Definition pkt (p : sport) : flying := (sp_dp p, Some (sp_peer p)).

  Lemma upin : forall s p, In p (all s) <-> In p (sn_ports s) /\ sp_up p = true.
  Proof. intros. rewrite canonical_in, up_ports_in. reflexivity. Qed.

  (** The two ends of a link. *)
  Definition ends (s : snode) (p : sport) (t : snode) (q : sport) : Prop :=
    In s f /\ In t f /\ In p (all s) /\ In q (all t) /\ sp_dp p = sn_name t /\ sp_peer p = sp_no q /\ sp_dp q = sn_name s /\ sp_peer q = sp_no p.
  Lemma ends_sym : forall s p t q, ends s p t q -> ends t q s p.
  Proof. unfold ends. intuition. Qed.
  Lemma ends_exist : forall s p, In s f -> In p (all s) -> exists t q, ends s p t q.
  Proof.
    intros s p I J. apply upin in J as [P U]. destruct (far_end f root AG s p I P U) as (t & q & It & Nt & Iq & Uq & E1 & E2 & E3 & _).
    exists t, q. unfold ends. rewrite !upin. intuition congruence.
  Qed.
  Lemma ends_to : forall s p t, In s f -> In t f -> In p (all s) -> sp_dp p = sn_name t -> exists q, ends s p t q.
  Proof.
    intros s p t I It J E. destruct (ends_exist s p I J) as (t' & q & H). assert (t' = t).
    { destruct H as (_ & It' & _ & _ & E' & _). apply (same_name f root AG); [exact It'|exact It|congruence]. }
    subst t'. eauto.
  Qed.
  Lemma ends_fun : forall s p t q t' q', ends s p t q -> ends s p t' q' -> t = t' /\ q = q'.
  Proof.
    intros s p t q t' q' (Is & It & P & Q & E1 & E2 & _) (_ & It' & _ & Q' & E1' & E2' & _).
    assert (t = t') by (apply (same_name f root AG); [assumption..|congruence]). subst t'. split; [reflexivity|].
    apply upin in Q as [Q _], Q' as [Q' _]. apply (same_no f root AG t); [assumption..|congruence].
  Qed.
  Lemma ends_link : forall s p t q, ends s p t q -> link_up f (sn_name s) p (sn_name t) q.
  Proof.
    intros s p t q (Is & It & P & Q & E1 & E2 & E3 & E4). apply upin in P as [P U], Q as [Q V]. exists s, t. intuition.
  Qed.
  Lemma node_named : forall x, conn x -> exists s, In s f /\ sn_name s = x.
  Proof.
    intros x C. assert (N : In x (names f)).
    { apply (ag_nodes f root (proj1 AG) s0 S0). apply (path_nodes (sn_graph s0) (graph_ok_of f root AG s0 S0) x root (path x)).
      - exact (path_is f root AG s0 S0 x C).
      - destruct (path_hd f root AG s0 S0 x C) as (l & ->). left. reflexivity. }
    unfold names in N. apply in_map_iff in N as (s & E & I). eauto.
  Qed.

  Lemma meet : forall s p t q, ends s p t q -> child (sn_name t) (sn_name s) ->
    (best s p <-> ro_chosen_port (rl t) = Some q).
  Proof.
    intros s p t q E CH. assert (E0 := E). destruct E as (Is & It & P & Q & E1 & E2 & E3 & E4).
    assert (CT := child_conn root s0 _ _ CH). assert (CS := proj1 CH).
    assert (QC : In q (ro_chosen (rl t))) by (apply (chosen_in f root AG s0 S0 t It CT); split; [exact Q|rewrite E3; exact CH]).
    assert (SP := chosen_port_spec f root AG t It). destruct (ro_chosen_port (rl t)) as [q0|]; [|rewrite SP in QC; destruct QC].
    destruct SP as [Q0 L0]. apply (chosen_in f root AG s0 S0 t It CT) in Q0 as [Q0 CH0].
    assert (D0 := child_parent f root AG s0 S0 _ _ _ CH0 CH). split.
    - intros B. destruct (ends_to t q0 s It Is Q0 D0) as (p0 & EN). destruct EN as (_ & _ & _ & P0 & F1 & F2 & F3 & F4).
      assert (L1 := B p0 P0 ltac:(congruence)). assert (L2 := L0 q QC). f_equal. apply upin in Q as [Q _], Q0 as [Q0 _].
      apply (same_no f root AG t); [assumption..|lia].
    - intros [= ->]. intros p' P' D'. destruct (ends_to s p' t Is It P' ltac:(congruence)) as (q' & EN). destruct EN as (_ & _ & _ & Q' & F1 & F2 & F3 & F4).
      assert (L1 := L0 q'). rewrite E2, F2. apply L1. apply (chosen_in f root AG s0 S0 t It CT). split; [exact Q'|]. rewrite F3. exact CH.
  Qed.
  (** Which arriving packets are dropped. *)
  Lemma child_away : forall s p, In s f -> In p (all s) -> child (sp_dp p) (sn_name s) -> In p (ro_away (rl s)).
  Proof.
    intros s p I P CH. apply (away_in f root AG s0 S0 s I (proj1 CH)). split; [exact P|]. assert (D := child_dist root s0 _ _ CH). lia.
  Qed.
  Lemma pruned_down : forall s p, In s f -> In p (all s) -> child (sp_dp p) (sn_name s) -> (is_pruned (rl s) p = false <-> best s p).
  Proof.
    intros s p I P CH. assert (D := child_dist root s0 _ _ CH). unfold is_pruned.
    assert (T := is_towards_spec f root AG s0 S0 s I (proj1 CH) p P). assert (A := is_away_spec f root AG s0 S0 s I (proj1 CH) p P).
    destruct (is_towards (rl s) p); [exfalso; assert (H := proj1 T eq_refl); lia|]. destruct (is_away (rl s) p).
    - apply (pruned_spec f root AG s0 S0 s I (proj1 CH)). apply child_away; assumption.
    - exfalso. assert (H := proj2 A). discriminate H. lia.
  Qed.
  Lemma pruned_up : forall s p, In s f -> In p (all s) -> child (sn_name s) (sp_dp p) -> (is_pruned (rl s) p = false <-> ro_chosen_port (rl s) = Some p).
  Proof.
    intros s p I P CH. assert (C := child_conn root s0 _ _ CH). assert (D := child_dist root s0 _ _ CH). unfold is_pruned.
    assert (T := is_towards_spec f root AG s0 S0 s I C p P). destruct (is_towards (rl s) p); [|exfalso; assert (H := proj2 T); discriminate H; lia].
    rewrite negb_false_iff. apply (selected_spec f root AG s0 S0 s I C p P).
  Qed.
  Lemma nonroot_chosen : forall s, In s f -> conn (sn_name s) -> sn_name s <> root -> exists q, ro_chosen_port (rl s) = Some q /\ In q (all s) /\ child (sn_name s) (sp_dp q).
  Proof.
    intros s I C NE. destruct (nonroot_child f root AG s0 S0 _ C NE) as (w & CH). assert (SP := chosen_port_spec f root AG s I).
    destruct (ro_chosen_port (rl s)) as [q|].
    - exists q. split; [reflexivity|]. apply (chosen_in f root AG s0 S0 s I C). apply SP.
    - exfalso. destruct (adj_up f root AG s0 S0 s w I (child_adj f root AG s0 S0 _ _ CH)) as (q & Q & U & D).
      assert (K : In q (ro_chosen (rl s))) by (apply (chosen_in f root AG s0 S0 s I C); split; [apply upin; auto|rewrite D; exact CH]). rewrite SP in K. destruct K.
  Qed.
  Variables (refl group : bool).
  Notation gives := (gives refl group f).
  Hypothesis MODE : group = true \/ no_parallel f.
  Lemma best_alone : group = false -> forall s p, In s f -> In p (all s) -> best s p.
  Proof.
    intros NG s p I P p' P' D. destruct MODE as [G|NP]; [congruence|]. destruct (ends_exist s p I P) as (t & q & E).
    destruct (ends_to s p' t I) as (q' & E'); [apply E|exact P'|destruct E as (_ & _ & _ & _ & E & _); congruence|].
    apply ends_link in E, E'. rewrite (NP _ _ _ _ _ _ E E'). lia.
  Qed.

  Lemma not_best : forall s p, In s f -> In p (all s) -> ~ best s p -> group = true.
  Proof.
    intros s p I P NB. destruct (bool_dec group true) as [G|G]; [exact G|]. exfalso. apply NB. apply best_alone; [|exact I|exact P].
    destruct group; congruence.
  Qed.

  Lemma drop_arrival : forall s p, In s f -> In p (all s) -> group = true -> is_pruned (rl s) p = true -> gives [(sn_name s, Some (sp_no p))] (fun _ => False).
  Proof.
    intros s p I P G PR. exists [], 1%nat. split; [|split; [constructor|intros x; split; intros []]].
    apply (bigs_cons refl group f (sn_name s, Some (sp_no p)) [] [] [] [] O [] O); [|constructor|constructor].
    unfold handle. cbn [fst snd]. rewrite (proj2 (node_spec f root AG (sn_name s) s) (conj I eq_refl)).
    apply upin in P as [P _]. rewrite (proj2 (sport_spec f root AG s (sp_no p) p I) (conj P eq_refl)).
    unfold dropped. rewrite G, PR. reflexivity.
  Qed.
  Lemma handle_port : forall s p, In s f -> In p (sn_ports s) -> group = false \/ is_pruned (rl s) p = false ->
    handle refl group f (sn_name s, Some (sp_no p)) =
    (flat_map (local s) (flood_actions refl s (rl s) (Some p)), flat_map (forwarded s (Some p)) (flood_actions refl s (rl s) (Some p))).
  Proof.
    intros s p I P H. unfold handle. cbn [fst snd]. rewrite (proj2 (node_spec f root AG (sn_name s) s) (conj I eq_refl)).
    rewrite (proj2 (sport_spec f root AG s (sp_no p) p I) (conj P eq_refl)). unfold dropped.
    replace (group && is_pruned (rl s) p) with false; [reflexivity|]. destruct H as [-> | ->]; [reflexivity|rewrite andb_false_r; reflexivity].
  Qed.
  Lemma handle_host : forall s, In s f -> handle refl group f (sn_name s, None) =
    (flat_map (local s) (flood_actions refl s (rl s) None), flat_map (forwarded s None) (flood_actions refl s (rl s) None)).
  Proof.
    intros s I. unfold handle. cbn [fst snd]. rewrite (proj2 (node_spec f root AG (sn_name s) s) (conj I eq_refl)). reflexivity.
  Qed.

  (** What floods send. *)
  Definition kept (l : list sport) (inp : option sport) (exclude : list sport) : list sport :=
    filter (fun p => negb (match inp with Some q => sp_no p =? sp_no q | None => false end) && negb (port_in p exclude)) l.
  Lemma flood_to_local : forall s l inp ex, flat_map (local s) (flood_to l inp ex) = [].
  Proof. intros s l inp ex. unfold flood_to. induction (filter _ l) as [|p k IH]; [reflexivity|]. cbn. exact IH. Qed.
  Lemma flood_to_sent : forall s l inp inp' ex, In s f -> (forall p, In p l -> In p (sn_ports s)) ->
    flat_map (forwarded s inp') (flood_to l inp ex) = map pkt (kept l inp ex).
  Proof.
    intros s l inp inp' ex I L. unfold flood_to, kept.
    assert (K : forall p, In p (filter (fun p => negb (match inp with Some q => sp_no p =? sp_no q | None => false end) && negb (port_in p ex)) l) -> In p (sn_ports s)).
    { intros p J. apply filter_In in J as [J _]. exact (L p J). }
    revert K. generalize (filter (fun p => negb (match inp with Some q => sp_no p =? sp_no q | None => false end) && negb (port_in p ex)) l).
    induction l0 as [|p k IH]; intros K; [reflexivity|]. cbn [map flat_map forwarded].
    rewrite (proj2 (sport_spec f root AG s (sp_no p) p I)) by (split; [apply K; left; reflexivity|reflexivity]). cbn [app]. f_equal.
    apply IH. intros q J. apply K. right. exact J.
  Qed.
  Definition excl (s : snode) (inp : option sport) : list sport :=
    ro_inactive (rl s) ++ match inp with Some q => filter (fun p => sp_dp p =? sp_dp q) (sn_ports s) | None => [] end.

  Lemma away_kept : forall s inp, In s f -> conn (sn_name s) -> (forall q, inp = Some q -> In q (sn_ports s)) ->
    forall p, In p (kept (ro_away (rl s)) inp (excl s inp)) <->
      In p (all s) /\ child (sp_dp p) (sn_name s) /\ (forall q, inp = Some q -> sp_dp p <> sp_dp q).
  Proof.
    intros s inp I C IQ p. unfold kept. rewrite filter_In, andb_true_iff, !negb_true_iff.
    assert (PE : In p (ro_away (rl s)) -> (port_in p (excl s inp) = false <-> child (sp_dp p) (sn_name s) /\ (forall q, inp = Some q -> sp_dp p <> sp_dp q))).
    { intros J. assert (JA := proj1 (proj1 (away_in f root AG s0 S0 s I C p) J)).
      assert (PI : port_in p (excl s inp) = true <-> In p (excl s inp)).
      { apply (port_in_spec f root AG s); [exact I|apply upin in JA; apply JA|]. intros q K. unfold excl in K. apply in_app_or in K as [K|K].
        - apply (inactive_in f root AG s0 S0 s I C) in K as [K _]. apply (away_in f root AG s0 S0 s I C) in K as [K _]. apply upin in K. apply K.
        - destruct inp; [|destruct K]. apply filter_In in K. apply K. }
      unfold excl in PI at 2. rewrite in_app_iff, (inactive_in f root AG s0 S0 s I C) in PI. split.
      - intros F. assert (N : ~ ((In p (ro_away (rl s)) /\ ~ child (sp_dp p) (sn_name s)) \/ In p match inp with Some q => filter (fun p => sp_dp p =? sp_dp q) (sn_ports s) | None => [] end)).
        { intros H. apply PI in H. congruence. }
        split.
        + destruct (in_dec Z.eq_dec (sn_name s) (path (sp_dp p))) as [H|H].
          * apply (child_of f root AG s0 S0); [|exact H]. apply adj_sym. apply upin in JA as [P U]. exact (up_adj f root AG s0 S0 s p I P U).
          * exfalso. apply N. left. split; [exact J|]. intros [_ CH]. apply H. rewrite CH. right. destruct (path_hd f root AG s0 S0 (sn_name s) C) as (l & ->). left. reflexivity.
        + intros q -> E. apply N. right. apply filter_In. split; [apply upin in JA; apply JA|]. apply Z.eqb_eq. exact E.
      - intros [CH D]. destruct (port_in p (excl s inp)); [|reflexivity]. exfalso. destruct (proj1 PI eq_refl) as [[_ K]|K]; [contradiction|].
        destruct inp as [q|]; [|destruct K]. apply filter_In in K as [_ K]. apply Z.eqb_eq in K. exact (D q eq_refl K). }
    split.
    - intros (J & _ & F). apply (PE J) in F as [CH D]. split; [|auto]. apply (away_in f root AG s0 S0 s I C) in J. apply J.
    - intros (P & CH & D). assert (J := child_away s p I P CH). split; [exact J|]. split; [|apply (PE J); auto].
      destruct inp as [q|]; [|reflexivity]. destruct (Z.eqb_spec (sp_no p) (sp_no q)) as [E|]; [|reflexivity]. exfalso.
      apply (D q eq_refl). f_equal. apply upin in P as [P _]. apply (same_no f root AG s); [assumption| |apply IQ; reflexivity|assumption]. exact P.
  Qed.

  (** One of several parallel links. *)
  Lemma gives_one : forall (l : list sport) (T : Z -> Prop) (sel : sport -> Prop), NoDup l ->
    (forall p, In p l -> sel p \/ ~ sel p) -> (forall p, In p l -> sel p -> gives [pkt p] T) -> (forall p, In p l -> ~ sel p -> gives [pkt p] (fun _ => False)) ->
    (forall p q, In p l -> In q l -> sel p -> sel q -> p = q) -> (forall x, T x -> exists p, In p l /\ sel p) -> gives (map pkt l) T.
  Proof.
    intros l T sel N DEC G NG U EX. eapply gives_ext; [|apply (gives_map refl group f pkt (fun p x => sel p /\ T x) l N)].
    - intros x. split; [intros (p & _ & _ & H); exact H|]. intros H. destruct (EX x H) as (p & J & S). exists p. auto.
    - intros p J. destruct (DEC p J) as [S|S]; (eapply gives_ext; [|eauto]); intros x; cbn beta; tauto.
    - intros p q x J K [S _] [S' _]. auto.
  Qed.

  (** Away from the root. *)
  Definition down_ok (c : Z) : Prop := forall t q, In t f -> sn_name t = c -> ro_chosen_port (rl t) = Some q -> gives [(c, Some (sp_no q))] (sub c).

  Lemma away_gives : forall s inp, In s f -> conn (sn_name s) -> (forall q, inp = Some q -> In q (sn_ports s)) ->
    (forall c, child c (sn_name s) -> down_ok c) ->
    gives (map pkt (kept (ro_away (rl s)) inp (excl s inp)))
      (fun x => exists c, child c (sn_name s) /\ (forall q, inp = Some q -> c <> sp_dp q) /\ sub c x).
  Proof.
    intros s inp I C IQ DN. assert (AK := away_kept s inp I C IQ).
    eapply gives_ext; [|apply (gives_map refl group f pkt (fun p x => best s p /\ sub (sp_dp p) x))].
    - intros x. split.
      + intros (p & J & B & SX). apply AK in J as (P & CH & D). exists (sp_dp p). auto.
      + intros (c & CH & D & SX). destruct (node_named c (child_conn root s0 _ _ CH)) as (t & It & Nt). subst c.
        assert (CT := child_conn root s0 _ _ CH). assert (SP := chosen_port_spec f root AG t It).
        destruct (ro_chosen_port (rl t)) as [q|] eqn:EQ.
        * destruct SP as [Q _]. apply (chosen_in f root AG s0 S0 t It CT) in Q as [Q CQ]. assert (W := child_parent f root AG s0 S0 _ _ _ CQ CH).
          destruct (ends_to t q s It I Q W) as (p & E). apply ends_sym in E. exists p. destruct (meet s p t q E CH) as [_ M].
          assert (DP : sp_dp p = sn_name t) by apply E. rewrite DP. split; [|split; [exact (M EQ)|exact SX]].
          apply AK. rewrite DP. split; [apply E|]. auto.
        * exfalso. destruct (adj_up f root AG s0 S0 t (sn_name s) It (child_adj f root AG s0 S0 _ _ CH)) as (q & Q & U & D').
          assert (K : In q (ro_chosen (rl t))) by (apply (chosen_in f root AG s0 S0 t It CT); split; [apply upin; auto|rewrite D'; exact CH]).
          rewrite SP in K. destruct K.
    - apply NoDup_filter. exact (away_nodup f root AG s I).
    - intros p J. apply AK in J as (P & CH & D). destruct (ends_exist s p I P) as (t & q & E). assert (E' := E).
      destruct E' as (_ & It & _ & Q & E1 & E2 & E3 & E4). rewrite E1 in CH. assert (M := meet s p t q E CH). unfold pkt. rewrite E1, E2.
      destruct (is_pruned (rl t) q) eqn:PR.
      + assert (NB : ~ best s p).
        { intros B. apply M in B. apply (pruned_up t q It Q) in B; [congruence|]. rewrite E3. exact CH. }
        eapply gives_ext; [|apply (drop_arrival t q It Q)]; [intros x; cbn beta; tauto| |exact PR].
        exact (not_best s p I P NB).
      + assert (B : best s p) by (apply M; apply (pruned_up t q It Q); [rewrite E3; exact CH|exact PR]).
        eapply gives_ext; [|apply (DN (sn_name t) CH t q It eq_refl (proj1 M B))]. intros x. cbn beta. tauto.
    - intros p p' x J J' [B SX] [B' SX']. apply AK in J as (P & CH & _), J' as (P' & CH' & _).
      assert (D := sub_disjoint f root AG s0 S0 _ _ _ x CH CH' SX SX').
      apply (peers_differ f root AG s I); [exact P|exact P'|exact D|]. assert (L1 := B p' P' (eq_sym D)). assert (L2 := B' p P D). lia.
  Qed.

  (** Towards the root. *)
  Lemma chosen_gives : forall s q (T : Z -> Prop) inp, In s f -> conn (sn_name s) ->
    ro_chosen_port (rl s) = Some q -> (forall p, inp = Some p -> In p (sn_ports s)) ->
    ((forall x, T x -> False) /\ inp = Some q \/ (forall p, inp = Some p -> ~ In p (ro_chosen (rl s))) /\ gives [pkt q] T) ->
    gives (map pkt (kept (ro_chosen (rl s)) inp [])) T.
  Proof.
    intros s q T inp I C SE IQ H. assert (SP := chosen_port_spec f root AG s I). rewrite SE in SP. destruct SP as [QI _].
    assert (PI : forall p, In p (ro_chosen (rl s)) -> In p (all s) /\ child (sn_name s) (sp_dp p)) by (intros p; apply (chosen_in f root AG s0 S0 s I C)).
    assert (KI : forall p, In p (kept (ro_chosen (rl s)) inp []) <-> In p (ro_chosen (rl s)) /\ inp <> Some p).
    { intros p. unfold kept. rewrite filter_In, andb_true_iff, !negb_true_iff. split.
      - intros (J & F & _). split; [exact J|]. intros ->. rewrite Z.eqb_refl in F. discriminate.
      - intros [J NE]. split; [exact J|]. split; [|reflexivity]. destruct inp as [a|]; [|reflexivity]. destruct (Z.eqb_spec (sp_no p) (sp_no a)) as [E|]; [|reflexivity].
        exfalso. apply NE. f_equal. symmetry. apply (same_no f root AG s); [exact I| |apply IQ; reflexivity|exact E]. apply PI in J as [J _]. apply upin in J. apply J. }
    apply (gives_one _ T (fun p => p = q)).
    - apply NoDup_filter. exact (chosen_nodup f root AG s I).
    - intros p _. destruct (sport_of s 0); destruct (Z.eq_dec (sp_no p) (sp_no q)) as [E|NE]; try (right; congruence).
      + destruct (in_dec Z.eq_dec (sp_no p) (map sp_no (ro_chosen (rl s)))) as [K|K].
        * destruct p as [a b c d e], q as [a' b' c' d' e'].
          destruct (Z.eq_dec a a') as [->|]; [|right; congruence]. destruct (Z.eq_dec b b') as [->|]; [|right; congruence].
          destruct (Z.eq_dec c c') as [->|]; [|right; congruence]. destruct (bool_dec d d') as [->|]; [|right; congruence]. destruct (bool_dec e e') as [->|]; [left; reflexivity|right; congruence].
        * right. intros ->. apply K. apply in_map. exact QI.
      + destruct (in_dec Z.eq_dec (sp_no p) (map sp_no (ro_chosen (rl s)))) as [K|K].
        * destruct p as [a b c d e], q as [a' b' c' d' e'].
          destruct (Z.eq_dec a a') as [->|]; [|right; congruence]. destruct (Z.eq_dec b b') as [->|]; [|right; congruence].
          destruct (Z.eq_dec c c') as [->|]; [|right; congruence]. destruct (bool_dec d d') as [->|]; [|right; congruence]. destruct (bool_dec e e') as [->|]; [left; reflexivity|right; congruence].
        * right. intros ->. apply K. apply in_map. exact QI.
    - intros p J ->. apply KI in J as [J NE]. destruct H as [[_ ->]|[_ G]]; [contradiction|exact G].
    - intros p J NE. apply KI in J as [J _]. destruct (PI p J) as [P CH]. destruct (ends_exist s p I P) as (w & p' & E). assert (E' := E).
      destruct E' as (_ & Iw & _ & P' & E1 & E2 & E3 & E4). unfold pkt. rewrite E1, E2. rewrite E1 in CH.
      assert (NB : ~ best w p').
      { intros B. apply (meet w p' s p (ends_sym _ _ _ _ E) CH) in B. congruence. }
      apply (drop_arrival w p' Iw P').
      + exact (not_best w p' Iw P' NB).
      + destruct (is_pruned (rl w) p') eqn:PR; [reflexivity|]. exfalso. apply NB. apply (pruned_down w p' Iw P'); [rewrite E3; exact CH|exact PR].
    - intros p p' _ _ -> ->. reflexivity.
    - intros x TX. destruct H as [[F _]|[NI _]]; [destruct (F x TX)|]. exists q. split; [|reflexivity]. apply KI. split; [exact QI|].
      intros E. exact (NI q E QI).
  Qed.
  Lemma chosen_none : forall s inp, In s f -> sn_name s = root -> map pkt (kept (ro_chosen (rl s)) inp []) = [].
  Proof.
    intros s inp I E. unfold reset_peer_distances. rewrite (is_root_spec f root AG s I). rewrite (proj2 (Z.eqb_eq (sn_name s) root) E). reflexivity.
  Qed.
  Lemma away_ports_own : forall s, In s f -> conn (sn_name s) -> forall p, In p (ro_away (rl s)) -> In p (sn_ports s).
  Proof. intros s I C p J. apply (away_in f root AG s0 S0 s I C) in J as [J _]. apply upin in J. apply J. Qed.
  Lemma chosen_ports_own : forall s, In s f -> conn (sn_name s) -> forall p, In p (ro_chosen (rl s)) -> In p (sn_ports s).
  Proof. intros s I C p J. apply (chosen_in f root AG s0 S0 s I C) in J as [J _]. apply upin in J. apply J. Qed.

  (** What a switch sends, by what it floods to. *)
  Lemma sent_away : forall s inp inp', In s f -> conn (sn_name s) ->
    flat_map (forwarded s inp') (flood_to (ro_away (rl s)) inp (excl s inp)) = map pkt (kept (ro_away (rl s)) inp (excl s inp)).
  Proof. intros. apply flood_to_sent; [assumption|]. apply away_ports_own; assumption. Qed.
  Lemma sent_chosen : forall s inp inp', In s f -> conn (sn_name s) ->
    flat_map (forwarded s inp') (flood_to (ro_chosen (rl s)) inp []) = map pkt (kept (ro_chosen (rl s)) inp []).
  Proof. intros. apply flood_to_sent; [assumption|]. apply chosen_ports_own; assumption. Qed.

  Lemma acts_noreflection : refl = false -> forall s inp, flood_actions refl s (rl s) inp =
    flood_to (ro_chosen (rl s)) inp [] ++ flood_to (ro_away (rl s)) inp (excl s inp) ++ [Local].
  Proof. intros -> s inp. reflexivity. Qed.

  Lemma path_bound : forall x, conn x -> (length (path x) <= length (g_nodes (sn_graph s0)))%nat.
  Proof.
    intros x C. apply NoDup_incl_length.
    - apply (StackProofs.chosen_nodup (sn_graph s0) x root). exact (path_chosen f root AG s0 S0 x C).
    - intros z. apply (path_nodes (sn_graph s0) (graph_ok_of f root AG s0 S0) x root). exact (path_is f root AG s0 S0 x C).
  Qed.

  (** A packet from the parent reaches the subtree. *)
  Lemma down : forall n c, (length (g_nodes (sn_graph s0)) - length (path c) < n)%nat -> conn c -> c <> root -> down_ok c.
  Proof.
    induction n as [|n IH]; intros c LN C NR; [lia|]. intros s q I E SE. subst c.
    assert (SP := chosen_port_spec f root AG s I). rewrite SE in SP. destruct SP as [QC _]. assert (QC' := QC).
    apply (chosen_in f root AG s0 S0 s I C) in QC as [Q CH]. assert (QP : In q (sn_ports s)) by (apply upin in Q; apply Q).
    assert (NPR : is_pruned (rl s) q = false) by (apply (pruned_up s q I Q CH); exact SE).
    assert (IQ : forall p, Some q = Some p -> In p (sn_ports s)) by (intros p [= <-]; exact QP).
    assert (DN : forall c, child c (sn_name s) -> down_ok c).
    { intros c CC. apply IH; [|exact (child_conn root s0 _ _ CC)|exact (child_root f root AG s0 S0 _ _ CC)].
      assert (D := child_dist root s0 _ _ CC). assert (B := path_bound c (child_conn root s0 _ _ CC)). lia. }
    assert (AW := away_gives s (Some q) I C IQ DN).
    assert (NCQ : forall c, child c (sn_name s) -> c <> sp_dp q).
    { intros c CC ->. assert (D1 := child_dist root s0 _ _ CC). assert (D2 := child_dist root s0 _ _ CH). lia. }
    assert (EX : forall x, In x [sn_name s] \/ (exists c, child c (sn_name s) /\ (forall p, Some q = Some p -> c <> sp_dp p) /\ sub c x) <-> sub (sn_name s) x).
    { intros x. rewrite (sub_child f root AG s0 S0 (sn_name s) x C). split.
      - intros [[<-|[]]|(c & CC & _ & SX)]; [left; reflexivity|right; exists c; auto].
      - intros [->|(c & CC & SX)]; [left; left; reflexivity|right; exists c; split; [exact CC|]; split; [intros p [= <-]; exact (NCQ c CC)|exact SX]]. }
    assert (DJ : forall x, In x [sn_name s] -> (exists c, child c (sn_name s) /\ (forall p, Some q = Some p -> c <> sp_dp p) /\ sub c x) -> False).
    { intros x [<-|[]] (c & CC & _ & SX). exact (sub_not_up f root AG s0 S0 c _ CC SX). }
    assert (HH := handle_port s q I QP (or_intror NPR)).
    assert (ACT : exists outs, handle refl group f (sn_name s, Some (sp_no q)) = ([sn_name s], outs) /\
                    gives outs (fun x => exists c, child c (sn_name s) /\ (forall p, Some q = Some p -> c <> sp_dp p) /\ sub c x)).
    { rewrite HH. destruct refl eqn:R.
      - assert (A : flood_actions true s (rl s) (Some q) = flood_to (ro_away (rl s)) (Some q) (excl s (Some q)) ++ [Local]).
        { unfold flood_actions. rewrite (is_root_spec f root AG s I). rewrite (proj2 (Z.eqb_neq (sn_name s) root) NR).
          assert (T := is_towards_spec f root AG s0 S0 s I C q Q). assert (AA := is_away_spec f root AG s0 S0 s I C q Q).
          assert (D2 := child_dist root s0 _ _ CH). destruct (is_away (rl s) q); [exfalso; assert (H := proj1 AA eq_refl); lia|].
          destruct (is_towards (rl s) q); [reflexivity|]. exfalso. assert (H := proj2 T). discriminate H. lia. }
        rewrite A, !flat_map_app, flood_to_local, sent_away by assumption. cbn [flat_map local forwarded app]. rewrite app_nil_r.
        eexists. split; [reflexivity|]. rewrite <- R in AW. rewrite R in AW. exact AW.
      - assert (A := acts_noreflection R s (Some q)). rewrite R in A.
        rewrite A, !flat_map_app, !flood_to_local, sent_away, sent_chosen by assumption. cbn [flat_map local forwarded app]. rewrite app_nil_r.
        eexists. split; [reflexivity|].
        assert (CG := chosen_gives s q (fun _ => False) (Some q) I C SE IQ). rewrite R in CG.
        assert (CG' := CG (or_introl (conj (fun x (H : False) => H) eq_refl))). clear CG.
        eapply gives_ext; [|exact (gives_app false group f _ _ (fun _ => False) _ CG' AW (fun x H _ => H))].
        intros x. cbn beta. split; [intros [[]|H]; exact H|intros H; right; exact H]. }
    destruct ACT as (outs & HA & GO). eapply gives_ext; [exact EX|]. apply (gives_handle refl group f _ [sn_name s] outs); [exact HA|exact GO|repeat constructor; auto|exact DJ].
  Qed.
  Lemma all_down : forall s c, child c (sn_name s) -> down_ok c.
  Proof.
    intros s c CC. apply (down (S (length (g_nodes (sn_graph s0)))) c); [lia|exact (child_conn root s0 _ _ CC)|exact (child_root f root AG s0 S0 _ _ CC)].
  Qed.

  (** The far end of the chosen link. *)
  Lemma chosen_far : forall s q, In s f -> conn (sn_name s) -> ro_chosen_port (rl s) = Some q -> exists w p, ends w p s q /\ child (sn_name s) (sn_name w) /\ best w p /\ pkt q = (sn_name w, Some (sp_no p)).
  Proof.
    intros s q I C SE. assert (SP := chosen_port_spec f root AG s I). rewrite SE in SP. destruct SP as [QC _].
    apply (chosen_in f root AG s0 S0 s I C) in QC as [Q CH]. destruct (ends_exist s q I Q) as (w & p & E). exists w, p.
    assert (E' := E). destruct E' as (_ & Iw & _ & P & E1 & E2 & E3 & E4). rewrite E1 in CH. split; [apply ends_sym; exact E|]. split; [exact CH|].
    split; [apply (meet w p s q (ends_sym _ _ _ _ E) CH); exact SE|]. unfold pkt. rewrite E1, E2. reflexivity.
  Qed.
  Lemma not_chosen_child : forall s p, In s f -> conn (sn_name s) -> child (sp_dp p) (sn_name s) -> ~ In p (ro_chosen (rl s)).
  Proof.
    intros s p I C CH J. apply (chosen_in f root AG s0 S0 s I C) in J as [_ CH2].
    assert (D1 := child_dist root s0 _ _ CH). assert (D2 := child_dist root s0 _ _ CH2). lia.
  Qed.

  (** Without reflection: from a child, everywhere but to the child's subtree. *)
  Lemma up_plain : refl = false -> forall n s p, (length (path (sn_name s)) <= n)%nat -> In s f -> In p (all s) -> child (sp_dp p) (sn_name s) -> best s p ->
    gives [(sn_name s, Some (sp_no p))] (fun x => conn x /\ ~ sub (sp_dp p) x).
  Proof.
    intros R. induction n as [|n IH]; intros s p LN I P CH B; assert (C := proj1 CH); [assert (CL := conn_pos root s0 _ C); lia|].
    assert (PP : In p (sn_ports s)) by (apply upin in P; apply P).
    assert (IQ : forall q, Some p = Some q -> In q (sn_ports s)) by (intros q [= <-]; exact PP).
    assert (NPR := proj2 (pruned_down s p I P CH) B). assert (HH := handle_port s p I PP (or_intror NPR)).
    rewrite acts_noreflection, !flat_map_app, !flood_to_local, sent_away, sent_chosen in HH by assumption. cbn [flat_map local forwarded app] in HH. rewrite app_nil_r in HH.
    assert (AW := away_gives s (Some p) I C IQ (all_down s)).
    assert (CG : gives (map pkt (kept (ro_chosen (rl s)) (Some p) [])) (fun x => conn x /\ ~ sub (sn_name s) x)).
    { destruct (Z.eq_dec (sn_name s) root) as [E|NE].
      - rewrite (chosen_none s (Some p) I E). eapply gives_ext; [|apply gives_nil]. intros x. rewrite E.
        rewrite <- (sub_root f root AG s0 S0 x). tauto.
      - destruct (nonroot_chosen s I C NE) as (q & SE & Q & CQ). apply (chosen_gives s q); try assumption. right.
        split; [intros p' [= <-]; apply not_chosen_child; assumption|].
        destruct (chosen_far s q I C SE) as (w & p' & E & CW & BW & EP). rewrite EP. assert (D := child_dist root s0 _ _ CW).
        assert (DP : sp_dp p' = sn_name s) by apply E. rewrite <- DP. apply IH; [lia|apply E|apply E|rewrite DP; exact CW|exact BW]. }
    assert (GG := gives_app refl group f _ _ _ _ CG AW). cbv beta in GG.
    specialize (GG ltac:(intros x [_ NS] (c & CC & _ & SX); apply NS; exact (sub_up f root AG s0 S0 _ _ _ CC SX))).
    eapply gives_ext; [|apply (gives_handle refl group f _ [sn_name s] _ _ HH GG)].
    - intros x. cbn beta. split.
      + intros [[<-|[]]|[[CX NS]|(c & CC & NE & SX)]].
        * split; [exact C|exact (sub_not_up f root AG s0 S0 _ _ CH)].
        * split; [exact CX|]. intros SX. apply NS. exact (sub_up f root AG s0 S0 _ _ _ CH SX).
        * split; [exact (in_path_conn root s0 x c SX)|]. intros SX'. apply (NE p eq_refl). exact (sub_disjoint f root AG s0 S0 _ _ _ x CC CH SX SX').
      + intros [CX NS]. destruct (in_dec Z.eq_dec (sn_name s) (path x)) as [SX|SX]; [|right; left; split; assumption].
        apply (sub_child f root AG s0 S0 _ _ C) in SX as [->|(c & CC & SC)]; [left; left; reflexivity|]. right. right. exists c.
        split; [exact CC|]. split; [|exact SC]. intros q [= <-] ->. contradiction.
    - repeat constructor. auto.
    - intros x [<-|[]] [[_ NS]|(c & CC & _ & SX)]; [|exact (sub_not_up f root AG s0 S0 c _ CC SX)].
      apply NS. apply (sub_child f root AG s0 S0 _ _ C). left. reflexivity.
  Qed.

  (** With reflection: to the root and from there everywhere. *)
  Lemma up_reflected : refl = true -> forall n s p, (length (path (sn_name s)) <= n)%nat -> In s f -> In p (all s) -> child (sp_dp p) (sn_name s) -> best s p ->
    gives [(sn_name s, Some (sp_no p))] conn.
  Proof.
    intros R. induction n as [|n IH]; intros s p LN I P CH B; assert (C := proj1 CH); [assert (CL := conn_pos root s0 _ C); lia|].
    assert (PP : In p (sn_ports s)) by (apply upin in P; apply P).
    assert (IQ : forall q, Some p = Some q -> In q (sn_ports s)) by (intros q [= <-]; exact PP).
    assert (NPR := proj2 (pruned_down s p I P CH) B). assert (HH := handle_port s p I PP (or_intror NPR)).
    assert (IA : is_away (rl s) p = true) by (apply (is_away_spec f root AG s0 S0 s I C p P); assert (D := child_dist root s0 _ _ CH); lia).
    destruct (Z.eq_dec (sn_name s) root) as [E|NE].
    - assert (A : flood_actions refl s (rl s) (Some p) = flood_to (ro_away (rl s)) (Some p) (excl s (Some p)) ++ [Back] ++ [Local]).
      { rewrite R. unfold flood_actions. rewrite (is_root_spec f root AG s I), (proj2 (Z.eqb_eq _ _) E), IA. reflexivity. }
      rewrite A, !flat_map_app, !flood_to_local, sent_away in HH by assumption. cbn [flat_map local forwarded app] in HH.
      assert (AW := away_gives s (Some p) I C IQ (all_down s)).
      assert (BK : gives [pkt p] (sub (sp_dp p))).
      { destruct (ends_exist s p I P) as (t & q & EN). assert (E' := EN). destruct E' as (_ & It & _ & Q & E1 & E2 & E3 & E4).
        rewrite E1 in CH. assert (M := proj1 (meet s p t q EN CH) B). unfold pkt. rewrite E1, E2. exact (all_down s (sn_name t) CH t q It eq_refl M). }
      assert (GG := gives_app refl group f _ _ _ _ AW BK). cbv beta in GG.
      specialize (GG ltac:(intros x (c & CC & ND & SX) SX'; apply (ND p eq_refl); exact (sub_disjoint f root AG s0 S0 _ _ _ x CC CH SX SX'))).
      eapply gives_ext; [|apply (gives_handle refl group f _ [sn_name s] _ _ HH GG)].
      + intros x. cbn beta. assert (RS : conn x <-> sub (sn_name s) x) by (rewrite (sub_root f root AG s0 S0 x), E; reflexivity).
        rewrite RS, (sub_child f root AG s0 S0 _ x C). split.
        * intros [[<-|[]]|[(c & CC & _ & SX)|SX]]; [left; reflexivity|right; exists c; auto|right; exists (sp_dp p); auto].
        * intros [->|(c & CC & SX)]; [left; left; reflexivity|]. right. destruct (Z.eq_dec c (sp_dp p)) as [->|ND]; [right; exact SX|left].
          exists c. split; [exact CC|]. split; [intros q [= <-]; exact ND|exact SX].
      + repeat constructor. auto.
      + intros x [<-|[]] [(c & CC & _ & SX)|SX]; [exact (sub_not_up f root AG s0 S0 c _ CC SX)|exact (sub_not_up f root AG s0 S0 _ _ CH SX)].
    - assert (A : flood_actions refl s (rl s) (Some p) = flood_to (ro_chosen (rl s)) (Some p) []).
      { rewrite R. unfold flood_actions. rewrite (is_root_spec f root AG s I), (proj2 (Z.eqb_neq _ _) NE), IA. reflexivity. }
      rewrite A, flood_to_local, sent_chosen in HH by assumption.
      destruct (nonroot_chosen s I C NE) as (q & SE & Q & CQ).
      assert (CG : gives (map pkt (kept (ro_chosen (rl s)) (Some p) [])) conn).
      { apply (chosen_gives s q); try assumption. right. split; [intros p' [= <-]; apply not_chosen_child; assumption|].
        destruct (chosen_far s q I C SE) as (w & p' & EN & CW & BW & EP). rewrite EP. assert (D := child_dist root s0 _ _ CW).
        apply IH; [lia|apply EN|apply EN| |exact BW]. replace (sp_dp p') with (sn_name s); [exact CW|]. symmetry. apply EN. }
      eapply gives_ext; [|apply (gives_handle refl group f _ [] _ _ HH CG)]; [intros x; cbn; tauto|constructor|intros x []].
  Qed.

  Lemma host_gives : forall s, In s f -> conn (sn_name s) -> gives [(sn_name s, None)] conn.
  Proof.
    intros s I C. assert (HH := handle_host s I). assert (IQ : forall q, None = Some q -> In q (sn_ports s)) by discriminate.
    assert (AW := away_gives s None I C IQ (all_down s)).
    assert (AW' : gives (map pkt (kept (ro_away (rl s)) None (excl s None))) (fun x => exists c, child c (sn_name s) /\ sub c x)).
    { eapply gives_ext; [|exact AW]. intros x. split; intros (c & H); exists c; [tauto|]. split; [tauto|]. split; [discriminate|tauto]. }
    assert (TREE : forall x, In x [sn_name s] \/ (exists c, child c (sn_name s) /\ sub c x) <-> sub (sn_name s) x).
    { intros x. rewrite (sub_child f root AG s0 S0 _ x C). split; (intros [H|H]; [left|right; exact H]); [destruct H as [<-|[]]; reflexivity|left; auto]. }
    assert (DJ : forall x, In x [sn_name s] -> (exists c, child c (sn_name s) /\ sub c x) -> False).
    { intros x [<-|[]] (c & CC & SX). exact (sub_not_up f root AG s0 S0 c _ CC SX). }
    destruct refl eqn:R.
    - destruct (Z.eq_dec (sn_name s) root) as [E|NE].
      + assert (A : flood_actions true s (rl s) None = flood_to (ro_away (rl s)) None (excl s None) ++ [Local]).
        { unfold flood_actions. rewrite (is_root_spec f root AG s I), (proj2 (Z.eqb_eq _ _) E). reflexivity. }
        rewrite A, !flat_map_app, !flood_to_local, sent_away in HH by assumption. cbn [flat_map local forwarded app] in HH. rewrite app_nil_r in HH.
        eapply gives_ext; [|apply (gives_handle true group f _ [sn_name s] _ _ HH AW')]; [|repeat constructor; auto|exact DJ].
        intros x. cbn beta. rewrite TREE, E. symmetry. apply (sub_root f root AG s0 S0).
      + assert (A : flood_actions true s (rl s) None = flood_to (ro_chosen (rl s)) None []).
        { unfold flood_actions. rewrite (is_root_spec f root AG s I), (proj2 (Z.eqb_neq _ _) NE). reflexivity. }
        rewrite A, flood_to_local, sent_chosen in HH by assumption. destruct (nonroot_chosen s I C NE) as (q & SE & Q & CQ).
        eapply gives_ext; [|apply (gives_handle true group f _ [] _ conn HH)]; [intros x; cbn; tauto| |constructor|intros x []].
        assert (CG := chosen_gives s q conn None I C SE IQ). rewrite R in CG. apply CG. right. split; [discriminate|].
        destruct (chosen_far s q I C SE) as (w & p' & EN & CW & BW & EP). rewrite EP.
        assert (UP := up_reflected R (length (path (sn_name w))) w p' (le_n _)). rewrite R in UP. apply UP; [apply EN|apply EN| |exact BW].
        replace (sp_dp p') with (sn_name s); [exact CW|]. symmetry. apply EN.
    - assert (A := acts_noreflection R s None). rewrite R in A.
      rewrite A, !flat_map_app, !flood_to_local, sent_away, sent_chosen in HH by assumption. cbn [flat_map local forwarded app] in HH. rewrite app_nil_r in HH.
      assert (CG : StackFloodProofs.gives false group f (map pkt (kept (ro_chosen (rl s)) None [])) (fun x => conn x /\ ~ sub (sn_name s) x)).
      { destruct (Z.eq_dec (sn_name s) root) as [E|NE].
        - rewrite (chosen_none s None I E). eapply gives_ext; [|apply gives_nil]. intros x. rewrite E. rewrite <- (sub_root f root AG s0 S0 x). tauto.
        - destruct (nonroot_chosen s I C NE) as (q & SE & Q & CQ).
          assert (CG := chosen_gives s q (fun x => conn x /\ ~ sub (sn_name s) x) None I C SE IQ). rewrite R in CG. apply CG. right. split; [discriminate|].
          destruct (chosen_far s q I C SE) as (w & p' & EN & CW & BW & EP). rewrite EP.
          assert (DP : sp_dp p' = sn_name s) by apply EN. rewrite <- DP.
          assert (UP := up_plain R (length (path (sn_name w))) w p' (le_n _)). rewrite R in UP. apply UP; [apply EN|apply EN|rewrite DP; exact CW|exact BW]. }
      assert (GG := gives_app false group f _ _ _ _ CG AW'). cbv beta in GG.
      specialize (GG ltac:(intros x [_ NS] K; apply NS; apply TREE; right; exact K)).
      eapply gives_ext; [|apply (gives_handle false group f _ [sn_name s] _ _ HH GG)].
      + intros x. cbn beta. split.
        * intros [[<-|[]]|[[CX _]|(c & CC & SX)]]; [exact C|exact CX|exact (in_path_conn root s0 x c SX)].
        * intros CX. destruct (in_dec Z.eq_dec (sn_name s) (path x)) as [SX|SX]; [|right; left; split; assumption].
          apply TREE in SX as [SX|SX]; [left; exact SX|right; right; exact SX].
      + repeat constructor. auto.
      + intros x H [[_ NS]|K]; [|exact (DJ x H K)]. apply NS. apply TREE. left. exact H.
  Qed.
End Once.
