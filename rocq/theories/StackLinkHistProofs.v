(** * Lemmas about histories of stack links *)
From Coq Require Import ZArith List Bool Lia.
From Verif Require Import PyBase PyBaseProofs StackModel StackSpec StackProofs StackLinkModel StackLinkSpec StackLinkProofs.
Import ListNotations.
Open Scope Z_scope.

(** ** Accepted configuration *)

Lemma nodup_confs : forall switches confs, proper switches confs -> NoDup confs.
Proof. intros switches confs (_ & N & _). eapply NoDup_map_inv; eauto. Qed.

Lemma two_there : forall A (P : A -> bool) l c, NoDup l -> In c l -> P c = true -> length (filter P l) = 2%nat ->
  exists d, In d l /\ P d = true /\ d <> c.
Proof.
  intros A P l c N I PC L.
  assert (NF : NoDup (filter P l)) by (apply NoDup_filter; auto).
  assert (IC : In c (filter P l)) by (apply filter_In; auto).
  destruct (filter P l) as [|x [|y [|z r]]] eqn:F; try discriminate L.
  inversion NF; subst. inversion H2; subst.
  assert (IX : In x l /\ P x = true) by (apply filter_In; rewrite F; left; auto).
  assert (IY : In y l /\ P y = true) by (apply filter_In; rewrite F; right; left; auto).
  destruct IC as [->|[->|[]]].
  - exists y. destruct IY. split; auto. split; auto. intros ->. apply H1. left; auto.
  - exists x. destruct IX. split; auto. split; auto. intros ->. apply H1. left; auto.
Qed.

Lemma accepted_both : forall switches confs root, accepted switches confs root -> both_ends confs.
Proof.
  intros switches confs root [P T] c I. unfold topology_accepted in T. apply andb_prop in T as [T _].
  rewrite forallb_forall in T. specialize (T c I). apply Nat.eqb_eq in T. unfold edge_count in T.
  destruct (two_there _ (fun d => edge_eqb (conf_edge c) (conf_edge d)) confs c) as (d & D & E & N); auto.
  - eapply nodup_confs; eauto.
  - apply edge_eqb_spec; auto.
  - apply edge_eqb_spec in E. apply canonical_edge_inj in E as [[E _]|[E1 E2]].
    + exfalso. apply N. symmetry. eapply conf_unique; eauto.
    + split; [|exists d; auto]. intros X. apply N. eapply conf_unique; eauto. congruence.
Qed.

(** ** The topology when configuration is loaded *)

Lemma add_confs : forall l g,
  let g' := fold_left (fun g c => modify_topology g (lc_at c) (lc_to c) true) l g in
  (NoDup (g_nodes g) -> NoDup (g_nodes g')) /\
  (forall x, In x (g_nodes g') <-> In x (g_nodes g) \/ exists c, In c l /\ (x = fst (lc_at c) \/ x = fst (lc_to c))) /\
  (forall e, In e (g_edges g') <-> In e (g_edges g) \/ exists c, In c l /\ e = conf_edge c).
Proof.
  induction l as [|c l IH]; intros g.
  - cbn. split; auto. split; intros; split; auto; intros [H|(c & [] & _)]; auto.
  - cbn [fold_left]. destruct (IH (modify_topology g (lc_at c) (lc_to c) true)) as (A & B & C).
    split; [intros H; apply A, topo_nodup, H|]. split.
    + intros x. rewrite B, topo_nodes. split.
      * intros [[H|[_ H]]|(d & D & H)]; eauto; right; [exists c|exists d]; cbn; auto.
      * intros [H|(d & [->|D] & H)]; eauto.
    + intros e. rewrite C, topo_edges. split.
      * intros [[H|H]|(d & D & H)]; eauto; right; [exists c|exists d]; cbn; auto.
      * intros [H|(d & [->|D] & H)]; eauto.
Qed.

Lemma add_switches : forall confs (l : list (Z * Z)) g,
  let g' := fold_left (fun g (sw : Z * Z) =>
      fold_left (fun g c => modify_topology g (lc_at c) (lc_to c) true)
        (filter (fun c => fst (lc_at c) =? fst sw) confs)
        (mkGraph (add_node (fst sw) (g_nodes g)) (g_edges g))) l g in
  (NoDup (g_nodes g) -> NoDup (g_nodes g')) /\
  (forall x, In x (g_nodes g') <-> In x (g_nodes g) \/ In x (map fst l) \/
     exists c, In c confs /\ In (fst (lc_at c)) (map fst l) /\ (x = fst (lc_at c) \/ x = fst (lc_to c))) /\
  (forall e, In e (g_edges g') <-> In e (g_edges g) \/ exists c, In c confs /\ In (fst (lc_at c)) (map fst l) /\ e = conf_edge c).
Proof.
  intros confs. induction l as [|sw l IH]; intros g.
  - cbn. split; auto. split; intros; split; auto; [intros [H|[[]|(c & _ & [] & _)]]; auto|intros [H|(c & _ & [] & _)]; auto].
  - cbn [fold_left map In].
    destruct (add_confs (filter (fun c => fst (lc_at c) =? fst sw) confs) (mkGraph (add_node (fst sw) (g_nodes g)) (g_edges g))) as (A & B & C).
    cbn [g_nodes g_edges] in *.
    set (g1 := fold_left _ (filter _ confs) _) in *.
    destruct (IH g1) as (A' & B' & C'). split; [intros H; apply A', A, add_node_nodup, H|].
    assert (F : forall c, In c (filter (fun c => fst (lc_at c) =? fst sw) confs) <-> In c confs /\ fst sw = fst (lc_at c)).
    { intros c. rewrite filter_In, Z.eqb_eq. intuition. }
    split.
    + intros x. rewrite B', B, add_node_in. split.
      * intros [[[H|H]|(c & I & H)]|[H|(c & I & J & H)]]; auto.
        -- apply F in I as [I E]. right; right. exists c. auto.
        -- right; right. exists c. auto.
      * intros [H|[[H|H]|(c & I & [J|J] & H)]]; auto.
        -- left. right. exists c. rewrite F. auto.
        -- right. right. exists c. auto.
    + intros e. rewrite C', C. split.
      * intros [[H|(c & I & H)]|(c & I & J & H)]; auto.
        -- apply F in I as [I E]. right. exists c. auto.
        -- right. exists c. auto.
      * intros [H|(c & I & [J|J] & H)]; auto.
        -- left. right. exists c. rewrite F. auto.
        -- right. exists c. auto.
Qed.

Section Hist.
Variables (switches : list (Z * Z)) (confs : list lconf).
Hypothesis PR : proper switches confs.
Hypothesis BE : both_ends confs.

Lemma full_good : good switches confs (full_graph switches confs) (fun _ => SNone).
Proof.
  destruct (add_switches confs switches (mkGraph [] [])) as (A & B & C). fold (full_graph switches confs) in *.
  cbn [g_nodes g_edges] in *. destruct PR as (_ & _ & PS). constructor.
  - apply A. constructor.
  - intros x. rewrite B. split; [|auto]. intros [[]|[H|(c & I & J & [-> | ->])]]; auto.
    destruct (BE c I) as (_ & d & D & E & _). rewrite <- E. apply PS; auto.
  - intros e E. apply C in E as [[]|(c & I & _ & E)]. eauto.
  - intros; discriminate.
  - intros c I _ _ N. exfalso. apply N. auto.
Qed.

Lemma linit_net : linit switches confs = net_of switches confs (full_graph switches confs) (fun _ => SNone) (fun _ => None).
Proof. reflexivity. Qed.

Definition probe_hist (es : list levent) (c : lconf) : option (Z * bool) :=
  fold_left (fun old e => probes switches e c old) es None.

Lemma history : forall es, exists g st pr,
  lrun es (linit switches confs) = net_of switches confs g st pr /\ good switches confs g st /\
  (forall c, In c confs -> pr (lc_at c) = probe_hist es c) /\
  (forall c, In c confs -> probe_hist es c = None -> st (lc_at c) = SNone \/ st (lc_at c) = SInit).
Proof.
  induction es as [|e es IH] using rev_ind.
  - exists (full_graph switches confs), (fun _ => SNone), (fun _ => None).
    split; [reflexivity|]. split; [apply full_good|]. split; auto.
  - destruct IH as (g & st & pr & E & G & P & Q). unfold lrun in *. rewrite fold_left_app, E. cbn [fold_left].
    destruct (event_step switches confs PR BE e g st pr G) as (g' & st' & pr' & E' & G' & S).
    exists g', st', pr'. split; [exact E'|]. split; auto.
    assert (PH : forall c, probe_hist (es ++ [e]) c = probes switches e c (probe_hist es c)).
    { intros c. unfold probe_hist. rewrite fold_left_app. reflexivity. }
    split.
    + intros c I. destruct (S c I) as [S1 _]. rewrite S1, PH, (P c I). reflexivity.
    + intros c I N. destruct (S c I) as [S1 S2]. rewrite PH in N.
      assert (NO : probe_hist es c = None).
      { unfold probes in N. destruct e; [destruct (endpoint_eqb (lc_at c) at_); [discriminate N|]|]; auto. }
      rewrite S2, S1, (P c I), N. destruct (looks e c); auto.
      destruct (Q c I NO) as [-> | ->]; cbn; auto.
Qed.

(** The state after a port was looked at. *)
Lemma history_looked : forall es e c now, In c confs -> looks e c = Some now ->
  exists g st pr, lrun (es ++ [e]) (linit switches confs) = net_of switches confs g st pr /\
    st (lc_at c) = match probe_hist (es ++ [e]) c with
                   | None => SInit
                   | Some (t, ok) => if now - t <? lc_lost c * lc_interval c then (if ok then SUp else SBad) else SGone
                   end.
Proof.
  intros es e c now I L. destruct (history es) as (g & st & pr & E & G & P & Q).
  unfold lrun in *. rewrite fold_left_app, E. cbn [fold_left].
  destruct (event_step switches confs PR BE e g st pr G) as (g' & st' & pr' & E' & G' & S).
  exists g', st', pr'. split; [exact E'|]. destruct (S c I) as [S1 S2]. rewrite S2, L, S1, (P c I).
  assert (PH : probe_hist (es ++ [e]) c = probes switches e c (probe_hist es c)) by (unfold probe_hist; rewrite fold_left_app; reflexivity).
  rewrite <- PH. unfold next. destruct (probe_hist (es ++ [e]) c) as [[t ok]|] eqn:H; [reflexivity|].
  assert (NO : probe_hist es c = None).
  { unfold probes in PH. destruct e as [a0 n0 i0 x0 y0|d0 n0]; auto. destruct (endpoint_eqb (lc_at c) a0); [discriminate PH|auto]. }
  destruct (Q c I NO) as [-> | ->]; reflexivity.
Qed.

Lemma probe_at_event : forall c e t ok, probe_at switches c e t ok ->
  exists b, (b = true <-> ok) /\ forall old, probes switches e c old = Some (t, b).
Proof.
  intros c e t ok (i & x & y & -> & O). exists (correct switches c i x y). split.
  - rewrite O. apply (correct_spec switches confs PR).
  - intros old. cbn. rewrite ep_refl. reflexivity.
Qed.
Lemma not_probe : forall c e old, (forall t o, ~ probe_at switches c e t o) -> probes switches e c old = old.
Proof.
  intros c e old N. destruct e as [a now i x y|dp now]; auto. cbn. destruct (endpoint_eqb (lc_at c) a) eqn:E; auto.
  apply ep_eqb in E. subst a. exfalso.
  apply (N now (In (fst (lc_to c), i) switches /\ x = fst (lc_to c) /\ y = snd (lc_to c))). exists i, x, y. split; tauto.
Qed.

Lemma last_probe_hist : forall c es t ok, last_probe switches c es t ok ->
  exists b, (b = true <-> ok) /\ probe_hist es c = Some (t, b).
Proof.
  intros c es t ok (es1 & e & es2 & -> & P & N). destruct (probe_at_event c e t ok P) as (b & B & E).
  exists b. split; auto. unfold probe_hist. rewrite fold_left_app. cbn [fold_left]. rewrite E. clear - N.
  induction es2 as [|e2 es2 IH]; [reflexivity|]. cbn [fold_left]. rewrite not_probe.
  - apply IH. intros e' t0 o I. apply N. right; auto.
  - intros t0 o. apply N. left; auto.
Qed.
Lemma no_probe_hist : forall c es, no_probe c es -> probe_hist es c = None.
Proof.
  intros c es N. unfold probe_hist. induction es as [|e es IH] using rev_ind; [reflexivity|].
  rewrite fold_left_app, IH by (intros e0 I; apply N; apply in_or_app; auto). cbn [fold_left]. apply not_probe.
  intros t o (i & x & y & E & _). apply (N e) with (now := t) (i := i) (x := x) (y := y); auto.
  apply in_or_app. right; left; auto.
Qed.

Lemma looked_looks : forall c e now, looked_at c e now -> looks e c = Some now.
Proof.
  intros c e now [->|(i & x & y & ->)]; cbn.
  - rewrite Z.eqb_refl. reflexivity.
  - rewrite ep_refl. reflexivity.
Qed.

Lemma state_net : forall g st pr c s, In c confs ->
  (in_state (net_of switches confs g st pr) (lc_at c) s <-> st (lc_at c) = s).
Proof.
  intros g st pr c s I. unfold in_state, net_of. cbn [nt_ports]. split.
  - intros (p & J & A & <-). apply in_map_iff in J as (d & <- & J). cbn in *. congruence.
  - intros <-. exists (port_of st pr c). split; [apply in_map; auto|]. split; reflexivity.
Qed.

(** ** The stack of switches that agree *)

Lemma link_in : forall g c, In (conf_edge c) (g_edges g) -> linked g (fst (lc_at c)) (fst (lc_to c)).
Proof.
  intros g c H. unfold linked, conf_edge in *. exists (snd (lc_at c)), (snd (lc_to c)).
  rewrite <- !surjective_pairing.
  destruct (canonical_edge_cases (lc_at c) (lc_to c)) as [E|E]; rewrite E in H; auto.
Qed.

Lemma has_conf : forall g st c, good switches confs g st -> In c confs -> (has_link g (lc_at c) (lc_to c) <-> In (conf_edge c) (g_edges g)).
Proof.
  intros g st c G I. unfold has_link, conf_edge. split.
  - intros H. assert (X : exists d, In d confs /\ (((lc_at c, lc_to c) = conf_edge d /\ In (lc_at c, lc_to c) (g_edges g)) \/ ((lc_to c, lc_at c) = conf_edge d /\ In (lc_to c, lc_at c) (g_edges g)))).
    { destruct H as [H|H]; destruct (go_edges _ _ _ _ G _ H) as (d & D & E); exists d; auto. }
    destruct X as (d & D & X).
    assert (Y : canonical_edge (lc_at c) (lc_to c) = conf_edge d).
    { unfold conf_edge in *. destruct X as [[E _]|[E _]]; destruct (canonical_edge_cases (lc_at d) (lc_to d)) as [F|F]; rewrite F in E; injection E as -> ->; auto;
        rewrite canonical_edge_sym; auto. }
    rewrite Y. destruct X as [[<- X]|[<- X]]; auto.
  - intros H. destruct (canonical_edge_cases (lc_at c) (lc_to c)) as [E|E]; rewrite E in H; auto.
Qed.

Lemma sport_in : forall g st pr root s p, In s (fabric_of (net_of switches confs g st pr) root) -> In p (sn_ports s) ->
  exists c, In c confs /\ fst (lc_at c) = sn_name s /\
    p = mkSport (snd (lc_at c)) (fst (lc_to c)) (snd (lc_to c)) (sstate_eqb (st (lc_at c)) SUp) (sstate_eqb (st (lc_at c)) SUp).
Proof.
  intros g st pr root s p S P. unfold fabric_of, net_of in S. cbn [nt_graphs nt_ports] in S.
  apply in_map_iff in S as ((x & g0) & <- & S). cbn [sn_ports sn_name fst] in *.
  apply in_map_iff in P as (q & <- & P). apply filter_In in P as [P X]. apply Z.eqb_eq in X.
  apply in_map_iff in P as (c & <- & P). exists c. cbn in *. auto.
Qed.
Definition the_port (st : pstate) (c : lconf) : sport :=
  mkSport (snd (lc_at c)) (fst (lc_to c)) (snd (lc_to c)) (sstate_eqb (st (lc_at c)) SUp) (sstate_eqb (st (lc_at c)) SUp).
Lemma port_there : forall g st pr root c, In c confs ->
  exists s, In s (fabric_of (net_of switches confs g st pr) root) /\ sn_name s = fst (lc_at c) /\ In (the_port st c) (sn_ports s).
Proof.
  intros g st pr root c I. destruct PR as (_ & _ & PS). pose proof (PS c I) as J.
  apply in_map_iff in J as (sw & E & J).
  exists (mkSnode (fst sw) (map (fun p => mkSport (snd (lp_at p)) (fst (lp_to p)) (snd (lp_to p)) (sstate_eqb (lp_state p) SUp) (sstate_eqb (lp_state p) SUp))
     (filter (fun p => fst (lp_at p) =? fst sw) (map (port_of st pr) confs))) root g).
  split; [|split; [exact E|]].
  - unfold fabric_of, net_of. cbn [nt_graphs nt_ports]. rewrite map_map. cbn [fst snd].
    apply in_map_iff. exists sw. split; auto.
  - cbn [sn_ports]. apply in_map_iff. exists (port_of st pr c). split; [reflexivity|].
    apply filter_In. split; [apply in_map; auto|]. apply Z.eqb_eq. symmetry. exact E.
Qed.

Lemma agreeing_net : forall g st pr root, good switches confs g st -> In root (map fst switches) ->
  settled (net_of switches confs g st pr) confs -> agreeing (fabric_of (net_of switches confs g st pr) root) root.
Proof.
  intros g st pr root G R S.
  set (f := fabric_of (net_of switches confs g st pr) root).
  assert (NM : names f = map fst switches).
  { unfold names, f, fabric_of, net_of. cbn [nt_graphs]. rewrite !map_map. reflexivity. }
  assert (GR : forall s, In s f -> sn_graph s = g /\ sn_root s = root).
  { intros s I. unfold f, fabric_of, net_of in I. cbn [nt_graphs] in I. apply in_map_iff in I as ((x & g0) & <- & I).
    apply in_map_iff in I as (sw & E & _). injection E as <- <-. auto. }
  assert (PN : forall c, In c confs -> exists d, In d confs /\ lc_at d = lc_to c /\ lc_to d = lc_at c) by (intros c I; apply BE; auto).
  assert (SET : forall c, In c confs -> (st (lc_at c) = SUp <-> st (lc_to c) = SUp) /\ st (lc_at c) <> SNone).
  { intros c I. destruct (S c I) as [S1 S2]. destruct (PN c I) as (d & D & DA & DT).
    rewrite <- DA in *. rewrite !state_net in S1 by auto. rewrite state_net in S2 by auto. auto. }
  assert (LU : forall c, In c confs -> st (lc_at c) = SUp -> exists d, In d confs /\ lc_at d = lc_to c /\ lc_to d = lc_at c /\
      link_up f (fst (lc_at c)) (the_port st c) (fst (lc_to c)) (the_port st d)).
  { intros c I U. destruct (PN c I) as (d & D & DA & DT). exists d. split; auto. split; auto. split; auto.
    destruct (port_there g st pr root c I) as (s & S1 & S2 & S3). destruct (port_there g st pr root d D) as (t & T1 & T2 & T3).
    exists s, t. unfold f. rewrite <- DA.
    assert (U2 : st (lc_at d) = SUp) by (rewrite DA; apply (SET c I); auto).
    split; [exact S1|]. split; [exact S2|]. split; [exact S3|]. split; [cbn; rewrite U; reflexivity|].
    split; [exact T1|]. split; [exact T2|]. split; [exact T3|]. split; [cbn; rewrite U2; reflexivity|].
    cbn [the_port sp_dp sp_peer sp_no]. rewrite DA, DT. auto. }
  assert (UPL : forall x p y q, link_up f x p y q -> linked g x y).
  { intros x p y q (s & t & A1 & A2 & A3 & A4 & A5 & A6 & A7 & A8 & A9 & A10 & A11 & A12).
    destruct (sport_in g st pr root s p A1 A3) as (c & C & CN & CP).
    subst p. cbn [sp_up sp_dp sp_peer] in *. apply sstate_eqb_spec in A4.
    destruct (LU c C A4) as (d & D & DA & DT & _).
    assert (In (conf_edge c) (g_edges g)).
    { apply (go_up _ _ _ _ G); auto. apply (SET c C); auto. }
    apply link_in in H. rewrite CN, A2, A9 in H. exact H. }
  constructor.
  - rewrite NM. apply PR.
  - intros s I. unfold f, fabric_of, net_of in I. cbn [nt_graphs nt_ports] in I. apply in_map_iff in I as ((x & g0) & <- & I).
    cbn [sn_ports fst]. rewrite map_map. cbn [sp_no].
    assert (N : NoDup (map lc_at confs)) by apply PR. clear - N.
    induction confs as [|c l IH]; [constructor|]. inversion N; subst. cbn [map filter].
    unfold port_of at 1. cbn [lp_at]. destruct (fst (lc_at c) =? x) eqn:E; [|auto].
    cbn [map]. constructor; [|auto]. intros J. apply in_map_iff in J as (p & E2 & J).
    apply filter_In in J as [J E3]. apply in_map_iff in J as (d & <- & J). cbn in *.
    apply H1. apply in_map_iff. exists d. split; auto. apply Z.eqb_eq in E, E3.
    rewrite (surjective_pairing (lc_at d)), (surjective_pairing (lc_at c)). congruence.
  - intros s I. apply GR; auto.
  - rewrite NM. auto.
  - intros s I. destruct (GR s I) as [-> _]. apply G.
  - intros s I x. destruct (GR s I) as [-> _]. rewrite NM. apply G.
  - intros s I x y. destruct (GR s I) as [-> _]. split.
    + intros (a & b & H).
      assert (X : exists c, In c confs /\ In (conf_edge c) (g_edges g) /\ fst (lc_at c) = x /\ fst (lc_to c) = y).
      { assert (Y : exists c, In c confs /\ In (conf_edge c) (g_edges g) /\ (conf_edge c = ((x, a), (y, b)) \/ conf_edge c = ((y, b), (x, a)))).
        { destruct H as [H|H]; destruct (go_edges _ _ _ _ G _ H) as (c & C & E); exists c; rewrite <- E; auto. }
        destruct Y as (c & C & E & Y). destruct (PN c C) as (d & D & DA & DT).
        assert (CD : conf_edge d = conf_edge c) by (unfold conf_edge; rewrite DA, DT; apply canonical_edge_sym).
        unfold conf_edge in Y. destruct (canonical_edge_cases (lc_at c) (lc_to c)) as [F|F]; rewrite F in Y;
          destruct Y as [Y|Y]; injection Y as Y1 Y2;
          [exists c|exists d|exists d|exists c]; rewrite ?CD, ?DA, ?DT, ?Y1, ?Y2; auto. }
      destruct X as (c & C & E & <- & <-).
      assert (U : st (lc_at c) = SUp).
      { destruct (st (lc_at c)) eqn:U; auto; exfalso; revert E;
          apply (go_down _ _ _ _ G c C); rewrite ?U; try discriminate;
          try (rewrite <- (proj1 (SET c C)), U; discriminate);
          destruct (SET c C) as [_ N]; rewrite U in N; intuition congruence. }
      destruct (LU c C U) as (d & _ & _ & _ & L). eauto.
    + intros (p & q & L). eauto.
  - intros s p I J U. destruct (sport_in g st pr root s p I J) as (c & C & CN & ->).
    cbn [sp_up sp_dp] in *. apply sstate_eqb_spec in U. destruct (LU c C U) as (d & _ & _ & _ & L).
    rewrite <- CN. exists (the_port st d). exact L.
Qed.
End Hist.

Lemma full_ok : forall switches confs, proper switches confs -> both_ends confs -> graph_ok (full_graph switches confs).
Proof.
  intros switches confs P BE. pose proof (full_good switches confs P BE) as G.
  constructor; [apply G|]. intros u v (c & d & H).
  destruct P as (_ & _ & PS).
  assert (X : exists k, In k confs /\ ((u = fst (lc_at k) /\ v = fst (lc_to k)) \/ (u = fst (lc_to k) /\ v = fst (lc_at k)))).
  { destruct H as [H|H]; destruct (go_edges _ _ _ _ G _ H) as (k & K & F); exists k; split; auto;
      unfold conf_edge in F; destruct (canonical_edge_cases (lc_at k) (lc_to k)) as [Y|Y]; rewrite Y in F;
      injection F as F1 F2; rewrite <- F1, <- F2; auto. }
  destruct X as (k & K & X). destruct (BE k K) as (_ & m & M & MA & _).
  rewrite !(go_nodes _ _ _ _ G). pose proof (PS k K). pose proof (PS m M) as Y. rewrite MA in Y.
  destruct X as [[-> ->]|[-> ->]]; auto.
Qed.

Lemma count_none : forall A (P : A -> bool) l, (forall k, In k l -> P k = false) -> length (filter P l) = 0%nat.
Proof.
  induction l as [|x l IH]; intros H; auto. cbn [filter]. rewrite (H x) by (left; auto). apply IH. intros k K. apply H. right; auto.
Qed.
Lemma count_one : forall A (P : A -> bool) l c, NoDup l -> In c l -> (forall k, In k l -> (P k = true <-> k = c)) ->
  length (filter P l) = 1%nat.
Proof.
  induction l as [|x l IH]; intros c N I H; [contradiction|]. inversion N; subst. cbn [filter].
  destruct (P x) eqn:E.
  - apply H in E; [|left; auto]. subst x. cbn [length]. f_equal. apply count_none. intros k K.
    destruct (P k) eqn:F; auto. apply H in F; [|right; auto]. congruence.
  - destruct I as [->|I].
    + assert (P c = true) by (apply H; [left|]; auto). congruence.
    + apply (IH c); auto. intros k K. apply H. right; auto.
Qed.
Lemma count_two : forall A (P : A -> bool) l c d, NoDup l -> In c l -> In d l -> c <> d ->
  (forall k, In k l -> (P k = true <-> k = c \/ k = d)) -> length (filter P l) = 2%nat.
Proof.
  induction l as [|x l IH]; intros c d N I J CD H; [contradiction|]. inversion N; subst. cbn [filter].
  destruct (P x) eqn:E.
  - cbn [length]. f_equal. assert (X := E). apply H in X; [|left; auto]. destruct X as [->| ->].
    + destruct J as [J|J]; [congruence|]. apply (count_one _ _ l d); auto. intros k K. rewrite (H k) by (right; auto).
      split; auto. intros [->|F]; auto. contradiction.
    + destruct I as [I|I]; [congruence|]. apply (count_one _ _ l c); auto. intros k K. rewrite (H k) by (right; auto).
      split; auto. intros [F| ->]; auto. contradiction.
  - assert (NX : x <> c /\ x <> d).
    { split; intros ->; [assert (P c = true)|assert (P d = true)]; try (apply H; [left|]; auto); congruence. }
    destruct I as [->|I]; [destruct NX; congruence|]. destruct J as [->|J]; [destruct NX; congruence|].
    apply (IH c d); auto. intros k K. apply H. right; auto.
Qed.

(** The root of accepted configuration is one of the datapaths. *)
Lemma accepted_root : forall switches confs root, accepted switches confs root -> switches <> [] -> In root (map fst switches).
Proof.
  intros switches confs root A NE. pose proof (accepted_both _ _ _ A) as BE. destruct A as [P T].
  unfold topology_accepted in T. apply andb_prop in T as [_ T]. rewrite forallb_forall in T.
  pose proof (full_good switches confs P BE) as G.
  destruct switches as [|sw l]; [congruence|].
  specialize (T (fst sw)). rewrite (go_nodes _ _ _ _ G) in T. specialize (T ltac:(left; auto)).
  destruct (shortest_path (full_graph (sw :: l) confs) (fst sw) root) as [|x r] eqn:E; [discriminate T|].
  assert (OK := full_ok (sw :: l) confs P BE).
  apply (shortest_path_chosen _ OK) in E; [|congruence]. destruct E as [E _].
  rewrite <- (go_nodes _ _ _ _ G). eapply path_nodes; eauto. eapply path_last; eauto.
Qed.
