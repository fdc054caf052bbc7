(** * Stack links: the properties *)
From Coq Require Import ZArith List Bool Lia.
From Verif Require Import PyBase PyBaseProofs StackModel StackSpec StackProofs StackLinkModel StackLinkSpec StackLinkProofs StackLinkHistProofs.
Import ListNotations.
Open Scope Z_scope.

(** ** C60: the state of a stack port *)

(** Whenever a port is looked at, after any history, its state says what has been
    heard there: nothing, nothing for too long, the wrong neighbour, or the right
    one. *)
Theorem C60_state : forall switches confs root es e c now,
  accepted switches confs root -> In c confs -> looked_at c e now ->
  let n := lrun (es ++ [e]) (linit switches confs) in
  (no_probe c (es ++ [e]) -> in_state n (lc_at c) SInit) /\
  (forall seen ok, last_probe switches c (es ++ [e]) seen ok ->
    (recent c seen now -> ok -> in_state n (lc_at c) SUp) /\
    (recent c seen now -> ~ ok -> in_state n (lc_at c) SBad) /\
    (~ recent c seen now -> in_state n (lc_at c) SGone)).
Proof.
  intros switches confs root es e c now A I L n.
  pose proof (accepted_both _ _ _ A) as BE. destruct A as [P _].
  destruct (history_looked switches confs P BE es e c now I (looked_looks c e now L)) as (g & st & pr & E & S).
  unfold n. rewrite E. rewrite !(state_net switches confs g st pr c) by auto. split.
  - intros N. rewrite (no_probe_hist switches c _ N) in S. exact S.
  - intros seen ok LP. destruct (last_probe_hist switches confs P c _ seen ok LP) as (b & B & H). rewrite H in S.
    rewrite !(state_net switches confs g st pr c) by auto. unfold recent.
    destruct (now - seen <? lc_lost c * lc_interval c) eqn:R; [apply Z.ltb_lt in R|apply Z.ltb_ge in R]; rewrite S.
    + split; [|split].
      * intros _ O. apply B in O. rewrite O. reflexivity.
      * intros _ O. destruct b; [exfalso; apply O, B; auto|reflexivity].
      * intros X. contradiction.
    + split; [|split]; try (intros; lia). reflexivity.
Qed.
Print Assumptions C60_state.

(** A port is in one state. *)
Theorem C60_one_state : forall switches confs root es c s s',
  accepted switches confs root -> In c confs ->
  in_state (lrun es (linit switches confs)) (lc_at c) s ->
  in_state (lrun es (linit switches confs)) (lc_at c) s' -> s = s'.
Proof.
  intros switches confs root es c s s' A I. pose proof (accepted_both _ _ _ A) as BE. destruct A as [P _].
  destruct (history switches confs P BE es) as (g & st & pr & E & _). rewrite E, !state_net by auto. congruence.
Qed.
Print Assumptions C60_one_state.

(** ** C61: the topology follows the links, and all switches have the same one *)

Theorem C61_same : forall switches confs root es x g y g',
  accepted switches confs root ->
  In (x, g) (nt_graphs (lrun es (linit switches confs))) ->
  In (y, g') (nt_graphs (lrun es (linit switches confs))) -> g = g'.
Proof.
  intros switches confs root es x g y g' A. pose proof (accepted_both _ _ _ A) as BE. destruct A as [P _].
  destruct (history switches confs P BE es) as (g0 & st & pr & E & _). rewrite E. unfold net_of. cbn [nt_graphs].
  intros H K. apply in_map_iff in H as (? & H & _). apply in_map_iff in K as (? & K & _). congruence.
Qed.
Print Assumptions C61_same.

(** A link that is up at both ends is in every switch's topology; one that is up at
    neither is not, from the first time one of its ends was looked at. *)
Theorem C61_links : forall switches confs root es x g c,
  accepted switches confs root -> In c confs ->
  let n := lrun es (linit switches confs) in
  In (x, g) (nt_graphs n) ->
  (in_state n (lc_at c) SUp -> in_state n (lc_to c) SUp -> has_link g (lc_at c) (lc_to c)) /\
  (~ in_state n (lc_at c) SUp -> ~ in_state n (lc_to c) SUp ->
   ~ (in_state n (lc_at c) SNone /\ in_state n (lc_to c) SNone) -> ~ has_link g (lc_at c) (lc_to c)).
Proof.
  intros switches confs root es x g c A I n. pose proof (accepted_both _ _ _ A) as BE. destruct A as [P _].
  destruct (history switches confs P BE es) as (g0 & st & pr & E & G & _). unfold n. rewrite E.
  intros X. unfold net_of in X at 1. cbn [nt_graphs] in X. apply in_map_iff in X as (sw & X & _). injection X as _ <-.
  destruct (BE c I) as (_ & d & D & DA & DT). rewrite <- DA.
  rewrite !state_net by auto. rewrite DA, (has_conf switches confs g0 st c G I). split.
  - apply (go_up _ _ _ _ G c I).
  - apply (go_down _ _ _ _ G c I).
Qed.
Print Assumptions C61_links.

(** The topology never has a link that is not configured, and always all switches. *)
Theorem C61_nodes : forall switches confs root es x g,
  accepted switches confs root -> In (x, g) (nt_graphs (lrun es (linit switches confs))) ->
  (forall y, In y (g_nodes g) <-> In y (map fst switches)) /\
  (forall a b, In (a, b) (g_edges g) -> exists c, In c confs /\ ((a = lc_at c /\ b = lc_to c) \/ (a = lc_to c /\ b = lc_at c))).
Proof.
  intros switches confs root es x g A. pose proof (accepted_both _ _ _ A) as BE. destruct A as [P _].
  destruct (history switches confs P BE es) as (g0 & st & pr & E & G & _). rewrite E.
  intros X. unfold net_of in X. cbn [nt_graphs] in X. apply in_map_iff in X as (sw & X & _). injection X as _ <-.
  split; [apply G|]. intros a b H. destruct (go_edges _ _ _ _ G _ H) as (c & C & F). exists c. split; auto.
  unfold conf_edge in F. destruct (canonical_edge_cases (lc_at c) (lc_to c)) as [Y|Y]; rewrite Y in F; injection F as -> ->; auto.
Qed.
Print Assumptions C61_nodes.

(** Once every link has been looked at and is up at both ends or at neither, the
    switches agree in the sense that shortest paths and flooding rely on (C28, C29,
    C58, C59). *)
Theorem C61_agreeing : forall switches confs root es,
  accepted switches confs root -> switches <> [] ->
  settled (lrun es (linit switches confs)) confs ->
  agreeing (fabric_of (lrun es (linit switches confs)) root) root.
Proof.
  intros switches confs root es A NE S. pose proof (accepted_both _ _ _ A) as BE.
  pose proof (accepted_root _ _ _ A NE) as R. destruct A as [P _].
  destruct (history switches confs P BE es) as (g & st & pr & E & G & _). rewrite E in *.
  apply agreeing_net; auto.
Qed.
Print Assumptions C61_agreeing.

(** ** C62: accepted configuration *)

(** Every link of an accepted configuration is configured from both ends, joins two
    different ports, and every switch can reach the root. *)
Theorem C62_accepted : forall switches confs root, accepted switches confs root ->
  both_ends confs /\
  forall x, In x (map fst switches) -> connected (full_graph switches confs) x root.
Proof.
  intros switches confs root A. pose proof (accepted_both _ _ _ A) as BE. split; [exact BE|].
  intros x X. pose proof (accepted_root _ _ _ A) as R. destruct A as [P T].
  unfold topology_accepted in T. apply andb_prop in T as [_ T]. rewrite forallb_forall in T.
  pose proof (full_good switches confs P BE) as G.
  specialize (T x (proj2 (go_nodes _ _ _ _ G x) X)).
  destruct (shortest_path (full_graph switches confs) x root) as [|y r] eqn:E; [discriminate T|].
  assert (OK := full_ok switches confs P BE).
  apply (shortest_path_chosen _ OK) in E; [|congruence]. destruct E as [E _]. exists (y :: r). exact E.
Qed.
Print Assumptions C62_accepted.

(** The other way round, such configuration is accepted. *)
Theorem C62_complete : forall switches confs root, proper switches confs -> both_ends confs ->
  (forall x, In x (map fst switches) -> connected (full_graph switches confs) x root) ->
  topology_accepted switches confs root = true.
Proof.
  intros switches confs root P BE C. unfold topology_accepted. apply andb_true_intro. split; apply forallb_forall.
  - intros c I. apply Nat.eqb_eq. unfold edge_count.
    destruct (BE c I) as (NE & d & D & DA & DT).
    assert (CD : c <> d) by (intros ->; apply NE; auto).
    apply (count_two _ _ confs c d); auto; [eapply nodup_confs; eauto|].
    intros k K. rewrite edge_eqb_spec. split.
    + intros E. apply canonical_edge_inj in E as [[E _]|[E1 E2]]; [left|right]; symmetry; eapply conf_unique; eauto; congruence.
    + intros [->| ->]; auto. unfold conf_edge. rewrite DA, DT. apply canonical_edge_sym.
  - intros x X. assert (OK := full_ok switches confs P BE). pose proof (full_good switches confs P BE) as G.
    apply (go_nodes _ _ _ _ G) in X. specialize (C x X).
    destruct (connected_path _ OK x root C) as (r & E). rewrite E. reflexivity.
Qed.
Print Assumptions C62_complete.

(** ** Cases *)

(** Three switches in a ring: 1:1-2:1, 2:2-3:1, 3:2-1:2, and a second link between 1
    and 2 that is cabled the wrong way. *)
Definition ex_switches : list (Z * Z) := [(1, 101); (2, 102); (3, 103)].
Definition ex_link (x p y q : Z) : list lconf := [mkLconf (x, p) (y, q) 3 5; mkLconf (y, q) (x, p) 3 5].
Definition ex_confs : list lconf := ex_link 1 1 2 1 ++ ex_link 2 2 3 1 ++ ex_link 3 2 1 2 ++ ex_link 1 3 2 3.
Example ex_accepted : accepted ex_switches ex_confs 1.
Proof.
  split; [|vm_compute; reflexivity]. split; [|split].
  - repeat (constructor; [cbn; intuition discriminate|]). constructor.
  - repeat (constructor; [cbn; intuition congruence|]). constructor.
  - intros c I. cbn in I. repeat (destruct I as [<-|I]; [cbn; auto|]). contradiction.
Qed.

(** Everything starts; probes come in, at one port from the wrong neighbour; the
    link between 3 and 1 falls silent. *)
Definition ex_events : list levent :=
  [LTick 1 0; LTick 2 0; LTick 3 0;
   LProbe (1, 1) 1 102 2 1; LProbe (2, 1) 1 101 1 1; LProbe (2, 2) 1 103 3 1; LProbe (3, 1) 1 102 2 2;
   LProbe (3, 2) 1 101 1 2; LProbe (1, 2) 1 103 3 2; LProbe (1, 3) 1 103 3 2; LTick 2 2;
   LProbe (1, 1) 10 102 2 1; LProbe (2, 1) 10 101 1 1; LProbe (2, 2) 10 103 3 1; LProbe (3, 1) 10 102 2 2;
   LTick 1 16; LTick 2 16; LTick 3 16].
Notation ex_net := (lrun ex_events (linit ex_switches ex_confs)).
Example ex_states : map (fun p => (lp_at p, lp_state p)) (nt_ports ex_net) =
  [((1, 1), SUp); ((2, 1), SUp); ((2, 2), SUp); ((3, 1), SUp); ((3, 2), SGone); ((1, 2), SGone); ((1, 3), SGone); ((2, 3), SInit)].
Proof. vm_compute. reflexivity. Qed.
Example ex_topology : map (fun xg => g_edges (snd xg)) (nt_graphs ex_net) =
  let g := [((1, 1), (2, 1)); ((2, 2), (3, 1))] in [g; g; g].
Proof. vm_compute. reflexivity. Qed.
Example ex_settled : settled ex_net ex_confs.
Proof.
  assert (S : forall a s, in_state ex_net a s <-> exists p, In p (nt_ports ex_net) /\ lp_at p = a /\ lp_state p = s) by reflexivity.
  intros c I. rewrite !S. clear S. assert (E := ex_states). revert E. generalize (nt_ports ex_net) as l. intros l E.
  assert (X : forall a s, (exists p, In p l /\ lp_at p = a /\ lp_state p = s) <-> In (a, s) (map (fun p => (lp_at p, lp_state p)) l)).
  { intros a s. rewrite in_map_iff. split; intros (p & A & B); exists p; [destruct B as [<- <-]; auto|]. injection A as <- <-. auto. }
  rewrite !X, E. clear X E.
  cbn in I. repeat (destruct I as [<-|I]; [cbn; intuition congruence|]). contradiction.
Qed.
Example ex_agreeing : agreeing (fabric_of ex_net 1) 1.
Proof.
  assert (NE : ex_switches <> []) by discriminate.
  exact (C61_agreeing ex_switches ex_confs 1 ex_events ex_accepted NE ex_settled).
Qed.

(** ** What does not hold *)

(** With a link that is up at one end only, the topology depends on the order of
    events, not on the states of the ports: here the same states are reached twice,
    with the link in the topology and without it.  (The other end is gone; whether
    the link counts is decided by which end changed last.) *)
Theorem C61_one_end_refuted : exists switches confs root es es' c x g g',
  accepted switches confs root /\ In c confs /\
  let n := lrun es (linit switches confs) in
  let n' := lrun es' (linit switches confs) in
  (forall a s, in_state n a s <-> in_state n' a s) /\
  In (x, g) (nt_graphs n) /\ In (x, g') (nt_graphs n') /\
  has_link g (lc_at c) (lc_to c) /\ ~ has_link g' (lc_at c) (lc_to c).
Proof.
  set (cs := ex_link 1 1 2 1). set (sw := [(1, 101); (2, 102)]).
  set (A := [LProbe (1, 1) 1 102 2 1; LProbe (2, 1) 1 101 1 1; LTick 1 20; LTick 2 20; LProbe (1, 1) 21 102 2 1]).
  set (B := [LProbe (1, 1) 1 102 2 1; LProbe (2, 1) 1 101 1 1; LProbe (1, 1) 14 102 2 1; LTick 2 20; LTick 1 20]).
  exists sw, cs, 1, A, B, (mkLconf (1, 1) (2, 1) 3 5), 1, (snd (hd (0, mkGraph [] []) (nt_graphs (lrun A (linit sw cs))))),
    (snd (hd (0, mkGraph [] []) (nt_graphs (lrun B (linit sw cs))))).
  split.
  { split; [|vm_compute; reflexivity]. split; [|split].
    - repeat (constructor; [cbn; intuition discriminate|]). constructor.
    - repeat (constructor; [cbn; intuition congruence|]). constructor.
    - intros c I. cbn in I. repeat (destruct I as [<-|I]; [cbn; auto|]). contradiction. }
  split; [left; reflexivity|]. cbv zeta. split.
  { assert (X : map (fun p => (lp_at p, lp_state p)) (nt_ports (lrun A (linit sw cs))) =
                map (fun p => (lp_at p, lp_state p)) (nt_ports (lrun B (linit sw cs)))) by (vm_compute; reflexivity).
    assert (Y : forall n a s, in_state n a s <-> In (a, s) (map (fun p => (lp_at p, lp_state p)) (nt_ports n))).
    { intros n a s. rewrite in_map_iff. split; intros (p & P1 & P2); exists p; [destruct P2 as [<- <-]; auto|]. injection P1 as <- <-. auto. }
    intros a s. rewrite !Y, X. reflexivity. }
  vm_compute. split; [auto|]. split; [auto|]. split; [auto|]. intros [[]|[]].
Qed.
Print Assumptions C61_one_end_refuted.
