(** * Filters on stack ports: properties *)
From Coq Require Import List Bool ZArith Lia.
From Verif Require Import PyBase PyBaseProofs OpenFlow FloodRulesModel VipSpec PruneModel PruneSpec PruneProofs.
Import ListNotations.
Open Scope Z_scope.

(** Whatever changes the stack has gone through: on a stack port over which floods are not
    to come in, packets to everybody and to the known groups are dropped. *)
Theorem C97_pruned : forall cfg s h pk vid p st, begins cfg s pk -> wf_hist h -> last_state h vid st ->
  came_in cfg pk vid p -> to_group pk -> ~ floods_come_in st p ->
  does (pr_run cfg h s) (pr_class cfg) pk dropped.
Proof.
  intros cfg s h pk vid p st B W L C G N. apply (want_does cfg (proj1 B) s h pk vid p st); auto.
  unfold want. rewrite <- pruned_iff in N. apply not_false_is_true in N. rewrite N. reflexivity.
Qed.
Print Assumptions C97_pruned.

(** On the others, where hosts are not to be learned from broadcasts that have been to the
    root, they go to the flood table at once, without the source being looked at. *)
Theorem C97_only_flooded : forall cfg s h pk vid p st, begins cfg s pk -> wf_hist h -> last_state h vid st ->
  came_in cfg pk vid p -> to_group pk -> floods_come_in st p -> only_flooded cfg st p ->
  does (pr_run cfg h s) (pr_class cfg) pk [Goto (pr_flood cfg)].
Proof.
  intros cfg s h pk vid p st B W L C G N [R [NR E]]. apply (want_does cfg (proj1 B) s h pk vid p st); auto.
  unfold want. apply pruned_iff in N. rewrite N, NR, R. cbn [negb andb].
  assert (X : st_edge st || is_towards_root st p = true).
  { apply orb_true_iff. destruct E as [E|E]; [left; exact E|right].
    apply (mem_spec _ Z.eqb Z.eqb_eq). exact E. }
  rewrite X. reflexivity.
Qed.
Print Assumptions C97_only_flooded.

(** Other packets are treated as if none of these rules had ever been made: packets from
    other ports, or to no known group, or in VLANs never set up, and those from a port
    over which floods come in where the source is looked at. *)
Theorem C97_rest : forall cfg s h pk, begins cfg s pk -> wf_hist h -> wf_frame pk ->
  (forall vid p st, last_state h vid st -> came_in cfg pk vid p -> to_group pk ->
     floods_come_in st p /\ ~ only_flooded cfg st p) ->
  as_before cfg h s pk.
Proof.
  intros cfg s h pk [NA B] W [Wd Wv] H.
  assert (R := run_is cfg NA s h (fun f F Ft => conj (proj1 (B f F Ft)) (proj1 (proj2 (B f F Ft)))) W).
  assert (N : forall f, ours cfg h f -> matches pk (f_match f) = true -> False).
  { intros f O M. destruct (ours_match cfg h pk f W O M Wd Wv) as [vid [st [p [L [C [G X]]]]]].
    destruct (H vid p st L C G) as [F No]. apply No. unfold want in X.
    rewrite (proj2 (pruned_iff st p) F) in X.
    destruct (negb (st_root st) && pr_reflection cfg && (st_edge st || is_towards_root st p)) eqn:E; [|discriminate].
    apply andb_prop in E. destruct E as [E T]. apply andb_prop in E. destruct E as [E1 E2]. apply negb_true_iff in E1.
    split; [exact E2|]. split; [exact E1|]. apply orb_true_iff in T. destruct T as [T|T]; [left; exact T|right].
    apply (mem_spec _ Z.eqb Z.eqb_eq). exact T. }
  intros f. split.
  - intros [F [Ft [Fm Max]]]. apply R in F. destruct F as [F|F]; [|destruct (N f F Fm)].
    split; [exact F|]. split; [exact Ft|]. split; [exact Fm|].
    intros g G. apply Max. apply R. left. exact G.
  - intros [F [Ft [Fm Max]]]. split; [apply R; left; exact F|]. split; [exact Ft|]. split; [exact Fm|].
    intros g G Gt Gm. apply R in G. destruct G as [G|G]; [apply Max; assumption|destruct (N g G Gm)].
Qed.
Print Assumptions C97_rest.

(** A switch with three stack ports: two towards the root, of which one is chosen, and one
    away; VLANs 100 and 200 are set up, then the choice changes and VLAN 100 is set up anew. *)
Definition ex_prconf : prconf := mkPrconf [1; 2; 3] true 2 9 0x5adc15c0 true.
Definition ex_before : prstate := mkPrstate [1; 2] (Some 1) [3] [] false false.
Definition ex_after : prstate := mkPrstate [1; 2] (Some 2) [3] [] false false.
Definition ex_hist : list pr_event := [(100, true, ex_before); (200, false, ex_before); (100, true, ex_after)].
Definition ex_sw : switch := mkSwitch [mkFlow 2 0 [] 0 [Goto 3] 0 0 0] [] [].
Definition ex_bcast (p vid : Z) (dst : Z) : packet :=
  mkPacket p [(vid, 0)] (fun f => match f with EthDst => Some dst | _ => None end).

Example ex_prune : wf_hist ex_hist /\ (forall p vid d, begins ex_prconf ex_sw (ex_bcast p vid d)) /\
  last_state ex_hist 100 ex_after /\ last_state ex_hist 200 ex_before /\
  to_group (ex_bcast 1 100 0xffffffffffff) /\ came_in ex_prconf (ex_bcast 1 100 0xffffffffffff) 100 1 /\
  ~ floods_come_in ex_after 1 /\ floods_come_in ex_after 2 /\ only_flooded ex_prconf ex_after 2 /\
  floods_come_in ex_after 3 /\ ~ only_flooded ex_prconf ex_after 3.
Proof.
  split; [intros e [<-|[<-|[<-|[]]]]; cbn; lia|].
  split; [intros p vid d; split; [discriminate|]; intros f [<-|[]] _; cbn; lia|].
  split; [exists [(100, true, ex_before); (200, false, ex_before)], true, []; split; [reflexivity|intros e []]|].
  split; [exists [(100, true, ex_before)], false, [(100, true, ex_after)]; split; [reflexivity|intros e [<-|[]]; cbn; lia]|].
  split; [exists 0xffffffffffff; split; [reflexivity|]; split; [right; right; right; reflexivity|lia]|].
  split; [split; [left; reflexivity|]; split; [reflexivity|]; exists 0, []; reflexivity|].
  unfold floods_come_in, only_flooded. cbn. intuition discriminate || lia.
Qed.

(** The groups are those of four prefixes.  Packets to other groups (here that of
    precision time, 01:1b:19:00:00:00) are taken for unicast: they are not dropped on the
    ports over which floods are not to come in. *)
Definition ptp : packet := ex_bcast 1 100 0x011b19000000.
Theorem C97_other_groups_refuted :
  Z.testbit 0x011b19000000 40 = true /\ pk_hdr ptp EthDst = Some 0x011b19000000 /\
  came_in ex_prconf ptp 100 1 /\ last_state ex_hist 100 ex_after /\ ~ floods_come_in ex_after 1 /\
  as_before ex_prconf ex_hist ex_sw ptp /\ does (pr_run ex_prconf ex_hist ex_sw) 2 ptp [Goto 3].
Proof.
  assert (A : as_before ex_prconf ex_hist ex_sw ptp).
  { apply C97_rest; try (apply ex_prune).
    - split; [intros x E; injection E as <-; lia|intros v pcp r E; injection E as <- _ _; lia].
    - intros vid p st _ _ [x [E [G _]]]. exfalso. injection E as <-.
      change (0x011b19000000 / 2 ^ 24) with 0x011b19 in G. change (0x011b19000000 / 2 ^ 32) with 0x011b in G. lia. }
  split; [reflexivity|]. split; [reflexivity|].
  split; [split; [left; reflexivity|]; split; [reflexivity|]; exists 0, []; reflexivity|].
  split; [apply ex_prune|]. split; [apply ex_prune|]. split; [exact A|]. split.
  - exists (mkFlow 2 0 [] 0 [Goto 3] 0 0 0). apply A. split; [left; reflexivity|]. split; [reflexivity|]. split; [reflexivity|].
    intros g [<-|[]] _ _. cbn. lia.
  - intros f F. apply A in F. destruct F as [[<-|[]] _]. reflexivity.
Qed.
Print Assumptions C97_other_groups_refuted.
