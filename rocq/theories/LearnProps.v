(** * Property theorems about host learning (C13, C14, C15, C17, C18) *)

From Coq Require Import List Bool ZArith Lia.
From Verif Require Import PyBase PyBaseProofs HostCacheSpec HostCacheModel HostCacheProofs.
From Verif Require Import LearnModel LearnSpec LearnProofs.
Import ListNotations.
Open Scope Z_scope.

(** A configuration for the examples: timeout 300, guard 150, jitter 51 (the
    defaults of dp.py:391-394 for timeout 300); port 3 is permanent, port 5
    loop-protected; ports 1 and 3 allow one and two hosts. *)
Definition ex_cfg : lcfg := {|
  c_timeout := 300; c_guard := 150; c_jitter := 51; c_idle_dst := true; c_externals := false;
  c_perm := fun p => p =? 3; c_loop := fun p => p =? 5; c_lacp := fun _ => 0;
  c_pmax := fun p => if p =? 1 then 1 else 0;
  c_hairpin := fun _ => false; c_loop_ext := fun _ => false;
  c_pvlans := fun _ => [100; 200]; c_vmax := fun v => if v =? 200 then 2 else 0;
  c_hash := fun m => m |}.

(** No history of events makes the learning code raise. *)
Theorem C13_learning_never_raises : forall cfg evs,
  exists s, lrun cfg lstate_init evs = Some s.
Proof.
  intros cfg evs. destruct (lrun_ok cfg evs lstate_init linv_init) as (s & E & _). eauto.
Qed.
Print Assumptions C13_learning_never_raises.

(** C13 on one datapath: no history of packets, expiries, port and VLAN events
    makes the number of hosts learned on a VLAN exceed its limit. *)
Theorem C13_vlan_limit_partial : forall cfg evs s vid,
  Forall local_event evs ->
  lrun cfg lstate_init evs = Some s ->
  0 < c_vmax cfg vid ->
  hosts_count (s_cache s vid) <= c_vmax cfg vid.
Proof.
  intros cfg evs s vid Hl Hr Hm.
  apply (vlan_limit_run cfg evs lstate_init s vid linv_init Hl Hr Hm). cbn. lia.
Qed.
Print Assumptions C13_vlan_limit_partial.

(** The limits stop nothing else: an unknown host on a port and VLAN with room
    (and no loop ban) is learned there, and both its rules are installed. *)
Theorem C13_learns_when_room : forall cfg before s now vid p mac,
  lrun cfg lstate_init before = Some s ->
  unknown s vid mac -> c_loop cfg p = false ->
  (c_vmax cfg vid = 0 \/ hosts_count (s_cache s vid) < c_vmax cfg vid) ->
  (c_pmax cfg p = 0 \/ port_hosts_count cfg s p < c_pmax cfg p) ->
  exists (s' : lstate) (ms : list host_msg) (hard idle dst : Z),
    lstep cfg s (LPacket now vid p mac) = Some (s', ms) /\
    learned s' vid mac p now /\ In (MSrc vid p mac hard idle) ms /\ In (MDst vid p mac dst) ms.
Proof.
  intros cfg before s now vid p mac Hb Hu Hl Hv Hp.
  destruct (lrun_ok cfg before lstate_init linv_init) as (s0 & E & H).
  rewrite Hb in E. injection E as <-.
  assert (Eb : ban_rules cfg s vid p mac = []).
  { unfold ban_rules. rewrite Hu.
    destruct (negb (c_pmax cfg p =? 0) && (port_hosts_count cfg s p =? c_pmax cfg p)) eqn:E1.
    - apply andb_true_iff in E1 as [A B]. apply negb_true_iff, Z.eqb_neq in A. apply Z.eqb_eq in B. lia.
    - destruct (negb (c_vmax cfg vid =? 0) && (hosts_count (s_cache s vid) =? c_vmax cfg vid)) eqn:E2; [|reflexivity].
      apply andb_true_iff in E2 as [A B]. apply negb_true_iff, Z.eqb_neq in A. apply Z.eqb_eq in B. lia. }
  destruct (learn_host_ok cfg s now vid p mac H) as (s' & ms & E' & _ & _ & _ & G).
  assert (Ek : learn_host_on_vlan_ports cfg s now p vid mac =
               learn_check cfg vid mac p (delete_default s vid None) false).
  { unfold learn_host_on_vlan_ports. rewrite Hu. cbn [perm_learn_check ck_exit ck_delete ck_refresh learn_cache_check].
    unfold loop_protect_check. rewrite Hl. reflexivity. }
  exists s', ms, (snd (fst (learn_host_timeouts cfg p mac))), (fst (fst (learn_host_timeouts cfg p mac))),
    (snd (learn_host_timeouts cfg p mac)).
  split; [|split].
  - cbn [lstep]. unfold vlan_rcv_packet. rewrite Eb. exact E'.
  - unfold learned. rewrite G, Ek. cbn [learn_check ck_update]. rewrite !Z.eqb_refl. reflexivity.
  - assert (Em : ms = ck_msgs (learn_host_on_vlan_ports cfg s now p vid mac)).
    { unfold learn_host in E'. rewrite Ek in E' |- *. cbn [learn_check ck_ban ck_update ck_msgs] in E'.
      destruct (add_cache_host mac p now (s_cache s vid)); [|discriminate]. injection E' as _ <-. reflexivity. }
    rewrite Em, Ek. cbn [learn_check ck_msgs].
    destruct (learn_host_timeouts cfg p mac) as [[si sh] di]. cbn [fst snd]. unfold learn_flows.
    cbn [andb]. split; apply in_or_app; right.
    + apply in_or_app. left. left. reflexivity.
    + apply in_or_app. right. apply in_or_app. left. left. reflexivity.
Qed.
Print Assumptions C13_learns_when_room.

Example C13_case :
  let evs := [LPacket 10 200 2 11; LPacket 11 200 4 12; LPacket 12 200 2 13; LPacket 13 200 4 11] in
  Forall local_event evs /\ 0 < c_vmax ex_cfg 200 /\
  option_map (fun s => hosts_count (s_cache s 200)) (lrun ex_cfg lstate_init evs) = Some 2.
Proof. repeat split; repeat constructor. Qed.

(** What is missing from C13: in a stack, a datapath also learns hosts its
    neighbours saw (valve_switch_stack.py:546-561), without checking its own
    limit; its VLAN count then exceeds the limit, and since the limit is tested
    with [==], local packets are no longer limited either. *)
Theorem C13_stack_limit_refuted : exists cfg evs s vid,
  lrun cfg lstate_init evs = Some s /\ 0 < c_vmax cfg vid /\
  hosts_count (s_cache s vid) > c_vmax cfg vid + 1.
Proof.
  exists ex_cfg, [LPacket 10 200 2 11; LPacket 11 200 4 12; LStackLearn 12 200 6 13; LPacket 13 200 2 14].
  eexists; exists 200. split; [vm_compute; reflexivity|]. split; vm_compute; reflexivity.
Qed.
Print Assumptions C13_stack_limit_refuted.

(** C14 as far as it holds: while no host moves onto the port, the number of
    hosts learned on it, over all its VLANs, never exceeds its limit. *)
Theorem C14_port_limit_partial : forall cfg evs s p,
  0 < c_pmax cfg p -> NoDup (c_pvlans cfg p) ->
  no_moves_onto cfg p lstate_init evs ->
  lrun cfg lstate_init evs = Some s ->
  port_hosts_count cfg s p <= c_pmax cfg p.
Proof.
  intros cfg evs s p Hm Hn Hq Hr.
  apply (port_limit_run cfg p evs lstate_init s Hm Hn linv_init Hq Hr).
  unfold port_hosts_count. induction (c_pvlans cfg p) as [|v r IH]; simpl; [lia|].
  inversion Hn; subst. apply IH; auto.
Qed.
Print Assumptions C14_port_limit_partial.

Example C14_case :
  let evs := [LPacket 10 100 1 11; LPacket 11 200 1 12; LPacket 12 100 2 13; LPacket 400 100 1 11] in
  0 < c_pmax ex_cfg 1 /\ NoDup (c_pvlans ex_cfg 1) /\ no_moves_onto ex_cfg 1 lstate_init evs /\
  option_map (fun s => port_hosts_count ex_cfg s 1) (lrun ex_cfg lstate_init evs) = Some 1.
Proof.
  cbn zeta. split; [reflexivity|]. split.
  - repeat constructor; cbn; intuition discriminate.
  - split; [|vm_compute; reflexivity].
    vm_compute. repeat split; intros; try discriminate;
      match goal with H : Some _ = Some _ |- _ => injection H as <-; reflexivity end.
Qed.

(** Finding: the full C14 is false.  The limit is only tested for unknown hosts
    and only for equality ([ban_rules], 707-708), so after a single host moves
    onto a full port the limit no longer applies at all: for every number of
    hosts [n] there is a history that learns at least that many. *)
Fixpoint newcomers (n : nat) : list levent :=
  match n with
  | O => []
  | S k => newcomers k ++ [LPacket 20 100 1 (100 + Z.of_nat k)]
  end.

Lemma lrun_app : forall cfg a b s, lrun cfg s (a ++ b) =
  match lrun cfg s a with Some s' => lrun cfg s' b | None => None end.
Proof.
  induction a as [|ev r IH]; intros b s; cbn [app lrun]; [reflexivity|].
  destruct (lstep cfg s ev) as [[s' ms]|]; [apply IH|reflexivity].
Qed.

Definition full_port : list levent :=
  [LPacket 10 100 1 11; LPacket 10 100 2 12; LPacket 11 100 1 12].

Lemma newcomers_count : forall n,
  exists s, lrun ex_cfg lstate_init (full_port ++ newcomers n) = Some s /\ linv s /\
    (forall k, (n <= k)%nat -> unknown s 100 (100 + Z.of_nat k)) /\
    (forall m, (on_port (s_cache s 100) 1 m <->
                m = 11 \/ m = 12 \/ exists k, (k < n)%nat /\ m = 100 + Z.of_nat k)) /\
    cached_hosts_count_on_port (s_cache s 200) 1 = 0.
Proof.
  induction n as [|n (s & E & H & U & O & Z0)].
  - destruct (lrun_ok ex_cfg (full_port ++ newcomers 0) lstate_init linv_init) as (s & E & H).
    exists s. split; [exact E|]. split; [exact H|].
    assert (C : forall m, cached_host (s_cache s 100) m =
              if m =? 11 then Some {| e_mac := 11; e_port := 1; e_time := 10 |}
              else if m =? 12 then Some {| e_mac := 12; e_port := 1; e_time := 11 |} else None).
    { vm_compute in E. injection E as <-. intros m. reflexivity. }
    split; [|split].
    + intros k Hk. unfold unknown. rewrite C.
      destruct (100 + Z.of_nat k =? 11) eqn:E1; [apply Z.eqb_eq in E1; lia|].
      destruct (100 + Z.of_nat k =? 12) eqn:E2; [apply Z.eqb_eq in E2; lia|reflexivity].
    + intros m. unfold on_port. rewrite C. split.
      * intros (e & He & _). destruct (m =? 11) eqn:E1; [apply Z.eqb_eq in E1; auto|].
        destruct (m =? 12) eqn:E2; [apply Z.eqb_eq in E2; auto|discriminate].
      * intros [->|[->|(k & Hk & _)]]; [| |lia]; cbn; eexists; split; reflexivity.
    + vm_compute in E. injection E as <-. reflexivity.
  - assert (Hcount : 2 <= cached_hosts_count_on_port (s_cache s 100) 1).
    { rewrite count_on_port, <- (map_length e_mac).
      change 2 with (Z.of_nat (length [11; 12])). apply inj_le. apply NoDup_incl_length.
      - repeat constructor; cbn; intuition discriminate.
      - intros m Hm. apply on_port_in; [apply H|]. apply O. cbn in Hm. intuition. }
    set (mac := 100 + Z.of_nat n).
    assert (Hu : cached_host (s_cache s 100) mac = None) by (apply U; lia).
    assert (Eb : ban_rules ex_cfg s 100 1 mac = []).
    { unfold ban_rules. rewrite Hu. unfold port_hosts_count. cbn [c_pmax c_vmax c_pvlans ex_cfg map fold_right Z.eqb].
      cbn [negb andb app]. rewrite Z0.
      change (if Pos.eqb 1 1 then 1 else 0) with 1.
      destruct (cached_hosts_count_on_port (s_cache s 100) 1 + (0 + 0) =? 1) eqn:Eq; [|reflexivity].
      apply Z.eqb_eq in Eq. lia. }
    destruct (learn_host_ok ex_cfg s 20 100 1 mac H) as (s' & ms & E' & H' & _ & _ & G).
    assert (Ek : ck_update (learn_host_on_vlan_ports ex_cfg s 20 1 100 mac) = true).
    { unfold learn_host_on_vlan_ports. rewrite Hu. reflexivity. }
    exists s'. split; [|split; [exact H'|]].
    + cbn [newcomers]. rewrite app_assoc, lrun_app, E. cbn [lrun lstep]. fold mac.
      unfold vlan_rcv_packet. rewrite Eb, E'. reflexivity.
    + rewrite Ek in G. cbn [andb] in G. split; [|split].
      * intros k Hk. unfold unknown. rewrite G.
        destruct (100 + Z.of_nat k =? mac) eqn:Em; [apply Z.eqb_eq in Em; unfold mac in Em; lia|].
        cbn. apply U. lia.
      * intros m. unfold on_port. rewrite G. cbn [Z.eqb Pos.eqb andb].
        destruct (m =? mac) eqn:Em; cbn [andb].
        -- apply Z.eqb_eq in Em. split; [|intros _; eexists; split; reflexivity].
           intros _. right; right. exists n. split; [lia|exact Em].
        -- apply Z.eqb_neq in Em. fold (on_port (s_cache s 100) 1 m). rewrite O.
           split; (intros [?|[?|(k & Hk & Hkm)]]; [auto|auto|right; right; exists k; split; [|exact Hkm]]).
           ++ lia.
           ++ destruct (Nat.eq_dec k n) as [->|]; [contradiction|lia].
      * assert (Hle : cached_hosts_count_on_port (s_cache s' 200) 1 <= cached_hosts_count_on_port (s_cache s 200) 1).
        { apply port_count_sub; [apply H|apply H'|]. intros m (e & He & Hp). rewrite G in He. cbn in He.
          exists e. auto. }
        rewrite Z0 in Hle. rewrite (count_on_port (s_cache s' 200)) in *. lia.
Qed.

Theorem C14_move_disables_limit_refuted : forall n : nat,
  exists s, lrun ex_cfg lstate_init (full_port ++ newcomers n) = Some s /\
    c_pmax ex_cfg 1 = 1 /\ port_hosts_count ex_cfg s 1 >= 2 + Z.of_nat n.
Proof.
  intros n. destruct (newcomers_count n) as (s & E & H & _ & O & Z0).
  exists s. split; [exact E|]. split; [reflexivity|].
  unfold port_hosts_count. cbn [c_pvlans ex_cfg map fold_right]. rewrite Z0, count_on_port.
  rewrite <- (map_length e_mac).
  assert (L : (length (11%Z :: 12%Z :: map (fun k => (100 + Z.of_nat k)%Z) (seq 0 n)) <=
               length (map e_mac (cached_hosts_on_port (s_cache s 100) 1)))%nat).
  { apply NoDup_incl_length.
    - constructor; [|constructor].
      + intros [?|Hin]; [discriminate|]. apply in_map_iff in Hin as (k & Hk & _). lia.
      + intros Hin. apply in_map_iff in Hin as (k & Hk & _). lia.
      + apply FinFun.Injective_map_NoDup; [|apply seq_NoDup]. intros a b Hab. lia.
    - intros m Hm. apply on_port_in; [apply H|]. apply O.
      destruct Hm as [?|[?|Hin]]; [left; congruence|right; left; congruence|].
      right; right. apply in_map_iff in Hin as (k & Hk & Hin). apply in_seq in Hin.
      exists k. split; [lia|congruence]. }
  cbn [length] in L. rewrite map_length, seq_length in L. lia.
Qed.
Print Assumptions C14_move_disables_limit_refuted.

(** C15.  Once a host is learned on a permanent-learning port, no later packet
    on any port, no expiry and no event but a flush of that port or VLAN changes
    its cache entry. *)
Theorem C15_permanent_host_stays : forall cfg before s after s' vid mac p t,
  lrun cfg lstate_init before = Some s ->
  learned s vid mac p t -> c_perm cfg p = true ->
  Forall (fun ev => ~ flushes p vid ev) after ->
  lrun cfg s after = Some s' ->
  learned s' vid mac p t.
Proof.
  intros cfg before s after s' vid mac p t Hb Hl Hp Hf Ha.
  destruct (lrun_ok cfg before lstate_init linv_init) as (s0 & E & H).
  rewrite Hb in E. injection E as <-.
  exact (perm_run cfg after s s' vid mac _ H Ha Hl Hp Hf).
Qed.
Print Assumptions C15_permanent_host_stays.

(** A packet from such a host changes nothing on its own port, and on any other
    port yields the one rule that drops that host's frames there. *)
Theorem C15_permanent_host_elsewhere_dropped : forall cfg before s now vid mac p t q,
  lrun cfg lstate_init before = Some s ->
  learned s vid mac p t -> c_perm cfg p = true ->
  lstep cfg s (LPacket now vid q mac) = Some (s, if q =? p then [] else [MFilter mac q]).
Proof.
  intros cfg before s now vid mac p t q Hb Hl Hp.
  cbn [lstep]. unfold vlan_rcv_packet, ban_rules. rewrite Hl.
  unfold learn_host, learn_host_on_vlan_ports. rewrite Hl.
  cbn [perm_learn_check e_port]. rewrite Hp. cbn [ck_exit ck_ban ck_update ck_msgs].
  rewrite (Z.eqb_sym q p). reflexivity.
Qed.
Print Assumptions C15_permanent_host_elsewhere_dropped.

Example C15_case :
  exists s s', lrun ex_cfg lstate_init [LPacket 10 100 3 11] = Some s /\
    learned s 100 11 3 10 /\ c_perm ex_cfg 3 = true /\
    lrun ex_cfg s [LPacket 20 100 2 11; LExpire 5000 100; LPortDown 5001 2] = Some s' /\
    learned s' 100 11 3 10 /\
    lmessages ex_cfg s [LPacket 20 100 2 11] = [MFilter 11 2].
Proof.
  eexists; eexists. repeat split; vm_compute; reflexivity.
Qed.

(** C17.  On a non-permanent port the source rule's hard timeout ends at least
    the guard time before the destination rule's idle timeout can, and the
    jittered timeout stays within its bounds. *)
Theorem C17_src_before_dst : forall cfg p mac si sh di,
  timing_ok cfg -> c_perm cfg p = false ->
  learn_host_timeouts cfg p mac = (si, sh, di) ->
  si = 0 /\ src_first (c_guard cfg) sh di /\
  c_guard cfg <= sh /\
  c_timeout cfg - Z.abs (c_jitter cfg) <= sh <= Z.max (c_guard cfg) (c_timeout cfg + Z.abs (c_jitter cfg)).
Proof.
  intros cfg p mac si sh di (Ht & Hg & Hj) Hp E. unfold learn_host_timeouts in E.
  injection E as <- <- <-.
  destruct (jitter_bounds cfg (c_timeout cfg) p mac Hp) as (A & B & C); [lia|exact Hj|].
  split; [reflexivity|]. split; [|split; [exact A|lia]].
  split; [lia|]. destruct (c_idle_dst cfg); [right; lia|left; reflexivity].
Qed.
Print Assumptions C17_src_before_dst.

Example C17_case : timing_ok ex_cfg /\ c_perm ex_cfg 2 = false /\
  learn_host_timeouts ex_cfg 2 11 = (0, 260, 410).
Proof. repeat split; vm_compute; congruence. Qed.

(** Finding: on a permanent-learning port the order is reversed.  The source
    rule never times out but the destination rule does, so a quiet permanent
    host ends up with no destination rule and nothing that re-creates it. *)
Theorem C17_permanent_dst_expires_refuted : exists cfg p mac sh di,
  timing_ok cfg /\ c_perm cfg p = true /\
  learn_host_timeouts cfg p mac = (0, sh, di) /\ sh = 0 /\ 0 < di.
Proof.
  exists ex_cfg, 3, 11, 0, 150. repeat split; vm_compute; congruence.
Qed.
Print Assumptions C17_permanent_dst_expires_refuted.

(** Finding: the sum with the guard time is not bounded by the configuration
    check, so an accepted timeout yields an idle timeout OpenFlow's 16-bit field
    cannot hold (the guard time is the default [int(timeout / 2)]). *)
Theorem C17_timeout_field_refuted : exists cfg p mac si sh di,
  timing_ok cfg /\ c_guard cfg = c_timeout cfg / 2 /\ c_perm cfg p = false /\
  learn_host_timeouts cfg p mac = (si, sh, di) /\ di > 65535.
Proof.
  exists {| c_timeout := 50000; c_guard := 25000; c_jitter := 670; c_idle_dst := true;
            c_externals := false; c_perm := fun _ => false; c_loop := fun _ => false;
            c_lacp := fun _ => 0; c_pmax := fun _ => 0; c_hairpin := fun _ => false;
            c_loop_ext := fun _ => false; c_pvlans := fun _ => [100]; c_vmax := fun _ => 0;
            c_hash := fun m => m |}, 1, 11, 0, 49341, 74341.
  repeat split; vm_compute; congruence.
Qed.
Print Assumptions C17_timeout_field_refuted.

(** Finding: the order only holds for rules installed together.  Once a host is
    known, each later refresh reinstalls its source rule alone; whatever the
    configuration, a host that keeps sending, at intervals between the guard
    time and the timeout, never gets a destination rule again, however long it
    goes on, while it stays learned.  If nothing is sent to it for one
    destination timeout, frames for it are flooded from then on. *)
Theorem C17_talker_loses_dst_rule_refuted : forall cfg before s vid p mac t u d,
  lrun cfg lstate_init before = Some s ->
  c_perm cfg p = false -> c_loop cfg p = false -> c_lacp cfg p = 0 -> c_hairpin cfg p = false ->
  c_guard cfg <= d <= c_timeout cfg -> 0 <= d ->
  learned s vid mac p t -> s_upd s p = Some u -> u <= t ->
  forall n : nat,
    existsb installs_dst (lmessages cfg s (talk vid p mac t d n)) = false /\
    exists s', lrun cfg s (talk vid p mac t d n) = Some s' /\
               learned s' vid mac p (t + Z.of_nat n * d).
Proof.
  intros cfg before s vid p mac t u d Hb A1 A2 A3 A4 A5 A6 A7 A8 A9 n.
  destruct (lrun_ok cfg before lstate_init linv_init) as (s0 & E & H).
  rewrite Hb in E. injection E as <-.
  exact (talk_refresh cfg vid p mac d A1 A2 A3 A4 A5 A6 n s t u H A7 A8 A9).
Qed.
Print Assumptions C17_talker_loses_dst_rule_refuted.

Example C17_talker_case :
  exists s, lrun ex_cfg lstate_init [LPortUp 5 2; LPacket 10 100 2 11] = Some s /\
    c_guard ex_cfg <= 261 <= c_timeout ex_cfg /\ learned s 100 11 2 10 /\ s_upd s 2 = Some 5 /\
    lmessages ex_cfg lstate_init [LPortUp 5 2; LPacket 10 100 2 11] =
      [MDelHost 100 11; MSrc 100 2 11 260 0; MDst 100 2 11 410] /\
    lmessages ex_cfg s (talk 100 2 11 10 261 3) =
      [MSrc 100 2 11 260 0; MSrc 100 2 11 260 0; MSrc 100 2 11 260 0].
Proof.
  eexists. split; [vm_compute; reflexivity|]. repeat split; vm_compute; congruence.
Qed.

(** C18.  A host recently learned on one port and seen on a loop-protected port
    triggers the ban and nothing else; and from then on, whatever happens within
    the guard time, no rule is installed for any host on that port. *)
Theorem C18_no_flows_while_banned_partial : forall cfg before s now vid p mac q t,
  lrun cfg lstate_init before = Some s ->
  learned s vid mac q t -> q <> p ->
  c_loop cfg p = true -> c_perm cfg q = false ->
  (c_lacp cfg p = 0 \/ c_lacp cfg p <> c_lacp cfg q) ->
  now - t < c_guard cfg -> 0 < now ->
  exists s', lstep cfg s (LPacket now vid p mac) = Some (s', [MBanPort p]) /\
    forall after, Forall (within p now (c_guard cfg)) after ->
      existsb (installs_on p) (lmessages cfg s' after) = false.
Proof.
  intros cfg before s now vid p mac q t Hb Hl Hne Hlp Hpq Hlag Hage Hnow.
  destruct (lrun_ok cfg before lstate_init linv_init) as (s0 & E & H).
  rewrite Hb in E. injection E as <-.
  destruct (ban_now cfg s now vid p mac q t H Hl Hne Hlp Hpq Hlag Hage) as (s' & Es & Eb & _).
  exists s'. split; [exact Es|]. intros after Ha.
  destruct (lstep_ok cfg s (LPacket now vid p mac) H) as (s1 & ms & E1 & H1).
  rewrite Es in E1. injection E1 as <- _.
  apply (banned_run cfg p now after s' now H1 Hlp Hnow Eb); [lia|exact Ha].
Qed.
Print Assumptions C18_no_flows_while_banned_partial.

Example C18_case :
  exists s, lrun ex_cfg lstate_init [LPacket 10 100 2 11] = Some s /\ learned s 100 11 2 10 /\
    c_loop ex_cfg 5 = true /\ 20 - 10 < c_guard ex_cfg /\
    Forall (within 5 20 (c_guard ex_cfg)) [LPacket 25 100 5 12; LPacket 30 100 5 11; LPacket 31 100 2 13].
Proof.
  eexists. split; [vm_compute; reflexivity|]. split; [vm_compute; reflexivity|].
  split; [reflexivity|]. split; [reflexivity|].
  repeat constructor; cbn; intros; try discriminate; try lia.
Qed.

(** Finding: the other half of C18 is false.  The banned packet still moves the
    host in the cache to the looping port ([update_cache] stays true), although
    no rule is installed; so when the host is seen there after the ban, it is
    taken for a refresh and only its source rule is written: its destination
    rule keeps pointing at the old port. *)
Theorem C18_ban_moves_host_refuted : exists cfg before s s1 s2 vid mac p q t now later,
  lrun cfg lstate_init before = Some s /\
  learned s vid mac q t /\ q <> p /\ c_loop cfg p = true /\ now - t < c_guard cfg /\
  lstep cfg s (LPacket now vid p mac) = Some (s1, [MBanPort p]) /\
  learned s1 vid mac p now /\
  later - now >= c_guard cfg /\
  lstep cfg s1 (LPacket later vid p mac) = Some (s2, [MSrc vid p mac 260 0]).
Proof.
  exists ex_cfg, [LPortUp 5 5; LPortUp 5 2; LPacket 10 100 2 11].
  eexists; eexists; eexists; exists 100, 11, 5, 2, 10, 20, 200.
  split; [vm_compute; reflexivity|]. split; [vm_compute; reflexivity|]. split; [discriminate|].
  split; [reflexivity|]. split; [reflexivity|]. split; [vm_compute; reflexivity|].
  split; [vm_compute; reflexivity|]. split; [vm_compute; congruence|].
  vm_compute. reflexivity.
Qed.
Print Assumptions C18_ban_moves_host_refuted.
