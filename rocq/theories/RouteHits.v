(** * Which FIB entry a packet hits *)
From Coq Require Import ZArith List Bool Lia Permutation.
From Verif Require Import PyBase PyBaseProofs OpenFlow TrimModel TrimProofs TableModel ReorderModel ReorderSpec ReorderProofs BatchProofs
  FloodRulesProofs IpModel IpSpec IpProofs RouteModel RouteSpec RouteFib RouteRib RouteMicro RouteShape RouteInv RouteCalm RouteTidy RouteHistory.
Import ListNotations.
Open Scope Z_scope.

Section Hits.
  Variable c : rconf.
  Hypothesis K : route_cfg c.
  Variable static : Z -> list (net * ip).

  Lemma fibent_table cond f : fibent c cond f -> f_table f = tb_id (rc_fib c) /\ f_cookie f = tb_cookie (rc_fib c).
  Proof. intros [ | | | ]; split; reflexivity. Qed.

  (** ** The entry for packets without a route is always there *)

  Lemma connect_clean : clean_batch (connect_flows c).
  Proof.
    assert (forall w, In (FlowMod w) (connect_flows c) -> FlowMod w = wipe_fib c \/ (fm_cmd w = FAdd /\ fm_table w = tb_id (rc_fib c) /\ fm_cookie w = tb_cookie (rc_fib c))) as W.
    { intros w I. destruct (connect_rest c K unconditional _ I) as [X|(w' & X & C & F)]; [now left|]. injection X as <-. right.
      destruct (fibent_table _ _ F) as [T Ck]. cbn in T, Ck. auto. }
    assert (forall x, In x (connect_flows c) -> exists w, x = FlowMod w) as A.
    { intros x I. destruct (connect_rest c K unconditional _ I) as [->|(w' & -> & _)]; [unfold wipe_fib|]; eauto. }
    assert (forall w, FlowMod w = wipe_fib c -> fm_cmd w = FDelete /\ fm_table w = OFPTT_ALL /\ fm_out_port w = OFPP_ANY /\ fm_out_group w = OFPG_ANY) as Wi.
    { unfold wipe_fib. intros w X. injection X as ->. repeat split. }
    assert (forall w, In (FlowMod w) (connect_flows c) -> is_flow_write (FlowMod w) = true -> fm_cmd w = FAdd /\ fm_table w = tb_id (rc_fib c) /\ fm_cookie w = tb_cookie (rc_fib c)) as Wr.
    { intros w I J. destruct (W w I) as [X|X]; [|exact X]. destruct (Wi w X) as (Y & _). cbn in J. rewrite Y in J. discriminate. }
    constructor.
    - intros g I. destruct (A _ I). discriminate.
    - intros i b I. destruct (A _ I). discriminate.
    - intros w I D T. destruct (W w I) as [X|(X & _)]; [destruct (Wi w X) as (P & _ & Q & R); auto|]. cbn in D. rewrite X in D. discriminate.
    - intros d w Id Iw Cd Ww (E & _). destruct (Wr w Iw Ww) as (_ & T & _). destruct (W d Id) as [X|(X & _)]; [|congruence].
      destruct (Wi d X) as (_ & T' & _). pose proof (rk_table c K). congruence.
    - intros w1 w2 I1 I2 W1 W2 _. destruct (Wr w1 I1 W1) as (A1 & _ & B1), (Wr w2 I2 W2) as (A2 & _ & B2). split; congruence.
    - intros w I E. destruct (W w I) as [X|(X & _)]; [destruct (Wi w X)|]; congruence.
    - intros d w Id Iw Cd Cw. destruct (W w Iw) as [X|(X & _)]; [destruct (Wi w X)|]; congruence.
    - intros g1 g2 I. destruct (A _ I). discriminate.
    - intros i b1 b2 I. destruct (A _ I). discriminate.
  Qed.

  Lemma connect_miss sh ub out s0 : (forall l, Permutation (sh l) l) -> valve_flowreorder sh ub (connect_flows c) = Some out ->
    In (miss c) (sw_flows (apply_msgs out s0)).
  Proof.
    intros Hsh R. pose proof (batch_written sh ub (connect_flows c) out s0 connect_clean Hsh R (tb_drop (rc_fib c) (rc_lowest c) [] 0)) as B.
    apply B; [right; now left|reflexivity|].
    intros w I Ww (_ & _ & E). destruct (connect_rest c K unconditional _ I) as [X|(w' & X & C & F)].
    - unfold wipe_fib in X. injection X as ->. discriminate.
    - injection X as <-. destruct w as [tbl cmd prio mt ck inst hard idle fl op og]. cbn [flow_of fm_match] in *. cbn in E. subst mt.
      inversion F; reflexivity || discriminate.
  Qed.

  Lemma shaped_miss cond sh ub ms out s : shaped c cond ms -> (forall l, Permutation (sh l) l) -> valve_flowreorder sh ub ms = Some out ->
    In (miss c) (sw_flows s) -> In (miss c) (sw_flows (apply_msgs out s)).
  Proof.
    intros S Hsh R H.
    assert (forall x, In x ms -> one_table (tb_id (rc_fib c)) (tb_cookie (rc_fib c)) x) as O by (exact (adds_one_table c _ ms S)).
    pose proof (one_table_clean _ _ ms (rk_table c K) O) as CB.
    destruct (reorder_effect_lemma sh ub ms out s CB (perm_sub sh Hsh) R) as [F _]. apply F, intended_flows; [exact CB|].
    assert (last_write (f_table (miss c)) (f_prio (miss c)) (f_match (miss c)) (filter is_flow_write ms) = None) as ->.
    { destruct (last_write _ _ _ _) as [x|] eqn:E; [|reflexivity]. exfalso.
      apply last_write_some in E as (w & -> & I & _ & _ & Em). apply filter_In in I as [I Iw]. specialize (S _ I). cbn in S.
      destruct (fm_cmd w); try contradiction.
      - destruct S as (u & d & i & h & X & _). injection X as ->. discriminate.
      - destruct S as (u & d & ->). discriminate. }
    split; [exact H|]. intros m I D. specialize (S _ I). destruct m as [w| | | | | | |]; try contradiction; try reflexivity.
    cbn [del_flow]. cbn in D. destruct (fm_cmd w) eqn:C; try discriminate; try contradiction.
    destruct S as (u & d & ->). unfold del_hits. rewrite C.
    assert (fmatch_eqb (f_match (miss c)) (fm_match (tb_del (rc_fib c) FDeleteStrict (route_priority d) (route_match c u d) OFPP_ANY)) = false) as ->.
    { unfold fmatch_eqb. destruct (fmatch_eq_dec _ _); [discriminate|reflexivity]. }
    now rewrite andb_false_r.
  Qed.

  Theorem miss_present P evs w : static_ok c static -> rreach c static P evs w -> rw_up w = true -> In (miss c) (sw_flows (rw_sw w)).
  Proof.
    intros So R. induction R as [s0|evs w e ev s ms sh ub out R IH Eo Ok Hp Ne St Hsh Ro|evs w e s ms sh ub out s0 R IH St Hsh Ro|evs w R IH|evs w f l1 l2 R IH El Hh];
      cbn [rw_up rw_sw]; intros Up; try discriminate.
    - rewrite Up. destruct (history_shape c K static P evs w So R) as [B _].
      destruct (step_staged c K no_limit no_rule (fun _ _ _ => Logic.I) e ev (rw_st w) s ms B Ok) as (m1 & s1 & m2 & -> & M1 & M2); auto.
      { destruct ev; cbn; auto. right. exact Logic.I. }
      assert (base c no_limit s1) as B1 by (eapply micros_base; [|exact M1|exact B]; auto; intros; exact Logic.I).
      eapply (shaped_miss unconditional); [|exact Hsh|exact Ro|auto]. apply adds_are_app.
      + eapply micros_shaped; [exact K| |exact M1|exact B]. intros; exact Logic.I.
      + eapply micros_shaped; [exact K| |exact M2|exact B1]. intros; exact Logic.I.
    - cbn [route_step] in St. injection St as <- <-. now apply (connect_miss sh ub).
    - specialize (IH Up). rewrite El in IH. cbn [sw_flows]. apply in_app_iff in IH as [X|[X|X]]; apply in_or_app; auto.
      subst f. cbn in Hh. destruct Hh; congruence.
  Qed.

  (** ** Hits *)

  (** The highest priority among the flows that match. *)
  Lemma best (fs : list flow) (Q : flow -> bool) f : In f fs -> Q f = true -> exists g, In g fs /\ Q g = true /\ forall h, In h fs -> Q h = true -> f_prio h <= f_prio g.
  Proof.
    revert f. induction fs as [|x fs IH]; intros f I Qf; [destruct I|].
    destruct (existsb Q fs) eqn:E.
    - apply existsb_exists in E as (y & Iy & Qy). destruct (IH y Iy Qy) as (g & Ig & Qg & Mg).
      destruct (Q x) eqn:Qx; [destruct (Z_le_gt_dec (f_prio x) (f_prio g))|].
      + exists g. split; [now right|]. split; [exact Qg|]. intros h [<-|Ih] Qh; [lia|auto].
      + exists x. split; [now left|]. split; [exact Qx|]. intros h [<-|Ih] Qh; [lia|]. specialize (Mg h Ih Qh). lia.
      + exists g. split; [now right|]. split; [exact Qg|]. intros h [<-|Ih] Qh; [congruence|auto].
    - assert (forall h, In h fs -> Q h = false) as N.
      { intros h Ih. destruct (Q h) eqn:Qh; [|reflexivity]. assert (existsb Q fs = true) by (apply existsb_exists; eauto). congruence. }
      destruct I as [<-|I]; [|rewrite (N f I) in Qf; discriminate].
      exists x. split; [now left|]. split; [exact Qf|]. intros h [<-|Ih] Qh; [lia|]. rewrite (N h Ih) in Qh. discriminate.
  Qed.

  Lemma fibent_cases cond f : fibent c cond f -> f = miss c \/ exists u d, 0 <= u <= 0xfff /\ my_net c d /\ serves c f u d /\
    f_prio f = route_priority d /\ f_match f = route_match c u d /\
    (drops f \/ to_router c f \/ exists v e, configured c v /\ routed_from c v u /\ cond v d e /\ forwards c f v (vl_mac (get_vlan c v)) e).
  Proof.
    intros [|u d U D|u d h U D|v u d e C U D H].
    - now left.
    - right. exists u, d. split; [exact U|]. split; [exact D|]. split; [now apply entry_serves|]. split; [reflexivity|]. split; [reflexivity|]. right; left. reflexivity.
    - right. exists u, d. split; [exact U|]. split; [exact D|]. split; [now apply entry_serves|]. split; [reflexivity|]. split; [reflexivity|]. left. reflexivity.
    - right. exists u, d. pose proof (routed_vid c v u K C U) as U'. split; [exact U'|]. split; [exact D|]. split; [now apply entry_serves|].
      split; [reflexivity|]. split; [reflexivity|]. right; right. exists v, e. split; [exact C|]. split; [now apply routed_vlans_spec|]. split; [exact H|].
      now apply entry_forwards.
  Qed.

  Lemma my_len d : my_net c d -> 0 <= n_len d.
  Proof. intros [(_ & L & _) _]. lia. Qed.

  Lemma same_len_net a d d' : my_net c d -> my_net c d' -> belongs a d -> belongs a d' -> n_len d = n_len d' -> d = d'.
  Proof.
    intros [(V & Ln & P0 & Up & (k & Ek)) E] [(V' & Ln' & P0' & Up' & (k' & Ek')) E'] [Bv B] [Bv' B'] L.
    assert (n_ver d = n_ver d') as Ev by congruence. rewrite <- Ev in *. rewrite <- L in *.
    set (n := 2 ^ (bits (n_ver d) - n_len d)) in *.
    assert (0 < n) by (apply Z.pow_pos_nonneg; lia).
    assert (k = k') by nia. subst k'.
    destruct d as [x1 x2 x3], d' as [y1 y2 y3]. cbn [n_ver n_addr n_len] in *. congruence.
  Qed.

  Lemma miss_matches p : matches p (f_match (miss c)) = true.
  Proof. reflexivity. Qed.

  Section World.
    Variables (fs : list flow) (cond : Z -> net -> Z -> Prop).
    Hypothesis F : forall f, In f fs -> fibent c cond f.
    Hypothesis Un : uniq fs.
    Hypothesis Ms : In (miss c) fs.
    Variables (u : Z) (a : ip) (p : packet).
    Hypothesis U : 0 <= u <= 0xfff.
    Hypothesis A : my_ip c a.
    Hypothesis P : ip_packet c u a p.
    Notation t := (tb_id (rc_fib c)).

    Lemma hit_exists : exists f, hit fs t p f.
    Proof.
      destruct (best fs (fun f => (f_table f =? t) && matches p (f_match f)) (miss c) Ms) as (g & Ig & Qg & Mg).
      { rewrite miss_matches. cbn [miss flow_of f_table]. change (fm_table (tb_drop (rc_fib c) (rc_lowest c) [] 0)) with t. now rewrite Z.eqb_refl. }
      apply andb_true_iff in Qg as [T M]. apply Z.eqb_eq in T. exists g. split; [exact Ig|]. split; [exact T|]. split; [exact M|].
      intros h Ih Th Mh. apply Mg; [exact Ih|]. apply andb_true_iff. split; [now apply Z.eqb_eq|exact Mh].
    Qed.

    Lemma hit_cases f : hit fs t p f ->
      (exists d, my_net c d /\ serves c f u d /\ belongs a d /\ f_prio f = route_priority d /\ f_match f = route_match c u d /\
        (forall f' d', In f' fs -> my_net c d' -> serves c f' u d' -> belongs a d' -> n_len d' <= n_len d) /\
        (drops f \/ to_router c f \/ exists v e, configured c v /\ routed_from c v u /\ cond v d e /\ forwards c f v (vl_mac (get_vlan c v)) e)) \/
      (f = miss c /\ forall f' d', In f' fs -> my_net c d' -> serves c f' u d' -> ~ belongs a d').
    Proof.
      intros (I & T & M & Mx).
      assert (forall f' d', In f' fs -> my_net c d' -> serves c f' u d' -> belongs a d' -> route_priority d' <= f_prio f) as Hi.
      { intros f' d' I' D' S' B'.
        assert (matches p (f_match f') = true) as M' by (apply (proj2 S' u a p U A P); auto).
        destruct (fibent_cases cond f' (F f' I')) as [->|(u2 & d2 & U2 & D2 & S2 & Pr & _)].
        - (* the miss entry matches packets in other VLANs too *)
          exfalso. assert (0 <= (if u =? 0 then 1 else 0) <= 0xfff) as U0 by (destruct (u =? 0); lia).
          destruct (proj1 (proj2 S' _ a (sample c (if u =? 0 then 1 else 0) a) U0 A (sample_ok c _ a)) (miss_matches _)) as [X _].
          destruct (u =? 0) eqn:Eu; [apply Z.eqb_eq in Eu|apply Z.eqb_neq in Eu]; congruence || lia.
        - destruct (serves_inj c f' u2 d2 u d' U2 U D2 D' S2 S') as [-> ->]. rewrite <- Pr. apply Mx; [exact I'|apply S'|exact M']. }
      destruct (fibent_cases cond f (F f I)) as [->|(u2 & d2 & U2 & D2 & S2 & Pr & Em & H)].
      - right. split; [reflexivity|]. intros f' d' I' D' S' B'. specialize (Hi f' d' I' D' S' B'). change (f_prio (miss c)) with (rc_lowest c) in Hi.
        pose proof (rk_lowest c K). pose proof (my_len d' D'). unfold route_priority, lpm_priority in Hi. lia.
      - left. apply (proj2 S2 u a p U A P) in M as [-> B]. exists d2. split; [exact D2|]. split; [exact S2|]. split; [exact B|]. split; [exact Pr|]. split; [exact Em|]. split; [|exact H].
        intros f' d' I' D' S' B'. specialize (Hi f' d' I' D' S' B'). unfold route_priority in *. lia.
    Qed.

    Lemma hit_unique f f' : hit fs t p f -> hit fs t p f' -> f = f'.
    Proof.
      intros H H'. destruct H as (I & T & M & Mx), H' as (I' & T' & M' & Mx').
      assert (f_prio f = f_prio f') as Ep by (pose proof (Mx f' I' T' M'); pose proof (Mx' f I T M); lia).
      destruct (fibent_cases cond f (F f I)) as [->|(u1 & d1 & U1 & D1 & S1 & P1 & E1 & _)]; destruct (fibent_cases cond f' (F f' I')) as [->|(u2 & d2 & U2 & D2 & S2 & P2 & E2 & _)].
      - reflexivity.
      - exfalso. rewrite P2 in Ep. change (f_prio (miss c)) with (rc_lowest c) in Ep. pose proof (rk_lowest c K). pose proof (my_len d2 D2). unfold route_priority, lpm_priority in Ep. lia.
      - exfalso. rewrite P1 in Ep. change (f_prio (miss c)) with (rc_lowest c) in Ep. pose proof (rk_lowest c K). pose proof (my_len d1 D1). unfold route_priority, lpm_priority in Ep. lia.
      - apply (proj2 S1 u a p U A P) in M as [Eu1 B1]. apply (proj2 S2 u a p U A P) in M' as [Eu2 B2].
        assert (d1 = d2) as ->. { apply (same_len_net a); auto. rewrite P1, P2 in Ep. unfold route_priority in Ep. lia. }
        apply Un; auto; congruence.
    Qed.
  End World.
End Hits.
