(** * Learning with idle timeouts: properties *)
From Coq Require Import List Bool ZArith Lia.
From Verif Require Import OpenFlow FloodModel HostCacheModel LearnModel LearnSpec IdleModel IdleSpec IdleProofs.
Import ListNotations.
Open Scope Z_scope.

(** C92: Whatever frames come in, whichever rules go unused in whatever order, whichever ports go
    up and down: nothing fails, and the hosts the controller knows to be on a port are those whose
    frames the switch lets pass from that port. *)
Theorem C92_knows_what_passes : forall ic evs,
  iconf_ok ic -> no_loop ic -> no_lag ic -> Forall (frame_ok ic) evs ->
  exists st, irun ic istate_init evs = Some st /\
    forall v mac p, known st v mac p <-> passes st v mac p.
Proof.
  intros ic evs OK NL NG F. destruct (irun_inv ic OK NL NG evs istate_init (proj1 (iinv_init ic)) F) as (st & E & I & _).
  exists st. split; [exact E|]. apply (iv_agree _ _ I).
Qed.
Print Assumptions C92_knows_what_passes.

(** C92: A rule that sends frames to a host the controller knows sends them to the port where it
    knows the host to be. *)
Theorem C92_sends_to_known : forall ic evs st v mac p q,
  iconf_ok ic -> no_loop ic -> no_lag ic -> plain_externals ic -> Forall (frame_ok ic) evs ->
  irun ic istate_init evs = Some st -> known st v mac p -> sends st v mac q -> q = p.
Proof.
  intros ic evs st v mac p q OK NL NG PE F R K S. destruct (irun_inv ic OK NL NG evs istate_init (proj1 (iinv_init ic)) F) as (st' & E & _ & D).
  rewrite R in E. injection E as <-. apply (D PE (proj2 (iinv_init ic)) v mac p q K S).
Qed.
Print Assumptions C92_sends_to_known.

(** C92: What a frame has the switch told: a rule that lets the host pass goes when unused (unless
    the port's hosts are permanent), and never otherwise; a rule that sends to the host may go only
    later than that. *)
Theorem C92_timeouts : forall ic s now vid p mac s' ms v q m hard idle,
  timing_ok (i_cfg ic) -> no_loop ic -> c_perm (i_cfg ic) p = false ->
  idle_rcv_packet ic s now vid p mac = Some (s', ms) -> In (MSrc v q m hard idle) ms ->
  v = vid /\ q = p /\ m = mac /\ hard = 0 /\ 0 < idle /\
  (forall v' q' m' j, In (MDst v' q' m' j) ms \/ In (MDstNonExt v' q' m' j) ms \/ In (MHairpin v' q' m' j) ms -> idle < j).
Proof.
  intros ic s now vid p mac s' ms v q m hard idle T NL NP E H. unfold idle_rcv_packet in E.
  destruct (ban_rules (i_cfg ic) s vid p mac) as [|b bs] eqn:Eb.
  2:{ exfalso. injection E as <- <-. pose proof (ban_rules_ban (i_cfg ic) s vid p mac) as F. rewrite Eb in F. rewrite Forall_forall in F. destruct (F _ H). }
  destruct (idle_learn_cases ic NL s now p vid mac (delete_default s vid (cached_host (s_cache s vid) mac))) as [Kb [(Ku & Ne & Km)|(Ku & d & r & Km & _)]];
    unfold note_ban in E; rewrite Kb, Ku in E.
  - injection E as <- <-. exfalso. destruct Km as [X|X]; rewrite X in H; cbn in H; intuition discriminate.
  - destruct (add_cache_host _ _ _ _); [|discriminate]. injection E as <- <-. rewrite Km in *. unfold learn_host_timeouts_removed in *.
    destruct T as (T1 & T2 & _).
    assert (J : 0 < jitter_learn_timeout (i_cfg ic) (c_timeout (i_cfg ic)) p mac).
    { unfold jitter_learn_timeout. rewrite NP. replace (c_timeout (i_cfg ic) =? 0) with false by (symmetry; apply Z.eqb_neq; lia). lia. }
    set (j := jitter_learn_timeout (i_cfg ic) (c_timeout (i_cfg ic)) p mac) in *. clearbody j. unfold learn_flows in *.
    assert (A : forall x, In x ((if d then [MDelHost vid mac] else []) ++ [MSrc vid p mac 0 j] ++
       (if r && negb (c_hairpin (i_cfg ic) p) then [] else [MDst vid p mac (j + c_guard (i_cfg ic))] ++
          (if c_externals (i_cfg ic) && negb (c_loop_ext (i_cfg ic) p) then [MDstNonExt vid p mac (j + c_guard (i_cfg ic))] else []) ++
          (if c_hairpin (i_cfg ic) p then [MHairpin vid p mac (j + c_guard (i_cfg ic))] else []))) ->
      x = MDelHost vid mac \/ x = MSrc vid p mac 0 j \/ x = MDst vid p mac (j + c_guard (i_cfg ic)) \/
      x = MDstNonExt vid p mac (j + c_guard (i_cfg ic)) \/ x = MHairpin vid p mac (j + c_guard (i_cfg ic))).
    { intros x. destruct d, (r && negb (c_hairpin (i_cfg ic) p)), (c_externals (i_cfg ic) && negb (c_loop_ext (i_cfg ic) p)), (c_hairpin (i_cfg ic) p);
        cbn [app In]; intuition auto. }
    destruct (A _ H) as [X|[X|[X|[X|X]]]]; try discriminate. injection X as -> -> -> -> ->. do 5 (split; [auto; lia|]).
    intros v' q' m' k [X|[X|X]]; apply A in X as [X|[X|[X|[X|X]]]]; try discriminate; injection X as _ _ _ ->; lia.
Qed.
Print Assumptions C92_timeouts.

(** ** A case *)

(** Ports 1 to 4 in VLAN 100; the guard time is 5, the timeout 20. *)
Definition idle_lcfg (loop lag hairpin : Z -> bool) : lcfg :=
  {| c_timeout := 20; c_guard := 5; c_jitter := 3; c_idle_dst := true; c_externals := false;
     c_perm := fun p => p =? 4; c_loop := loop; c_lacp := fun p => if lag p then 1 else 0; c_pmax := fun _ => 0;
     c_hairpin := hairpin; c_loop_ext := fun _ => false; c_pvlans := fun p => if (1 <=? p) && (p <=? 4) then [100] else [];
     c_vmax := fun _ => 0; c_hash := fun m => m |}.
Definition no1 : Z -> bool := fun _ => false.
Definition idle_ic (loop lag hairpin : Z -> bool) : iconf :=
  {| i_cfg := idle_lcfg loop lag hairpin; i_vids := [100]; i_ports := [1; 2; 3; 4]; i_tsrc := 1; i_tdst := 2; i_thp := 3 |}.
Lemma idle_ic_ok : forall a b c, iconf_ok (idle_ic a b c).
Proof.
  intros a b c. unfold iconf_ok, idle_ic. cbn [i_vids i_ports i_cfg i_tsrc i_tdst i_thp c_pvlans idle_lcfg].
  split; [repeat constructor; lia|]. split; [repeat constructor; lia|]. split; [|repeat split; lia].
  intros p x. destruct (_ && _); [auto|intros []].
Qed.
Lemma idle_frames : forall a b c now p m, In p [1; 2; 3; 4] -> frame_ok (idle_ic a b c) (IPacket now 100 p m).
Proof.
  intros a b c now p m H. split; [exact H|]. cbn in H. destruct H as [<-|[<-|[<-|[<-|[]]]]]; left; reflexivity.
Qed.
Ltac frames := repeat (apply Forall_cons; [first [exact I | apply idle_frames; cbn; tauto]|]); apply Forall_nil.

(** Two hosts are learned; one goes silent and is forgotten, the other moves. *)
Definition ex_evs : list ievent :=
  [ICold 1; IPortUp 2 1; IPortUp 2 2; IPortUp 2 3;
   IPacket 10 100 1 0x0a; IPacket 11 100 2 0x0b; IIdle 40 (RSrc 100 1 0x0a 18); IPacket 41 100 3 0x0b].
Example ex_idle : exists st,
  irun (idle_ic no1 no1 no1) istate_init ex_evs = Some st /\
  Forall (frame_ok (idle_ic no1 no1 no1)) ex_evs /\ iconf_ok (idle_ic no1 no1 no1) /\ no_loop (idle_ic no1 no1 no1) /\
  no_lag (idle_ic no1 no1 no1) /\ plain_externals (idle_ic no1 no1 no1) /\ timing_ok (idle_lcfg no1 no1 no1) /\
  known st 100 0x0b 3 /\ sends st 100 0x0b 3 /\ (forall p, ~ known st 100 0x0a p) /\
  sends st 100 0x0a 1.
Proof.
  destruct (irun (idle_ic no1 no1 no1) istate_init ex_evs) as [st|] eqn:E; [|vm_compute in E; discriminate]. exists st. split; [reflexivity|].
  assert (A : option_map (fun s => (is_rules s, cached_host (s_cache (is_l s) 100) 0x0a, cached_host (s_cache (is_l s) 100) 0x0b)) (irun (idle_ic no1 no1 no1) istate_init ex_evs)
    = Some ([RDst 100 0x0b None 3 24; RSrc 100 3 0x0b 19; RDst 100 0x0a None 1 23], None, Some {| e_mac := 0x0b; e_port := 3; e_time := 41 |})) by (vm_compute; reflexivity).
  rewrite E in A. cbn [option_map] in A. injection A as A1 A2 A3.
  split; [unfold ex_evs; frames|]. split; [apply idle_ic_ok|]. split; [intros p; reflexivity|]. split; [intros p; reflexivity|].
  split; [intros X; discriminate|]. split; [unfold timing_ok; cbn; lia|]. split; [exists {| e_mac := 0x0b; e_port := 3; e_time := 41 |}; auto|].
  split; [exists None, 24; rewrite A1; left; reflexivity|]. split; [intros p (e & X & _); congruence|].
  exists None, 23. rewrite A1. cbn. auto.
Qed.

(** ** What does not hold *)

(** C92: A rule that sends to a host, once gone unused, does not come back for as long as the host
    stays where it is and keeps sending (so that the rule for its source stays): the code means to
    "reinstall host rules", but sends the rule for the source only.  Frames to the host are flooded
    all that time. *)
Theorem C92_lost_stays_lost : forall ic evs st later st' v mac p u e,
  iconf_ok ic -> no_loop ic -> no_lag ic -> c_hairpin (i_cfg ic) p = false ->
  Forall (frame_ok ic) evs -> irun ic istate_init evs = Some st ->
  cached_host (s_cache (is_l st) v) mac = Some e -> e_port e = p ->
  s_upd (is_l st) p = Some u -> u <= e_time e -> (forall q, ~ sends st v mac q) ->
  Forall (frame_ok ic) later -> Forall (stays_put v mac p u) later -> irun ic st later = Some st' ->
  known st' v mac p /\ passes st' v mac p /\ forall q, ~ sends st' v mac q.
Proof.
  intros ic evs st later st' v mac p u e OK NL NG HP F R Ee Ep U Le N F' S R'.
  destruct (irun_inv ic OK NL NG evs istate_init (proj1 (iinv_init ic)) F) as (st0 & E & I & _). rewrite R in E. injection E as <-.
  destruct (irun_inv ic OK NL NG later st I F') as (st1 & E & I1 & _). rewrite R' in E. injection E as <-.
  assert (L : lost v mac p u st) by (split; [exists e; auto|auto]).
  destruct (lost_run ic OK NL NG v mac p u HP later st st' I F' L S R') as ((e' & A & B & _) & _ & N').
  assert (K : known st' v mac p) by (exists e'; auto). split; [exact K|]. split; [apply (iv_agree _ _ I1); exact K|exact N'].
Qed.
Print Assumptions C92_lost_stays_lost.

(** It comes to that: the host at port 1 sends, but is sent nothing for a while. *)
Definition lost_evs : list ievent :=
  [ICold 1; IPortUp 2 1; IPortUp 2 2; IPacket 10 100 1 0x0a; IIdle 40 (RDst 100 0x0a None 1 23)].
Theorem C92_talking_host_stays_reachable_refuted : exists ic evs st v mac p,
  iconf_ok ic /\ no_loop ic /\ no_lag ic /\ Forall (frame_ok ic) evs /\ irun ic istate_init evs = Some st /\
  known st v mac p /\ passes st v mac p /\ forall later st', Forall (frame_ok ic) later ->
    Forall (stays_put v mac p 2) later -> irun ic st later = Some st' -> known st' v mac p /\ passes st' v mac p /\ forall q, ~ sends st' v mac q.
Proof.
  destruct (irun (idle_ic no1 no1 no1) istate_init lost_evs) as [st|] eqn:E; [|vm_compute in E; discriminate].
  exists (idle_ic no1 no1 no1), lost_evs, st, 100, 0x0a, 1.
  assert (A : option_map (fun s => (is_rules s, cached_host (s_cache (is_l s) 100) 0x0a, s_upd (is_l s) 1)) (irun (idle_ic no1 no1 no1) istate_init lost_evs)
    = Some ([RSrc 100 1 0x0a 18], Some {| e_mac := 0x0a; e_port := 1; e_time := 10 |}, Some 2)) by (vm_compute; reflexivity).
  rewrite E in A. cbn [option_map] in A. injection A as A1 A2 A3.
  assert (F : Forall (frame_ok (idle_ic no1 no1 no1)) lost_evs) by (unfold lost_evs; frames).
  split; [apply idle_ic_ok|]. split; [intros q; reflexivity|]. split; [intros q; reflexivity|]. split; [exact F|]. split; [exact E|].
  split; [exists {| e_mac := 0x0a; e_port := 1; e_time := 10 |}; auto|]. split; [exists 18; rewrite A1; left; reflexivity|].
  intros later st' F' S R. apply (C92_lost_stays_lost (idle_ic no1 no1 no1) lost_evs st later st' 100 0x0a 1 2 {| e_mac := 0x0a; e_port := 1; e_time := 10 |}); auto.
  - apply idle_ic_ok.
  - intros q; reflexivity.
  - intros q; reflexivity.
  - cbn; lia.
  - intros q (x & i & X). rewrite A1 in X. destruct X as [X|[]]. discriminate.
Qed.
Print Assumptions C92_talking_host_stays_reachable_refuted.

(** The same for a host of a port with permanent learning: the rule for its source never goes, the
    rule that sends to it does, after the guard time. *)
Definition perm_evs : list ievent :=
  [ICold 1; IPortUp 2 4; IPacket 10 100 4 0x0a; IIdle 40 (RDst 100 0x0a None 4 5); IPacket 50 100 4 0x0a].
Theorem C92_permanent_host_stays_reachable_refuted : exists ic evs st v mac p,
  iconf_ok ic /\ no_loop ic /\ no_lag ic /\ Forall (frame_ok ic) evs /\ irun ic istate_init evs = Some st /\
  c_perm (i_cfg ic) p = true /\ known st v mac p /\ is_rules st = [RSrc v p mac 0].
Proof.
  destruct (irun (idle_ic no1 no1 no1) istate_init perm_evs) as [st|] eqn:E; [|vm_compute in E; discriminate].
  exists (idle_ic no1 no1 no1), perm_evs, st, 100, 0x0a, 4.
  assert (A : option_map (fun s => (is_rules s, cached_host (s_cache (is_l s) 100) 0x0a)) (irun (idle_ic no1 no1 no1) istate_init perm_evs)
    = Some ([RSrc 100 4 0x0a 0], Some {| e_mac := 0x0a; e_port := 4; e_time := 10 |})) by (vm_compute; reflexivity).
  rewrite E in A. cbn [option_map] in A. injection A as A1 A2.
  split; [apply idle_ic_ok|]. split; [intros q; reflexivity|]. split; [intros q; reflexivity|]. split; [unfold perm_evs; frames|]. split; [exact E|].
  split; [reflexivity|]. split; [exists {| e_mac := 0x0a; e_port := 4; e_time := 10 |}; auto|exact A1].
Qed.
Print Assumptions C92_permanent_host_stays_reachable_refuted.

(** With loop protection, a host heard on a port while it is banned is known, but has no rule: so no
    rule of it ever goes unused, and it is known for good, even when the switch is idle. *)
Definition ban_evs : list ievent :=
  [ICold 1; IPortUp 2 1; IPortUp 2 2; IPacket 10 100 1 0x0a; IPacket 12 100 2 0x0a; IPacket 13 100 2 0x0b;
   IIdle 40 (RSrc 100 1 0x0a 18); IIdle 41 (RDst 100 0x0a None 1 23); IIdle 80 (RSrc 100 2 0x0a 18)].
Theorem C92_banned_host_forgotten_refuted : exists ic evs st v mac p,
  iconf_ok ic /\ no_lag ic /\ Forall (frame_ok ic) evs /\ irun ic istate_init evs = Some st /\
  known st v mac p /\ forall later st', (forall ev, In ev later -> exists now r, ev = IIdle now r) ->
    irun ic st later = Some st' -> known st' v mac p /\ is_rules st' = [].
Proof.
  set (ic := idle_ic (fun p => p =? 2) no1 no1).
  destruct (irun ic istate_init ban_evs) as [st|] eqn:E; [|vm_compute in E; discriminate].
  exists ic, ban_evs, st, 100, 0x0b, 2.
  assert (A : option_map (fun s => (is_rules s, cached_host (s_cache (is_l s) 100) 0x0b)) (irun ic istate_init ban_evs)
    = Some ([], Some {| e_mac := 0x0b; e_port := 2; e_time := 13 |})) by (vm_compute; reflexivity).
  rewrite E in A. cbn [option_map] in A. injection A as A1 A2.
  split; [apply idle_ic_ok|]. split; [intros q; reflexivity|]. split; [unfold ban_evs; frames|]. split; [exact E|].
  split; [exists {| e_mac := 0x0b; e_port := 2; e_time := 13 |}; auto|].
  induction later as [|ev later IH]; intros st' H R; cbn [irun] in R.
  - injection R as <-. split; [exists {| e_mac := 0x0b; e_port := 2; e_time := 13 |}; auto|exact A1].
  - destruct (H ev (or_introl eq_refl)) as (now & r & ->). cbn [istep] in R. rewrite A1 in R.
    destruct (in_dec hrule_eq_dec r []) as [X|X]; [destruct X|]. apply IH; auto. intros ev' I. apply H. right; exact I.
Qed.
Print Assumptions C92_banned_host_forgotten_refuted.

(** In a LAG, the switch may let a host pass that the controller does not know: the host was heard
    on two members, and the rule of the one it was heard on last went unused. *)
Definition lag_evs : list ievent :=
  [ICold 1; IPortUp 2 1; IPortUp 2 2; IPacket 10 100 1 0x0a; IPacket 13 100 2 0x0a; IIdle 40 (RSrc 100 2 0x0a 18)].
Theorem C92_knows_what_passes_lag_refuted : exists ic evs st v mac p,
  iconf_ok ic /\ no_loop ic /\ Forall (frame_ok ic) evs /\ irun ic istate_init evs = Some st /\
  passes st v mac p /\ forall q, ~ known st v mac q.
Proof.
  set (ic := idle_ic no1 (fun p => p <=? 2) no1).
  destruct (irun ic istate_init lag_evs) as [st|] eqn:E; [|vm_compute in E; discriminate].
  exists ic, lag_evs, st, 100, 0x0a, 1.
  assert (A : option_map (fun s => (is_rules s, cached_host (s_cache (is_l s) 100) 0x0a)) (irun ic istate_init lag_evs)
    = Some ([RDst 100 0x0a None 1 23; RSrc 100 1 0x0a 18], None)) by (vm_compute; reflexivity).
  rewrite E in A. cbn [option_map] in A. injection A as A1 A2.
  split; [apply idle_ic_ok|]. split; [intros q; reflexivity|]. split; [unfold lag_evs; frames|]. split; [exact E|].
  split; [exists 18; rewrite A1; cbn; auto|]. intros q (e & X & _). congruence.
Qed.
Print Assumptions C92_knows_what_passes_lag_refuted.

(** A rule that sends frames back to the port they come from stays where the host was: forgetting a
    host does not count as an expiry, so learning it elsewhere deletes nothing. *)
Definition hairpin_evs : list ievent :=
  [ICold 1; IPortUp 2 1; IPortUp 2 2; IPacket 10 100 1 0x0a; IIdle 40 (RSrc 100 1 0x0a 18); IPacket 45 100 2 0x0a].
Theorem C92_hairpin_rule_follows_host_refuted : exists ic evs st v mac p q idle,
  iconf_ok ic /\ no_loop ic /\ no_lag ic /\ Forall (frame_ok ic) evs /\ irun ic istate_init evs = Some st /\
  known st v mac p /\ In (RHair v q mac idle) (is_rules st) /\ q <> p.
Proof.
  set (ic := idle_ic no1 no1 (fun p => p =? 1)).
  destruct (irun ic istate_init hairpin_evs) as [st|] eqn:E; [|vm_compute in E; discriminate].
  exists ic, hairpin_evs, st, 100, 0x0a, 2, 1, 23.
  assert (A : option_map (fun s => (is_rules s, cached_host (s_cache (is_l s) 100) 0x0a)) (irun ic istate_init hairpin_evs)
    = Some ([RDst 100 0x0a None 2 23; RSrc 100 2 0x0a 18; RHair 100 1 0x0a 23], Some {| e_mac := 0x0a; e_port := 2; e_time := 45 |})) by (vm_compute; reflexivity).
  rewrite E in A. cbn [option_map] in A. injection A as A1 A2.
  split; [apply idle_ic_ok|]. split; [intros q; reflexivity|]. split; [intros q; reflexivity|]. split; [unfold hairpin_evs; frames|]. split; [exact E|].
  split; [exists {| e_mac := 0x0a; e_port := 2; e_time := 45 |}; auto|]. split; [rewrite A1; cbn; auto|lia].
Qed.
Print Assumptions C92_hairpin_rule_follows_host_refuted.
