(** * Properties of LAGs over several switches (C89, C90) *)

From Coq Require Import ZArith List Bool Lia.
From Verif Require Import PyBase L2Model NomModel NomSpec NomProofs.
Import ListNotations.
Open Scope Z_scope.

(** C89: When a port of a LAG hears of its partner, it forwards if and only if LACP is then up
    on it and its switch is the one to use.  This holds in any state, whatever the roles of the
    ports are, if another switch is connected. *)
Theorem C89_packet : forall cfg st s p sync now,
  nwf cfg -> In s cfg -> ns_stacked s = true -> st_running st (ns_dpid s) = true -> in_company cfg st s ->
  In p (ns_ports s) -> np_lag p <> 0 -> unforced p ->
  let st' := nstep cfg st (NLacp (ns_dpid s) (np_num p) sync now) in
  forwards st' s p <-> lacp_is_up st' s p /\ chosen cfg st' (np_lag p) s.
Proof. exact packet_forwards. Qed.
Print Assumptions C89_packet.

(** C89: After any history, if nothing happens to a LAG for as long as it takes all of its
    ports that are up to hear of their partners once, then the ports that forward are those
    that are up on the switch to use, whatever else happens meanwhile, and in any order. *)
Theorem C89_settles : forall cfg root before lag es s p,
  nwf cfg ->
  let st := nrun cfg (nstate_init root) before in
  quiet cfg lag st es -> all_heard cfg lag st es ->
  In s cfg -> ns_stacked s = true -> in_company cfg st s ->
  In p (ns_ports s) -> np_lag p = lag -> lag <> 0 -> unforced p ->
  (forwards (nrun cfg st es) s p <-> lacp_is_up st s p /\ chosen cfg st lag s).
Proof.
  intros cfg root before lag es s p Hwf st Q A Hs Hst Hc Hp El Hl U.
  pose proof (quiet_same cfg lag es st Q) as [_ [_ SB]]. unfold forwards. unfold lacp_is_up at 1. rewrite SB by auto.
  change (st_actor st (ns_dpid s) (np_num p) = AUp) with (lacp_is_up st s p).
  split; intros [Hup X]; (split; [exact Hup|]);
    (destruct (up_running_run cfg root before Hwf s p Hs Hp Hup) as [_ Hr];
     assert (H : st_role (nrun cfg st es) (ns_dpid s) (np_num p) = RSelected <-> chosen cfg st lag s);
     [apply settles; auto; left; destruct (A s p Hs Hp El Hup) as [now Hin]; exists true, now; exact Hin|]);
    apply H, X.
Qed.
Print Assumptions C89_settles.

(** C89: Then no two switches forward on ports of the LAG. *)
Theorem C89_one_switch : forall cfg root before lag es s p t q,
  nwf cfg ->
  let st := nrun cfg (nstate_init root) before in
  quiet cfg lag st es -> all_heard cfg lag st es ->
  In s cfg -> ns_stacked s = true -> In p (ns_ports s) -> np_lag p = lag -> unforced p ->
  In t cfg -> ns_stacked t = true -> In q (ns_ports t) -> np_lag q = lag -> unforced q ->
  lag <> 0 ->
  forwards (nrun cfg st es) s p -> forwards (nrun cfg st es) t q -> s = t.
Proof.
  intros cfg root before lag es s p t q Hwf st Q A Hs Hss Hp Ep Up Ht Hts Hq Eq Uq Hl Fs Ft.
  assert (Dec : s = t \/ s <> t).
  { destruct (Z.eq_dec (ns_dpid s) (ns_dpid t)) as [E|E]; [left|right; congruence].
    destruct Hwf as [Hn _]. apply (PyBaseProofs.NoDup_map_inj_in _ _ ns_dpid cfg); auto. }
  destruct Dec as [Dec|Dec]; [exact Dec|exfalso].
  pose proof (quiet_same cfg lag es st Q) as [_ [_ SB]].
  assert (Us : lacp_is_up st s p) by (destruct Fs as [X _]; unfold lacp_is_up in *; rewrite SB in X; auto).
  assert (Ut : lacp_is_up st t q) by (destruct Ft as [X _]; unfold lacp_is_up in *; rewrite SB in X; auto).
  destruct (up_running_run cfg root before Hwf s p Hs Hp Us) as [_ Rs].
  destruct (up_running_run cfg root before Hwf t q Ht Hq Ut) as [_ Rt].
  assert (Cs : chosen cfg st lag s).
  { eapply (C89_settles cfg root before lag es s p); eauto. exists t; auto. }
  assert (Ct : chosen cfg st lag t).
  { eapply (C89_settles cfg root before lag es t q); eauto. exists s; auto. }
  destruct Cs as [Ms [_ Cs]], Ct as [Mt [_ Ct]].
  destruct (Cs t Mt) as [X|[X Y]]; [congruence| |];
    (destruct (Ct s Ms) as [X'|[X' Y']]; [congruence| |]); try lia.
  rewrite Y in Y'. inversion Y' as [E]. destruct Hwf as [Hn _].
  apply Dec. apply (PyBaseProofs.NoDup_map_inj_in _ _ ns_dpid cfg); auto.
Qed.
Print Assumptions C89_one_switch.

(** C89: A switch has LACP up only while it is connected, and while a port is up its role
    changes only as it hears of its partner. *)
Theorem C89_roles : forall cfg root es e s p,
  nwf cfg -> In s cfg -> In p (ns_ports s) ->
  let st := nrun cfg (nstate_init root) es in
  (lacp_is_up st s p -> st_running st (ns_dpid s) = true)
  /\ (lacp_is_up (nstep cfg st e) s p -> (forall sync now, e <> NLacp (ns_dpid s) (np_num p) sync now) ->
      lacp_is_up st s p /\ (forwards (nstep cfg st e) s p <-> forwards st s p)).
Proof.
  intros cfg root es e s p Hwf Hs Hp st. split.
  - intros H. apply (up_running_run cfg root es Hwf s p Hs Hp H).
  - intros H Hne.
    assert (A : lacp_is_up st s p).
    { destruct (step_cases cfg st e) as [[r ->]|[[_ L]|L]]; [exact H| |].
      - destruct (L (ns_dpid s) (np_num p)) as [[A _]|N]; [unfold lacp_is_up in *; congruence|contradiction].
      - destruct L as [d [n [sync [now [s' [p' [He [Hs' [Ed [Hp' [En [Hl [Hr E]]]]]]]]]]]]].
        unfold lacp_is_up in *. rewrite E in H. unfold lacp_update in H. cbn in H. rewrite put2_other in H; [exact H|].
        intros X. inversion X. subst. eapply Hne. f_equal; congruence. }
    split; [exact A|]. unfold forwards. rewrite (role_kept cfg st e s p Hwf Hs Hp H Hne). tauto.
Qed.
Print Assumptions C89_roles.

(** C89: LACP is up on a port only if it is enabled, its partner was heard in sync, and since then
    the port has not gone down, its switch has stayed connected, no packet said otherwise, and the
    time allowed had not passed when the switch last looked. *)
Theorem C89_heard : forall cfg root es s p,
  nwf cfg -> In s cfg -> In p (ns_ports s) -> lacp_is_up (nrun cfg (nstate_init root) es) s p ->
  np_enabled p = true /\ exists t, last_heard s p es = Some t.
Proof.
  intros cfg root es s p Hwf Hs Hp H. destruct (heard_run cfg root es s p Hwf Hs Hp H) as (_ & E & t & A & _).
  split; [exact E|]. exists t. exact A.
Qed.
Print Assumptions C89_heard.

(** C89: A packet from a partner in sync brings LACP up on a port that is up, one from a partner
    that is not takes it down. *)
Theorem C89_packet_up : forall cfg st s p sync now,
  nwf cfg -> In s cfg -> st_running st (ns_dpid s) = true -> In p (ns_ports s) -> np_lag p <> 0 ->
  (lacp_is_up (nstep cfg st (NLacp (ns_dpid s) (np_num p) sync now)) s p
   <-> sync = true /\ np_enabled p = true /\ st_phys st (ns_dpid s) (np_num p) = true).
Proof.
  intros cfg st s p sync now Hwf Hs Hr Hp Hl. unfold lacp_is_up. rewrite (packet_step cfg st s p sync now Hwf Hs Hp Hl Hr).
  unfold lacp_update. cbn. rewrite put2_same. unfold next_actor, port_running.
  destruct (np_enabled p), (st_phys st (ns_dpid s) (np_num p)), sync; cbn; intuition discriminate.
Qed.
Print Assumptions C89_packet_up.

(** C89: The same after any history: the packet counts if the switch is connected and the port is
    up, by what the switch said, and only then. *)
Theorem C89_packet_up_history : forall cfg root es s p sync now,
  nwf cfg -> In s cfg -> In p (ns_ports s) -> np_lag p <> 0 -> fst (link s p es) = true ->
  (lacp_is_up (nrun cfg (nstate_init root) (es ++ [NLacp (ns_dpid s) (np_num p) sync now])) s p
   <-> sync = true /\ np_enabled p = true /\ snd (link s p es) = true).
Proof.
  intros cfg root es s p sync now Hwf Hs Hp Hl Hc. unfold nrun. rewrite fold_left_app. cbn [fold_left]. fold (nrun cfg (nstate_init root) es).
  rewrite <- (link_run cfg root es s p Hwf Hs Hp) in *. cbn [fst snd] in *. apply C89_packet_up; auto.
Qed.
Print Assumptions C89_packet_up_history.

(** C89: What the configuration says of a port goes first. *)
Theorem C89_forced : forall cfg st s p sync now,
  nwf cfg -> In s cfg -> st_running st (ns_dpid s) = true -> In p (ns_ports s) -> np_lag p <> 0 ->
  let st' := nstep cfg st (NLacp (ns_dpid s) (np_num p) sync now) in
  (np_force_sel p = true -> (forwards st' s p <-> lacp_is_up st' s p))
  /\ (np_force_sel p = false -> np_force_unsel p = true -> ~ forwards st' s p).
Proof.
  intros cfg st s p sync now Hwf Hs Hr Hp Hl st'. unfold st'. rewrite packet_step by auto.
  unfold forwards, lacp_update, lacp_is_up. cbn. rewrite !put2_same. unfold next_role. split.
  - intros ->. tauto.
  - intros -> ->. intros [_ X]. discriminate.
Qed.
Print Assumptions C89_forced.

(** C90, in part: A LAG that has a port up is used, if one switch has more of its ports up than
    all others, or the root is among those that have most, and another switch is connected.
    The rest is refuted below. *)
Theorem C90_used_partial : forall cfg root before lag es s,
  nwf cfg ->
  let st := nrun cfg (nstate_init root) before in
  quiet cfg lag st es -> all_heard cfg lag st es -> lag <> 0 ->
  chosen cfg st lag s -> in_company cfg st s ->
  (forall p, In p (ns_ports s) -> np_lag p = lag -> unforced p) ->
  exists p, In p (ns_ports s) /\ np_lag p = lag /\ forwards (nrun cfg st es) s p.
Proof.
  intros cfg root before lag es s Hwf st Q A Hl C Hc U.
  pose proof C as [[Hs [_ Hst]] [P _]]. unfold up_count in P.
  destruct (filter _ (ns_ports s)) as [|p r] eqn:E in P; [cbn in P; lia|].
  assert (Hin : In p (p :: r)) by (left; reflexivity). rewrite <- E in Hin. apply filter_In in Hin.
  destruct Hin as [Hp X]. apply andb_prop in X. destruct X as [El X]. apply Z.eqb_eq in El.
  exists p. split; [exact Hp|]. split; [exact El|].
  apply (C89_settles cfg root before lag es s p); auto. split; [|exact C].
  unfold lacp_is_up. fold st. destruct (st_actor st (ns_dpid s) (np_num p)); try discriminate X. reflexivity.
Qed.
Print Assumptions C90_used_partial.

(** ** A case: two ports of LAG 1 on each of three switches *)

Definition nx_port (n : Z) : nport := mkNport n true 1 false false false.
Definition nx_switch (d : Z) : nswitch := mkNswitch d true [nx_port 1; nx_port 2; mkNport 3 true 0 false false false] 30.
Definition nx_cfg : nconf := [nx_switch 1; nx_switch 2; nx_switch 3].
Definition nx_connected : list nevent := [NConnect 1 [1; 2; 3]; NConnect 2 [1; 2; 3]; NConnect 3 [1; 2; 3]].
(** one port is up on switch 1, and two on switch 2 *)
Definition nx_before : list nevent := nx_connected ++ [NLacp 1 1 true 10; NLacp 2 1 true 11; NLacp 2 2 true 12].
Definition nx_round : list nevent := [NLacp 2 2 true 20; NExpire 3 20; NLacp 1 1 true 21; NLacp 2 1 true 22; NPortDown 3 3].

Example ex_nwf : nwf nx_cfg.
Proof.
  split; [repeat constructor; cbn; intuition discriminate|].
  repeat constructor; cbn; intuition discriminate.
Qed.
(** checks of what the cases claim *)
Definition actor_is (a b : actor_state) : bool := if actor_eq_dec a b then true else false.
Definition root_is (a b : option Z) : bool :=
  match a, b with Some x, Some y => x =? y | None, None => true | _, _ => false end.
Definition same_lagb (cfg : nconf) (lag : Z) (st st' : nstate) : bool :=
  root_is (st_root st') (st_root st)
  && forallb (fun s => Bool.eqb (st_running st' (ns_dpid s)) (st_running st (ns_dpid s))) cfg
  && forallb (fun s => forallb (fun p => negb (np_lag p =? lag)
                || actor_is (st_actor st' (ns_dpid s) (np_num p)) (st_actor st (ns_dpid s) (np_num p))) (ns_ports s)) cfg.
Fixpoint quietb (cfg : nconf) (lag : Z) (st : nstate) (es : list nevent) : bool :=
  match es with
  | [] => true
  | e :: r => let st' := nstep cfg st e in same_lagb cfg lag st st' && quietb cfg lag st' r
  end.
Definition upb (st : nstate) (s : nswitch) (p : nport) : bool := actor_is (st_actor st (ns_dpid s) (np_num p)) AUp.
Definition forwardsb (st : nstate) (s : nswitch) (p : nport) : bool :=
  upb st s p && (if role_eq_dec (st_role st (ns_dpid s) (np_num p)) RSelected then true else false).
Definition heardb (cfg : nconf) (lag : Z) (st : nstate) (es : list nevent) : bool :=
  forallb (fun s => forallb (fun p => negb (np_lag p =? lag) || negb (upb st s p)
    || existsb (fun e => match e with NLacp d n true _ => (d =? ns_dpid s) && (n =? np_num p) | _ => false end) es) (ns_ports s)) cfg.
Definition memberb (st : nstate) (s : nswitch) : bool := st_running st (ns_dpid s) && ns_stacked s.
Definition chosenb (cfg : nconf) (st : nstate) (lag : Z) (s : nswitch) : bool :=
  memberb st s && Nat.ltb 0 (up_count st lag s)
  && forallb (fun t => negb (memberb st t) || (ns_dpid t =? ns_dpid s)
       || Nat.ltb (up_count st lag t) (up_count st lag s)
       || (Nat.eqb (up_count st lag t) (up_count st lag s) && root_is (st_root st) (Some (ns_dpid s)))) cfg.

Lemma actor_is_eq : forall a b, actor_is a b = true <-> a = b.
Proof. intros a b. unfold actor_is. destruct (actor_eq_dec a b); split; congruence. Qed.
Lemma root_is_eq : forall a b, root_is a b = true <-> a = b.
Proof.
  intros [a|] [b|]; cbn; split; try congruence; [rewrite Z.eqb_eq; congruence|]. intros E; inversion E. apply Z.eqb_refl.
Qed.
Lemma same_lagb_ok : forall cfg lag st st', same_lagb cfg lag st st' = true -> same_lag cfg lag st st'.
Proof.
  intros cfg lag st st' H. unfold same_lagb in H. apply andb_prop in H. destruct H as [H H3]. apply andb_prop in H. destruct H as [H1 H2].
  split; [apply root_is_eq, H1|]. rewrite forallb_forall in H2, H3. split.
  - intros s Hs. apply eqb_prop, H2, Hs.
  - intros s p Hs Hp El. specialize (H3 s Hs). rewrite forallb_forall in H3. specialize (H3 p Hp). rewrite El, Z.eqb_refl in H3.
    apply actor_is_eq, H3.
Qed.
Lemma quietb_ok : forall cfg lag es st, quietb cfg lag st es = true -> quiet cfg lag st es.
Proof.
  induction es as [|e r IH]; intros st H; [exact I|]. cbn [quietb] in H. apply andb_prop in H. destruct H as [H1 H2].
  split; [apply same_lagb_ok, H1|apply IH, H2].
Qed.
Lemma upb_ok : forall st s p, upb st s p = true <-> lacp_is_up st s p.
Proof. intros. apply actor_is_eq. Qed.
Lemma forwardsb_ok : forall st s p, forwardsb st s p = true <-> forwards st s p.
Proof.
  intros. unfold forwardsb, forwards. rewrite andb_true_iff, upb_ok. destruct (role_eq_dec _ _); intuition discriminate.
Qed.
Lemma heardb_ok : forall cfg lag st es, heardb cfg lag st es = true -> all_heard cfg lag st es.
Proof.
  intros cfg lag st es H s p Hs Hp El Hup. unfold heardb in H. rewrite forallb_forall in H. specialize (H s Hs).
  rewrite forallb_forall in H. specialize (H p Hp). rewrite El, Z.eqb_refl in H. apply upb_ok in Hup. rewrite Hup in H. cbn in H.
  apply existsb_exists in H. destruct H as [e [He X]]. destruct e; try discriminate X. destruct sync; [|discriminate X].
  apply andb_prop in X. destruct X as [X1 X2]. apply Z.eqb_eq in X1, X2. subst. exists now. exact He.
Qed.
Lemma chosenb_ok : forall cfg st lag s, NoDup (map ns_dpid cfg) -> In s cfg ->
  (chosenb cfg st lag s = true <-> chosen cfg st lag s).
Proof.
  intros cfg st lag s Hn Hs. unfold chosenb, chosen, stack_member, memberb. rewrite !andb_true_iff, Nat.ltb_lt, forallb_forall. split.
  - intros [[[A B] C] D]. split; [auto|]. split; [exact C|]. intros t [Ht [Hr Hst]] Hne. specialize (D t Ht). rewrite Hr, Hst in D. cbn [negb andb orb] in D.
    rewrite (proj2 (Z.eqb_neq (ns_dpid t) (ns_dpid s))) in D.
    + apply orb_prop in D. destruct D as [D|D]; [left; apply Nat.ltb_lt, D|right]. apply andb_prop in D. destruct D as [D1 D2].
      split; [apply Nat.eqb_eq, D1|apply root_is_eq, D2].
    + intros E. apply Hne. apply (PyBaseProofs.NoDup_map_inj_in _ _ ns_dpid cfg); auto.
  - intros [[_ [A B]] [C D]]. repeat split; auto. intros t Ht.
    destruct (st_running st (ns_dpid t)) eqn:Hr; [|reflexivity]. destruct (ns_stacked t) eqn:Hst; [|reflexivity]. cbn [negb andb orb].
    destruct (ns_dpid t =? ns_dpid s) eqn:E; [reflexivity|]. apply Z.eqb_neq in E. cbn [orb].
    destruct (D t) as [X|[X Y]]; auto; [congruence| |].
    + apply Nat.ltb_lt in X. rewrite X. reflexivity.
    + apply Nat.eqb_eq in X. apply root_is_eq in Y. rewrite X, Y. apply orb_true_r.
Qed.
Lemma chosenb_no : forall cfg st lag s, NoDup (map ns_dpid cfg) -> In s cfg -> chosenb cfg st lag s = false -> ~ chosen cfg st lag s.
Proof. intros cfg st lag s Hn Hs H X. apply chosenb_ok in X; auto. congruence. Qed.
Lemma none_forwards : forall cfg st lag,
  forallb (fun s => forallb (fun p => negb (np_lag p =? lag) || negb (forwardsb st s p)) (ns_ports s)) cfg = true ->
  forall s p, In s cfg -> In p (ns_ports s) -> np_lag p = lag -> ~ forwards st s p.
Proof.
  intros cfg st lag H s p Hs Hp El F. rewrite forallb_forall in H. specialize (H s Hs). rewrite forallb_forall in H.
  specialize (H p Hp). apply forwardsb_ok in F. rewrite El, Z.eqb_refl, F in H. discriminate.
Qed.

Example ex_quiet :
  let st := nrun nx_cfg (nstate_init (Some 1)) nx_before in
  quiet nx_cfg 1 st nx_round /\ all_heard nx_cfg 1 st nx_round
  /\ chosen nx_cfg st 1 (nx_switch 2) /\ in_company nx_cfg st (nx_switch 2) /\ unforced (nx_port 1)
  /\ forwards (nrun nx_cfg st nx_round) (nx_switch 2) (nx_port 1)
  /\ forwards st (nx_switch 1) (nx_port 1) /\ ~ forwards (nrun nx_cfg st nx_round) (nx_switch 1) (nx_port 1).
Proof.
  cbv zeta. split; [|split; [|split; [|split; [|split; [|split; [|split]]]]]].
  - apply quietb_ok; vm_compute; reflexivity.
  - apply heardb_ok; vm_compute; reflexivity.
  - apply chosenb_ok; [apply ex_nwf|cbn; auto|vm_compute; reflexivity].
  - exists (nx_switch 1). split; [cbn; auto|]. split; [discriminate|vm_compute; reflexivity].
  - split; reflexivity.
  - apply forwardsb_ok; vm_compute; reflexivity.
  - apply forwardsb_ok; vm_compute; reflexivity.
  - rewrite <- forwardsb_ok. vm_compute. discriminate.
Qed.

(** ** Findings *)

(** Where two switches have as many ports up, and neither is the root, no switch is used, though
    the switch with the lowest dp_id should be (valve_switch_stack.py 424-427): a list of dp_ids is
    nominated, not one of them. *)
Theorem C90_tie_refuted :
  exists cfg root before lag es,
    let st := nrun cfg (nstate_init root) before in
    nwf cfg /\ quiet cfg lag st es /\ all_heard cfg lag st es
    /\ (exists s p, In s cfg /\ In p (ns_ports s) /\ np_lag p = lag /\ lacp_is_up st s p)
    /\ forall s p, In s cfg -> In p (ns_ports s) -> np_lag p = lag -> ~ forwards (nrun cfg st es) s p.
Proof.
  exists nx_cfg, (Some 1), (nx_connected ++ [NLacp 2 1 true 10; NLacp 3 1 true 11]), 1, [NLacp 2 1 true 20; NLacp 3 1 true 21].
  cbv zeta. split; [exact ex_nwf|]. split; [|split; [|split]].
  - apply quietb_ok; vm_compute; reflexivity.
  - apply heardb_ok; vm_compute; reflexivity.
  - exists (nx_switch 2), (nx_port 1). split; [cbn; auto|]. split; [cbn; auto|]. split; [reflexivity|].
    apply upb_ok; vm_compute; reflexivity.
  - apply none_forwards; vm_compute; reflexivity.
Qed.
Print Assumptions C90_tie_refuted.

(** Where no other switch is connected, none of the ports of the LAG is used
    (valve_switch_stack.py 434-435). *)
Theorem C90_alone_refuted :
  exists cfg root before lag es,
    let st := nrun cfg (nstate_init root) before in
    nwf cfg /\ quiet cfg lag st es /\ all_heard cfg lag st es
    /\ (exists s, chosen cfg st lag s)
    /\ forall s p, In s cfg -> In p (ns_ports s) -> np_lag p = lag -> ~ forwards (nrun cfg st es) s p.
Proof.
  exists nx_cfg, (Some 1), (nx_connected ++ [NLacp 1 1 true 10; NLacp 1 2 true 11; NDisconnect 2; NDisconnect 3]), 1,
         [NLacp 1 2 true 20; NLacp 1 1 true 21].
  cbv zeta. split; [exact ex_nwf|]. split; [|split; [|split]].
  - apply quietb_ok; vm_compute; reflexivity.
  - apply heardb_ok; vm_compute; reflexivity.
  - exists (nx_switch 1). apply chosenb_ok; [apply ex_nwf|cbn; auto|vm_compute; reflexivity].
  - apply none_forwards; vm_compute; reflexivity.
Qed.
Print Assumptions C90_alone_refuted.

(** Until the ports have heard of their partners again, two switches may forward at once. *)
Theorem C89_meanwhile_refuted :
  exists cfg root before s p t q,
    let st := nrun cfg (nstate_init root) before in
    nwf cfg /\ In s cfg /\ In t cfg /\ s <> t /\ In p (ns_ports s) /\ In q (ns_ports t) /\ np_lag p = np_lag q
    /\ np_lag p <> 0 /\ unforced p /\ unforced q /\ forwards st s p /\ forwards st t q.
Proof.
  exists nx_cfg, (Some 1), nx_before, (nx_switch 1), (nx_port 1), (nx_switch 2), (nx_port 2).
  cbv zeta. split; [exact ex_nwf|]. split; [cbn; auto|]. split; [cbn; auto|]. split; [discriminate|].
  split; [cbn; auto|]. split; [cbn; auto|]. split; [reflexivity|]. split; [discriminate|].
  split; [split; reflexivity|]. split; [split; reflexivity|].
  split; apply forwardsb_ok; vm_compute; reflexivity.
Qed.
Print Assumptions C89_meanwhile_refuted.

(** And a switch that the LAG should leave goes on forwarding when the root changes. *)
Theorem C89_election_refuted :
  exists cfg root before r s p,
    let st := nrun cfg (nstate_init root) before in
    nwf cfg /\ In s cfg /\ In p (ns_ports s) /\ np_lag p <> 0 /\ unforced p
    /\ chosen cfg st (np_lag p) s /\ forwards st s p
    /\ forwards (nstep cfg st (NRoot r)) s p /\ ~ chosen cfg (nstep cfg st (NRoot r)) (np_lag p) s.
Proof.
  exists nx_cfg, (Some 1), (nx_connected ++ [NLacp 2 1 true 9; NLacp 1 1 true 10]), (Some 2), (nx_switch 1), (nx_port 1).
  cbv zeta. split; [exact ex_nwf|].
  split; [cbn; auto|]. split; [cbn; auto|]. split; [discriminate|]. split; [split; reflexivity|].
  split; [apply chosenb_ok; [apply ex_nwf|cbn; auto|vm_compute; reflexivity]|].
  split; [apply forwardsb_ok; vm_compute; reflexivity|]. split; [apply forwardsb_ok; vm_compute; reflexivity|].
  apply chosenb_no; [apply ex_nwf|cbn; auto|vm_compute; reflexivity].
Qed.
Print Assumptions C89_election_refuted.
