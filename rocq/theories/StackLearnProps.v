(** * C80, C81: where the switches of a stack learn hosts *)
From Coq Require Import ZArith List Bool Lia Arith.
From Verif Require Import PyBase PyBaseProofs StackModel StackSpec StackProofs StackFloodProofs StackRoleProofs StackOnceProofs StackNextProofs StackExamples StackProps.
From Verif Require Import StackLearnModel StackLearnSpec StackLearnProofs.
Import ListNotations.
Open Scope Z_scope.

(** ** C80 *)

(** However the packets of a host that stays where it is reach the controller, and
    whatever is forgotten in between: the switch it is at has it on its port, and
    every other switch has it, if at all, on the port towards that switch. *)
Theorem C80_home : forall c root h e p evs s pl, agreed (sl_fabric c) root -> wired_within (sl_fabric c) ->
  Forall (managed c) evs -> Forall (stays h e p) evs -> In s (sl_fabric c) ->
  cached (slrun c [] evs) h (sn_name s) = Some pl -> right c e p s pl.
Proof.
  intros c root h e p evs s pl AG WI M ST I H. assert (ND := ag_names _ _ (proj1 AG)).
  destruct (run_rinv c h e p ND WI [] evs [] M ST (fun s pl _ (H : None = Some pl) => match H with end) s pl I H) as [R|[A _]]; [exact R|discriminate].
Qed.
Print Assumptions C80_home.

(** A switch that hears it from another one, when the switch it is at has learned
    it, learns it. *)
Theorem C80_learns : forall c root h e p evs ev s q, agreed (sl_fabric c) root -> wired_within (sl_fabric c) -> sl_route c = false ->
  Forall (managed c) evs -> Forall (stays h e p) evs -> managed c ev ->
  In e (names (sl_fabric c)) -> In e (sl_vlan c) -> cached (slrun c [] evs) h e = Some (Edge p) ->
  In s (sl_fabric c) -> sn_name s <> e -> towards c s e = Some q -> heard c h e p (sn_name s) ev ->
  cached (slrun c [] (evs ++ [ev])) h (sn_name s) = Some (Via (sp_no q)).
Proof.
  intros c root h e p evs ev s q AG WI RT M ST ME IE VE HE I NE TW HD. assert (ND := ag_names _ _ (proj1 AG)).
  unfold slrun. rewrite fold_left_app. fold (slrun c [] evs). cbn [fold_left].
  assert (forall t pl, In t (sl_fabric c) -> cached (slrun c [] evs) h (sn_name t) = Some pl -> right c e p t pl) as R by (intros t pl; apply (C80_home c root h e p evs t pl AG WI M ST)).
  assert (forall x n, In x (names (sl_fabric c)) -> cached (slrun c [] evs) h x = Some (Edge n) -> x = e) as U.
  { intros x n J K. apply in_map_iff in J as (t & <- & IT). destruct (R t _ IT K) as [[A _]|(_ & q' & _ & B)]; [exact A|discriminate]. }
  assert (settled c (slrun c [] evs) h (sn_name s) ev) as SET.
  { intros _ inp w n t _ EN. destruct (NE (U (sn_name s) n (in_map sn_name _ _ I) ltac:(unfold cached; rewrite EN; reflexivity))). }
  destruct (cached (slrun c [] evs) h (sn_name s)) as [pl|] eqn:C.
  - destruct (sl_external c e p) eqn:X.
      assert (cached (slstep c (slrun c [] evs) ev) h (sn_name s) <> None) as K.
      { apply step_keeps; [|congruence]. destruct HD as (no & w & s' & -> & _). discriminate. }
      destruct (cached (slstep c (slrun c [] evs) ev) h (sn_name s)) as [pl'|] eqn:C'; [|congruence].
      assert (right c e p s pl') as R'.
      { apply (C80_home c root h e p (evs ++ [ev]) s pl' AG WI); auto.
        - apply Forall_app. auto.
        - apply Forall_app. split; [exact ST|]. constructor; [|constructor]. destruct HD as (no & w & s' & -> & _). exact Logic.I.
        - unfold slrun. rewrite fold_left_app. exact C'. }
      destruct R' as [[A _]|(_ & q' & T & ->)]; [contradiction|congruence].
    + eapply heard_step; eauto.
  - eapply heard_step; eauto.
Qed.
Print Assumptions C80_learns.

(** With route learning, when that switch hears it again all others learn it. *)
Lemma tell_all : forall c h e p w s q r, NoDup (names (sl_fabric c)) -> wired_within (sl_fabric c) ->
  (forall t, In t (sl_fabric c) -> w_running w (sn_name t) = true) -> In e (names (sl_fabric c)) -> In e (sl_vlan c) ->
  In s (sl_fabric c) -> sn_name s <> e -> In (sn_name s) (sl_vlan c) -> In e (w_order w) -> w_forwarding w e p = true -> w_update w (sn_name s) = true ->
  towards c s e = Some q -> relative_port_towards (sl_fabric c) s e = Some r ->
  forall l st, ~ In e l -> rinv c h e p [] st -> cached st h e = Some (Edge p) -> (In (sn_name s) l \/ cached st h (sn_name s) = Some (Via (sp_no q))) ->
  cached (fold_left (tell_other c w h e) l st) h (sn_name s) = Some (Via (sp_no q)).
Proof.
  intros c h e p w s q r ND WI RUN IE VE I NE VS IW FW UPD TW REL. induction l as [|x l IH]; intros st NI R HE [J|J]; try exact J; try (destruct J; fail).
  - cbn [fold_left]. assert (rinv c h e p [] (tell_other c w h e st x)) as R' by (apply (tell_rinv c h e p ND WI [] w e [x] st R RUN)).
    assert (cached (tell_other c w h e st x) h e = Some (Edge p)) as HE'.
    { rewrite tell_at_other; [exact HE|]. intros ->. apply NI. left. reflexivity. }
    apply IH; [intros A; apply NI; right; exact A|exact R'|exact HE'|]. destruct (Z.eq_dec x (sn_name s)) as [->|D]; [right|left; destruct J; [contradiction|assumption]].
    assert (cached st h (sn_name s) <> None -> cached (tell_other c w h e st (sn_name s)) h (sn_name s) <> None) as KEEP.
    { intros K. exact (tell_keeps c w h e [sn_name s] st h (sn_name s) K). }
    destruct (cached st h (sn_name s)) as [pl|] eqn:C.
    + specialize (KEEP ltac:(congruence)). destruct (cached (tell_other c w h e st (sn_name s)) h (sn_name s)) as [pl'|] eqn:C'; [|congruence].
      destruct (R' s pl' I C') as [[[A _]|(_ & q' & T & ->)]|[A _]]; [contradiction|congruence|discriminate].
    + unfold tell_other. rewrite (node_of _ s ND I), REL, (proj2 (memz _ _) VS).
      apply (learn_hears c h e p WI); auto.
      * intros y n IY K. exact (proj1 (rinv_edge c h e p [] st y n R IY K)).
      * apply in_map. eapply relative_in. exact REL.
  - cbn [fold_left]. assert (rinv c h e p [] (tell_other c w h e st x)) as R' by (apply (tell_rinv c h e p ND WI [] w e [x] st R RUN)).
    apply IH; [intros A; apply NI; right; exact A|exact R'| |].
    + rewrite tell_at_other; [exact HE|]. intros ->. apply NI. left. reflexivity.
    + right. assert (cached (tell_other c w h e st x) h (sn_name s) <> None) as K by (apply (tell_keeps c w h e [x] st h (sn_name s)); congruence).
      destruct (cached (tell_other c w h e st x) h (sn_name s)) as [pl'|] eqn:C'; [|congruence].
      destruct (R' s pl' I C') as [[[A _]|(_ & q' & T & ->)]|[A _]]; [contradiction|congruence|discriminate].
Qed.
Theorem C80_route_learns : forall c root h e p evs ev s q, agreed (sl_fabric c) root -> wired_within (sl_fabric c) -> sl_route c = true ->
  Forall (managed c) evs -> Forall (stays h e p) evs -> managed c ev ->
  In e (names (sl_fabric c)) -> In e (sl_vlan c) -> cached (slrun c [] evs) h e = Some (Edge p) ->
  In s (sl_fabric c) -> sn_name s <> e -> towards c s e = Some q -> relative_port_towards (sl_fabric c) s e <> None -> spoke c h e p (sn_name s) ev ->
  cached (slrun c [] (evs ++ [ev])) h (sn_name s) = Some (Via (sp_no q)).
Proof.
  intros c root h e p evs ev s q AG WI RT M ST ME IE VE HE I NE TW REL (w & -> & VS & IS & IW & FW & UPD). assert (ND := ag_names _ _ (proj1 AG)).
  unfold slrun. rewrite fold_left_app. fold (slrun c [] evs). cbn [fold_left slstep].
  assert (IE' := IE). apply in_map_iff in IE' as (t & NT & IT). rewrite <- NT at 1. rewrite (node_of _ t ND IT), (proj2 (memz _ _) VE).
  unfold learn_host_from_pkt. rewrite RT, learn_at_other by congruence. rewrite NT.
  destruct (relative_port_towards (sl_fabric c) s e) as [r|] eqn:RP; [|congruence].
  apply (tell_all c h e p w s q r); auto.
  - intros A. apply others_in in A. tauto.
  - apply (run_rinv c h e p ND WI [] evs [] M ST). intros u pl _ H. discriminate.
  - left. apply others_in. repeat split; auto. apply in_map. exact I.
Qed.
Print Assumptions C80_route_learns.

(** A frame for the host then goes from switch to switch, as each has learned it,
    until it is at the switch of the host or at one that has to flood it. *)
Theorem C80_way : forall c root h e p evs x, agreed (sl_fabric c) root -> wired_within (sl_fabric c) ->
  Forall (managed c) evs -> Forall (stays h e p) evs -> usable c root x e ->
  exists n z, follows (sends (slrun c [] evs) h) (sl_fabric c) n x z /\ (z = e \/ cached (slrun c [] evs) h z = None).
Proof.
  intros c root h e p evs x AG WI M ST US.
  assert (exists n, follows (fun s => towards c s e) (sl_fabric c) n x e) as (n & F).
  { unfold usable in US. unfold towards. destruct (sl_tree c).
    - destruct (C58_along_tree (sl_fabric c) root x e AG (proj1 US) (proj2 US)) as (n & (F & _) & _). eauto.
    - destruct (C58_shortest_partial (sl_fabric c) root x e AG (proj1 US) (proj2 US)) as (n & _ & (F & _)). eauto. }
  apply (way_sends c root _ h e p AG (fun s pl I H => C80_home c root h e p evs s pl AG WI M ST I H) n x e F eq_refl).
Qed.
Print Assumptions C80_way.

(** When all have learned it, it gets there without passing a switch twice. *)
Theorem C80_delivered : forall c root h e p evs x, agreed (sl_fabric c) root -> wired_within (sl_fabric c) ->
  Forall (managed c) evs -> Forall (stays h e p) evs -> usable c root x e -> In e (names (sl_fabric c)) ->
  (forall s, In s (sl_fabric c) -> joined (sl_fabric c) x (sn_name s) -> cached (slrun c [] evs) h (sn_name s) <> None) ->
  cached (slrun c [] evs) h e = Some (Edge p) -> exists n, arrives (sends (slrun c [] evs) h) (sl_fabric c) x e n.
Proof.
  intros c root h e p evs x AG WI M ST US IE K HE.
  assert (exists n, arrives (fun s => towards c s e) (sl_fabric c) x e n) as (n & F & LE & ONE).
  { unfold usable in US. unfold towards. destruct (sl_tree c).
    - destruct (C58_along_tree (sl_fabric c) root x e AG (proj1 US) (proj2 US)) as (n & A & _). eauto.
    - destruct (C58_shortest_partial (sl_fabric c) root x e AG (proj1 US) (proj2 US)) as (n & _ & A). eauto. }
  exists n. apply in_map_iff in IE as (t & NT & IT).
  apply (arrives_intro (sl_fabric c) root AG _ n x e t IT NT); [unfold sends; rewrite NT, HE; reflexivity|].
  apply (known_sends c root _ h e p AG (fun s pl I H => C80_home c root h e p evs s pl AG WI M ST I H) n x e F eq_refl); [|exact K].
  intros m LT F'. assert (m = n) by (apply (ONE m n e); assumption). lia.
Qed.
Print Assumptions C80_delivered.

(** The five switches of StackProps: host 7 at port 9 of switch 5 is heard there
    first by switch 3 (too early), then at home, then by all others. *)
Definition ex_world : world := mkWorld 100 [4; 5; 3; 2; 1] (fun _ => true) (fun _ _ => true) (fun _ _ => Some 0) (fun _ => true).
Definition ex_slconf (route : bool) : slconf := mkSlconf ex_stack [1; 2; 3; 4; 5] (fun _ _ => false) true false route.
Definition ex_hears : list slevent :=
  [SHear 7 3 (Via 4) ex_world; SHear 7 5 (Edge 9) ex_world; SForget 7 2; SHear 7 5 (Via 1) ex_world; SHear 7 3 (Via 4) ex_world; SHear 7 2 (Via 3) ex_world;
   SHear 7 1 (Via 1) ex_world; SHear 7 4 (Via 3) ex_world].
Lemma ex_wired_within : wired_within ex_stack.
Proof.
  intros s q I P. vm_compute in I. repeat (destruct I as [I|I]; [subst s|]); try contradiction;
    cbn in P; repeat (destruct P as [P|P]; [subst q; vm_compute; auto 10|]); contradiction.
Qed.
Example C80_case : agreed (sl_fabric (ex_slconf false)) 1 /\ wired_within (sl_fabric (ex_slconf false)) /\
  Forall (managed (ex_slconf false)) ex_hears /\ Forall (stays 7 5 9) ex_hears /\ usable (ex_slconf false) 1 4 5 /\
  map (cached (slrun (ex_slconf false) [] ex_hears) 7) [1; 2; 3; 4; 5] = [Some (Via 1); Some (Via 3); Some (Via 4); Some (Via 1); Some (Edge 9)] /\
  heard (ex_slconf false) 7 5 9 4 (SHear 7 4 (Via 3) ex_world) /\
  map (cached (slrun (ex_slconf true) [] [SHear 7 5 (Edge 9) ex_world; SHear 7 5 (Edge 9) ex_world]) 7) [1; 2; 3; 4; 5]
    = [Some (Via 1); Some (Via 3); Some (Via 4); Some (Via 1); Some (Edge 9)] /\
  spoke (ex_slconf true) 7 5 9 4 (SHear 7 5 (Edge 9) ex_world).
Proof.
  split; [exact ex_agreed|]. split; [exact ex_wired_within|]. split; [repeat constructor|]. split; [repeat constructor|].
  split.
  { split.
    - apply (joined_trans _ 4 3 5); apply joined_one; vm_compute; auto 10.
    - intros s q I P. vm_compute in I. repeat (destruct I as [I|I]; [subst s|]); try contradiction;
        cbn in P; repeat (destruct P as [P|P]; [subst q; reflexivity|]); contradiction. }
  split; [vm_compute; reflexivity|]. split.
  { exists 3, ex_world, (nth 3 ex_stack (mkSnode 0 [] 0 (mkGraph [] []))). split; [reflexivity|]. vm_compute. auto 20. }
  split; [vm_compute; reflexivity|]. exists ex_world. split; [reflexivity|]. vm_compute. auto 20.
Qed.

(** When a switch is not connected, its neighbours learn from it only if the host can
    be nowhere but behind it in the direction of the port: in a stack with reflection
    a frame from a disconnected switch that is neither the root nor among those
    farthest from it teaches nothing. *)
Theorem C80_disconnected : forall c st h s q mid no w, NoDup (names (sl_fabric c)) -> sl_reflection c = true -> sl_route c = false ->
  In s (sl_fabric c) -> sport_of s no = Some q -> In mid (sl_fabric c) -> sn_name mid = sp_dp q -> w_running w (sp_dp q) = false ->
  is_edge mid = false -> is_root mid = false -> slstep c st (SHear h (sn_name s) (Via no) w) = st.
Proof.
  intros c st h s q mid no w ND RF RT I P J NM RUN E R. cbn [slstep]. rewrite (node_of _ s ND I).
  destruct (mem Z.eqb (sn_name s) (sl_vlan c)); [|reflexivity]. unfold learn_host_from_pkt. rewrite RT. unfold learn_host, edge_learn_port. rewrite P.
  unfold edge_dp_for_host. rewrite RUN, RF, <- NM, (node_of _ mid ND J), E, R. reflexivity.
Qed.
Print Assumptions C80_disconnected.
Example C80_disconnected_case : exists s q mid, In s ex_stack /\ sport_of s 1 = Some q /\ In mid ex_stack /\ sn_name mid = sp_dp q /\
  is_edge mid = false /\ is_root mid = false.
Proof.
  exists (nth 3 ex_stack (mkSnode 0 [] 0 (mkGraph [] []))). eexists. exists (nth 2 ex_stack (mkSnode 0 [] 0 (mkGraph [] []))).
  vm_compute. auto 20.
Qed.

(** ** C81 *)

(** A host moves from switch [e1] to switch [e2] and is heard there, at time [t0].  If
    switch [e1] then hears it from the stack, or forgets it, before a packet of the
    host comes back to switch [e2] through the stack, or, with reflection, within
    two seconds, then every switch that hears it after that has it on the port
    towards switch [e2], from then on. *)
Section Middle.
  Variable c : slconf.
  Variables h e1 p1 e2 p2 : Z.
  Hypothesis ND : NoDup (names (sl_fabric c)).
  Hypothesis RT : sl_route c = false.
  Hypothesis NE : e1 <> e2.
  Hypothesis EXT : sl_external c e2 p2 = false.
  Definition mid (t0 : Z) (st : caches) : Prop := (exists t, entry_of st h e2 = Some (Edge p2, t) /\ t0 <= t) /\
    forall x n, In x (names (sl_fabric c)) -> cached st h x = Some (Edge n) -> x = e1 \/ (x = e2 /\ n = p2).
  Lemma mid_step : forall t0 st ev, mid t0 st -> stays h e2 p2 ev -> quick c h e2 t0 ev -> ev <> SForget h e2 -> mid t0 (slstep c st ev).
  Proof.
    intros t0 st [g d inp w|g d] MI ST NB NF; cbn [slstep].
    - destruct (node (sl_fabric c) d) as [s|] eqn:N; [|exact MI]. destruct (node_in _ _ _ N) as [I NM]. destruct (mem Z.eqb d (sl_vlan c)); [|exact MI].
      unfold learn_host_from_pkt. rewrite RT. unfold learn_host. destruct (edge_learn_port c w st g s inp) as [pl|] eqn:L; [|exact MI].
      destruct (w_update w (sn_name s) && negb (discarded c w st g (sn_name s) pl)) eqn:UPD; [|exact MI].
      apply andb_true_iff in UPD as [_ ND']. apply negb_true_iff in ND'. destruct MI as [(t & HE & LE) U]. destruct (Z.eq_dec g h) as [->|D].
      2: { assert (h =? g = false) as F by (apply Z.eqb_neq; congruence). split.
           - exists t. rewrite entry_put, F, andb_false_r. auto.
           - intros x n J K. rewrite cached_put, F, andb_false_r in K. eauto. }
      destruct inp as [no|no].
      + destruct (ST eq_refl) as [A ->]. cbn in L. rewrite NM, A, EXT in L. injection L as <-. rewrite NM, A. split.
        * exists (w_now w). rewrite entry_put, !Z.eqb_refl. split; [reflexivity|]. exact (proj1 (NB eq_refl A)).
        * intros x n J K. rewrite cached_put in K. destruct ((x =? e2) && (h =? h)) eqn:E; [|exact (U x n J K)]. apply andb_true_iff in E as [E _]. apply Z.eqb_eq in E.
          injection K as <-. auto.
      + assert (exists n, pl = Via n) as (n & ->).
        { unfold edge_learn_port in L. destruct (sport_of s no); [|discriminate]. destruct (edge_dp_for_host _ _ _ _ _ _); [|discriminate].
          destruct (edge_learn_port_towards _ _ _); [|discriminate]. injection L as <-. eauto. }
        assert (sn_name s <> e2) as NS.
        { rewrite NM. intros A. destruct (NB eq_refl A) as (_ & RF & LT & CH). destruct (CH n) as (u & CU & LU). unfold discarded in ND'.
          rewrite RF, NM, A, HE, CU in ND'. cbn [andb] in ND'. replace (w_now w - t <? 2) with true in ND' by (symmetry; apply Z.ltb_lt; lia).
          replace (u <=? t) with true in ND' by (symmetry; apply Z.leb_le; lia). discriminate. }
        split.
        * exists t. rewrite entry_put. replace (e2 =? sn_name s) with false by (symmetry; apply Z.eqb_neq; congruence). auto.
        * intros x k J K. rewrite cached_put in K. destruct (_ && _); [discriminate|]. exact (U x k J K).
    - destruct MI as [(t & HE & LE) U]. split.
      + exists t. split; [|exact LE]. rewrite entry_del. destruct ((e2 =? d) && (h =? g)) eqn:E; [|exact HE]. apply andb_true_iff in E as [E F]. apply Z.eqb_eq in E, F. subst. congruence.
      + intros x n J K. rewrite cached_del in K. destruct (_ && _); [discriminate|]. exact (U x n J K).
  Qed.
  Lemma mid_run : forall t0 evs st, mid t0 st -> Forall (stays h e2 p2) evs -> Forall (quick c h e2 t0) evs -> ~ In (SForget h e2) evs -> mid t0 (slrun c st evs).
  Proof.
    intros t0. induction evs as [|ev evs IH]; intros st MI ST NB NF; [exact MI|]. inversion_clear ST. inversion_clear NB. unfold slrun. cbn [fold_left]. apply IH; auto.
    - apply mid_step; auto. intros ->. apply NF. left. reflexivity.
    - intros A. apply NF. right. exact A.
  Qed.
End Middle.

Theorem C81_moved_partial : forall c root h e1 p1 e2 p2 before w middle ev after s pl,
  agreed (sl_fabric c) root -> wired_within (sl_fabric c) -> sl_route c = false ->
  In e1 (names (sl_fabric c)) -> In e2 (names (sl_fabric c)) -> In e2 (sl_vlan c) -> e1 <> e2 -> sl_external c e2 p2 = false ->
  Forall (managed c) (before ++ SHear h e2 (Edge p2) w :: middle ++ ev :: after) ->
  Forall (stays h e1 p1) before -> w_update w e2 = true -> Forall (stays h e2 p2) (middle ++ ev :: after) ->
  Forall (quick c h e2 (w_now w)) middle -> ~ In (SForget h e2) (middle ++ ev :: after) -> corrected c h e1 e2 p2 ev ->
  settled c (slrun c [] (before ++ SHear h e2 (Edge p2) w :: middle)) h e1 ev ->
  In s (sl_fabric c) -> sn_name s <> e2 -> towards c s e2 <> None -> sn_name s = e1 \/ Exists (heard c h e2 p2 (sn_name s)) after ->
  cached (slrun c [] (before ++ SHear h e2 (Edge p2) w :: middle ++ ev :: after)) h (sn_name s) = Some pl -> right c e2 p2 s pl.
Proof.
  intros c root h e1 p1 e2 p2 before w middle ev after s pl AG WI RT I1 I2 V2 NE EXT M ST1 UPD ST2 NB NF COR SET I NS TW D H.
  assert (ND := ag_names _ _ (proj1 AG)). apply Forall_app in M as [M1 M]. inversion_clear M as [|? ? MW M2]. apply Forall_app in M2 as [MM M3]. inversion_clear M3 as [|? ? ME MA].
  apply Forall_app in ST2 as [SM S3]. inversion_clear S3 as [|? ? SE SA].
  assert (~ In (SForget h e2) middle) as NF1 by (intros A; apply NF; apply in_or_app; auto).
  assert (ev <> SForget h e2) as NF2 by (intros ->; apply NF; apply in_or_app; right; left; reflexivity).
  assert (~ In (SForget h e2) after) as NF3 by (intros A; apply NF; apply in_or_app; right; right; exact A).
  assert (forall x n, In x (names (sl_fabric c)) -> cached (slrun c [] before) h x = Some (Edge n) -> x = e1) as U0.
  { intros x n J K. assert (R : rinv c h e1 p1 [] (slrun c [] before)) by (apply (run_rinv c h e1 p1 ND WI [] before [] M1 ST1); intros u q _ X; discriminate).
    exact (proj1 (rinv_edge c h e1 p1 [] _ x n R J K)). }
  replace (slrun c [] (before ++ SHear h e2 (Edge p2) w :: middle ++ ev :: after)) with
    (slrun c (slstep c (slrun c (slstep c (slrun c [] before) (SHear h e2 (Edge p2) w)) middle) ev) after) in H
    by (unfold slrun; rewrite fold_left_app; cbn [fold_left]; rewrite fold_left_app; reflexivity).
  replace (slrun c [] (before ++ SHear h e2 (Edge p2) w :: middle)) with (slrun c (slstep c (slrun c [] before) (SHear h e2 (Edge p2) w)) middle) in SET
    by (unfold slrun; rewrite fold_left_app; reflexivity).
  set (st0 := slrun c [] before) in *. set (st1 := slstep c st0 (SHear h e2 (Edge p2) w)) in *.
  assert (mid c h e1 e2 p2 (w_now w) st1) as MID1.
  { assert (I2' := I2). apply in_map_iff in I2' as (t & NT & IT).
    assert (st1 = dict_put endpoint_eqb (e2, h) (Edge p2, w_now w) st0) as ->.
    { unfold st1. cbn [slstep]. rewrite <- NT at 1. rewrite (node_of _ t ND IT), (proj2 (memz _ _) V2). unfold learn_host_from_pkt. rewrite RT.
      unfold learn_host, edge_learn_port. rewrite NT, EXT, UPD. unfold discarded. destruct (sl_reflection c), (entry_of st0 h e2) as [[[?|?] ?]|]; reflexivity. }
    split; [exists (w_now w); rewrite entry_put, !Z.eqb_refl; split; [reflexivity|lia]|]. intros x n J K. rewrite cached_put in K. destruct ((x =? e2) && (h =? h)) eqn:E; [|left; exact (U0 x n J K)].
    apply andb_true_iff in E as [E _]. apply Z.eqb_eq in E. injection K as <-. auto. }
  assert (mid c h e1 e2 p2 (w_now w) (slrun c st1 middle)) as MID2 by (eapply mid_run; eauto). set (st2 := slrun c st1 middle) in *. destruct MID2 as [(t2 & EN2 & _) U2].
  assert (cached st2 h e2 = Some (Edge p2)) as HE2 by (unfold cached; rewrite EN2; reflexivity).
  set (st3 := slstep c st2 ev) in *.
  assert (cached st3 h e2 = Some (Edge p2) /\ (forall x n, In x (names (sl_fabric c)) -> cached st3 h x = Some (Edge n) -> x = e2 /\ n = p2) /\
          (forall u q, In u (sl_fabric c) -> sn_name u = e1 -> cached st3 h e1 = Some q -> right c e2 p2 u q)) as (HE3 & U3 & R3).
  { destruct COR as [->|[HD TW1]].
    - unfold st3. cbn [slstep]. split; [|split].
      + rewrite cached_del. replace (e2 =? e1) with false by (symmetry; apply Z.eqb_neq; congruence). exact HE2.
      + intros x n J K. rewrite cached_del in K. destruct ((x =? e1) && (h =? h)) eqn:E; [discriminate|]. rewrite Z.eqb_refl, andb_true_r in E. apply Z.eqb_neq in E.
        destruct (U2 x n J K) as [A|A]; [contradiction|exact A].
      + intros u q _ _ K. rewrite cached_del, !Z.eqb_refl in K. discriminate.
    - apply in_map_iff in I1 as (t & NT & IT). destruct (towards c t e2) as [q|] eqn:TQ; [|destruct (TW1 t IT NT TQ)].
      assert (cached st3 h e1 = Some (Via (sp_no q))) as L.
      { apply (heard_step c h e2 p2 ND WI I2 V2 st2 ev e1 t q RT ME HD IT NT NE); auto. intros x n J K. destruct (U2 x n J K) as [A|[A _]]; auto. }
      assert (forall x, x <> e1 -> cached st3 h x = cached st2 h x) as OTH.
      { destruct HD as (no & w' & s' & -> & I' & N' & _). intros x D'. unfold st3. cbn [slstep]. rewrite <- N' at 1. rewrite (node_of _ s' ND I').
        destruct (mem _ _ _); [|reflexivity]. unfold learn_host_from_pkt. rewrite RT. apply learn_at_other. congruence. }
      split; [rewrite OTH; [exact HE2|congruence]|]. split.
      + intros x n J K. destruct (Z.eq_dec x e1) as [->|D']; [rewrite L in K; discriminate|]. rewrite (OTH x D') in K. destruct (U2 x n J K) as [A|A]; [contradiction|exact A].
      + intros u q' IU NU K. rewrite L in K. injection K as <-. right. split; [congruence|]. exists q. split; [|reflexivity].
        rewrite (same_node _ u t ND IU IT); [exact TQ|congruence]. }
  destruct D as [D|D].
  - assert (rinv c h e2 p2 st3 (slrun c st3 after)) as R by (apply run_rinv; auto; apply rinv_refl; exact U3).
    destruct (R s pl I H) as [A|[A _]]; [exact A|]. apply (R3 s pl I D). rewrite <- D. exact A.
  - destruct (towards c s e2) as [q|] eqn:TQ; [|congruence]. right. split; [exact NS|]. exists q. split; [exact TQ|].
    exact (heard_run c h e2 p2 ND WI I2 V2 after st3 (sn_name s) s q RT MA SA NF3 U3 HE3 D I eq_refl NS EXT TQ pl H).
Qed.
Print Assumptions C81_moved_partial.

(** Switch 1 is the root of switches 2 and 3. *)
Definition ex_fork : fabric := wired [1; 2; 3] 1 [(1, 1, (2, 1), true); (1, 2, (3, 1), true)].
Definition ex_fconf : slconf := mkSlconf ex_fork [1; 2; 3] (fun _ _ => false) true false false.
Definition ex_fworld (now : Z) (order : list Z) : world := mkWorld now order (fun _ => true) (fun _ _ => true) (fun _ _ => Some 0) (fun _ => true).
Lemma ex_fork_within : wired_within ex_fork.
Proof.
  intros s q I P. vm_compute in I. repeat (destruct I as [I|I]; [subst s|]); try contradiction;
    cbn in P; repeat (destruct P as [P|P]; [subst q; vm_compute; auto 10|]); contradiction.
Qed.
Example C81_case : agreed ex_fork 1 /\ wired_within ex_fork /\
  let w := ex_fworld 100 [1; 2; 3] in let w' := ex_fworld 200 [1; 2; 3] in
  let before := [SHear 7 2 (Edge 9) w; SHear 7 1 (Via 1) w; SHear 7 3 (Via 1) w] in
  let middle := [SHear 7 3 (Via 1) (ex_fworld 201 [1; 2; 3])] in
  let after := [SHear 7 3 (Via 1) w'; SHear 7 1 (Via 2) w'] in
  corrected ex_fconf 7 2 3 8 (SHear 7 2 (Via 1) w') /\ Forall (stays 7 2 9) before /\ Forall (stays 7 3 8) after /\
  Forall (quick ex_fconf 7 3 200) middle /\ settled ex_fconf (slrun ex_fconf [] (before ++ SHear 7 3 (Edge 8) w' :: middle)) 7 2 (SHear 7 2 (Via 1) w') /\
  map (cached (slrun ex_fconf [] before) 7) [1; 2; 3] = [Some (Via 1); Some (Edge 9); Some (Via 1)] /\
  map (cached (slrun ex_fconf [] (before ++ SHear 7 3 (Edge 8) w' :: middle ++ SHear 7 2 (Via 1) w' :: after)) 7) [1; 2; 3]
    = [Some (Via 2); Some (Via 1); Some (Edge 8)].
Proof.
  split; [apply agreed_check; vm_compute; reflexivity|]. split; [exact ex_fork_within|]. cbv zeta. split.
  { right. split.
    - exists 1, (ex_fworld 200 [1; 2; 3]), (nth 1 ex_fork (mkSnode 0 [] 0 (mkGraph [] []))). split; [reflexivity|]. vm_compute. auto 20.
    - intros s I N. vm_compute in I. repeat (destruct I as [I|I]; [subst s; try discriminate N; vm_compute; discriminate|]). destruct I. }
  split; [repeat constructor; cbn; auto|]. split; [repeat constructor|].
  split; [repeat constructor; cbn; try lia; intros n; exists 0; split; [reflexivity|lia]|].
  split; [intros _ inp w n t E EN; injection E as <- <-; vm_compute in EN; injection EN as <- <-; cbn; lia|]. split; vm_compute; reflexivity.
Qed.

(** C80 needs all switches connected: with reflection and the root disconnected (its
    rules stay in place), a switch that hears its own host again through the root,
    two seconds after it last heard the host directly, moves the host to its port
    towards the root. *)
Theorem C80_disconnected_refuted : exists c root h e p w0 w1 no s, agreed (sl_fabric c) root /\ wired_within (sl_fabric c) /\
  (exists n fs, hops true false (sl_fabric c) n (sent_from e) fs /\ In (e, Some no) (fst fs)) /\
  Forall (stays h e p) [SHear h e (Edge p) w0; SHear h e (Via no) w1] /\
  (forall w d, w = w0 \/ w = w1 -> d <> root -> w_running w d = true) /\ w_now w1 = w_now w0 + 2 /\
  In s (sl_fabric c) /\ sn_name s = e /\
  cached (slrun c [] [SHear h e (Edge p) w0; SHear h e (Via no) w1]) h e = Some (Via no) /\ ~ right c e p s (Via no).
Proof.
  pose (w := fun now => mkWorld now [1; 2; 3] (fun d => negb (d =? 1)) (fun _ _ => true) (fun _ _ => Some 0) (fun _ => true)).
  exists ex_fconf, 1, 7, 3, 8, (w 100), (w 102), 1, (nth 2 ex_fork (mkSnode 0 [] 0 (mkGraph [] []))).
  split; [apply agreed_check; vm_compute; reflexivity|]. split; [exact ex_fork_within|]. split.
  { destruct (run_flood_hops true false ex_fork 2 (sent_from 3)) as (n & H). exists n, (run_flood true false ex_fork 2 (sent_from 3)). split; [exact H|]. vm_compute. auto. }
  split; [repeat constructor|]. split.
  { intros x d [->| ->] D; cbn; apply negb_true_iff, Z.eqb_neq; exact D. }
  split; [reflexivity|]. split; [vm_compute; auto|]. split; [reflexivity|]. split; [vm_compute; reflexivity|].
  intros [[_ X]|[X _]]; [discriminate X|apply X; reflexivity].
Qed.
Print Assumptions C80_disconnected_refuted.

(** The conditions are needed.  The host moves from switch 2 to switch 3 and is heard
    there; three seconds later it sends a frame that is flooded, which the root
    sends back to switch 3.  If switch 3's packet-in is handled before the one of
    switch 2, then switch 3 takes the host to be at switch 2; when all switches have
    heard it, all have it where it was. *)
Theorem C81_reflected_refuted : exists c root h e1 p1 e2 p2 w0 w1 w2 no evs, agreed (sl_fabric c) root /\ wired_within (sl_fabric c) /\ e1 <> e2 /\
  (exists n fs, hops true false (sl_fabric c) n (sent_from e2) fs /\ In (e2, Some no) (fst fs)) /\
  evs = [SHear h e1 (Edge p1) w0; SHear h e2 (Edge p2) w1; SHear h e2 (Via no) w2; SHear h e1 (Via 1) w2; SHear h root (Via 2) w2] /\
  Forall (managed c) evs /\ w_now w0 < w_now w1 < w_now w2 /\
  (forall w, In w [w0; w1; w2] -> (forall d, In d (names (sl_fabric c)) -> In d (w_order w)) /\
    (forall d n, w_forwarding w d n = true /\ exists u, w_changed w d n = Some u /\ u < w_now w0) /\ forall d, w_update w d = true) /\
  forall s pl, In s (sl_fabric c) -> cached (slrun c [] evs) h (sn_name s) = Some pl -> right c e1 p1 s pl.
Proof.
  exists ex_fconf, 1, 7, 2, 9, 3, 8, (ex_fworld 100 [1; 2; 3]), (ex_fworld 200 [1; 2; 3]), (ex_fworld 203 [1; 2; 3]), 1. eexists.
  split; [apply agreed_check; vm_compute; reflexivity|]. split; [exact ex_fork_within|]. split; [discriminate|].
  split.
  { destruct (run_flood_hops true false ex_fork 2 (sent_from 3)) as (n & H). exists n, (run_flood true false ex_fork 2 (sent_from 3)). split; [exact H|]. vm_compute. auto. }
  split; [reflexivity|]. split; [repeat constructor|]. split; [cbn; lia|]. split.
  { intros w [<-|[<-|[<-|[]]]]; (split; [intros d I; exact I|]); (split; [|reflexivity]); intros d n; (split; [reflexivity|]); exists 0; (split; [reflexivity|cbn; lia]). }
  intros s pl I H. vm_compute in I. repeat (destruct I as [I|I]; [subst s; vm_compute in H; injection H as <-|]); [..|destruct I].
  - right. split; [discriminate|]. eexists. split; vm_compute; reflexivity.
  - left. split; reflexivity.
  - right. split; [discriminate|]. eexists. split; vm_compute; reflexivity.
Qed.
Print Assumptions C81_reflected_refuted.

(** As long as the old switch has not heard it, it depends on the order in which
    Python lists the switches which of the two the others believe. *)
Theorem C81_order_refuted : exists c root h e1 p1 e2 p2 w w' no, agreed (sl_fabric c) root /\ wired_within (sl_fabric c) /\ e1 <> e2 /\
  Permutation.Permutation (w_order w) (w_order w') /\
  cached (slrun c [] [SHear h e1 (Edge p1) w; SHear h e2 (Edge p2) w; SHear h root (Via no) w]) h root <>
  cached (slrun c [] [SHear h e1 (Edge p1) w; SHear h e2 (Edge p2) w; SHear h root (Via no) w']) h root.
Proof.
  exists ex_fconf, 1, 7, 2, 9, 3, 8, (ex_fworld 100 [1; 2; 3]), (ex_fworld 100 [1; 3; 2]), 2. split; [apply agreed_check; vm_compute; reflexivity|]. split; [exact ex_fork_within|].
  split; [discriminate|]. split; [apply Permutation.perm_skip, Permutation.perm_swap|]. vm_compute. discriminate.
Qed.
Print Assumptions C81_order_refuted.
