(** * The LACP actor state after any history *)
From Coq Require Import ZArith List Bool Lia Permutation.
From Verif Require Import PyBase PyBaseProofs OpenFlow TableModel ReorderModel FloodModel LearnModel L2Model L2Spec L2PortSpec L2Proofs L2PortProofs L2PortInv.
Import ListNotations.
Open Scope Z_scope.

Section Lacp.
  Variable cfg : dconf.
  Hypothesis V : valid_cfg cfg.

  Definition same4 (n : Z) (st st' : dstate) : Prop :=
    ds_phys st' n = ds_phys st n /\ ds_actor st' n = ds_actor st n /\ ds_role st' n = ds_role st n /\ ds_ltime st' n = ds_ltime st n.
  Lemma same4_refl : forall n st, same4 n st st. Proof. intros; split; auto. Qed.
  Lemma same4_trans : forall n a b c, same4 n a b -> same4 n b c -> same4 n a c.
  Proof. intros n a b c (A1 & A2 & A3 & A4) (B1 & B2 & B3 & B4). repeat split; congruence. Qed.

  Lemma lacp_update_state : forall st p up now pkt cold st' ms, lacp_update cfg st p up now pkt cold = (st', ms) ->
    ds_phys st' = ds_phys st /\ (forall n, n <> pc_num p -> same4 n st st') /\
    ds_actor st' (pc_num p) = next_actor st p up pkt /\ ds_ltime st' (pc_num p) = now.
  Proof.
    intros st p up now pkt cold st' ms H. unfold lacp_update in H.
    set (st0 := if cold then _ else st) in H.
    assert (E0 : ds_phys st0 = ds_phys st /\ forall n, n <> pc_num p -> same4 n st st0).
    { unfold st0. destruct cold; [|split; [auto|intros; apply same4_refl]]. split; [reflexivity|].
      intros n N. unfold same4, set_lacp. cbn. rewrite !upd_other; auto. }
    set (st1 := set_lacp st0 (pc_num p) (next_actor st p up pkt) (next_role p) now) in H.
    assert (E : st' = st1) by (destruct (actor_eq_dec _ _); [destruct (role_eq_dec _ _)|]; congruence).
    subst st'. destruct E0 as [E1 E2]. unfold st1, set_lacp. cbn. rewrite !upd_same. repeat split; auto.
    all: cbn; try rewrite !upd_other by auto; try rewrite E1; auto; apply E2; auto.
  Qed.

  Lemma port_add_state : forall cold st p st' ms, port_add_one cfg cold st p = (st', ms) ->
    (forall n, n <> pc_num p -> same4 n st st') /\ ds_phys st' (pc_num p) = true /\
    (if pc_enabled p then pc_lacp p <> 0 -> ds_actor st' (pc_num p) = AInit
     else ds_actor st' (pc_num p) = ds_actor st (pc_num p)).
  Proof.
    intros cold st p st' ms H. unfold port_add_one in H. set (st1 := set_phys st (pc_num p) true) in *.
    assert (E1 : forall n, n <> pc_num p -> same4 n st st1) by (intros n N; unfold same4, st1; cbn; rewrite upd_other; auto).
    assert (P1 : ds_phys st1 (pc_num p) = true) by (unfold st1; cbn; apply upd_same).
    assert (R1 : port_running st1 p = pc_enabled p) by (unfold port_running; rewrite P1; apply andb_true_r).
    rewrite R1 in H. destruct (pc_enabled p) eqn:En.
    - destruct (Z.eqb_spec (pc_lacp p) 0).
      + injection H as <- _. repeat split; auto; try apply E1; auto. contradiction.
      + destruct (lacp_update cfg st1 p false None false cold) as [st2 ms2] eqn:U. injection H as <- _.
        apply lacp_update_state in U as (A1 & A2 & A3 & A4). split; [|split].
        * intros m N. eapply same4_trans; eauto.
        * congruence.
        * intros _. rewrite A3. unfold next_actor. rewrite R1. reflexivity.
    - injection H as <- _. repeat split; auto; apply E1; auto.
  Qed.

  Lemma ports_add_state : forall cold ps st st' ms, NoDup (map pc_num ps) -> ports_add_each cfg cold st ps = (st', ms) ->
    (forall n, ~ In n (map pc_num ps) -> same4 n st st') /\
    (forall p, In p ps -> ds_phys st' (pc_num p) = true /\
      (if pc_enabled p then pc_lacp p <> 0 -> ds_actor st' (pc_num p) = AInit
       else ds_actor st' (pc_num p) = ds_actor st (pc_num p))).
  Proof.
    intros cold. induction ps as [|q ps IH]; intros st st' ms ND H; cbn [ports_add_each] in H.
    { injection H as <- _. split; [intros; apply same4_refl|intros p []]. }
    destruct (port_add_one cfg cold st q) as [st1 ms1] eqn:A. destruct (ports_add_each cfg cold st1 ps) as [st2 ms2] eqn:B.
    injection H as <- _. apply port_add_state in A as (A1 & A2 & A3). cbn [map] in ND. inversion ND as [|x l N1 N2]; subst.
    apply IH in B as [B1 B2]; auto. split.
    - intros n N. cbn [map In] in N. eapply same4_trans; [apply A1; intros ->; apply N; auto|apply B1; intros X; apply N; auto].
    - intros p [<-|Hp].
      + destruct (B1 _ N1) as (C1 & C2 & _). rewrite C1, C2. auto.
      + assert (N : pc_num p <> pc_num q) by (intros X; apply N1; rewrite <- X; apply in_map; auto).
        destruct (B2 p Hp) as [C1 C2]. destruct (A1 _ N) as (D1 & D2 & _). split; auto. rewrite D2 in C2. exact C2.
  Qed.

  Lemma set_status_4 : forall st n up now m, same4 m st (set_port_status cfg st n up now).
  Proof. intros st n up now m. unfold set_port_status. destruct (find_port cfg n); split; auto. Qed.

  Lemma port_delete_state : forall keep now st p st' ms, port_delete_one cfg keep now st p = Some (st', ms) ->
    (forall n, n <> pc_num p -> same4 n st st') /\ ds_phys st' (pc_num p) = false /\
    (pc_lacp p <> 0 -> ds_actor st' (pc_num p) = ANone).
  Proof.
    intros keep now st p st' ms H. unfold port_delete_one in H. set (st1 := set_phys st (pc_num p) false) in *.
    assert (E1 : forall n, n <> pc_num p -> same4 n st st1) by (intros n N; unfold same4, st1; cbn; rewrite upd_other; auto).
    assert (P1 : ds_phys st1 (pc_num p) = false) by (unfold st1; cbn; apply upd_same).
    set (st2 := match now with Some _ => _ | None => st1 end) in H.
    assert (E2 : forall n, same4 n st1 st2) by (intros n; unfold st2; destruct now; [apply set_status_4|apply same4_refl]).
    assert (P2 : ds_phys st2 (pc_num p) = false) by (destruct (E2 (pc_num p)) as [X _]; congruence).
    destruct (Z.eqb_spec (pc_lacp p) 0).
    - assert (forall m, same4 m st2 st').
      { destruct keep; [injection H as <- _; intros; apply same4_refl|].
        destruct (clear_vlans _ _ _) as [l|]; [|discriminate]. injection H as <- _. intros; split; auto. }
      split; [|split].
      + intros m N. eapply same4_trans; [apply E1; auto|]. eapply same4_trans; [apply E2|auto].
      + destruct (H0 (pc_num p)) as [X _]. congruence.
      + contradiction.
    - injection H as H. apply lacp_update_state in H as (A1 & A2 & A3 & A4). split; [|split].
      + intros m N. eapply same4_trans; [apply E1; auto|]. eapply same4_trans; [apply E2|auto].
      + congruence.
      + intros _. rewrite A3. unfold next_actor, port_running. rewrite P2, andb_false_r. reflexivity.
  Qed.

  Lemma lacp_expire_state : forall now ps st st' ms, NoDup (map pc_num ps) -> lacp_expire_each cfg st now ps = (st', ms) ->
    ds_phys st' = ds_phys st /\
    (forall n, ~ In n (map pc_num ps) -> same4 n st st') /\
    (forall p, In p ps -> ds_actor st' (pc_num p) = next_actor st p false false).
  Proof.
    intros now. induction ps as [|q ps IH]; intros st st' ms ND H; cbn [lacp_expire_each] in H.
    { injection H as <- _. split; [auto|]. split; [intros; apply same4_refl|intros p []]. }
    destruct (lacp_update cfg st q false (Some now) false false) as [st1 ms1] eqn:A.
    destruct (lacp_expire_each cfg st1 now ps) as [st2 ms2] eqn:B.
    injection H as <- _. apply lacp_update_state in A as (A1 & A2 & A3 & A4). cbn [map] in ND. inversion ND as [|x l N1 N2]; subst.
    apply IH in B as (B1 & B2 & B3); auto. split; [congruence|]. split.
    - intros n N. cbn [map In] in N. eapply same4_trans; [apply A2; intros ->; apply N; auto|apply B2; intros X; apply N; auto].
    - intros p [<-|Hp].
      + destruct (B2 _ N1) as (_ & C2 & _). rewrite C2. auto.
      + rewrite (B3 p Hp). unfold next_actor, port_running. rewrite A1. reflexivity.
  Qed.

  (** ** The view of a history *)
  Inductive lview := VDown | VInit | VUp (t : Z) | VNoSync.
  Definition up_report (r : preason) (d : bool) : bool := match r with PAdd => true | PModify => negb d | _ => false end.
  Definition other_reason (r : preason) : bool := match r with POther => true | _ => false end.
  Fixpoint view (p : pconf) (evs : list cevent) : lview :=
    match evs with
    | [] => VDown
    | CConnect _ ups :: _ => if discovers cfg ups p && pc_enabled p then VInit else VDown
    | CDisconnect _ :: _ => VDown
    | CPortStatus _ m r d _ :: l =>
        if connected l && (m =? pc_num p) && pc_opstatus p && negb (other_reason r) then
          if up_report r d then match view p l with VDown => if pc_enabled p then VInit else VDown | v => v end
          else VDown
        else view p l
    | CLacp t m sync :: l =>
        if connected l && (m =? pc_num p) then match view p l with VDown => VDown | _ => if sync then VUp t else VNoSync end
        else view p l
    | CExpire now :: l =>
        match view p l with VUp t => if connected l && (d_lacp_timeout cfg <? now - t) then VInit else VUp t | v => v end
    | CPacketIn _ _ _ _ :: l => view p l
    end.
  Definition seen (v : lview) (st : dstate) (p : pconf) : Prop :=
    match v with
    | VDown => port_running st p = false /\ (ds_actor st (pc_num p) = ANone \/ ds_actor st (pc_num p) = ANotConfigured)
    | VInit => port_running st p = true /\ ds_actor st (pc_num p) = AInit
    | VUp t => port_running st p = true /\ ds_actor st (pc_num p) = AUp /\ ds_ltime st (pc_num p) = Some t
    | VNoSync => port_running st p = true /\ ds_actor st (pc_num p) = ANoSync
    end.
  Lemma seen_ext : forall v st st' p, same4 (pc_num p) st st' -> seen v st p -> seen v st' p.
  Proof.
    intros v st st' p (S1 & S2 & S3 & S4) H. unfold seen, port_running in *. rewrite S1, S2, S4. exact H.
  Qed.

  Lemma view_off : forall p evs, connected evs = false -> view p evs = VDown.
  Proof.
    intros p. induction evs as [|ev evs IH]; intros C; auto.
    destruct ev as [now ups|now|now n r d b|now n vid mac|now n sync|now]; cbn [connected] in C; try discriminate C; cbn [view]; auto;
      rewrite ?C; cbn [andb]; auto. rewrite IH; auto.
  Qed.

  Lemma connect_seen : forall st now ups st' ms p, In p (d_ports cfg) -> pc_lacp p <> 0 ->
    datapath_connect cfg st now ups = (st', ms) -> seen VDown st p ->
    seen (if discovers cfg ups p && pc_enabled p then VInit else VDown) st' p.
  Proof.
    intros st now ups st' ms p Hp Lp H S. unfold datapath_connect in H. cbv zeta in H. unfold ports_add in H.
    destruct (ports_add_each cfg true _ _) as [s2 m2] eqn:E. 
    assert (S2 : forall m, same4 m s2 st') by (injection H as <- _; split; auto). clear H.
    apply ports_add_state in E; [|apply nodup_nums_filter, nodup_nums_filter, (vc_nums cfg V)]. destruct E as [E1 E2].
    assert (C : forall m, same4 m st (cold_status cfg ups now st)).
    { intros m. unfold cold_status. generalize (filter configured (d_ports cfg)) as l. intros l. clear. revert st.
      induction l as [|q l IH]; intros st; cbn [fold_left]; [apply same4_refl|].
      eapply same4_trans; [|apply IH]. apply set_status_4. }
    destruct (discovers cfg ups p) eqn:D; cbn [andb].
    - apply andb_true_iff in D as [D Cf]. destruct (E2 p) as [A B]; [apply filter_In; split; auto; apply filter_In; auto|].
      destruct (S2 (pc_num p)) as (X1 & X2 & _). destruct (C (pc_num p)) as (Y1 & Y2 & _).
      destruct (pc_enabled p) eqn:En.
      + split; [unfold port_running; rewrite En; cbn; congruence|]. rewrite X2. auto.
      + destruct S as [_ S]. split; [unfold port_running; rewrite En; reflexivity|]. rewrite X2, B, Y2. exact S.
    - eapply seen_ext; [|exact S]. eapply same4_trans; [apply C|]. eapply same4_trans; [apply E1|apply S2].
      intros X. apply in_map_iff in X as [q [Eq Hq]]. apply filter_In in Hq as [Hq Dq]. apply filter_In in Hq as [Hq Cq].
      assert (q = p) by (eapply nums_inj; eauto). subst q. unfold discovers in D. rewrite Dq, Cq in D. discriminate.
  Qed.

  Lemma add_single_state : forall st p st' ms, ports_add cfg false st [p] = (st', ms) -> exists ms0, port_add_one cfg false st p = (st', ms0).
  Proof.
    intros st p st' ms H. unfold ports_add in H. cbn [ports_add_each] in H.
    destruct (port_add_one cfg false st p) as [st1 ms1]. injection H as <- _. eauto.
  Qed.
  Lemma del_single_state : forall k now st p st' ms, ports_delete cfg k now st [p] = Some (st', ms) -> exists ms0, port_delete_one cfg k now st p = Some (st', ms0).
  Proof.
    intros k now st p st' ms H. unfold ports_delete in H. cbn [ports_delete_each] in H.
    destruct (port_delete_one cfg k now st p) as [[st1 ms1]|]; [|discriminate]. injection H as <- _. eauto.
  Qed.

  Lemma event_seen : forall st ev st' ms p evs, ds_running st = true -> connected evs = true ->
    In p (d_ports cfg) -> pc_lacp p <> 0 -> plain_report (pc_num p) ev ->
    match ev with CConnect _ _ => False | _ => True end ->
    cstep cfg st ev = Some (st', ms) -> seen (view p evs) st p -> seen (view p (ev :: evs)) st' p.
  Proof.
    intros st ev st' ms p evs Run Cn Hp Lp Pl NC H S.
    destruct ev as [now ups|now|now n r d b|now n vid mac|now n sync|now]; try contradiction; cbn [cstep] in H; cbn [view].
    - destruct (datapath_disconnect cfg st now) as [st1|] eqn:D; [|discriminate]. cbn [option_map] in H. injection H as -> _.
      unfold datapath_disconnect, ports_delete in D.
      destruct (ports_delete_each _ _ _ _ _) as [[st2 ms2]|] eqn:X; [|discriminate]. injection D as ->.
      apply (ports_delete_state cfg V) in X; [|auto|apply (vc_nums cfg V)]. destruct X as (_ & _ & X3).
      destruct (X3 p Hp) as [X4 X5]. split; [unfold port_running; rewrite X4; apply andb_false_r|left; auto].
    - rewrite Run in H. unfold port_status_handler in H. rewrite Cn. cbn [andb].
      set (st1 := set_port_status cfg st n (negb d) now) in *.
      assert (S1 : forall m, same4 m st st1) by (intros; apply set_status_4).
      assert (Stay : st' = st1 -> seen (view p evs) st' p) by (intros ->; eapply seen_ext; eauto).
      assert (Same : forall v, same4 (pc_num p) st1 st' -> seen v st p -> seen v st' p).
      { intros v Q. apply seen_ext. eapply same4_trans; eauto. }
      destruct (Z.eqb_spec n (pc_num p)) as [->|N]; cbn [andb].
      2:{ destruct (find_port cfg n) as [q|] eqn:Fq; [|injection H as <- _; auto]. apply find_port_in in Fq as [Hq <-].
        destruct (negb (pc_opstatus q)); [injection H as <- _; auto|].
        assert (Add : ports_add cfg false st1 [q] = (st', ms) -> same4 (pc_num p) st1 st').
        { intros X. apply add_single_state in X as [m0 X]. apply port_add_state in X as (X & _). apply X. congruence. }
        assert (Del : ports_delete cfg true None st1 [q] = Some (st', ms) -> same4 (pc_num p) st1 st').
        { intros X. apply del_single_state in X as [m0 X]. apply port_delete_state in X as (X & _). apply X. congruence. }
        assert (Hd : forall ns, (if eqb ns (ds_phys st1 (pc_num q)) then
            if ns && (b || d) then ports_delete cfg true None st1 [q] else Some (st1, [])
          else if ns then Some (ports_add cfg false st1 [q]) else ports_delete cfg true None st1 [q]) = Some (st', ms) ->
          seen (view p evs) st' p).
        { intros ns X. destruct (eqb ns (ds_phys st1 (pc_num q))).
          - destruct (ns && (b || d)); [eauto|]. inversion X; subst; auto.
          - destruct ns; [|eauto]. assert (X' : ports_add cfg false st1 [q] = (st', ms)) by congruence. eauto. }
        destruct r; [apply (Hd true H)|apply (Hd false H)|apply (Hd (negb d) H)|injection H as <- _; auto]. }
      rewrite (find_port_some cfg V p Hp) in H.
      destruct (pc_opstatus p) eqn:Op; cbn [negb andb] in *; [|injection H as <- _; auto].
      destruct (S1 (pc_num p)) as (T1 & T2 & T3 & T4).
      assert (Dn : ports_delete cfg true None st1 [p] = Some (st', ms) -> seen VDown st' p).
      { intros X. apply del_single_state in X as [m0 X]. apply port_delete_state in X as (_ & X1 & X2).
        split; [unfold port_running; rewrite X1; apply andb_false_r|left; auto]. }
      assert (Hd : forall ns, (ns = true -> b || d = false) -> 
        (if eqb ns (ds_phys st1 (pc_num p)) then
            if ns && (b || d) then ports_delete cfg true None st1 [p] else Some (st1, [])
          else if ns then Some (ports_add cfg false st1 [p]) else ports_delete cfg true None st1 [p]) = Some (st', ms) ->
        seen (if ns then match view p evs with VDown => if pc_enabled p then VInit else VDown | v => v end else VDown) st' p).
      { intros ns Nb X. destruct (eqb ns (ds_phys st1 (pc_num p))) eqn:Eq.
        - apply eqb_prop in Eq. destruct ns.
          + rewrite Nb in X by auto. cbn [andb] in X. injection X as <- _. specialize (Stay eq_refl).
            destruct (view p evs); auto. destruct (pc_enabled p) eqn:En; auto.
            exfalso. destruct Stay as [Y _]. unfold port_running in Y. rewrite En, <- Eq in Y. discriminate.
          + cbn [andb] in X. injection X as <- _. specialize (Stay eq_refl).
            assert (Rn : port_running st1 p = false) by (unfold port_running; rewrite <- Eq; apply andb_false_r).
            destruct (view p evs); auto; destruct Stay as [Y _]; congruence.
        - apply eqb_false_iff in Eq. destruct ns; [|apply Dn; auto].
          injection X as X. apply add_single_state in X as [m0 X]. apply port_add_state in X as (_ & X1 & X2).
          assert (Rn : port_running st p = false).
          { unfold port_running. rewrite <- T1. destruct (ds_phys st1 (pc_num p)); [congruence|apply andb_false_r]. }
          assert (Vd : view p evs = VDown) by (destruct (view p evs); auto; destruct S as [Y _]; congruence).
          rewrite Vd in *. destruct (pc_enabled p) eqn:En.
          + split; [unfold port_running; rewrite En, X1; reflexivity|auto].
          + destruct S as [_ S]. split; [unfold port_running; rewrite En; reflexivity|]. rewrite X2, T2. exact S. }
      destruct r; cbn [other_reason negb up_report] in *.
      + apply (Hd true); auto. intros _. simpl in Pl. destruct (Pl eq_refl) as [-> ->]. reflexivity.
      + apply (Hd false); auto. discriminate.
      + apply (Hd (negb d)); auto. intros X. destruct d; [discriminate|]. destruct b; auto. simpl in Pl. discriminate (Pl eq_refl eq_refl).
      + injection H as <- _. auto.
    - assert (Q : same4 (pc_num p) st st').
      { unfold rcv_vlan_packet in H. rewrite Run in H. cbn [negb] in H.
        destruct (find_port cfg n), (find_vlan cfg vid); try (injection H as <- _; apply same4_refl).
        destruct (learnable_mac mac); [|injection H as <- _; apply same4_refl].
        destruct (vlan_rcv_packet _ _ _ _ _ _) as [[l hs]|]; [|discriminate]. injection H as <- _. split; auto. }
      eapply seen_ext; eauto.
    - injection H as H. unfold rcv_lacp in H. rewrite Run in H. cbn [negb] in H. rewrite Cn. cbn [andb].
      destruct (Z.eqb_spec n (pc_num p)) as [->|N].
      + rewrite (find_port_some cfg V p Hp) in H. destruct (Z.eqb_spec (pc_lacp p) 0); [contradiction|].
        apply lacp_update_state in H as (A1 & A2 & A3 & A4).
        assert (Rn : port_running st' p = port_running st p) by (unfold port_running; rewrite A1; reflexivity).
        unfold next_actor in A3. cbn [negb] in A3.
        destruct (view p evs); destruct S as [S1 S2]; rewrite S1 in *; cbn [negb] in A3;
          [split; auto| | |]; destruct sync; repeat split; auto.
      + eapply seen_ext; [|exact S]. destruct (find_port cfg n) as [q|] eqn:Fq; [|injection H as <- _; apply same4_refl].
        apply find_port_in in Fq as [Hq <-]. destruct (pc_lacp q =? 0); [injection H as <- _; apply same4_refl|].
        apply lacp_update_state in H as (A1 & A2 & A3 & A4). apply A2. congruence.
    - unfold state_expire in H. rewrite Run in H. cbn [negb] in H.
      destruct (lacp_expire_each cfg st now _) as [st1 ms1] eqn:X.
      destruct (hosts_expire_each _ _ _ _) as [[l hs]|]; [|discriminate]. 
      assert (Q : forall m, same4 m st1 st') by (injection H as <- _; split; auto). clear H.
      apply lacp_expire_state in X; [|apply nodup_nums_filter, (vc_nums cfg V)]. destruct X as (X1 & X2 & X3).
      rewrite Cn. cbn [andb].
      destruct (lacp_expired cfg st now p) eqn:Ex.
      + assert (A3 := X3 p (proj2 (filter_In _ _ _) (conj Hp Ex))). destruct (Q (pc_num p)) as (Q1 & Q2 & _ & Q4).
        unfold lacp_expired in Ex. apply andb_true_iff in Ex as [Ex Et]. apply andb_true_iff in Ex as [_ Eu].
        destruct (view p evs) as [| |t|].
        * exfalso. destruct S as [_ [S|S]]; rewrite S in Eu; discriminate.
        * exfalso. destruct S as [_ S]; rewrite S in Eu; discriminate.
        * destruct S as (S1 & S2 & S3). rewrite S3 in Et. rewrite Et. unfold next_actor in A3. rewrite S1 in A3. cbn [negb] in A3.
          split; [|congruence]. unfold port_running in *. rewrite Q1, X1. exact S1.
        * exfalso. destruct S as [_ S]; rewrite S in Eu; discriminate.
      + assert (Sm : same4 (pc_num p) st st').
        { eapply same4_trans; [apply X2|apply Q]. intros I. apply in_map_iff in I as [q [Eq Hq]]. apply filter_In in Hq as [Hq Ex'].
          assert (q = p) by (eapply nums_inj; eauto). subst q. congruence. }
        destruct (view p evs) as [| |t|] eqn:Vw; try (eapply seen_ext; eauto; fail).
        destruct S as (S1 & S2 & S3). unfold lacp_expired in Ex. rewrite S2, S3 in Ex. cbn [is_up andb] in Ex.
        destruct (Z.eqb_spec (pc_lacp p) 0); [contradiction|]. cbn [negb andb] in Ex. rewrite Ex.
        eapply seen_ext; [exact Sm|]. repeat split; auto.
  Qed.

  Lemma view_inv : forall F evs w p, reach cfg F evs w -> In p (d_ports cfg) -> pc_lacp p <> 0 ->
    clean evs -> plain_reports evs (pc_num p) -> seen (view p evs) (w_ctl w) p.
  Proof.
    intros F evs w p H Hp Lp. induction H as [now ups sh ub out s0 Hsh R|evs w now ups sh ub out s0 H IH Hsh R
      |evs w ev st ms sh ub out H IH Sent St Hsh R|evs w live pk es H IH Hk HF Wk|evs w f l1 l2 H IH E Tm]; intros Cl Pl; cbn [w_ctl w_sw] in *; auto.
    - destruct (datapath_connect cfg dstate_init now ups) as [st' ms] eqn:D. cbn [fst].
      eapply connect_seen; eauto. split; [unfold port_running; cbn; apply andb_false_r|right; reflexivity].
    - destruct Cl as [Off Cl]. inversion Pl as [|x y Pl1 Pl2]; subst.
      destruct (datapath_connect cfg (w_ctl w) now ups) as [st' ms] eqn:D. cbn [fst].
      eapply connect_seen; eauto. specialize (IH Cl Pl2). rewrite view_off in IH; auto.
    - inversion Pl as [|x y Pl1 Pl2]; subst. pose proof (reach_inv cfg V _ _ _ H) as W. assert (Run := wi_run _ _ _ _ W).
      assert (Nc : match ev with CConnect _ _ => False | _ => True end) by (destruct ev; auto).
      assert (Cl' : clean evs) by (destruct ev; simpl in *; tauto). specialize (IH Cl' Pl2).
      destruct (connected evs) eqn:Cn; [eapply event_seen; eauto|].
      rewrite view_off in IH by auto. rewrite view_off by (destruct ev; cbn [connected]; auto; contradiction).
      destruct ev as [now ups|now|now n r d b|now n vid mac|now n sync|now]; [contradiction| | | | |];
        cbn [cstep] in St; try (unfold rcv_vlan_packet, rcv_lacp, state_expire in St; rewrite Run in St; cbn [negb] in St; injection St as <- _; exact IH).
      destruct (datapath_disconnect cfg (w_ctl w) now) as [st1|] eqn:D; [|discriminate]. cbn [option_map] in St. injection St as -> _.
      unfold datapath_disconnect, ports_delete in D.
      destruct (ports_delete_each _ _ _ _ _) as [[st2 ms2]|] eqn:X; [|discriminate]. injection D as ->.
      apply (ports_delete_state cfg V) in X; [|auto|apply (vc_nums cfg V)]. destruct X as (_ & _ & X3).
      destruct (X3 p Hp) as [X4 X5]. split; [unfold port_running; rewrite X4; apply andb_false_r|left; auto].
  Qed.

  (** ** The view in the words of the specification *)
  Section Said.
    Variable p : pconf.
    Hypothesis Cf : configured p = true.
    Hypothesis En : pc_enabled p = true.

    Lemma view_link : forall evs, plain_reports evs (pc_num p) -> (view p evs <> VDown <-> link_up p evs).
    Proof.
      unfold link_up. induction evs as [|ev evs IH]; intros Pl.
      { cbn. split; [congruence|intros [H _]; discriminate]. }
      inversion Pl as [|x y Pl1 Pl2]; subst. specialize (IH Pl2).
      destruct (connected evs) eqn:Cn.
      - destruct ev as [now ups|now|now n r d b|now n vid mac|now n sync|now]; cbn [view connected last_word].
        + unfold discovers, discovered. rewrite Cf, En, !andb_true_r.
          destruct (memZ (pc_num p) ups), (pc_opstatus p); cbn; split; try (intros; split; auto); try congruence.
          intros [_ X]. discriminate (X eq_refl).
        + split; [congruence|intros [H _]; discriminate].
        + rewrite Cn. cbn [andb]. destruct (Z.eqb_spec n (pc_num p)) as [->|N]; cbn [andb].
          * destruct (pc_opstatus p) eqn:Op; cbn [andb].
            2:{ rewrite IH. split; intros [A B]; split; auto; discriminate. }
            simpl in Pl1. destruct r; cbn [other_reason negb up_report].
            -- destruct (Pl1 eq_refl) as [-> ->]. cbn [orb]. rewrite En.
               destruct (view p evs); split; auto; congruence.
            -- split; [congruence|]. intros [_ X]. discriminate (X eq_refl).
            -- destruct d; cbn [negb orb].
               ++ split; [congruence|]. intros [_ X]. discriminate (X eq_refl).
               ++ destruct b; [discriminate (Pl1 eq_refl eq_refl)|]. rewrite En. destruct (view p evs); split; auto; congruence.
            -- exact IH.
          * destruct r; auto.
        + rewrite Cn. exact IH.
        + rewrite Cn. cbn [andb]. destruct (n =? pc_num p); [|exact IH]. rewrite <- IH.
          destruct (view p evs), sync; split; congruence.
        + rewrite Cn. cbn [andb]. rewrite <- IH. destruct (view p evs) as [| |t|]; try (split; congruence).
          destruct (d_lacp_timeout cfg <? now - t); split; congruence.
      - destruct ev as [now ups|now|now n r d b|now n vid mac|now n sync|now]; cbn [view connected last_word];
          try (rewrite view_off by auto; rewrite Cn; cbn; split; [congruence|intros [H _]; discriminate]).
        + unfold discovers, discovered. rewrite Cf, En, !andb_true_r.
          destruct (memZ (pc_num p) ups), (pc_opstatus p); cbn; split; try (intros; split; auto); try congruence.
          intros [_ X]. discriminate (X eq_refl).
        + split; [congruence|intros [H _]; discriminate].
    Qed.

    Lemma view_keep : forall later evs v, connected evs = true -> view p evs = v -> v <> VDown ->
      Forall (fun ev => ~ link_lost p ev /\ ~ lacpdu (pc_num p) ev) later ->
      (forall t, v = VUp t -> Forall (fun ev => ~ too_old cfg t ev) later) ->
      connected (later ++ evs) = true /\ view p (later ++ evs) = v.
    Proof.
      induction later as [|ev later IH]; intros evs v Cn Vw Nv Q Old; cbn [app]; auto.
      inversion Q as [|x y [Q1 Q2] Q3]; subst x y.
      destruct (IH evs v Cn Vw Nv Q3) as [IH1 IH2].
      { intros t E. specialize (Old t E). inversion Old; auto. }
      destruct ev as [now ups|now|now n r d b|now n vid mac|now n sync|now]; cbn [connected view link_lost lacpdu] in *;
        try (exfalso; apply Q1; exact I); rewrite ?IH1; cbn [andb]; auto.
      - split; auto. destruct (Z.eqb_spec n (pc_num p)) as [->|N]; cbn [andb]; auto.
        destruct (pc_opstatus p); cbn [andb]; auto. rewrite IH2.
        destruct r; cbn [other_reason negb up_report]; auto.
        + destruct v; congruence.
        + exfalso. apply Q1; auto.
        + destruct d; cbn [negb]; [exfalso; apply Q1; auto|]. destruct v; congruence.
      - split; auto. destruct (Z.eqb_spec n (pc_num p)) as [->|N]; [exfalso; apply Q2; auto|auto].
      - split; auto. rewrite IH2. destruct v as [| |t|]; auto.
        specialize (Old t eq_refl). inversion Old as [|x y O1 O2]; subst. cbn [too_old] in O1.
        destruct (Z.ltb_spec (d_lacp_timeout cfg) (now - t)); [lia|auto].
    Qed.

    Lemma last_view : forall evs later t sync, plain_reports evs (pc_num p) -> last_lacpdu p evs later t sync ->
      (sync = true -> Forall (fun ev => ~ too_old cfg t ev) later) ->
      view p evs = if sync then VUp t else VNoSync.
    Proof.
      intros evs later t sync Pl [before [-> [Lk Q]]] Old.
      apply Forall_app in Pl as [_ Pl]. inversion Pl as [|x y _ Pl2]; subst.
      assert (Nd : view p before <> VDown) by (apply view_link; auto).
      destruct Lk as [Cb _].
      apply view_keep; auto.
      - cbn [view]. rewrite Cb, Z.eqb_refl. cbn [andb]. destruct (view p before), sync; congruence.
      - destruct sync; congruence.
      - destruct sync; intros t' E; [injection E as <-; auto|discriminate].
    Qed.

    Lemma view_last : forall evs t (sync : bool), plain_reports evs (pc_num p) -> (view p evs = if sync then VUp t else VNoSync) ->
      exists later t', (sync = true -> t' = t) /\ last_lacpdu p evs later t' sync /\
         (sync = true -> Forall (fun ev => ~ too_old cfg t ev) later).
    Proof.
      induction evs as [|ev evs IH]; intros t sync Pl Vw; [destruct sync; discriminate Vw|].
      inversion Pl as [|x y Pl1 Pl2]; subst.
      assert (Cn : connected (ev :: evs) = true).
      { destruct (connected (ev :: evs)) eqn:C; auto. rewrite view_off in Vw by auto. destruct sync; discriminate Vw. }
      assert (Next : view p evs = (if sync then VUp t else VNoSync) -> ~ link_lost p ev -> ~ lacpdu (pc_num p) ev ->
        (sync = true -> ~ too_old cfg t ev) ->
        exists later t', (sync = true -> t' = t) /\ last_lacpdu p (ev :: evs) later t' sync /\
         (sync = true -> Forall (fun ev => ~ too_old cfg t ev) later)).
      { intros X1 X2 X3 X4. destruct (IH t sync Pl2 X1) as [later [t' [E [[before [-> [Lk Q]]] Old]]]].
        exists (ev :: later), t'. split; auto. split.
        - exists before. split; [reflexivity|]. split; auto.
        - intros S. constructor; auto. }
      destruct ev as [now ups|now|now n r d b|now n vid mac|now n sync'|now]; cbn [view connected] in *.
      - destruct (discovers cfg ups p && pc_enabled p), sync; discriminate Vw.
      - discriminate Cn.
      - rewrite Cn in Vw. cbn [andb] in Vw. destruct (Z.eqb_spec n (pc_num p)) as [->|N]; cbn [andb] in Vw.
        + destruct (pc_opstatus p) eqn:Op; cbn [andb] in Vw.
          2:{ apply Next; auto. cbn. intros [X _]. congruence. }
          destruct r; cbn [other_reason negb up_report] in Vw.
          * apply Next; auto; [|cbn; intros [_ [_ [X|[X _]]]]; discriminate].
            rewrite En in Vw. destruct (view p evs); try destruct sync; congruence.
          * destruct sync; discriminate Vw.
          * destruct d; cbn [negb] in Vw; [destruct sync; discriminate Vw|].
            apply Next; auto; [|cbn; intros [_ [_ [X|[_ X]]]]; discriminate].
            rewrite En in Vw. destruct (view p evs); try destruct sync; congruence.
          * apply Next; auto. cbn; intros [_ [_ [X|[X _]]]]; discriminate.
        + apply Next; auto. cbn; intros [_ [X _]]; congruence.
      - apply Next; auto.
      - rewrite Cn in Vw. cbn [andb] in Vw. destruct (Z.eqb_spec n (pc_num p)) as [->|N].
        + assert (Nd : view p evs <> VDown) by (intros X; rewrite X in Vw; destruct sync; discriminate Vw).
          exists [], now. assert (E : sync' = sync /\ (sync = true -> now = t)).
          { destruct (view p evs), sync, sync'; try discriminate Vw; try congruence; split; auto; congruence. }
          destruct E as [-> E]. split; auto. split; [|constructor].
          exists evs. split; [reflexivity|]. split; [apply view_link; auto|constructor].
        + apply Next; auto.
      - rewrite Cn in Vw. cbn [andb] in Vw. destruct (view p evs) as [| |t'|] eqn:V1; try (destruct sync; discriminate Vw).
        + destruct (Z.ltb_spec (d_lacp_timeout cfg) (now - t')); destruct sync; try discriminate Vw.
          injection Vw as ->. apply Next; auto. cbn. intros _. lia.
        + destruct sync; [discriminate Vw|]. apply Next; auto. discriminate.
    Qed.

    Lemma view_sync : forall evs, plain_reports evs (pc_num p) -> ((exists t, view p evs = VUp t) <-> in_sync cfg p evs).
    Proof.
      intros evs Pl. split.
      - intros [t Vw]. destruct (view_last evs t true Pl Vw) as [later [t' [E [L O]]]]. rewrite (E eq_refl) in L.
        exists later, t. auto.
      - intros [later [t [L O]]]. exists t. apply (last_view evs later t true); auto.
    Qed.
    Lemma view_nosync : forall evs, plain_reports evs (pc_num p) -> (view p evs = VNoSync <-> out_of_sync p evs).
    Proof.
      intros evs Pl. split.
      - intros Vw. destruct (view_last evs 0 false Pl Vw) as [later [t' [_ [L _]]]]. exists later, t'. auto.
      - intros [later [t L]]. apply (last_view evs later t false); auto. discriminate.
    Qed.
  End Said.

  (** The selection of an UP port is the configured one. *)
  Lemma role_inv : forall F evs w p, reach cfg F evs w -> In p (d_ports cfg) -> pc_lacp p <> 0 ->
    ds_actor (w_ctl w) (pc_num p) = AUp -> ds_role (w_ctl w) (pc_num p) = next_role p.
  Proof.
    intros F evs w p H Hp Lp.
    assert (Con : forall st now ups, (ds_actor st (pc_num p) = AUp -> ds_role st (pc_num p) = next_role p) ->
      ds_actor (fst (datapath_connect cfg st now ups)) (pc_num p) = AUp ->
      ds_role (fst (datapath_connect cfg st now ups)) (pc_num p) = next_role p).
    { intros st now ups I. destruct (datapath_connect cfg st now ups) as [st' ms] eqn:D. cbn [fst].
      destruct (connect_local cfg V _ _ _ _ _ D) as (_ & _ & _ & Loc).
      destruct (Loc p Hp) as [[_ [_ X]]|[_ [(_ & X & Y) _]]]; [|rewrite X, Y; auto].
      destruct (pc_enabled p); [|destruct X as (X & Y & _); rewrite X, Y; auto].
      destruct (Z.eqb_spec (pc_lacp p) 0); [contradiction|]. destruct X as [X _]. congruence. }
    induction H as [now ups sh ub out s0 Hsh R|evs w now ups sh ub out s0 H IH Hsh R
      |evs w ev st ms sh ub out H IH Sent St Hsh R|evs w live pk es H IH Hk HF Wk|evs w f l1 l2 H IH E Tm]; cbn [w_ctl] in *; auto.
    - apply Con. discriminate.
    - pose proof (reach_inv cfg V _ _ _ H) as W. assert (Run := wi_run _ _ _ _ W).
      destruct ev as [now ups|now|now n r d b|now n vid mac|now n sync|now]; [destruct Sent| | | | |].
      { cbn [cstep] in St. destruct (datapath_disconnect cfg (w_ctl w) now) as [st1|] eqn:D; [|discriminate].
        cbn [option_map] in St. injection St as -> _. unfold datapath_disconnect, ports_delete in D.
        destruct (ports_delete_each _ _ _ _ _) as [[st2 ms2]|] eqn:X; [|discriminate]. injection D as ->.
        apply (ports_delete_state cfg V) in X; [|auto|apply (vc_nums cfg V)]. destruct X as (_ & _ & X3).
        destruct (X3 p Hp) as [_ X5]. rewrite X5 by auto. discriminate. }
      all: destruct (connected evs) eqn:Cn;
        [ pose proof (fun X => event_local cfg V _ _ _ _ Run X St) as EL; destruct (EL I) as (_ & _ & Lc); specialize (Lc p Hp)
        | cbn [cstep] in St; unfold rcv_vlan_packet, rcv_lacp, state_expire in St; rewrite Run in St; cbn [negb] in St;
          injection St as <- _; exact IH ].
      all: (destruct Lc as [(_ & S2 & S3) _ _|_ _ Ph [_ [Nr _]]|? ? ? ? _ _ _ _ _ Ph X|? ? ? ? _ _ _ _ Ph X];
        [ rewrite S2, S3; auto | auto
        | destruct (pc_enabled p); [|destruct X as (X & Y & _); rewrite X, Y; auto];
          destruct (Z.eqb_spec (pc_lacp p) 0); [contradiction|]; destruct X as [X _]; rewrite X; discriminate
        | destruct (Z.eqb_spec (pc_lacp p) 0); [contradiction|]; destruct X as [X _]; rewrite X; discriminate ]).
  Qed.
End Lacp.
