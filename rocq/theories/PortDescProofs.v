(** * Lemmas on port description replies *)

From Coq Require Import ZArith List Bool Lia Permutation.
From Verif Require Import PyBase PyBaseProofs OpenFlow LearnModel L2Model L2Spec L2PortSpec L2LacpProofs PortDescModel PortDescSpec.
Import ListNotations.
Open Scope Z_scope.

Lemma memZ_in : forall n l, memZ n l = true <-> In n l.
Proof.
  intros. unfold memZ. rewrite existsb_exists. split.
  - intros [x [H E]]. apply Z.eqb_eq in E. subst. exact H.
  - intros H. exists n. split; [exact H|apply Z.eqb_refl].
Qed.

Section Desc.
  Variable cfg : dconf.
  Hypothesis ND : NoDup (map pc_num (d_ports cfg)).

  Definition up_of (st : dstate) (n : Z) : bool := memZ n (ds_up st).

  Lemma set_status_up : forall st m up now n,
    up_of (set_port_status cfg st m up now) n = if n =? m then up else up_of st n.
  Proof.
    intros. unfold set_port_status, up_of.
    assert (E : memZ n (if up then m :: filter (fun x => negb (x =? m)) (ds_up st) else filter (fun x => negb (x =? m)) (ds_up st))
                = if n =? m then up else memZ n (ds_up st)).
    { assert (F : memZ n (filter (fun x => negb (x =? m)) (ds_up st)) = negb (n =? m) && memZ n (ds_up st)).
      { apply eq_true_iff_eq. rewrite memZ_in, filter_In, andb_true_iff, memZ_in. tauto. }
      destruct up; cbn [memZ existsb]; fold (memZ n (filter (fun x => negb (x =? m)) (ds_up st))); rewrite F; destruct (n =? m); reflexivity. }
    destruct (find_port cfg m); exact E.
  Qed.
  Lemma set_status_phys : forall st m up now, ds_phys (set_port_status cfg st m up now) = ds_phys st.
  Proof. intros. unfold set_port_status. destruct (find_port cfg m); reflexivity. Qed.
  Lemma set_status_running : forall st m up now, ds_running (set_port_status cfg st m up now) = ds_running st.
  Proof. intros. unfold set_port_status. destruct (find_port cfg m); reflexivity. Qed.

  (** the ports up and whether the switch runs *)
  Definition ur (st : dstate) : list Z * bool := (ds_up st, ds_running st).
  Lemma lacp_update_ur : forall st p up now pkt cold, ur (fst (lacp_update cfg st p up now pkt cold)) = ur st.
  Proof.
    intros. unfold lacp_update. destruct cold; destruct (actor_eq_dec _ _); try destruct (role_eq_dec _ _); reflexivity.
  Qed.
  Lemma lacp_update_phys : forall st p up now pkt cold, ds_phys (fst (lacp_update cfg st p up now pkt cold)) = ds_phys st.
  Proof.
    intros. unfold lacp_update. destruct cold; destruct (actor_eq_dec _ _); try destruct (role_eq_dec _ _); reflexivity.
  Qed.
  Lemma port_add_ur : forall cold st p, ur (fst (port_add_one cfg cold st p)) = ur st.
  Proof.
    intros. unfold port_add_one. destruct (port_running _ _); [|reflexivity]. destruct (pc_lacp p =? 0); [reflexivity|].
    pose proof (lacp_update_ur (set_phys st (pc_num p) true) p false None false cold) as X.
    destruct (lacp_update _ _ _ _ _ _ _); exact X.
  Qed.
  Lemma ports_add_ur : forall cold ps st, ur (fst (ports_add_each cfg cold st ps)) = ur st.
  Proof.
    induction ps as [|p ps IH]; intros st; cbn; [reflexivity|].
    pose proof (port_add_ur cold st p) as X. destruct (port_add_one cfg cold st p) as [st1 ms1].
    specialize (IH st1). destruct (ports_add_each cfg cold st1 ps). cbn in *. congruence.
  Qed.
  Lemma port_delete_ur : forall keep st p st' ms, port_delete_one cfg keep None st p = Some (st', ms) -> ur st' = ur st.
  Proof.
    intros keep st p st' ms H. unfold port_delete_one in H. destruct (pc_lacp p =? 0).
    - destruct keep; [injection H as <- _; reflexivity|]. destruct (clear_vlans _ _ _); [|discriminate]. injection H as <- _. reflexivity.
    - injection H as H. pose proof (lacp_update_ur (set_phys st (pc_num p) false) p false None false false) as X. rewrite H in X. exact X.
  Qed.
  Lemma port_delete_running : forall keep now st p st' ms, port_delete_one cfg keep now st p = Some (st', ms) ->
    ds_running st' = ds_running st.
  Proof.
    intros keep now st p st' ms H. unfold port_delete_one in H.
    set (st2 := match now with Some _ => _ | None => _ end) in H.
    assert (R : ds_running st2 = ds_running st) by (unfold st2; destruct now; [rewrite set_status_running|]; reflexivity).
    destruct (pc_lacp p =? 0).
    - destruct keep; [injection H as <- _; exact R|]. destruct (clear_vlans _ _ _); [|discriminate]. injection H as <- _. exact R.
    - injection H as H. rewrite <- R. pose proof (f_equal snd (lacp_update_ur st2 p false None false false)) as X. cbn in X. rewrite H in X. exact X.
  Qed.

  Lemma handler_effect : forall st now m r down blocked st' ms, port_status_handler cfg st now m r down blocked = Some (st', ms) ->
    ds_running st' = ds_running st
    /\ (forall n, up_of st' n = if n =? m then negb down else up_of st n)
    /\ (forall n, n <> m -> ds_phys st' n = ds_phys st n)
    /\ (forall p, find_port cfg m = Some p -> pc_opstatus p = true ->
          ds_phys st' m = match r with
                          | PAdd => negb (ds_phys st m && (blocked || down))
                          | PModify => negb down && negb (ds_phys st m && blocked)
                          | PDelete => false
                          | POther => ds_phys st m
                          end).
  Proof.
    intros st now m r down blocked st' ms H. unfold port_status_handler in H.
    set (st1 := set_port_status cfg st m (negb down) now) in H.
    assert (R1 : ds_running st1 = ds_running st) by apply set_status_running.
    assert (U1 : forall n, up_of st1 n = if n =? m then negb down else up_of st n) by (intros; apply set_status_up).
    assert (P1 : ds_phys st1 = ds_phys st) by apply set_status_phys.
    destruct (find_port cfg m) as [p|] eqn:Ef.
    2:{ injection H as <- _. repeat split; auto; [rewrite P1; auto|discriminate]. }
    assert (Em : pc_num p = m) by (unfold find_port in Ef; apply find_some in Ef; destruct Ef as [_ E]; apply Z.eqb_eq in E; exact E).
    destruct (pc_opstatus p) eqn:Op; cbn [negb] in H.
    2:{ injection H as <- _. repeat split; auto; [rewrite P1; auto|]. intros q Eq. injection Eq as <-. congruence. }
    assert (Stay : forall v, Some (st1, []) = Some (st', ms) -> v = ds_phys st m -> 
      ds_running st' = ds_running st /\ (forall n, up_of st' n = if n =? m then negb down else up_of st n)
      /\ (forall n, n <> m -> ds_phys st' n = ds_phys st n) /\ (forall q, Some p = Some q -> pc_opstatus q = true -> ds_phys st' m = v)).
    { intros v E Ev. injection E as <- _. repeat split; auto; rewrite P1; auto. }
    assert (Add : forall v, Some (ports_add cfg false st1 [p]) = Some (st', ms) -> v = true ->
      ds_running st' = ds_running st /\ (forall n, up_of st' n = if n =? m then negb down else up_of st n)
      /\ (forall n, n <> m -> ds_phys st' n = ds_phys st n) /\ (forall q, Some p = Some q -> pc_opstatus q = true -> ds_phys st' m = v)).
    { intros v E Ev. unfold ports_add in E. destruct (ports_add_each cfg false st1 [p]) as [st2 ms2] eqn:E2. injection E as <- _.
      pose proof (ports_add_ur false [p] st1) as X. rewrite E2 in X. cbn in X. unfold ur in X. injection X as X1 X2.
      apply ports_add_state in E2; [|repeat constructor; intros []]. destruct E2 as [Y1 Y2].
      repeat split.
      - congruence.
      - intros n. unfold up_of. rewrite X1. apply U1.
      - intros n Hn. destruct (Y1 n) as [Z1 _]; [cbn; intros [E|[]]; congruence|]. rewrite Z1, P1. reflexivity.
      - intros q _ _. destruct (Y2 p (or_introl eq_refl)) as [Z1 _]. rewrite Em in Z1. congruence. }
    assert (Del : forall v, ports_delete cfg true None st1 [p] = Some (st', ms) -> v = false ->
      ds_running st' = ds_running st /\ (forall n, up_of st' n = if n =? m then negb down else up_of st n)
      /\ (forall n, n <> m -> ds_phys st' n = ds_phys st n) /\ (forall q, Some p = Some q -> pc_opstatus q = true -> ds_phys st' m = v)).
    { intros v E Ev. unfold ports_delete in E. cbn [ports_delete_each] in E.
      destruct (port_delete_one cfg true None st1 p) as [[st2 ms2]|] eqn:E2; [|discriminate]. injection E as <- _.
      pose proof (port_delete_ur _ _ _ _ _ E2) as X. unfold ur in X. injection X as X1 X2.
      apply port_delete_state in E2. destruct E2 as [Y1 [Y2 _]].
      repeat split.
      - congruence.
      - intros n. unfold up_of. rewrite X1. apply U1.
      - intros n Hn. destruct (Y1 n) as [Z1 _]; [congruence|]. rewrite Z1, P1. reflexivity.
      - intros q _ _. rewrite Em in Y2. congruence. }
    rewrite P1 in H.
    destruct r; [| | |apply Stay; auto].
    - destruct (ds_phys st m) eqn:Ph; cbn [eqb andb] in *; [|apply Add; auto].
      destruct (blocked || down) eqn:Eb; cbn [negb] in *; [apply Del; auto|apply Stay; auto].
    - destruct (ds_phys st m) eqn:Ph; cbn [eqb andb] in *; [apply Del; auto|apply Stay; auto].
    - destruct down; cbn [negb] in *; destruct (ds_phys st m) eqn:Ph; cbn [eqb andb negb] in *.
      + apply Del; auto.
      + apply Stay; auto.
      + destruct blocked; cbn [orb negb] in *; [apply Del; auto|apply Stay; auto].
      + apply Add; auto.
  Qed.

  (** ** The reply *)

  Lemma fabricated_port : forall prev descs n r down, In n (map pc_num (d_ports cfg)) ->
    In (n, (r, down)) (fabricated cfg prev descs) ->
    memZ n prev <> memZ n (desc_up descs)
    /\ (r, down) = (if memZ n (desc_ports descs) then if negb (memZ n prev) then (PAdd, false) else (PModify, negb (memZ n (desc_up descs)))
                    else (PDelete, true)).
  Proof.
    intros prev descs n r down Hn H. unfold fabricated in H. apply in_app_iff in H. destruct H as [H|H]; apply in_flat_map in H; destruct H as [x [Hx H]].
    - apply filter_In in Hx. destruct Hx as [_ Hx]. destruct (eqb _ _); [contradiction|]. destruct H as [H|[]]. injection H as <- _ _.
      apply memZ_in in Hn. rewrite Hn in Hx. discriminate.
    - destruct (eqb (memZ x prev) (memZ x (desc_up descs))) eqn:E; [contradiction|]. apply eqb_false_iff in E.
      destruct (memZ x (desc_ports descs)) eqn:Ep; [destruct (negb (memZ x prev)) eqn:Er|]; destruct H as [H|[]]; injection H as <- <- <-;
        rewrite Ep, ?Er; auto.
  Qed.
  Lemma fabricated_changed : forall prev descs n, In n (map pc_num (d_ports cfg)) -> memZ n prev <> memZ n (desc_up descs) ->
    exists r down, In (n, (r, down)) (fabricated cfg prev descs).
  Proof.
    intros prev descs n Hn H. unfold fabricated.
    destruct (memZ n (desc_ports descs)) eqn:Ep; [destruct (negb (memZ n prev)) eqn:Er|]; do 2 eexists; apply in_app_iff; right;
      apply in_flat_map; exists n; (split; [exact Hn|]); rewrite (proj2 (eqb_false_iff _ _) H), Ep, ?Er; left; reflexivity.
  Qed.

  Lemma handle_all_running : forall l st now st' ms, handle_all cfg st now l = Some (st', ms) -> ds_running st' = ds_running st.
  Proof.
    induction l as [|[m [r down]] l IH]; intros st now st' ms H; cbn in H; [injection H as <- _; reflexivity|].
    destruct (port_status_handler cfg st now m r down false) as [[st1 ms1]|] eqn:E; [|discriminate].
    destruct (handle_all cfg st1 now l) as [[st2 ms2]|] eqn:E2; [|discriminate]. injection H as <- _.
    apply IH in E2. apply handler_effect in E. destruct E as [E _]. congruence.
  Qed.

  (** what each message does to one port is the same for all of the port's messages *)
  Lemma handle_all_port : forall l st now st' ms p (b : bool), In p (d_ports cfg) -> find_port cfg (pc_num p) = Some p -> pc_opstatus p = true ->
    handle_all cfg st now l = Some (st', ms) ->
    (forall r down, In (pc_num p, (r, down)) l -> (r = PAdd /\ down = false /\ b = true) \/ (r = PModify /\ b = negb down) \/ (r = PDelete /\ down = true /\ b = false)) ->
    ((forall r down, ~ In (pc_num p, (r, down)) l) /\ ds_phys st' (pc_num p) = ds_phys st (pc_num p) /\ up_of st' (pc_num p) = up_of st (pc_num p))
    \/ ((exists r down, In (pc_num p, (r, down)) l) /\ ds_phys st' (pc_num p) = b /\ up_of st' (pc_num p) = b).
  Proof.
    induction l as [|[m [r down]] l IH]; intros st now st' ms p b Hp Hf Op H Hb; cbn in H.
    - injection H as <- _. left. repeat split; auto.
    - destruct (port_status_handler cfg st now m r down false) as [[st1 ms1]|] eqn:E; [|discriminate].
      destruct (handle_all cfg st1 now l) as [[st2 ms2]|] eqn:E2; [|discriminate]. injection H as <- _.
      apply handler_effect in E. destruct E as [_ [U [P Q]]].
      specialize (IH _ _ _ _ p b Hp Hf Op E2 (fun r d X => Hb r d (or_intror X))).
      destruct (Z.eq_dec m (pc_num p)) as [->|Hm].
      + right. split; [exists r, down; left; reflexivity|].
        assert (X : ds_phys st1 (pc_num p) = b /\ up_of st1 (pc_num p) = b).
        { rewrite U, Z.eqb_refl, (Q p Hf Op). destruct (Hb r down (or_introl eq_refl)) as [(-> & -> & ->)|[(-> & ->)|(-> & -> & ->)]]; cbn.
          - rewrite andb_false_r. auto.
          - rewrite andb_false_r, andb_true_r. auto.
          - auto. }
        destruct X as [X1 X2]. destruct IH as [(_ & I1 & I2)|(_ & I1 & I2)]; split; congruence.
      + rewrite <- (P (pc_num p)) by congruence. 
        assert (Eu : up_of st1 (pc_num p) = up_of st (pc_num p)) by (rewrite U; rewrite (proj2 (Z.eqb_neq (pc_num p) m)) by congruence; reflexivity).
        rewrite <- Eu. destruct IH as [(I0 & I1 & I2)|((r' & d' & I0) & I1 & I2)].
        * left. split; [|auto]. intros r' d' [X|X]; [congruence|exact (I0 _ _ X)].
        * right. split; [|auto]. exists r', d'. right. exact I0.
  Qed.

  Lemma reply_port : forall st now descs order st' ms p, In p (d_ports cfg) -> find_port cfg (pc_num p) = Some p -> pc_opstatus p = true ->
    pc_num p <> OFPP_LOCAL ->
    (ds_phys st (pc_num p) = true -> up_of st (pc_num p) = true) ->
    Permutation order (fabricated cfg (ds_up st) descs) -> handle_all cfg st now order = Some (st', ms) ->
    (ds_phys st' (pc_num p) = true -> memZ (pc_num p) (desc_up descs) = true)
    /\ up_of st' (pc_num p) = memZ (pc_num p) (desc_up descs).
  Proof.
    intros st now descs order st' ms p Hp Hf Op Hl Hinv HP H.
    assert (Hn : In (pc_num p) (map pc_num (d_ports cfg))) by (apply in_map, Hp).
    pose proof (handle_all_port order st now st' ms p (memZ (pc_num p) (desc_up descs)) Hp Hf Op H) as X.
    destruct X as [(I0 & I1 & I2)|(_ & I1 & I2)].
    - intros r down Hin. apply (Permutation_in _ HP) in Hin. apply fabricated_port in Hin; [|exact Hn]. destruct Hin as [Hne E].
      destruct (memZ (pc_num p) (desc_ports descs)) eqn:Ep.
      + destruct (memZ (pc_num p) (ds_up st)) eqn:Er; cbn [negb] in E; injection E as -> ->.
        * right; left. split; [reflexivity|]. rewrite negb_involutive. reflexivity.
        * left. repeat split; auto. destruct (memZ (pc_num p) (desc_up descs)); congruence.
      + injection E as -> ->. right; right. repeat split; auto.
        destruct (memZ (pc_num p) (desc_up descs)) eqn:Eu; [|reflexivity]. exfalso.
        assert (memZ (pc_num p) (desc_ports descs) = true); [|congruence]. apply memZ_in. apply filter_In. split.
        * apply nodup_In. apply memZ_in in Eu. unfold desc_up in Eu. apply in_map_iff in Eu. destruct Eu as [d [E Hd]].
          apply filter_In in Hd. rewrite <- E. apply in_map, Hd.
        * apply negb_true_iff, Z.eqb_neq, Hl.
    - assert (E : memZ (pc_num p) (ds_up st) = memZ (pc_num p) (desc_up descs)).
      { destruct (bool_dec (memZ (pc_num p) (ds_up st)) (memZ (pc_num p) (desc_up descs))) as [E|E]; [exact E|exfalso].
        destruct (fabricated_changed _ _ _ Hn E) as [r [down Hin]]. apply (I0 r down). apply (Permutation_in _ (Permutation_sym HP)), Hin. }
      split.
      + rewrite I1. intros Y. rewrite <- E. apply Hinv, Y.
      + rewrite I2. exact E.
    - split; congruence.
  Qed.

  (** ** Connecting *)

  Lemma cold_status_props : forall ups now ps st, NoDup (map pc_num ps) ->
    let st' := fold_left (fun st p => set_port_status cfg st (pc_num p) (discovered cfg ups p) now) ps st in
    ds_phys st' = ds_phys st /\ ds_running st' = ds_running st
    /\ (forall p, In p ps -> up_of st' (pc_num p) = discovered cfg ups p)
    /\ (forall n, ~ In n (map pc_num ps) -> up_of st' n = up_of st n).
  Proof.
    induction ps as [|q ps IH]; intros st Hnd; cbn [fold_left]; [repeat split; auto; intros p []|].
    cbn in Hnd. inversion Hnd as [|? ? Hq Hnd']; subst.
    destruct (IH (set_port_status cfg st (pc_num q) (discovered cfg ups q) now) Hnd') as (A & B & C & D). cbn zeta in *.
    split; [rewrite A; apply set_status_phys|]. split; [rewrite B; apply set_status_running|]. split.
    - intros p [<-|Hp]; [|apply C, Hp]. rewrite D by exact Hq. rewrite set_status_up, Z.eqb_refl. reflexivity.
    - intros n Hn. cbn in Hn. rewrite D by tauto. rewrite set_status_up, (proj2 (Z.eqb_neq n (pc_num q))); [reflexivity|]. intros ->. tauto.
  Qed.

  Lemma connect_port : forall st now ups st' ms p, datapath_connect cfg st now ups = (st', ms) -> In p (d_ports cfg) ->
    configured p = true -> pc_opstatus p = true ->
    ds_running st' = true /\ up_of st' (pc_num p) = memZ (pc_num p) ups
    /\ ds_phys st' (pc_num p) = (memZ (pc_num p) ups || ds_phys st (pc_num p)).
  Proof.
    intros st now ups st' ms p H Hp Hc Op. unfold datapath_connect in H.
    set (st1 := cold_status cfg ups now st) in H. unfold ports_add in H.
    destruct (ports_add_each cfg true st1 (filter (discovered cfg ups) (filter configured (d_ports cfg)))) as [st2 ms2] eqn:E.
    injection H as <- _.
    assert (Nf : forall f, NoDup (map pc_num (filter f (d_ports cfg)))).
    { intros f. clear -ND. induction (d_ports cfg) as [|x l IH]; cbn; [constructor|]. cbn in ND. inversion ND; subst.
      destruct (f x); cbn; auto. constructor; auto. intros Y. apply H1. apply in_map_iff in Y. destruct Y as [y [Ey Y]].
      apply filter_In in Y. rewrite <- Ey. apply in_map, Y. }
    assert (Nff : NoDup (map pc_num (filter (discovered cfg ups) (filter configured (d_ports cfg))))).
    { specialize (Nf configured). clear -Nf. induction (filter configured (d_ports cfg)) as [|x l IH]; cbn; [constructor|]. cbn in Nf. inversion Nf; subst.
      destruct (discovered cfg ups x); cbn; auto. constructor; auto. intros Y. apply H1. apply in_map_iff in Y. destruct Y as [y [Ey Y]].
      apply filter_In in Y. rewrite <- Ey. apply in_map, Y. }
    destruct (cold_status_props ups now (filter configured (d_ports cfg)) st (Nf configured)) as (A & B & C & D).
    fold (cold_status cfg ups now st) in A, B, C, D. fold st1 in A, B, C, D. cbn zeta in *.
    assert (Hcp : In p (filter configured (d_ports cfg))) by (apply filter_In; auto).
    assert (Ed : discovered cfg ups p = memZ (pc_num p) ups) by (unfold discovered; rewrite Op; apply orb_false_r).
    pose proof (ports_add_ur true (filter (discovered cfg ups) (filter configured (d_ports cfg))) st1) as X.
    rewrite E in X. cbn in X. unfold ur in X. injection X as X1 X2.
    split; [reflexivity|]. split.
    - unfold up_of. cbn. rewrite X1. rewrite <- Ed. apply C, Hcp.
    - cbn. apply ports_add_state in E; [|exact Nff]. destruct E as [E1 E2].
      destruct (memZ (pc_num p) ups) eqn:Em; cbn [orb].
      + apply (E2 p). apply filter_In. split; [exact Hcp|congruence].
      + destruct (E1 (pc_num p)) as [Y _]; [|rewrite Y, A; reflexivity].
        intros Y. apply in_map_iff in Y. destruct Y as [q [Eq Y]]. apply filter_In in Y. destruct Y as [Y1 Y2].
        assert (q = p). { apply filter_In in Y1. destruct Y1 as [Y1 _]. apply (NoDup_map_inj_in _ _ pc_num (d_ports cfg)); auto. }
        subst q. congruence.
  Qed.

  Lemma delete_each_down : forall keep now ps st st' ms, ports_delete_each cfg keep now st ps = Some (st', ms) ->
    ds_running st' = ds_running st /\ (forall n, ds_phys st n = false -> ds_phys st' n = false)
    /\ (forall p, In p ps -> ds_phys st' (pc_num p) = false).
  Proof.
    induction ps as [|q ps IH]; intros st st' ms H; cbn in H; [injection H as <- _; repeat split; auto; intros p []|].
    destruct (port_delete_one cfg keep now st q) as [[st1 ms1]|] eqn:E; [|discriminate].
    destruct (ports_delete_each cfg keep now st1 ps) as [[st2 ms2]|] eqn:E2; [|discriminate]. injection H as <- _.
    destruct (IH _ _ _ E2) as (A & B & C). pose proof (port_delete_running _ _ _ _ _ _ E) as R.
    apply port_delete_state in E. destruct E as [Y1 [Y2 _]].
    split; [congruence|]. split.
    - intros n Hn. apply B. destruct (Z.eq_dec n (pc_num q)) as [->|Hq]; [exact Y2|]. destruct (Y1 n Hq) as [Z1 _]. congruence.
    - intros p [<-|Hp]; [apply B, Y2|apply C, Hp].
  Qed.

  (** ** Everything else *)

  Lemma lacp_expire_ur : forall now ps st, ur (fst (lacp_expire_each cfg st now ps)) = ur st /\ ds_phys (fst (lacp_expire_each cfg st now ps)) = ds_phys st.
  Proof.
    induction ps as [|p ps IH]; intros st; cbn; [auto|].
    pose proof (lacp_update_ur st p false (Some now) false false) as X. pose proof (lacp_update_phys st p false (Some now) false false) as Y.
    destruct (lacp_update cfg st p false (Some now) false false) as [st1 ms1]. destruct (IH st1) as [A B].
    destruct (lacp_expire_each cfg st1 now ps). cbn in *. split; congruence.
  Qed.
  Lemma other_step : forall st ev st' ms, cstep cfg st ev = Some (st', ms) ->
    match ev with CPacketIn _ _ _ _ | CLacp _ _ _ | CExpire _ => True | _ => False end ->
    ur st' = ur st /\ ds_phys st' = ds_phys st.
  Proof.
    intros st ev st' ms H K. destruct ev as [now ups|now|now m r d b|now m vid mac|now m sync|now]; try contradiction; cbn in H.
    - unfold rcv_vlan_packet in H. destruct (negb _); [injection H as <- _; auto|].
      destruct (find_port cfg m); [|injection H as <- _; auto]. destruct (find_vlan cfg vid); [|injection H as <- _; auto].
      destruct (learnable_mac mac); [|injection H as <- _; auto]. destruct (LearnModel.vlan_rcv_packet _ _ _ _ _ _) as [[l hs]|]; [|discriminate].
      injection H as <- _. auto.
    - injection H as H. unfold rcv_lacp in H. destruct (negb _); [injection H as <- _; auto|].
      destruct (find_port cfg m) as [p|]; [|injection H as <- _; auto]. destruct (pc_lacp p =? 0); [injection H as <- _; auto|].
      pose proof (lacp_update_ur st p sync (Some now) true false) as X. pose proof (lacp_update_phys st p sync (Some now) true false) as Y.
      rewrite H in X, Y. auto.
    - unfold state_expire in H. destruct (negb _); [injection H as <- _; auto|].
      destruct (lacp_expire_ur now (filter (lacp_expired cfg st now) (d_ports cfg)) st) as [X Y].
      destruct (lacp_expire_each cfg st now _) as [st1 ms1]. destruct (hosts_expire_each _ _ _ _) as [[l hs]|]; [|discriminate].
      injection H as <- _. auto.
  Qed.

  Lemma find_self : forall p, In p (d_ports cfg) -> find_port cfg (pc_num p) = Some p.
  Proof.
    intros p Hp. unfold find_port. destruct (find _ _) as [q|] eqn:E.
    - apply find_some in E. destruct E as [Hq E]. apply Z.eqb_eq in E. f_equal. apply (NoDup_map_inj_in _ _ pc_num (d_ports cfg)); auto.
    - pose proof (find_none _ _ E p Hp) as X. cbn in X. rewrite Z.eqb_refl in X. discriminate.
  Qed.

  Lemma said_up_desc : forall descs n, existsb (fun d : desc => (fst d =? n) && negb (snd d)) descs = memZ n (desc_up descs).
  Proof.
    intros. apply eq_true_iff_eq. rewrite existsb_exists, memZ_in. unfold desc_up. rewrite in_map_iff. split.
    - intros [d [Hd E]]. apply andb_prop in E. destruct E as [E1 E2]. apply Z.eqb_eq in E1. exists d. split; [exact E1|]. apply filter_In. auto.
    - intros [d [E Hd]]. apply filter_In in Hd. destruct Hd as [Hd E2]. exists d. split; [exact Hd|]. rewrite E2. subst n. rewrite Z.eqb_refl. reflexivity.
  Qed.

  Definition word_is (w : word) (b : bool) : Prop := w = if b then WUp else WDown.

  Lemma belief_inv : forall evs st p, preach cfg evs st -> In p (d_ports cfg) -> pc_opstatus p = true -> configured p = true ->
    pc_num p <> OFPP_LOCAL -> ignore_port (pc_num p) = false -> plain_words evs (pc_num p) ->
    ds_running st = pconnected evs
    /\ (ds_phys st (pc_num p) = true -> up_of st (pc_num p) = true)
    /\ (pconnected evs = true -> word_is (said evs (pc_num p)) (ds_phys st (pc_num p))).
  Proof.
    intros evs st p R. induction R as [|evs st ev st' ms R IH Hne H|evs st now descs order st1 ms1 R IH HP H]; intros Hp Op Hc Hl Hi Pl.
    - cbn. repeat split; discriminate.
    - unfold plain_words in Pl. inversion Pl as [|? ? P1 P2]; subst. destruct (IH Hp Op Hc Hl Hi P2) as (A & B & C). clear IH.
      destruct ev as [now ups|now|now m r d b|now m vid mac|now m sync|now]; [exfalso; exact (Hne _ _ eq_refl)| | | | |].
      2:{ cbn in H. cbn [pconnected]. destruct (ds_running st) eqn:Er.
          2:{ injection H as <- _. split; [congruence|]. split; [exact B|]. rewrite <- A. discriminate. }
          apply handler_effect in H. destruct H as (E1 & E2 & E3 & E4). split; [congruence|]. rewrite <- A. rewrite E2.
          cbn in P1. destruct (Z.eq_dec m (pc_num p)) as [->|Hm].
          - rewrite Z.eqb_refl. specialize (E4 p (find_self p Hp) Op). rewrite E4. cbn [said]. destruct r; cbn in P1.
            + destruct (P1 eq_refl) as [-> ->]. rewrite Z.eqb_refl. cbn. rewrite andb_false_r. split; [auto|]. intros _. reflexivity.
            + rewrite Z.eqb_refl. split; [discriminate|]. intros _. reflexivity.
            + rewrite Z.eqb_refl. specialize (P1 eq_refl). destruct d; cbn; [split; [discriminate|]; intros _; reflexivity|].
              destruct b; [discriminate (P1 eq_refl)|]. rewrite andb_false_r. split; [auto|]. intros _. reflexivity.
            + contradiction.
          - rewrite (proj2 (Z.eqb_neq (pc_num p) m)) by congruence. rewrite E3 by congruence. split; [exact B|]. intros _.
            assert (Es : said (PEv (CPortStatus now m r d b) :: evs) (pc_num p) = said evs (pc_num p)).
            { cbn. rewrite (proj2 (Z.eqb_neq m (pc_num p))) by exact Hm. destruct r; reflexivity. }
            rewrite Es. apply C. congruence. }
      + cbn in H. unfold datapath_disconnect, ports_delete in H. 
        destruct (ports_delete_each cfg false (Some now) (set_running st false) (d_ports cfg)) as [[st2 ms2]|] eqn:E; [|discriminate].
        cbn in H. injection H as <- _. destruct (delete_each_down _ _ _ _ _ _ E) as (X & Y & Z0).
        cbn [pconnected]. split; [exact X|]. split; [rewrite (Z0 p Hp); discriminate|discriminate].
      + destruct (other_step _ _ _ _ H I) as [X Y]. unfold ur in X. injection X as X1 X2. cbn [pconnected said].
        unfold up_of. rewrite X1, X2, Y. auto.
      + destruct (other_step _ _ _ _ H I) as [X Y]. unfold ur in X. injection X as X1 X2. cbn [pconnected said].
        unfold up_of. rewrite X1, X2, Y. auto.
      + destruct (other_step _ _ _ _ H I) as [X Y]. unfold ur in X. injection X as X1 X2. cbn [pconnected said].
        unfold up_of. rewrite X1, X2, Y. auto.
    - unfold plain_words in Pl. inversion Pl as [|? ? _ P2]; subst. destruct (IH Hp Op Hc Hl Hi P2) as (A & B & C). clear IH.
      destruct (reply_port st now descs order st1 ms1 p Hp (find_self p Hp) Op Hl B HP H) as [D1 D2].
      set (ups := filter (fun n => negb (ignore_port n)) (desc_up descs)).
      destruct (datapath_connect cfg st1 now ups) as [st' ms] eqn:E. cbn [fst].
      destruct (connect_port _ _ _ _ _ p E Hp Hc Op) as (F1 & F2 & F3).
      assert (Eu : memZ (pc_num p) ups = memZ (pc_num p) (desc_up descs)).
      { apply eq_true_iff_eq. rewrite !memZ_in. unfold ups. rewrite filter_In, Hi. cbn. tauto. }
      rewrite Eu in *. assert (G : ds_phys st' (pc_num p) = memZ (pc_num p) (desc_up descs)).
      { rewrite F3. destruct (memZ (pc_num p) (desc_up descs)) eqn:Em; [reflexivity|]. cbn.
        destruct (ds_phys st1 (pc_num p)); [discriminate (D1 eq_refl)|reflexivity]. }
      cbn [pconnected said]. split; [exact F1|]. split; [congruence|]. intros _. rewrite said_up_desc. rewrite G. reflexivity.
  Qed.
End Desc.
