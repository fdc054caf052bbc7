(** * After every history, the destination rules lead where the hosts are learned *)
From Coq Require Import ZArith List Bool Lia Permutation.
From Verif Require Import PyBase PyBaseProofs OpenFlow TrimModel TrimProofs TableModel ReorderModel ReorderSpec ReorderProofs
  BatchProofs SlotProofs FloodModel FloodSpec FloodProofs FloodRulesModel FloodRulesProofs HostCacheModel HostCacheProofs LearnModel
  L2Model L2Spec L2PortSpec L2HostSpec L2Proofs L2PortProofs L2PortInv L2HostProofs.
Import ListNotations.
Open Scope Z_scope.

Section HostInv.
  Variable cfg : dconf.
  Hypothesis V : valid_cfg cfg.
  Hypothesis NL : no_loop_protection cfg.

  Local Notation tv := (tb_id (d_tvlan cfg)).
  Local Notation ts := (tb_id (d_tsrc cfg)).
  Local Notation th := (tb_id (d_thp cfg)).
  Local Notation td := (tb_id (d_tdst cfg)).
  Local Notation tf := (tb_id (d_tflood cfg)).
  Local Notation out_table := (out_table cfg).
  Local Notation quiet := (quiet cfg).
  Local Notation miss_flow := (L2HostProofs.miss_flow cfg).


  (** What an event does to the learning state. *)
  Definition about_port (ev : cevent) (n : Z) : Prop := exists now r d b, ev = CPortStatus now n r d b.
  Definition stamped (ev : cevent) (l l' : lstate) : Prop :=
    forall n, s_upd l' n = s_upd l n \/ (s_upd l' n = Some (ev_time ev) /\ about_port ev n).
  Definition disturbed (ev : cevent) (l' : lstate) (p : pconf) : Prop :=
    pc_lacp p <> 0 \/ s_upd l' (pc_num p) = Some (ev_time ev).
  Definition forgets (l' : lstate) (h : host_msg) : Prop :=
    exists v m, h = MDelHost v m /\ found l' v m = None /\ find_vlan cfg v <> None.
  Inductive change (on : bool) (ev : cevent) (l l' : lstate) (ms : list ofmsg) : Prop :=
  | ch_quiet : (forall v m, found l' v m = found l v m) -> s_expired l' = s_expired l -> s_cold l' = s_cold l -> stamped ev l l' ->
      Forall (calm cfg (disturbed ev l')) ms -> change on ev l l' ms
  | ch_minor : forall hs, l' = l -> Forall minor hs -> ms = flat_map (host_ofmsgs cfg) hs -> change on ev l l' ms
  | ch_moved : forall v n mac hs, moved cfg l (ev_time ev) v n mac l' hs -> ms = flat_map (host_ofmsgs cfg) hs ->
      ev = CPacketIn (ev_time ev) n v mac -> find_port cfg n <> None ->
      find_vlan cfg v <> None -> member cfg v n -> on = true -> change on ev l l' ms
  | ch_expire : forall m1 hs, s_cold l' = s_cold l -> s_upd l' = s_upd l ->
      (forall v, s_expired l' v = s_expired l v \/ s_expired l' v = Some (ev_time ev)) ->
      (forall v m e, found l' v m = Some e -> found l v m = Some e) ->
      (forall v m, found l v m <> None -> found l' v m = None -> s_expired l' v = Some (ev_time ev)) ->
      ms = m1 ++ flat_map (host_ofmsgs cfg) hs -> Forall (calm cfg (disturbed ev l')) m1 -> Forall (forgets l') hs ->
      change on ev l l' ms.

  Lemma change_refl : forall on ev l, change on ev l l [].
  Proof. intros. apply ch_quiet; auto. intros n; auto. Qed.

  Lemma set_status_learn : forall st n up now,
    (forall v m, found (ds_learn (set_port_status cfg st n up now)) v m = found (ds_learn st) v m) /\
    s_expired (ds_learn (set_port_status cfg st n up now)) = s_expired (ds_learn st) /\
    s_cold (ds_learn (set_port_status cfg st n up now)) = s_cold (ds_learn st).
  Proof. intros st n up now. unfold set_port_status. destruct (find_port cfg n); repeat split. Qed.
  Lemma set_status_upd : forall st n up now,
    (forall m, s_upd (ds_learn (set_port_status cfg st n up now)) m = s_upd (ds_learn st) m \/
      (m = n /\ s_upd (ds_learn (set_port_status cfg st n up now)) m = Some now)) /\
    (find_port cfg n <> None -> s_upd (ds_learn (set_port_status cfg st n up now)) n = Some now).
  Proof.
    intros st n up now. unfold set_port_status. destruct (find_port cfg n); [|split; [auto|congruence]].
    cbn [ds_learn set_learn s_upd]. split.
    - intros m. cbn [s_upd with_upd]. unfold upd. destruct (Z.eqb_spec m n); auto.
    - intros _. cbn [s_upd with_upd]. unfold upd. rewrite Z.eqb_refl. reflexivity.
  Qed.

  Lemma expire_forgets : forall now vids l l' hs, incl vids (map vc_vid (d_vlans cfg)) ->
    hosts_expire_each cfg l now vids = Some (l', hs) -> Forall (forgets l') hs.
  Proof.
    intros now vids l l' hs Iv H.
    assert (X : forall h, In h hs -> exists v m, h = MDelHost v m /\ In v vids).
    { clear Iv. revert l l' hs H. induction vids as [|v vids IH]; intros l l' hs H; cbn [hosts_expire_each] in H.
      - injection H as <- <-. intros h [].
      - destruct (state_expire_vlan (learn_cfg cfg) l now v) as [[l1 h1]|] eqn:E; [|discriminate].
        destruct (hosts_expire_each cfg l1 now vids) as [[l2 h2]|] eqn:E2; [|discriminate]. injection H as <- <-.
        intros h Hh. apply in_app_iff in Hh as [Hh|Hh].
        + unfold state_expire_vlan in E. destruct (expire_hosts_from_vlan _ _ _ _) as [[l3 ex]|]; [|discriminate].
          injection E as <- E. rewrite <- E in Hh. destruct (d_idle_dst cfg); [destruct Hh|]. apply in_map_iff in Hh as [x [<- _]].
          eexists _, _. split; [reflexivity|]. left; auto.
        + destruct (IH _ _ _ E2 h Hh) as (v' & m & A & B). exists v', m. split; auto. right; auto. }
    apply expire_result in H as (_ & _ & _ & _ & _ & H). apply Forall_forall. intros h Hh.
    destruct (X h Hh) as (v & m & -> & Hv). exists v, m. split; auto. split; [apply H; auto|].
    apply Iv, in_map_iff in Hv as [y [<- Hy]]. unfold find_vlan. destruct (find _ _) eqn:F; [discriminate|].
    exfalso. pose proof (find_none _ _ F y Hy) as N. simpl in N. rewrite Z.eqb_refl in N. discriminate.
  Qed.

  Lemma event_change : forall st ev st' ms, match ev with CConnect _ _ | CDisconnect _ => False | _ => True end ->
    (forall now n vid mac, ev = CPacketIn now n vid mac -> member cfg vid n) ->
    cstep cfg st ev = Some (st', ms) -> change (ds_running st) ev (ds_learn st) (ds_learn st') ms.
  Proof.
    intros st ev st' ms Ne Mem H. destruct ev as [now ups|now|now n reason down blocked|now n vid mac|now n sync|now]; try contradiction;
      cbn [cstep] in *.
    - destruct (ds_running st) eqn:Rn; [|injection H as <- <-; apply change_refl]. rewrite <- Rn in *.
      unfold port_status_handler in H. cbv zeta in H.
      destruct (set_status_learn st n (negb down) now) as (A & B & C).
      destruct (set_status_upd st n (negb down) now) as (U1 & U2).
      set (ev := CPortStatus now n reason down blocked).
      assert (G : forall s2 m2, ds_learn s2 = ds_learn (set_port_status cfg st n (negb down) now) -> Forall (calm cfg (disturbed ev (ds_learn s2))) m2 ->
                  change (ds_running st) ev (ds_learn st) (ds_learn s2) m2).
      { intros s2 m2 E Q. apply ch_quiet; auto; rewrite E; auto.
        intros m. destruct (U1 m) as [X|[-> X]]; [left; exact X|right]. split; [exact X|]. exists now, reason, down, blocked. reflexivity. }
      destruct (find_port cfg n) as [p|] eqn:Ep; [|injection H as <- <-; apply G; auto].
      destruct (negb (pc_opstatus p)); [injection H as <- <-; apply G; auto|].
      apply find_port_in in Ep as [Hp Np].
      assert (Dp : forall s2, ds_learn s2 = ds_learn (set_port_status cfg st n (negb down) now) -> forall q, q = p -> disturbed ev (ds_learn s2) q).
      { intros s2 E q ->. right. rewrite E, Np. apply U2. discriminate. }
      assert (Inp : forall q, In q [p] -> q = p /\ In q (d_ports cfg)) by (intros q [<-|[]]; auto).
      assert (K : forall b, (if eqb b (ds_phys (set_port_status cfg st n (negb down) now) n)
           then if b && (blocked || down) then ports_delete cfg true None (set_port_status cfg st n (negb down) now) [p]
                else Some (set_port_status cfg st n (negb down) now, [])
           else if b then Some (ports_add cfg false (set_port_status cfg st n (negb down) now) [p])
                else ports_delete cfg true None (set_port_status cfg st n (negb down) now) [p]) = Some (st', ms) ->
           change (ds_running st) ev (ds_learn st) (ds_learn st') ms).
      { intros b X.
        assert (D : ports_delete cfg true None (set_port_status cfg st n (negb down) now) [p] = Some (st', ms) ->
                    change (ds_running st) ev (ds_learn st) (ds_learn st') ms).
        { intros Y. apply (ports_delete_calm cfg V (fun q => q = p)) in Y as [Y1 Y2]; [|exact Inp]. apply G; auto.
          eapply calm_mono; [|exact Y1]. auto. }
        destruct (eqb b _).
        - destruct (b && (blocked || down)); [auto|]. injection X as <- <-. apply G; auto.
        - destruct b; [|auto]. injection X as X. apply (ports_add_calm cfg V (fun q => q = p)) in X as [Y1 Y2]; [|exact Inp]. apply G; auto.
          eapply calm_mono; [|exact Y1]. auto. }
      destruct reason; try (eapply K; exact H). injection H as <- <-. apply G; auto.
    - unfold rcv_vlan_packet in H. destruct (negb _) eqn:Rn; [injection H as <- <-; apply change_refl|].
      destruct (find_port cfg n) as [p|] eqn:Ep; [|injection H as <- <-; apply change_refl].
      destruct (find_vlan cfg vid) as [v|] eqn:Ev; [|injection H as <- <-; apply change_refl].
      destruct (learnable_mac mac); [|injection H as <- <-; apply change_refl].
      destruct (vlan_rcv_packet (learn_cfg cfg) (ds_learn st) now vid n mac) as [[l hs]|] eqn:E; [|discriminate].
      injection H as <- <-. cbn [set_learn ds_learn].
      apply (learn_result cfg NL) in E as [[-> Mi]|Mv].
      + eapply ch_minor; eauto.
      + apply negb_false_iff in Rn. eapply ch_moved; eauto; cbn [ev_time]; congruence.
    - injection H as H. unfold rcv_lacp in H. destruct (negb _); [injection H as <- <-; apply change_refl|].
      destruct (find_port cfg n) as [p|] eqn:Ep; [|injection H as <- <-; apply change_refl].
      destruct (pc_lacp p =? 0) eqn:Lp; [injection H as <- <-; apply change_refl|]. apply find_port_in in Ep as [Hp _].
      apply (lacp_update_calm cfg V (fun q => q = p)) in H; [destruct H as [A ->]|reflexivity|exact Hp].
      apply ch_quiet; auto; [intros m; auto|]. eapply calm_mono; [|exact A]. intros q ->. left. apply Z.eqb_neq; exact Lp.
    - unfold state_expire in H. destruct (negb (ds_running st)); [injection H as <- <-; apply change_refl|].
      destruct (lacp_expire_each cfg st now _) as [s1 m1] eqn:E1.
      destruct (hosts_expire_each cfg (ds_learn s1) now _) as [[l hs]|] eqn:E2; [|discriminate]. injection H as <- <-.
      apply (lacp_expire_calm cfg V (fun q => pc_lacp q <> 0)) in E1.
      2:{ intros q Hq. apply filter_In in Hq as [Hq Lq]. split; auto. unfold lacp_expired in Lq.
          destruct (Z.eqb_spec (pc_lacp q) 0); [discriminate|auto]. }
      destruct E1 as [A B]. rewrite B in E2. cbn [set_learn ds_learn].
      pose proof (expire_forgets _ _ _ _ _ (fun x Hx => Hx) E2) as D.
      apply expire_result in E2 as (C0 & C1 & C2 & C3 & C4 & _).
      eapply ch_expire; eauto. eapply calm_mono; [|exact A]. intros q Hq. left; exact Hq.
  Qed.

  Lemma forgets_quiet : forall l' hs, Forall (forgets l') hs -> Forall quiet (flat_map (host_ofmsgs cfg) hs).
  Proof. intros l' hs H. apply deletes_quiet; auto. revert H. apply Forall_impl. intros h (v & m & -> & _). exact I. Qed.
  Lemma minor_quiet : forall hs, Forall minor hs -> Forall quiet (flat_map (host_ofmsgs cfg) hs).
  Proof.
    intros hs Mi. apply Forall_flat_map. revert Mi. apply Forall_impl. intros h Hh. destruct (not_out cfg V) as (_ & T & _).
    destruct h; try contradiction; cbn [host_ofmsgs]; (apply Forall_cons; [|apply Forall_nil]); apply write_quiet; auto; discriminate.
  Qed.

  (** ** Disconnection forgets hosts, and learns none *)
  Lemma clear_found : forall p vids l l', clear_vlans l p vids = Some l' ->
    s_cold l' = s_cold l /\ forall v m e, found l' v m = Some e -> found l v m = Some e.
  Proof.
    intros p. induction vids as [|v vids IH]; intros l l' H; cbn [clear_vlans] in H.
    - injection H as <-. auto.
    - destruct (clear_cache_hosts_on_port p (s_cache l v)) as [c|] eqn:E; [|discriminate].
      apply IH in H as [A B]. split; [exact A|]. intros v' m e F. apply B in F. unfold found, with_cache in *. cbn [s_cache] in F.
      unfold upd in F. destruct (Z.eqb_spec v' v) as [->|]; auto. apply (expire_found _ _ _ E m); auto.
  Qed.
  Lemma disconnect_found : forall st now st', datapath_disconnect cfg st now = Some st' ->
    s_cold (ds_learn st') = s_cold (ds_learn st) /\ forall v m e, found (ds_learn st') v m = Some e -> found (ds_learn st) v m = Some e.
  Proof.
    intros st now st' H. unfold datapath_disconnect, ports_delete in H.
    destruct (ports_delete_each cfg false (Some now) (set_running st false) (d_ports cfg)) as [[s1 m1]|] eqn:E; [|discriminate].
    injection H as ->. change (ds_learn st) with (ds_learn (set_running st false)).
    revert E. generalize (set_running st false) as st0. clear st. intros st0. revert st0 st' m1.
    generalize (d_ports cfg) as ps. induction ps as [|p ps IH]; intros st0 st' m1 E; cbn [ports_delete_each] in E.
    - injection E as <- <-. auto.
    - destruct (port_delete_one cfg false (Some now) st0 p) as [[sa ma]|] eqn:Ea; [|discriminate].
      destruct (ports_delete_each cfg false (Some now) sa ps) as [[sb mb]|] eqn:Eb; [|discriminate]. injection E as <- <-.
      apply IH in Eb as [A B].
      assert (X : s_cold (ds_learn sa) = s_cold (ds_learn st0) /\ forall v m e, found (ds_learn sa) v m = Some e -> found (ds_learn st0) v m = Some e).
      { unfold port_delete_one in Ea. cbv zeta in Ea.
        destruct (set_status_learn (set_phys st0 (pc_num p) false) (pc_num p) false now) as (C & D & F).
        destruct (pc_lacp p =? 0).
        - destruct (clear_vlans _ _ _) as [l|] eqn:Cv; [|discriminate]. injection Ea as <- <-. cbn [set_learn ds_learn].
          apply clear_found in Cv as [G H]. split; [rewrite G, F; reflexivity|]. intros v m e X. apply H in X. rewrite C in X. exact X.
        - injection Ea as Ea. assert (G : ds_learn sa = ds_learn (set_port_status cfg (set_phys st0 (pc_num p) false) (pc_num p) false now)).
          { unfold lacp_update in Ea. destruct (actor_eq_dec _ _); [destruct (role_eq_dec _ _)|]; injection Ea as <- <-; reflexivity. }
          rewrite G. split; [exact F|]. intros v m e X. rewrite C in X. exact X. }
      destruct X as [X1 X2]. split; [congruence|auto].
  Qed.

  (** ** A fresh connection *)
  Lemma connect_msgs : forall st now ups st' ms, datapath_connect cfg st now ups = (st', ms) ->
    forall w, In (FlowMod w) ms -> fm_cmd w <> FModify /\
      (is_flow_write (FlowMod w) = true -> out_table (fm_table w) -> fm_cmd w = FAdd /\ miss_flow (flow_of w)).
  Proof.
    intros st now ups st' ms H.
    unfold datapath_connect in H. cbv zeta in H. destruct (ports_add cfg true _ _) as [s2 m2] eqn:E.
    apply (ports_add_calm cfg V (fun _ => True)) in E.
    2:{ intros q Hq. split; auto. apply filter_In in Hq as [Hq _]. apply filter_In in Hq. tauto. }
    destruct E as [Q _]. apply (calm_quiet cfg) in Q.
    assert (Hm : ms = delete_all_msgs cfg ++ default_msgs cfg ++ init_msgs cfg ++ [ConfigMsg 0] ++ m2
                      ++ add_vlans cfg s2 true (map vc_vid (d_vlans cfg))) by congruence.
    clear H. subst ms. intros w X.
    assert (Quiet : quiet (FlowMod w) -> fm_cmd w <> FModify /\
      (is_flow_write (FlowMod w) = true -> out_table (fm_table w) -> fm_cmd w = FAdd /\ miss_flow (flow_of w))).
    { intros [A B]. split; auto. intros C T. destruct (B C T). }
    destruct (not_out cfg V) as (T1 & T2 & T3).
    apply in_app_iff in X as [X|X].
    { apply Quiet. unfold delete_all_msgs in X. destruct X as [X|X]; [injection X as <-; split; [discriminate|discriminate]|].
      destruct (d_mode cfg); [destruct X|destruct X|]. destruct X as [X|[]]; discriminate X. }
    apply in_app_iff in X as [X|X].
    { unfold default_msgs in X. cbv zeta in X. cbn [app] in X.
      destruct X as [X|[X|X]]; [injection X as <-; apply Quiet, write_quiet; auto; discriminate
        |injection X as <-; apply Quiet, write_quiet; auto; discriminate|].
      apply in_app_iff in X as [X|[X|[X|[]]]]; [| |injection X as <-; apply Quiet, write_quiet; auto; discriminate].
      - destruct (has_hairpin cfg) eqn:Hh; [|destruct X]. destruct X as [X|[]]. injection X as <-. split; [discriminate|]. intros _ _.
        split; [reflexivity|]. right. split; auto.
      - injection X as <-. split; [discriminate|]. intros _ _. split; [reflexivity|]. left; reflexivity. }
    apply Quiet.
    apply in_app_iff in X as [X|X].
    { unfold init_msgs in X. apply in_app_iff in X as [X|X].
      - destruct (d_drop_bcast cfg); [|destruct X]. destruct X as [X|[]]. injection X as <-. apply write_quiet; auto; discriminate.
      - apply in_app_iff in X as [[X|[]]|X]; [injection X as <-; apply write_quiet; auto; discriminate|].
        unfold initialise_msgs in X. apply in_map_iff in X as [c [X _]]. injection X as <-. apply write_quiet; auto; discriminate. }
    apply in_app_iff in X as [[X|[]]|X]; [discriminate X|].
    apply in_app_iff in X as [X|X].
    - rewrite Forall_forall in Q. apply (Q _ X).
    - pose proof (calm_quiet cfg _ _ (add_vlans_calm cfg V (fun _ => True) s2 true (map vc_vid (d_vlans cfg)))) as A.
      rewrite Forall_forall in A. apply (A _ X).
  Qed.
  Lemma miss_slot : forall f g, miss_flow f -> miss_flow g -> f_table f = f_table g -> f = g.
  Proof.
    destruct (tables_distinct cfg V) as (A & B & C & D & E & F & G & H & I & J).
    intros f g [->|[_ ->]] [->|[_ ->]] T; auto; exfalso; cbn [flow_of f_table miss_fm tb_add tb_write fm_table] in T; congruence.
  Qed.
  Lemma miss_default : forall f, miss_flow f -> exists w, In (FlowMod w) (default_msgs cfg) /\ f = flow_of w /\ fm_cmd w = FAdd.
  Proof.
    unfold default_msgs. cbv zeta. intros f [->|[Hh ->]].
    - eexists. split; [apply in_app_iff; right; apply in_app_iff; right; left; reflexivity|split; reflexivity].
    - eexists. split; [apply in_app_iff; right; apply in_app_iff; left; rewrite Hh; left; reflexivity|split; reflexivity].
  Qed.

  Lemma connect_flows : forall st now ups st' ms sh ub out s0, (forall l, Permutation (sh l) l) ->
    datapath_connect cfg st now ups = (st', ms) -> valve_flowreorder sh ub ms = Some out ->
    s_cold (ds_learn st') = Some now /\ (forall v m, found (ds_learn st') v m = None) /\
    (forall f, In f (sw_flows (apply_msgs out s0)) -> out_table (f_table f) -> miss_flow f) /\
    (forall f, miss_flow f -> In f (sw_flows (apply_msgs out s0))).
  Proof.
    intros st now ups st' ms sh ub out s0 Hsh H R.
    destruct (connect_good cfg V _ _ _ _ _ H) as (_ & [d [Hd Wd]] & _).
    pose proof (connect_msgs _ _ _ _ _ H) as D0.
    assert (Df : incl (default_msgs cfg) ms).
    { unfold datapath_connect in H. cbv zeta in H. destruct (ports_add cfg true _ _) as [s2 m2] eqn:E.
      assert (Hm : ms = delete_all_msgs cfg ++ default_msgs cfg ++ init_msgs cfg ++ [ConfigMsg 0] ++ m2
                      ++ add_vlans cfg s2 true (map vc_vid (d_vlans cfg))) by congruence.
      rewrite Hm. intros m X. apply in_app_iff. right. apply in_app_iff. auto. }
    assert (Cd : s_cold (ds_learn st') = Some now /\ forall v m, found (ds_learn st') v m = None).
    { unfold datapath_connect in H. cbv zeta in H. destruct (ports_add cfg true _ _) as [s2 m2].
      split; injection H as <- _; reflexivity. }
    clear H. split; [apply Cd|]. split; [apply Cd|]. split.
    - destruct (wipe_split _ _ _ _ s0 _ R Hd Wd) as [post [s1 [E1 [E2 [_ E3]]]]]. rewrite E2.
      assert (D : forall w, In (FlowMod w) post -> fm_cmd w <> FModify /\
        (is_flow_write (FlowMod w) = true -> out_table (fm_table w) -> fm_cmd w = FAdd /\ miss_flow (flow_of w))).
      { intros w Hw. apply E3 in Hw. destruct (reorder_invents_nothing_lemma sh ub _ out (FlowMod w) Hsh R Hw) as [Hi|X]; [discriminate|].
        auto. }
      apply (apply_msgs_inv (fun f => out_table (f_table f) -> miss_flow f)).
      + intros w Hw C T. apply D; auto. simpl. rewrite C. reflexivity.
      + intros w f Hw C Sl _ T. exfalso. destruct (D w Hw) as [_ Y]. apply wslot_spec in Sl as [Sl _]. cbn [with_inst f_table] in T.
        destruct Y as [Y _]; [simpl; rewrite C; reflexivity|rewrite <- Sl; exact T|congruence].
      + intros w Hw. apply (D w Hw).
      + rewrite E1. intros f [].
    - intros f Hf.
      assert (T : out_table (f_table f)).
      { destruct Hf as [->|[_ ->]]; unfold L2HostProofs.out_table; auto. }
      apply (slot_written sh ub ms out Hsh R (fun w Hw => proj1 (D0 w Hw)) s0 (f_table f) (f_prio f) (f_match f) f); auto.
      + intros w Hw Ww (A & B & C). destruct (proj2 (D0 w Hw) Ww) as [X Y]; [rewrite A; exact T|]. split; auto.
        apply miss_slot; auto.
      + destruct (miss_default f Hf) as (w & Hw & E & Ca). exists w. split; [apply Df; auto|]. rewrite E. split; [|repeat split].
        simpl. rewrite Ca. reflexivity.
      + repeat split.
  Qed.

  (** ** The invariant *)
  Definition rel (on : bool) (l : lstate) (v mac n : Z) : Prop :=
    match found l v mac with
    | Some e => together cfg n (e_port e)
    | None => on = true -> delete_default l v None = true
    end.
  Record hostinv (evs : list cevent) (l : lstate) (s : switch) : Prop := {
    hi_cold : forall t, s_cold l = Some t -> exists ups, In (CConnect t ups) evs;
    hi_flows : forall f, In f (sw_flows s) -> out_table (f_table f) -> miss_flow f \/
      exists v mac n, host_flow cfg v mac n f /\ find_vlan cfg v <> None /\ member cfg v n /\ rel (connected evs) l v mac n
  }.

  Lemma delete_default_ext : forall l l' v, s_expired l' = s_expired l -> s_cold l' = s_cold l ->
    delete_default l' v None = delete_default l v None.
  Proof. intros l l' v A B. unfold delete_default. rewrite A, B. reflexivity. Qed.

  Lemma change_inv : forall evs l l' ms ev sh ub out s, (forall l, Permutation (sh l) l) ->
    valve_flowreorder sh ub ms = Some out -> in_order Z.le (ev :: evs) -> connected (ev :: evs) = connected evs ->
    change (connected evs) ev l l' ms -> hostinv evs l s -> hostinv (ev :: evs) l' (apply_msgs out s).
  Proof.
    intros evs l l' ms ev sh ub out s Hsh R [Ord _] Cn Ch [IC IF].
    assert (Cold : s_cold l' = s_cold l -> forall t, s_cold l' = Some t -> exists ups, In (CConnect t ups) (ev :: evs)).
    { intros E t X. rewrite E in X. apply IC in X as [ups X]. exists ups. right; auto. }
    destruct Ch as [Fo Ex Co _ Q|hs -> Mi ->|v n mac hs Mv Ms _ _ Fv Mn On|m1 hs Co _ Ex F1 F2 -> Q Dq].
    - constructor; [auto|]. intros f Hf T.
      assert (Hs : In f (sw_flows s)) by (eapply (quiet_keeps cfg sh ub ms out s Hsh R (calm_quiet cfg _ _ Q)); eauto).
      destruct (IF f Hs T) as [X|(v & mac & n & A & B & C & D)]; [auto|]. right. exists v, mac, n. split; auto. split; auto. split; auto.
      unfold rel in *. rewrite Fo, Cn. rewrite (delete_default_ext l l' v Ex Co). exact D.
    - constructor; [auto|]. intros f Hf T.
      assert (Hs : In f (sw_flows s)) by (eapply (quiet_keeps cfg sh ub _ out s Hsh R (minor_quiet hs Mi)); eauto).
      rewrite Cn. auto.
    - destruct Mv as [(U1 & U2 & U3) Fo (del & refresh & Eh & P1 & P2 & P3)].
      constructor; [auto|]. intros f Hf T. rewrite Eh in Ms.
      destruct (learn_clean cfg V n v mac del refresh (learn_host_timeouts (learn_cfg cfg) n mac)) as [CB Adds].
      rewrite <- Ms in CB, Adds.
      destruct (exact_from sh ub ms out s CB Hsh R Adds f Hf) as [(w & Hw & Cw & ->)|[Hs Nd]].
      + rewrite Ms in Hw. right. apply learn_msgs in Hw as [[_ Hw]|[(h & i & Hw)|(x & E & Hw)]].
        * exfalso. cbn [host_ofmsgs] in Hw. apply in_app_iff in Hw as [[Hw|[Hw|[]]]|Hw]; [injection Hw as <-; discriminate|injection Hw as <-; discriminate|].
          destruct (has_hairpin cfg); [|destruct Hw]. destruct Hw as [Hw|[]]; injection Hw as <-; discriminate.
        * exfalso. destruct Hw as [Hw|[]]. injection Hw as <-. destruct (not_out cfg V) as (_ & X & _). apply X. exact T.
        * injection E as <-. exists v, mac, n. apply dst_write_flow in Hw as [Hw _]. split; auto. split; auto. split; auto.
          unfold rel. rewrite Fo, !Z.eqb_refl. apply together_refl.
      + destruct (IF f Hs T) as [X|(v0 & mac0 & n0 & A & B & C & D)]; [auto|]. right. exists v0, mac0, n0.
        split; auto. split; auto. split; auto. unfold rel in *. rewrite Fo, Cn.
        destruct (Z.eqb_spec v0 v) as [->|N]; [destruct (Z.eqb_spec mac0 mac) as [->|N]|]; cbn [andb];
          try (rewrite (delete_default_ext l l' _ U2 U3); exact D).
        cbn [e_port]. destruct del.
        * exfalso. destruct (del_host_hits cfg v mac n0 f A) as (m & M1 & M2 & M3). rewrite Nd in M3; [discriminate| |auto].
          rewrite Ms. unfold learn_flows. destruct (learn_host_timeouts _ _ _) as [[a b] c]. cbn [app flat_map]. apply in_app_iff; auto.
        * specialize (P1 eq_refl). destruct (found l v mac) as [x|] eqn:Ef.
          -- eapply together_trans; eauto. apply together_sym; auto.
          -- exfalso. rewrite (D On) in P1. discriminate.
    - assert (Q2 : Forall quiet (m1 ++ flat_map (host_ofmsgs cfg) hs)).
      { apply Forall_app; split; [eapply calm_quiet; eauto|eapply forgets_quiet; eauto]. }
      constructor; [auto|]. intros f Hf T.
      assert (Hs : In f (sw_flows s)) by (eapply (quiet_keeps cfg sh ub _ out s Hsh R Q2); eauto).
      destruct (IF f Hs T) as [X|(v & mac & n & A & B & C & D)]; [auto|]. right. exists v, mac, n. split; auto. split; auto. split; auto.
      unfold rel in *. rewrite Cn. destruct (found l' v mac) as [e|] eqn:E.
      + rewrite (F1 _ _ _ E) in D. exact D.
      + intros On. unfold delete_default. rewrite Co. destruct (s_cold l) as [t|] eqn:Ec; auto.
        assert (Lt : t <= ev_time ev). { destruct (IC t eq_refl) as [ups Hi]. apply (Ord _ Hi). }
        destruct (t =? 0) eqn:T0; auto.
        assert (New : s_expired l' v = Some (ev_time ev) -> match s_expired l' v with Some x => negb (x <? t) | None => false end = true).
        { intros ->. apply negb_true_iff, Z.ltb_ge. exact Lt. }
        destruct (found l v mac) as [e|] eqn:El.
        * apply New, (F2 v mac); [congruence|auto].
        * destruct (Ex v) as [Y|Y]; [|auto]. rewrite Y. specialize (D On). unfold delete_default in D. rewrite Ec, T0 in D. exact D.
  Qed.

  Lemma in_order_tail : forall R ev evs, in_order R (ev :: evs) -> in_order R evs.
  Proof. intros R ev evs [_ H]. exact H. Qed.

  Lemma host_reach : forall (F : packet -> Prop) evs w, (forall pk, F pk -> ~ foreign_control cfg pk) -> reach cfg F evs w ->
    in_order Z.le evs -> hostinv evs (ds_learn (w_ctl w)) (w_sw w).
  Proof.
    intros F evs w HF H. induction H as [now ups sh ub out s0 Hsh R|evs w now ups sh ub out s0 H IH Hsh R
      |evs w ev st ms sh ub out H IH Sent St Hsh R|evs w live pk es H IH Hk Fk Wk|evs w f l1 l2 H IH E Tm]; intros Ord; cbn [w_ctl w_sw] in *.
    - destruct (datapath_connect cfg dstate_init now ups) as [st' ms] eqn:D.
      destruct (connect_flows _ _ _ _ _ _ _ _ s0 Hsh D R) as (A & _ & C & _).
      constructor; [|auto]. intros t X. cbn [fst] in *. rewrite A in X. injection X as <-. exists ups. left; auto.
    - destruct (datapath_connect cfg (w_ctl w) now ups) as [st' ms] eqn:D.
      destruct (connect_flows _ _ _ _ _ _ _ _ s0 Hsh D R) as (A & _ & C & _).
      constructor; [|auto]. intros t X. cbn [fst] in *. rewrite A in X. injection X as <-. exists ups. left; auto.
    - specialize (IH (in_order_tail _ _ _ Ord)).
      assert (Gen : match ev with CConnect _ _ | CDisconnect _ => False | _ => True end -> hostinv (ev :: evs) (ds_learn st) (apply_msgs out (w_sw w))).
      { intros Ne. eapply change_inv; eauto; [destruct ev; try contradiction; reflexivity|].
        rewrite <- (wi_run _ _ _ _ (reach_inv cfg V F evs w H)). apply event_change; auto.
        intros now n vid mac ->. destruct Sent as [q [pcp [r [Hq [<- [Ht _]]]]]].
        apply (proj2 (iso_inv cfg V F evs w HF H) q Hq vid pcp r Ht). }
      destruct ev as [now ups|now|now n r d b|now n vid mac|now n sync|now]; try (apply Gen; exact I); [destruct Sent|].
      cbn [cstep] in St. destruct (datapath_disconnect cfg (w_ctl w) now) as [st1|] eqn:D; [|discriminate]. injection St as -> <-.
      destruct (disconnect_found _ _ _ D) as [A B]. destruct IH as [IC IF]. constructor.
      + intros t X. rewrite A in X. apply IC in X as [ups X]. exists ups. right; auto.
      + intros f Hf T. assert (Hs : In f (sw_flows (w_sw w))) by (eapply (quiet_keeps cfg sh ub [] out _ Hsh R); eauto).
        destruct (IF f Hs T) as [X|(v & mac & n & X1 & X2 & X3 & X4)]; auto. right. exists v, mac, n. split; auto. split; auto. split; auto.
        unfold rel in *. destruct (found (ds_learn st) v mac) as [e|] eqn:E; [|discriminate]. rewrite (B _ _ _ E) in X4. exact X4.
    - auto.
    - specialize (IH Ord). destruct IH as [IC IF]. constructor; auto. intros g Hg. apply IF. cbn [sw_flows] in Hg. rewrite E.
      apply in_app_iff in Hg. apply in_app_iff. simpl. tauto.
  Qed.
End HostInv.
