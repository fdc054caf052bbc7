(** * The invariant of every history: port state, VLAN-table rules and reports agree *)
From Coq Require Import ZArith List Bool Lia Permutation.
From Verif Require Import PyBase PyBaseProofs OpenFlow TrimModel TrimProofs TableModel ReorderModel ReorderSpec ReorderProofs BatchProofs SlotProofs FloodModel FloodSpec FloodProofs FloodRulesModel FloodRulesProofs HostCacheModel LearnModel L2Model L2Spec L2PortSpec L2Proofs L2PortProofs.
Import ListNotations.
Open Scope Z_scope.

Section Inv.
  Variable cfg : dconf.
  Hypothesis V : valid_cfg cfg.
  Local Notation tv := (tb_id (d_tvlan cfg)).
  Local Notation tvp := (tvp cfg).

  (** ** A fresh connection *)
  Definition add_loc (p : pconf) (st st' : dstate) (L : list ofmsg) : Prop :=
    ds_phys st' (pc_num p) = true /\
    (if pc_enabled p then
       if pc_lacp p =? 0 then L = managers_add_port cfg p
       else ds_actor st' (pc_num p) = AInit /\ L = managers_add_port cfg p ++ [disable_forwarding cfg p]
     else ds_actor st' (pc_num p) = ds_actor st (pc_num p) /\ ds_role st' (pc_num p) = ds_role st (pc_num p) /\ L = []).

  Lemma ports_add_tv : forall ps st st' ms, (forall p, In p ps -> In p (d_ports cfg)) ->
    NoDup (map pc_num ps) -> ports_add_each cfg true st ps = (st', ms) ->
    ds_running st' = ds_running st /\ ds_learn st' = ds_learn st /\ regular cfg ms /\
    (forall n, ~ In n (map pc_num ps) -> same_at n st st' /\ tvp n ms = []) /\
    (forall p, In p ps -> add_loc p st st' (tvp (pc_num p) ms)).
  Proof.
    induction ps as [|q ps IH]; intros st st' ms Hps ND H; cbn [ports_add_each] in H.
    { injection H as <- <-. split; [auto|]. split; [auto|]. split; [apply regular_nil|].
      split; [intros n _; split; [apply same_refl|reflexivity]|intros p []]. }
    destruct (port_add_one cfg true st q) as [st1 ms1] eqn:U.
    destruct (ports_add_each cfg true st1 ps) as [st2 ms2] eqn:E. injection H as <- <-.
    assert (Hq := Hps q (or_introl eq_refl)). apply port_add_tv in U; auto.
    destruct U as (U1 & U2 & U3 & U4 & U5 & U6). cbn [map] in ND. inversion ND as [|x l N1 N2]; subst x l.
    apply IH in E; [|intros; apply Hps; right; auto|auto]. destruct E as (E1 & E2 & E3 & E4 & E5).
    split; [congruence|]. split; [congruence|]. split; [apply regular_app; auto|]. split.
    - intros n Hn. cbn [map] in Hn. destruct (U3 n) as [X1 X2]; [intros ->; apply Hn; left; auto|].
      destruct (E4 n) as [Y1 Y2]; [intros X; apply Hn; right; auto|].
      split; [eapply same_trans; eauto|]. rewrite tvp_app, X2, Y2. reflexivity.
    - intros p [<-|Hp].
      + destruct (E4 (pc_num q) N1) as [(Y1 & Y2 & Y3) Y4]. rewrite tvp_app, Y4, app_nil_r.
        split; [congruence|]. rewrite Y2, Y3. destruct (pc_enabled q); [|destruct U6 as (B1 & B2 & ->); auto].
        destruct (pc_lacp q =? 0); [tauto|]. destruct U6 as (B1 & _ & [[B2 _]|B2]); [discriminate B2|auto].
      + assert (N : pc_num p <> pc_num q) by (intros X; apply N1; rewrite <- X; apply in_map; auto).
        destruct (U3 (pc_num p) N) as [(X1 & X2 & X3) X4]. rewrite tvp_app, X4. cbn [app].
        destruct (E5 p Hp) as [A B]. split; [exact A|]. rewrite <- X2, <- X3. exact B.
  Qed.

  Lemma cold_status_same : forall ups now st m, ds_running (cold_status cfg ups now st) = ds_running st /\
    same_at m st (cold_status cfg ups now st).
  Proof.
    intros ups now st m. unfold cold_status. generalize (filter configured (d_ports cfg)) as l. intros l. revert st.
    induction l as [|p l IH]; intros st; cbn [fold_left]; [split; [auto|apply same_refl]|].
    destruct (set_status_same cfg st (pc_num p) (discovered cfg ups p) now) as (A & B & C & D).
    destruct (IH (set_port_status cfg st (pc_num p) (discovered cfg ups p) now)) as [E F]. split; [congruence|].
    eapply same_trans; [|exact F]. unfold same_at. rewrite A, B, C. auto.
  Qed.

  Definition discovers (ups : list Z) (p : pconf) : bool := discovered cfg ups p && configured p.

  Lemma connect_local : forall st now ups st' ms, datapath_connect cfg st now ups = (st', ms) ->
    ds_running st' = true /\ Forall (tv_w cfg) ms /\ (exists d, In (FlowMod d) ms /\ wipes d) /\
    forall p, In p (d_ports cfg) ->
      (discovers ups p = true /\ add_loc p st st' (tvp (pc_num p) ms)) \/
      (discovers ups p = false /\ same_at (pc_num p) st st' /\ tvp (pc_num p) ms = []).
  Proof.
    intros st now ups st' ms H. assert (W := proj1 (proj2 (connect_good cfg V _ _ _ _ _ H))).
    unfold datapath_connect in H. cbv zeta in H. unfold ports_add in H.
    destruct (ports_add_each cfg true _ _) as [s2 m2] eqn:E. rewrite app_nil_r in H.
    apply ports_add_tv in E.
    - destruct E as (E1 & E2 & E3 & E4 & E5).
      assert (Hm : ms = delete_all_msgs cfg ++ default_msgs cfg ++ init_msgs cfg ++ [ConfigMsg 0] ++ m2
                      ++ add_vlans cfg s2 true (map vc_vid (d_vlans cfg))) by congruence.
      assert (Hs : ds_running st' = true /\ forall m, same_at m s2 st') by (injection H as <- _; split; [reflexivity|intros m; split; auto]).
      clear H. destruct Hs as [Hr Hs]. split; [exact Hr|].
      destruct (tables_other cfg V) as ([T1 T2] & [T3 T4] & [T5 T6] & [T7 T8] & T9).
      assert (Q : Forall (other cfg) (init_msgs cfg ++ [ConfigMsg 0])).
      { apply Forall_app; split; [|repeat constructor]. unfold init_msgs. apply Forall_app; split; [|apply Forall_app; split].
        - destruct (d_drop_bcast cfg); repeat constructor; simpl; auto; discriminate.
        - repeat constructor; simpl; auto; discriminate.
        - unfold initialise_msgs. apply Forall_map, Forall_forall. intros c _. simpl. repeat split; auto; discriminate. }
      destruct (other_quiet cfg _ Q) as (Q1 & _ & Q3 & _).
      destruct (other_quiet cfg _ (add_vlans_other cfg V s2 true (map vc_vid (d_vlans cfg)))) as (V1 & _ & V3 & _).
      assert (D1 : Forall (tv_w cfg) (delete_all_msgs cfg ++ default_msgs cfg)).
      { apply Forall_forall. intros m Hi. apply in_app_iff in Hi as [Hi|Hi].
        - unfold delete_all_msgs in Hi. destruct Hi as [<-|Hi]; [split; [discriminate|discriminate]|].
          destruct (d_mode cfg); [destruct Hi|destruct Hi|]. destruct Hi as [<-|[]]. exact I.
        - unfold default_msgs in Hi. cbv zeta in Hi. cbn [app] in Hi. destruct Hi as [<-|Hi].
          + split; [discriminate|]. intros _ _. split; [reflexivity|]. apply VR_default.
          + assert (X : other cfg m).
            { destruct Hi as [<-|Hi]; [simpl; repeat split; auto; discriminate|].
              apply in_app_iff in Hi as [Hi|Hi].
              - destruct (has_hairpin cfg); [|destruct Hi]. destruct Hi as [<-|[]]. simpl; repeat split; auto; discriminate.
              - destruct Hi as [<-|[<-|[]]]; simpl; repeat split; auto; discriminate. }
            destruct m as [w| | | | | | |]; simpl in *; auto. tauto. }
      assert (D2 : forall n, tvp n (delete_all_msgs cfg ++ default_msgs cfg) = []).
      { intros n. unfold L2PortProofs.tvp.
        assert (X : forall l, (forall m, In m l -> about cfg n m = false) -> filter (about cfg n) l = []).
        { induction l as [|m l IH]; intros X; cbn [filter]; auto. rewrite (X m (or_introl eq_refl)).
          apply IH. intros; apply X; right; auto. }
        apply X. intros m Hi. destruct (about cfg n m) eqn:Ab; auto. exfalso.
        destruct m as [w| | | | | | |]; try discriminate Ab. apply about_spec in Ab as [At [r Am]].
        apply in_app_iff in Hi as [Hi|Hi].
        - unfold delete_all_msgs in Hi. destruct Hi as [Hi|Hi]; [injection Hi as <-; discriminate Am|].
          destruct (d_mode cfg); [destruct Hi|destruct Hi|]. destruct Hi as [Hi|[]]; discriminate Hi.
        - unfold default_msgs in Hi. cbv zeta in Hi. cbn [app] in Hi. 
          destruct Hi as [Hi|[Hi|Hi]]; [injection Hi as <-; discriminate Am|injection Hi as <-; discriminate Am|].
          apply in_app_iff in Hi as [Hi|[Hi|[Hi|[]]]]; [|injection Hi as <-; discriminate Am|injection Hi as <-; discriminate Am].
          destruct (has_hairpin cfg); [|destruct Hi]. destruct Hi as [Hi|[]]. injection Hi as <-; discriminate Am. }
      assert (Sp : ms = (delete_all_msgs cfg ++ default_msgs cfg) ++ (init_msgs cfg ++ [ConfigMsg 0]) ++ m2
                      ++ add_vlans cfg s2 true (map vc_vid (d_vlans cfg))) by (rewrite Hm, <- !app_assoc; reflexivity).
      assert (Tp : forall n, tvp n ms = tvp n m2).
      { intros n. rewrite Sp. rewrite !tvp_app. rewrite <- (tvp_app cfg n (delete_all_msgs cfg)), D2.
        rewrite <- (tvp_app cfg n (init_msgs cfg)), Q3, V3, app_nil_r. reflexivity. }
      split; [|split; [exact W|]].
      + rewrite Sp. apply Forall_app; split; [exact D1|]. apply Forall_app; split; [exact Q1|].
        apply Forall_app; split; [apply E3|exact V1].
      + intros p Hp. rewrite Tp. destruct (discovers ups p) eqn:Dv.
        * left. split; auto. apply andb_true_iff in Dv as [Dv Cf].
          destruct (E5 p) as [A B]; [apply filter_In; split; auto; apply filter_In; auto|].
          destruct (Hs (pc_num p)) as (S1 & S2 & S3). destruct (cold_status_same ups now st (pc_num p)) as [_ (S4 & S5 & S6)].
          split; [congruence|]. rewrite S2, S3, <- S5, <- S6. exact B.
        * right. split; auto. destruct (E4 (pc_num p)) as [A B].
          { intros X. apply in_map_iff in X as [q [Eq Hq]]. apply filter_In in Hq as [Hq D]. apply filter_In in Hq as [Hq Cq].
            assert (q = p) by (eapply nums_inj; eauto). subst q. unfold discovers in Dv. rewrite D, Cq in Dv. discriminate. }
          split; auto. eapply same_trans; [apply cold_status_same|]. eapply same_trans; [exact A|apply Hs].
    - intros p Hp. apply filter_In in Hp as [Hp _]. apply filter_In in Hp as [Hp _]. auto.
    - apply nodup_nums_filter, nodup_nums_filter, (vc_nums cfg V).
  Qed.

  Section Fresh.
    Variables (sh : list ofmsg -> list ofmsg) (ub : bool) (ms out : list ofmsg) (s : switch).
    Hypothesis Hsh : forall l, Permutation (sh l) l.
    Hypothesis R : valve_flowreorder sh ub ms = Some out.
    Hypothesis HW : Forall (tv_w cfg) ms.
    Hypothesis Wp : exists d, In (FlowMod d) ms /\ wipes d.
    Local Notation s' := (apply_msgs out s).

    Lemma fresh_origin : forall f, In f (sw_flows s') -> f_table f = tv ->
      exists w, In (FlowMod w) ms /\ is_flow_write (FlowMod w) = true /\ flow_of w = f /\ fm_cmd w = FAdd /\ vrule cfg f.
    Proof.
      destruct Wp as [d [Hd Wd]]. destruct (wipe_split _ _ _ _ s _ R Hd Wd) as [post [s1 [E1 [E2 [_ E3]]]]].
      rewrite E2. assert (X := HW). rewrite Forall_forall in X.
      assert (S : forall w, In (FlowMod w) post -> In (FlowMod w) ms).
      { intros w Hw. apply E3 in Hw. destruct (reorder_invents_nothing_lemma sh ub ms out (FlowMod w) Hsh R Hw) as [E|E]; auto. discriminate. }
      refine (apply_msgs_inv (fun f => f_table f = tv -> exists w, In (FlowMod w) ms /\ is_flow_write (FlowMod w) = true /\ flow_of w = f /\
                fm_cmd w = FAdd /\ vrule cfg f) post s1 _ _ _ _).
      - intros w Hw C T. exists w. destruct (X _ (S _ Hw)) as [_ Y].
        assert (Ww : is_flow_write (FlowMod w) = true) by (simpl; rewrite C; reflexivity).
        destruct (Y Ww T). auto.
      - intros w f Hw C Sl _ T. exfalso. destruct (X _ (S _ Hw)) as [_ Y]. apply wslot_spec in Sl as [E _]. simpl in T.
        destruct Y as [Y _]; [simpl; rewrite C; reflexivity|congruence|congruence].
      - intros w Hw. destruct (X _ (S _ Hw)) as [Y _]. exact Y.
      - rewrite E1. intros f [].
    Qed.
    Lemma fresh_rules : tv_rules cfg s'.
    Proof. intros f Hf T. destruct (fresh_origin f Hf T) as [w [_ [_ [_ [_ X]]]]]. exact X. Qed.
    Lemma fresh_port : forall n f r, In f (sw_flows s') -> f_table f = tv -> f_match f = exact InPort n :: r ->
      exists w, In (FlowMod w) (tvp n ms) /\ flow_of w = f.
    Proof.
      intros n f r Hf T M. destruct (fresh_origin f Hf T) as [w [Hw [_ [<- _]]]]. exists w. split; auto.
      apply filter_In. split; auto. apply about_spec. split; [exact T|]. exists r. exact M.
    Qed.
    Lemma fresh_written : forall n w, In (FlowMod w) (tvp n ms) -> is_flow_write (FlowMod w) = true -> In (flow_of w) (sw_flows s').
    Proof.
      intros n w Hw Ww. apply filter_In in Hw as [Hw Ab]. apply about_spec in Ab as [T _].
      apply (batch_w cfg V sh ub ms out s Hsh R HW); auto.
    Qed.
  End Fresh.

  (** ** Disconnection *)
  Lemma ports_delete_state : forall keep now ps st st' ms, (forall p, In p ps -> In p (d_ports cfg)) ->
    NoDup (map pc_num ps) -> ports_delete_each cfg keep now st ps = Some (st', ms) ->
    ds_running st' = ds_running st /\
    (forall n, ~ In n (map pc_num ps) -> same_at n st st') /\
    (forall p, In p ps -> ds_phys st' (pc_num p) = false /\ (pc_lacp p <> 0 -> ds_actor st' (pc_num p) = ANone)).
  Proof.
    intros keep now. induction ps as [|q ps IH]; intros st st' ms Hps ND H; cbn [ports_delete_each] in H.
    { injection H as <- <-. split; [auto|]. split; [intros n _; apply same_refl|intros p []]. }
    destruct (port_delete_one cfg keep now st q) as [[st1 ms1]|] eqn:U; [|discriminate].
    destruct (ports_delete_each cfg keep now st1 ps) as [[st2 ms2]|] eqn:E; [|discriminate]. injection H as <- <-.
    assert (Hq := Hps q (or_introl eq_refl)). apply port_delete_tv in U; auto.
    destruct U as (U1 & U2 & U3 & U4 & U5). cbn [map] in ND. inversion ND as [|x l N1 N2]; subst x l.
    apply IH in E; [|intros; apply Hps; right; auto|auto]. destruct E as (E1 & E2 & E3).
    split; [congruence|]. split.
    - intros n Hn. cbn [map] in Hn. eapply same_trans; [apply U2; intros ->; apply Hn; left; auto|].
      apply E2. intros X; apply Hn; right; auto.
    - intros p [<-|Hp]; [|auto]. destruct (E2 _ N1) as (Y1 & Y2 & Y3). split; [congruence|].
      intros L. rewrite Y2. destruct (Z.eqb_spec (pc_lacp q) 0); [contradiction|tauto].
  Qed.

  (** ** The invariant *)
  Definition lnk (evs : list cevent) (st : dstate) (s : switch) (p : pconf) : Prop :=
    pc_opstatus p = true -> plain_reports evs (pc_num p) ->
    (last_word evs (pc_num p) = WDown ->
      (clean evs -> ds_phys st (pc_num p) = false) /\
      (pc_lacp p = 0 -> forall f, port_flow cfg p f -> ~ In f (sw_flows s))) /\
    (last_word evs (pc_num p) = WUp -> configured p = true -> ds_phys st (pc_num p) = true).

  Record winv (evs : list cevent) (st : dstate) (s : switch) : Prop := {
    wi_run : ds_running st = connected evs;
    wi_actor : forall p, In p (d_ports cfg) -> actor_ok st p;
    wi_off : connected evs = false -> forall p, In p (d_ports cfg) -> ds_phys st (pc_num p) = false;
    wi_rules : connected evs = true -> tv_rules cfg s;
    wi_pinv : connected evs = true -> forall p, In p (d_ports cfg) -> pinv cfg st s p;
    wi_complete : connected evs = true -> clean evs -> forall p, In p (d_ports cfg) -> complete cfg st s p;
    wi_lnk : connected evs = true -> forall p, In p (d_ports cfg) -> lnk evs st s p
  }.

  Lemma pinv_ext : forall st st' s p, (pc_lacp p = 0 -> port_running st' p = port_running st p) ->
    (pc_lacp p <> 0 -> fwd st' (pc_num p) = fwd st (pc_num p)) -> pinv cfg st s p -> pinv cfg st' s p.
  Proof.
    intros st st' s p Er Ef [P1 P2 P3]. constructor.
    - intros L f Hf Hi. rewrite Er by auto. eauto.
    - intros L F f Hf Hi. rewrite Ef in F by auto. eauto.
    - intros L F. rewrite Ef in F by auto. auto.
  Qed.

  Section Loc.
    Variables (sh : list ofmsg -> list ofmsg) (ub : bool) (ms out : list ofmsg) (s : switch) (st st' : dstate) (p : pconf) (ev : cevent).
    Hypothesis Hsh : forall l, Permutation (sh l) l.
    Hypothesis R : valve_flowreorder sh ub ms = Some out.
    Hypothesis HR : regular cfg ms.
    Hypothesis A : tv_rules cfg s.
    Hypothesis Hp : In p (d_ports cfg).
    Hypothesis L : loc cfg p ev st st' ms.
    Local Notation n := (pc_num p).
    Local Notation s' := (apply_msgs out s).

    Lemma loc_actor : actor_ok st p -> actor_ok st' p.
    Proof.
      intros AO Lp. specialize (AO Lp).
      destruct L as [S _ _|_ _ Ph [[up [pkt Na]] _]|now r d b _ _ _ _ _ Ph X|now r d b _ _ _ _ Ph X].
      - destruct S as (S1 & S2 & S3). rewrite S2. unfold port_running. rewrite S1. exact AO.
      - rewrite Na. unfold port_running in *. rewrite Ph. unfold next_actor, port_running.
        destruct (pc_enabled p && ds_phys st n); [auto|]. cbn. intros; congruence.
      - unfold port_running. rewrite Ph, andb_true_r. destruct (pc_enabled p) eqn:En; [auto|]. destruct X as (X1 & X2 & _).
        rewrite X1. intros N1 N2. specialize (AO N1 N2). unfold port_running in AO. rewrite En in AO. exact AO.
      - destruct (Z.eqb_spec (pc_lacp p) 0); [contradiction|]. destruct X as [X _]. rewrite X. congruence.
    Qed.

    Lemma loc_pinv : actor_ok st p -> pinv cfg st s p -> pinv cfg st' s' p.
    Proof.
      intros AO P.
      destruct L as [S T _|Lp _ Ph [_ [_ X]]|now r d b _ _ _ _ Ph0 Ph X|now r d b _ _ _ _ Ph X].
      - apply (step_same cfg V sh ub ms out s st st' p); auto.
      - destruct X as [[S T]|[[F T]|[F T]]].
        + apply (step_same cfg V sh ub ms out s st st' p); auto.
        + apply (step_open cfg V sh ub ms out s st st' p); auto.
        + apply (step_block cfg V sh ub ms out s st' p); auto. rewrite T. left; auto.
      - destruct (pc_enabled p) eqn:En.
        + destruct (Z.eqb_spec (pc_lacp p) 0) as [Lp|Lp].
          * eapply (step_add_plain cfg V sh ub ms out s st st' p); auto. rewrite En. auto.
          * destruct X as [X1 X2]. apply (step_block cfg V sh ub ms out s st' p); auto.
            -- unfold fwd. rewrite X1. apply andb_false_r.
            -- destruct X2 as [[X2 X3]|X3].
               ++ exfalso. specialize (AO Lp). rewrite X2 in AO. unfold port_running in AO. rewrite Ph0, andb_false_r in AO.
                  enough (false = true) by discriminate. apply AO; discriminate.
               ++ rewrite X3. apply in_app_iff. right; left; auto.
        + destruct X as (X1 & X2 & X3). apply (pinv_ext st).
          * intros _. unfold port_running. rewrite En. reflexivity.
          * intros _. unfold fwd. rewrite X1, X2. reflexivity.
          * apply (step_same cfg V sh ub ms out s st st p); auto. apply same_refl.
      - destruct (Z.eqb_spec (pc_lacp p) 0) as [Lp|Lp].
        + apply (step_del_plain cfg V sh ub ms out s st' p); auto.
        + destruct X as [X1 [[X2 [X3 X4]]|X2]].
          * apply (pinv_ext st); [contradiction| |].
            -- intros _. unfold fwd. rewrite X1, X2, X3. reflexivity.
            -- apply (step_same cfg V sh ub ms out s st st p); auto. apply same_refl.
          * apply (step_block cfg V sh ub ms out s st' p); auto.
            -- unfold fwd. rewrite X1. apply andb_false_r.
            -- rewrite X2. left; auto.
    Qed.

    Lemma loc_complete : actor_ok st p -> complete cfg st s p -> complete cfg st' s' p.
    Proof.
      intros AO C.
      destruct L as [S T _|Lp _ Ph [_ [_ X]]|now r d b _ _ _ _ Ph0 Ph X|now r d b _ _ _ _ Ph X].
      - apply (step_same cfg V sh ub ms out s st st' p); auto.
      - destruct X as [[S T]|[[F T]|[F T]]].
        + apply (step_same cfg V sh ub ms out s st st' p); auto.
        + apply (step_open cfg V sh ub ms out s st st' p); auto.
        + eapply (step_block_complete cfg V sh ub ms out s st st' p); eauto.
      - intros Rn f Hf. unfold port_running in Rn. apply andb_true_iff in Rn as [En _]. rewrite En in X.
        assert (Y : exists l, tvp n ms = managers_add_port cfg p ++ l).
        { destruct (pc_lacp p =? 0); [exists []; rewrite app_nil_r; auto|]. destruct X as [_ [[_ X]|X]]; [exists []; rewrite app_nil_r; auto|eauto]. }
        destruct Y as [l Y]. destruct (add_covers cfg p f Hf) as [w [Hw ->]]. destruct (add_writes cfg p w Hw) as [_ Cw].
        apply (written cfg V sh ub ms out s p Hsh R HR (FlowMod w)); [rewrite Y; apply in_app_iff; auto|].
        simpl. rewrite Cw. reflexivity.
      - intros Rn. unfold port_running in Rn. rewrite Ph, andb_false_r in Rn. discriminate.
    Qed.

    Lemma loc_lnk : forall evs, match ev with CConnect _ _ | CDisconnect _ => False | _ => True end ->
      actor_ok st p -> pinv cfg st s p -> lnk evs st s p -> lnk (ev :: evs) st' s' p.
    Proof.
      intros evs Ne AO P K Op Pl. inversion Pl as [|x y Pl1 Pl2]; subst x y. destruct (K Op Pl2) as [K1 K2]. clear K.
      assert (P' := loc_pinv AO P).
      assert (Off : ds_phys st' n = false -> (clean (ev :: evs) -> ds_phys st' n = false) /\ 
                (pc_lacp p = 0 -> forall f, port_flow cfg p f -> ~ In f (sw_flows s'))).
      { intros X. split; auto. intros Lp f Hf Hi. pose proof (pi_plain _ _ _ _ P' Lp f Hf Hi) as Y.
        unfold port_running in Y. rewrite X, andb_false_r in Y. discriminate. }
      assert (Cl : clean (ev :: evs) -> clean evs) by (destruct ev; simpl; tauto).
      assert (Gen : last_word (ev :: evs) n = last_word evs n -> ds_phys st' n = ds_phys st n ->
        (pc_lacp p = 0 -> tvp n ms = []) ->
        (last_word (ev :: evs) n = WDown -> (clean (ev :: evs) -> ds_phys st' n = false) /\
         (pc_lacp p = 0 -> forall f, port_flow cfg p f -> ~ In f (sw_flows s'))) /\
        (last_word (ev :: evs) n = WUp -> configured p = true -> ds_phys st' n = true)).
      { intros E1 E2 E3. rewrite E1, E2. split; [|exact K2]. intros W. destruct (K1 W) as [A1 A2]. split; [auto|].
        intros Lp f Hf Hi. apply (A2 Lp f Hf). destruct (port_flow_form cfg p f Hf) as [T [r M]].
        apply (quiet_flows cfg V sh ub ms out s p Hsh R HR A (E3 Lp) f r T M); auto. }
      destruct L as [S T X|Lp E Ph _|now r d b Ev Op' Ro St Ph0 Ph X|now r d b Ev Op' Ro St Ph X].
      - destruct S as (S1 & _). destruct ev as [now ups|now|now m r d b|now m vid mac|now m sync|now]; try contradiction;
          try (apply Gen; auto; fail).
        destruct (Z.eq_dec m n) as [->|N].
        + destruct (X now r d b eq_refl) as [->|[Y|Y]]; [apply Gen; auto|congruence|].
          simpl in Pl1. destruct r; cbn [last_word status_to] in *; rewrite ?Z.eqb_refl.
          * destruct (Pl1 eq_refl) as [-> ->]. cbn [orb]. split; [discriminate|]. congruence.
          * split; [|discriminate]. intros _. apply Off. congruence.
          * destruct d.
            -- cbn [orb]. split; [|discriminate]. intros _. apply Off. rewrite S1, Y. reflexivity.
            -- destruct b; [discriminate (Pl1 eq_refl eq_refl)|]. cbn [orb]. split; [discriminate|]. intros _ _. rewrite S1, Y. reflexivity.
          * apply Gen; auto.
        + apply Gen; auto. destruct r; cbn [last_word]; auto; destruct (Z.eqb_spec m n); congruence.
      - apply Gen; [|exact Ph|contradiction]. destruct ev; try contradiction; reflexivity.
      - subst ev. simpl in Pl1. cbn [last_word]. destruct r; try discriminate St; rewrite ?Z.eqb_refl.
        + destruct (Pl1 eq_refl) as [-> ->]. cbn [orb]. split; [discriminate|auto].
        + destruct d; [discriminate St|]. destruct b; [discriminate (Pl1 eq_refl eq_refl)|]. cbn [orb]. split; [discriminate|auto].
      - subst ev. simpl in Pl1. cbn [last_word]. destruct r; rewrite ?Z.eqb_refl.
        + destruct (Pl1 eq_refl) as [-> ->]. destruct St; discriminate.
        + split; [|discriminate]. auto.
        + destruct d; cbn [orb].
          * split; [auto|discriminate].
          * destruct b; [discriminate (Pl1 eq_refl eq_refl)|]. destruct St; discriminate.
        + contradiction.
    Qed.
  End Loc.

  Lemma connect_inv : forall evs now ups st st' ms sh ub out s0, (forall l, Permutation (sh l) l) ->
    (forall p, In p (d_ports cfg) -> actor_ok st p) ->
    (clean (CConnect now ups :: evs) -> forall p, In p (d_ports cfg) -> ds_phys st (pc_num p) = false) ->
    datapath_connect cfg st now ups = (st', ms) -> valve_flowreorder sh ub ms = Some out ->
    winv (CConnect now ups :: evs) st' (apply_msgs out s0).
  Proof.
    intros evs now ups st st' ms sh ub out s0 Hsh AO Fr H R.
    destruct (connect_local _ _ _ _ _ H) as (Rn & HW & Wp & Loc). clear H.
    pose proof (fresh_port sh ub ms out s0 Hsh R HW Wp) as FP.
    pose proof (fresh_written sh ub ms out s0 Hsh R HW) as FW.
    assert (Quiet : forall p f r, tvp (pc_num p) ms = [] -> f_table f = tv -> f_match f = exact InPort (pc_num p) :: r -> ~ In f (sw_flows (apply_msgs out s0))).
    { intros p f r E T M Hi. destruct (FP _ f r Hi T M) as [w [X _]]. rewrite E in X. destruct X. }
    assert (QP : forall p f, tvp (pc_num p) ms = [] -> port_flow cfg p f -> ~ In f (sw_flows (apply_msgs out s0))).
    { intros p f E Hf. destruct (port_flow_form cfg p f Hf) as [T [r M]]. eapply Quiet; eauto. }
    constructor; auto.
    - intros p Hp. destruct (Loc p Hp) as [[_ [Ph X]]|[_ [(S1 & S2 & S3) _]]].
      + intros Lp. unfold port_running. rewrite Ph, andb_true_r. destruct (pc_enabled p) eqn:En; auto.
        destruct X as (X1 & _). rewrite X1. intros N1 N2. pose proof (AO p Hp Lp N1 N2) as Y. unfold port_running in Y. rewrite En in Y. exact Y.
      + intros Lp. rewrite S2. unfold port_running. rewrite S1. apply (AO p Hp Lp).
    - discriminate.
    - intros _. apply (fresh_rules sh ub ms out s0 Hsh R HW Wp).
    - intros _ p Hp. destruct (Loc p Hp) as [[_ [Ph X]]|[_ [_ E]]].
      + destruct (pc_enabled p) eqn:En.
        * destruct (Z.eqb_spec (pc_lacp p) 0) as [Lp|Lp].
          -- constructor; [|contradiction|contradiction]. intros. unfold port_running. rewrite En, Ph. reflexivity.
          -- destruct X as [X1 X2]. constructor; [contradiction| |].
             ++ intros _ _ f _ _. apply (FW (pc_num p) (tb_drop (d_tvlan cfg) (d_high cfg) [exact InPort (pc_num p)] 0)); [|reflexivity].
                rewrite X2. apply in_app_iff. right; left; reflexivity.
             ++ intros _ F. unfold fwd in F. rewrite X1, andb_false_r in F. discriminate.
        * destruct X as (_ & _ & E). constructor.
          -- intros _ f Hf Hi. destruct (QP p f E Hf Hi).
          -- intros _ _ f Hf Hi. destruct (QP p f E (entry_port cfg p f Hf) Hi).
          -- intros _ _. destruct (block_form cfg p). eapply Quiet; eauto.
      + constructor.
        -- intros _ f Hf Hi. destruct (QP p f E Hf Hi).
        -- intros _ _ f Hf Hi. destruct (QP p f E (entry_port cfg p f Hf) Hi).
        -- intros _ _. destruct (block_form cfg p). eapply Quiet; eauto.
    - intros _ Cl p Hp Ru f Hf. destruct (Loc p Hp) as [[_ [Ph X]]|[_ [(S1 & _) _]]].
      + unfold port_running in Ru. apply andb_true_iff in Ru as [En _]. rewrite En in X.
        assert (Y : exists l, tvp (pc_num p) ms = managers_add_port cfg p ++ l).
        { destruct (pc_lacp p =? 0); [exists []; rewrite app_nil_r; auto|]. destruct X as [_ X]; eauto. }
        destruct Y as [l Y]. destruct (add_covers cfg p f Hf) as [w [Hw ->]]. destruct (add_writes cfg p w Hw) as [_ Cw].
        apply (FW (pc_num p) w); [rewrite Y; apply in_app_iff; auto|]. simpl. rewrite Cw. reflexivity.
      + unfold port_running in Ru. rewrite S1, (Fr Cl p Hp), andb_false_r in Ru. discriminate.
    - intros _ p Hp Op Pl. cbn [last_word]. destruct (memZ (pc_num p) ups) eqn:Mm.
      + split; [discriminate|]. intros _ Cf. destruct (Loc p Hp) as [[_ [Ph _]]|[D _]]; auto.
        unfold discovers, discovered in D. rewrite Mm, Cf in D. discriminate.
      + split; [|discriminate]. intros _. destruct (Loc p Hp) as [[D _]|[_ [(S1 & _) E]]].
        * unfold discovers, discovered in D. rewrite Mm, Op in D. discriminate.
        * split; [intros Cl; rewrite S1; auto|]. intros _ f Hf. apply (QP p); auto.
  Qed.

  Lemma tv_same : forall evs st s s', (forall f, f_table f = tv -> vrule cfg f -> (In f (sw_flows s') <-> In f (sw_flows s))) ->
    (forall f, In f (sw_flows s') -> In f (sw_flows s)) ->
    winv evs st s -> winv evs st s'.
  Proof.
    intros evs st s s' E Sub [W1 W2 W3 W4 W5 W6 W7].
    assert (EP : forall p f, In p (d_ports cfg) -> port_flow cfg p f -> (In f (sw_flows s') <-> In f (sw_flows s))).
    { intros p f Hp Hf. apply E; [apply (port_flow_form cfg p f Hf)|eapply VR_port; eauto]. }
    assert (EB : forall p, In p (d_ports cfg) -> pc_lacp p <> 0 -> (In (block_flow cfg p) (sw_flows s') <-> In (block_flow cfg p) (sw_flows s))).
    { intros p Hp Lp. apply E; [apply block_form|eapply VR_block; eauto]. }
    constructor; auto.
    - intros C f Hf. apply (W4 C). auto.
    - intros C p Hp. destruct (W5 C p Hp) as [P1 P2 P3]. constructor.
      + intros Lp f Hf Hi. apply (P1 Lp f Hf). auto.
      + intros Lp F f Hf Hi. apply EB; auto. apply (P2 Lp F f Hf); auto.
      + intros Lp F Hi. apply (P3 Lp F). auto.
    - intros C Cl p Hp Ru f Hf. apply (EP p); auto. apply (W6 C Cl p Hp Ru f Hf).
    - intros C p Hp Op Pl. destruct (W7 C p Hp Op Pl) as [K1 K2]. split; auto. intros Wd.
      destruct (K1 Wd) as [K3 K4]. split; auto. intros Lp f Hf Hi. apply (K4 Lp f Hf); auto.
  Qed.
  Lemma vrule_permanent : forall f, vrule cfg f -> f_hard f = 0 /\ f_idle f = 0.
  Proof.
    intros f [|p g Hp Hg|p Hp Lp]; [split; reflexivity| |split; reflexivity].
    destruct Hg as [h Hh| | |]; try (split; reflexivity). destruct Hh; split; reflexivity.
  Qed.

  Lemma reach_inv : forall F evs w, reach cfg F evs w -> winv evs (w_ctl w) (w_sw w).
  Proof.
    intros F evs w H. induction H as [now ups sh ub out s0 Hsh R|evs w now ups sh ub out s0 H IH Hsh R
      |evs w ev st ms sh ub out H IH Sent St Hsh R|evs w live pk es H IH Hk HF Wk|evs w f l1 l2 H IH E Tm]; cbn [w_ctl w_sw] in *.
    - destruct (datapath_connect cfg dstate_init now ups) as [st' ms] eqn:D.
      eapply (connect_inv [] now ups dstate_init); eauto; try reflexivity.
      intros p _ _ N. exfalso. apply N. reflexivity.
    - destruct (datapath_connect cfg (w_ctl w) now ups) as [st' ms] eqn:D.
      eapply (connect_inv evs now ups (w_ctl w)); eauto; [apply (wi_actor _ _ _ IH)|].
      intros [C _]. apply (wi_off _ _ _ IH C).
    - assert (Run := wi_run _ _ _ IH). destruct ev as [now ups|now|now n r d b|now n vid mac|now n sync|now]; [destruct Sent| | | | |].
      { cbn [cstep] in St. destruct (datapath_disconnect cfg (w_ctl w) now) as [st1|] eqn:D; [|discriminate]. injection St as -> <-.
        unfold datapath_disconnect, ports_delete in D.
        destruct (ports_delete_each cfg false (Some now) (set_running (w_ctl w) false) (d_ports cfg)) as [[st2 ms2]|] eqn:X; [|discriminate].
        injection D as ->. apply ports_delete_state in X; [|auto|apply (vc_nums cfg V)]. destruct X as (X1 & _ & X3).
        constructor; try discriminate; [exact X1| |].
        - intros p Hp Lp. destruct (X3 p Hp) as [_ X]. rewrite X by auto. congruence.
        - intros _ p Hp. apply X3; auto. }
      all: (destruct (connected evs) eqn:Cn;
        [ pose proof (fun X => event_local cfg V _ _ _ _ Run X St) as EL; destruct (EL I) as (Rn & Rg & Lc); clear EL;
          constructor; cbn [connected]; try (rewrite Cn; discriminate);
          [ congruence
          | intros p Hp; eapply loc_actor; eauto; apply (wi_actor _ _ _ IH p Hp)
          | intros _; eapply batch_vrules; eauto; [apply Rg|apply (wi_rules _ _ _ IH Cn)]
          | intros _ p Hp; eapply loc_pinv; eauto; [apply (wi_rules _ _ _ IH Cn)|apply (wi_actor _ _ _ IH p Hp)|apply (wi_pinv _ _ _ IH Cn p Hp)]
          | intros _ Cl p Hp; eapply loc_complete; eauto; [apply (wi_rules _ _ _ IH Cn)|apply (wi_actor _ _ _ IH p Hp)|apply (wi_complete _ _ _ IH Cn Cl p Hp)]
          | intros _ p Hp; eapply loc_lnk; eauto; [apply (wi_rules _ _ _ IH Cn)|apply (wi_actor _ _ _ IH p Hp)|apply (wi_pinv _ _ _ IH Cn p Hp)|apply (wi_lnk _ _ _ IH Cn p Hp)] ]
        | assert (Es : st = w_ctl w) by
            (cbn [cstep] in St; unfold rcv_vlan_packet, rcv_lacp, state_expire in St; rewrite Run in St; cbn [negb] in St; injection St as <- _; reflexivity);
          subst st; constructor; cbn [connected]; try (rewrite Cn; discriminate);
          [ congruence | apply (wi_actor _ _ _ IH) | intros _; apply (wi_off _ _ _ IH Cn) ] ]).
    - exact IH.
    - refine (tv_same _ _ _ _ _ _ IH); cbn [sw_flows]; rewrite E.
      + intros g _ Hg. rewrite !in_app_iff. cbn [In]. destruct (vrule_permanent g Hg). split; [tauto|].
        intros [X|[X|X]]; [auto| |auto]. subst g. destruct Tm; contradiction.
      + intros g. rewrite !in_app_iff. cbn [In]. tauto.
  Qed.
End Inv.
