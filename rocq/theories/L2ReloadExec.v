(** * Running examples of histories with reloads *)
From Coq Require Import ZArith List Bool Permutation Lia.
From Verif Require Import PyBase OpenFlow ReorderModel TableModel FloodModel FloodSpec FloodRulesModel LearnModel L2Model L2Spec L2Proofs SwitchExec
  L2ReloadModel L2ReloadSpec.
Import ListNotations.
Open Scope Z_scope.

Section Run.
  Variables (G : list Z -> list Z -> dconf -> dconf -> Prop) (late : bool).

  Definition reload_run (xp xv : list Z) (cfg : dconf) (ps : list pconf) (vs : list vconf) (w : world) : option world :=
    if ds_running (w_ctl w) then
      match reload_config xp xv cfg (reconf cfg ps vs) (w_ctl w) with
      | Some (st, Some ms) =>
          match valve_flowreorder (fun l => l) true ms with
          | Some out => Some (mkWorld st (apply_msgs out (w_sw w)) (if late then w_pins w else []))
          | None => None
          end
      | _ => None
      end
    else None.
  Lemma reload_rreach : forall xp xv cfg ps vs w w',
    rreach G late cfg w -> valid_cfg (reconf cfg ps vs) -> G xp xv cfg (reconf cfg ps vs) ->
    reload_run xp xv cfg ps vs w = Some w' -> rreach G late (reconf cfg ps vs) w'.
  Proof.
    intros xp xv cfg ps vs w w' R V HG H. unfold reload_run in H.
    destruct (ds_running (w_ctl w)) eqn:Run; [|discriminate].
    destruct (reload_config _ _ _ _ _) as [[st [ms|]]|] eqn:E; try discriminate.
    destruct (valve_flowreorder _ _ _) as [out|] eqn:O; [|discriminate]. injection H as <-.
    eapply rr_reload with (sh := fun l => l); eauto.
  Qed.

  Lemma script_rreach : forall cfg l w w',
    rreach G late cfg w -> script_run cfg w l = Some w' ->
    (forall p, In p (script_frames l) -> frame_ok p /\ ~ foreign_control cfg p) ->
    rreach G late cfg w'.
  Proof.
    intros cfg l. induction l as [|a l IH]; intros w w' R H HF; cbn [script_run] in H.
    { injection H as <-. exact R. }
    destruct (script_step cfg w a) as [w1|] eqn:S; [|discriminate].
    assert (HF' : forall p, In p (script_frames l) -> frame_ok p /\ ~ foreign_control cfg p).
    { intros p Hp. apply HF. unfold script_frames. cbn [flat_map]. apply in_app_iff; auto. }
    apply (IH w1); auto. clear IH H HF'.
    destruct a as [ev|p].
    - assert (Gen : forall st ms out, sent_by_switch w ev -> cstep cfg (w_ctl w) ev = Some (st, ms) ->
         valve_flowreorder (fun l => l) true ms = Some out ->
         rreach G late cfg (mkWorld st (apply_msgs out (w_sw w)) (w_pins w))).
      { intros st ms out A B C. eapply rr_event with (sh := fun l => l); eauto. }
      destruct ev as [now ups|now|now n r d b|now n vid mac|now n sync|now]; cbn [script_step] in S.
      + destruct (datapath_connect cfg (w_ctl w) now ups) as [st ms] eqn:D.
        destruct (valve_flowreorder _ true ms) as [out|] eqn:O; [|discriminate]. injection S as <-.
        pose proof (rr_connect G late cfg w now ups (fun l => l) true out empty_switch R (fun l => Permutation_refl l)) as X.
        rewrite D in X. apply X. exact O.
      + destruct (cstep cfg (w_ctl w) _) as [[st ms]|] eqn:D; [|discriminate].
        destruct (valve_flowreorder _ true ms) as [out|] eqn:O; [|discriminate]. injection S as <-. eapply Gen; eauto; exact I.
      + destruct (cstep cfg (w_ctl w) _) as [[st ms]|] eqn:D; [|discriminate].
        destruct (valve_flowreorder _ true ms) as [out|] eqn:O; [|discriminate]. injection S as <-. eapply Gen; eauto; exact I.
      + destruct (existsb _ _) eqn:X; [|discriminate].
        destruct (cstep cfg (w_ctl w) _) as [[st ms]|] eqn:D; [|discriminate].
        destruct (valve_flowreorder _ true ms) as [out|] eqn:O; [|discriminate]. injection S as <-. eapply Gen; eauto.
        apply existsb_exists in X as [q [Hq X]]. apply andb_true_iff in X as [X X3]. apply andb_true_iff in X as [X1 X2].
        apply Z.eqb_eq in X1. destruct (pk_tags q) as [|[v pcp] r] eqn:T; [discriminate|]. apply Z.eqb_eq in X2.
        destruct (pk_hdr q EthSrc) as [m|] eqn:M; [|discriminate]. apply Z.eqb_eq in X3.
        exists q, pcp, r. repeat split; congruence.
      + destruct (cstep cfg (w_ctl w) _) as [[st ms]|] eqn:D; [|discriminate].
        destruct (valve_flowreorder _ true ms) as [out|] eqn:O; [|discriminate]. injection S as <-. eapply Gen; eauto; exact I.
      + destruct (cstep cfg (w_ctl w) _) as [[st ms]|] eqn:D; [|discriminate].
        destruct (valve_flowreorder _ true ms) as [out|] eqn:O; [|discriminate]. injection S as <-. eapply Gen; eauto; exact I.
    - cbn [script_step] in S. destruct (walk_run _ _ _ _ p) as [es|] eqn:W; [|discriminate]. injection S as <-.
      destruct (HF p) as [A B]; [left; auto|]. apply walk_run_sound in W. eapply rr_frame; eauto.
  Qed.
  Lemma start_rreach : forall cfg now ups l w', valid_cfg cfg ->
    script_run cfg world0 (SEv (CConnect now ups) :: l) = Some w' ->
    (forall p, In p (script_frames l) -> frame_ok p /\ ~ foreign_control cfg p) ->
    rreach G late cfg w'.
  Proof.
    intros cfg now ups l w' V H HF. cbn [script_run] in H.
    destruct (script_step cfg world0 _) as [w1|] eqn:S; [|discriminate]. cbn [script_step] in S.
    destruct (datapath_connect cfg (w_ctl world0) now ups) as [st ms] eqn:D.
    destruct (valve_flowreorder _ true ms) as [out|] eqn:O; [|discriminate]. injection S as <-.
    eapply script_rreach; [|exact H|exact HF].
    pose proof (rr_start G late cfg dstate_init now ups (fun l => l) true out empty_switch V (fun l => Permutation_refl l)) as X.
    simpl in D. rewrite D in X. apply X. exact O.
  Qed.
End Run.

(** A check that shows an emission is not allowed (headers are not compared). *)
Definition belongsb (cfg : dconf) (pk : packet) (v : Z) : bool :=
  existsb (fun p => (pc_num p =? pk_in pk) &&
    match pk_tags pk with
    | [] => match pc_native p with Some n => n =? v | None => false end
    | (vid, _) :: _ => (vid =? v) && memZ v (pc_tagged p)
    end) (d_ports cfg).
Definition deliveredb (cfg : dconf) (pk : packet) (v : Z) (e : emission) : bool :=
  existsb (fun p => (pc_num p =? fst e) &&
    ((memZ v (pc_tagged p) && match pk_tags (snd e) with (w, _) :: _ => w =? v | [] => false end)
     || match pc_native p with Some n => (n =? v) && (length (pk_tags (snd e)) =? length (payload_tags pk))%nat | None => false end)) (d_ports cfg).
Definition may_leaveb (cfg : dconf) (pk : packet) (e : emission) : bool :=
  existsb (fun v => belongsb cfg pk v && deliveredb cfg pk v e) (flat_map port_vlans (d_ports cfg))
  || existsb (fun p => memZ (fst e) (pc_mirror p) &&
       ((pc_num p =? pk_in pk) || existsb (fun v => belongsb cfg pk v) (port_vlans p))) (d_ports cfg)
  || (fst e =? OFPP_CONTROLLER).

Lemma belongsb_ok : forall cfg pk v, belongs cfg pk v -> belongsb cfg pk v = true.
Proof.
  intros cfg pk v H. apply existsb_exists. unfold belongs in H. destruct (pk_tags pk) as [|[vid pcp] r] eqn:T.
  - destruct H as [p [Hp [E M]]]. exists p. split; auto. rewrite M, E, !Z.eqb_refl. reflexivity.
  - destruct H as [-> [p [Hp [E M]]]]. exists p. split; auto. rewrite E, !Z.eqb_refl. simpl. apply memZ_in. exact M.
Qed.
Lemma may_leaveb_ok : forall cfg pk e, may_leave cfg pk e -> may_leaveb cfg pk e = true.
Proof.
  intros cfg pk e H. unfold may_leaveb. rewrite !orb_true_iff. destruct H as [[v [B D]]|[[[p [Hp [Hm X]]] _]|C]].
  - left; left. apply existsb_exists. exists v. split.
    + destruct D as [_ [[[p [Hp [_ M]]] _]|[[p [Hp [_ M]]] _]]]; apply in_flat_map; exists p; split; auto;
      unfold port_vlans; [|rewrite M]; apply in_or_app; simpl; auto.
    + apply andb_true_iff. split; [apply belongsb_ok; auto|]. apply existsb_exists.
      destruct D as [_ [[[p [Hp [E M]]] [pcp T]]|[[p [Hp [E M]]] T]]]; exists p; (split; [exact Hp|]).
      * rewrite E, T, !Z.eqb_refl. simpl. apply memZ_in in M. rewrite M. reflexivity.
      * rewrite E, T, M, !Z.eqb_refl. simpl. rewrite Nat.eqb_refl. apply orb_true_r.
  - left; right. apply existsb_exists. exists p. split; auto. apply memZ_in in Hm. rewrite Hm. simpl.
    destruct X as [->|[v [B M]]]; [rewrite Z.eqb_refl; reflexivity|]. apply orb_true_iff. right. apply existsb_exists.
    exists v. split; auto. apply belongsb_ok; auto.
  - right. apply Z.eqb_eq. exact C.
Qed.
Lemma not_may_leave : forall cfg pk e, may_leaveb cfg pk e = false -> ~ may_leave cfg pk e.
Proof. intros cfg pk e H M. apply may_leaveb_ok in M. congruence. Qed.
