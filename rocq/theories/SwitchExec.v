(** * Running the switch: an executable [walk], used to exhibit concrete cases *)
From Coq Require Import ZArith List Bool Lia Permutation.
From Verif Require Import PyBase OpenFlow ReorderModel TableModel FloodModel FloodSpec FloodRulesModel L2Model L2Spec.
Import ListNotations.
Open Scope Z_scope.

(** The first of the highest-priority entries that match. *)
Definition top_step (t : Z) (p : packet) (best : option flow) (f : flow) : option flow :=
  if (f_table f =? t) && matches p (f_match f)
  then match best with
       | Some b => if f_prio b <? f_prio f then Some f else best
       | None => Some f
       end
  else best.
Definition top (fs : list flow) (t : Z) (p : packet) : option flow := fold_left (top_step t p) fs None.

Fixpoint walk_run (fuel : nat) (s : switch) (live : Z -> bool) (t : Z) (p : packet) : option (list emission) :=
  match fuel with
  | O => None
  | S k =>
      match top (sw_flows s) t p with
      | None => Some []
      | Some f =>
          match exec_insts (group_lookup s) live (f_inst f) p with
          | (es, _, None) => Some es
          | (es, p', Some t') => option_map (app es) (walk_run k s live t' p')
          end
      end
  end.

Lemma top_spec : forall fs t p,
  match top fs t p with
  | Some f => hit fs t p f
  | None => forall f, In f fs -> f_table f = t -> matches p (f_match f) = false
  end.
Proof.
  intros fs t p. unfold top. induction fs as [|x fs IH] using rev_ind; [intros f []|].
  rewrite fold_left_app. cbn [fold_left].
  destruct (fold_left (top_step t p) fs None) as [b|]; unfold top_step.
  - destruct IH as [A [B [C D]]]. destruct (Z.eqb_spec (f_table x) t) as [E|E]; simpl.
    + destruct (matches p (f_match x)) eqn:M.
      * destruct (Z.ltb_spec (f_prio b) (f_prio x)).
        -- split; [apply in_app_iff; right; left; auto|]. split; [auto|]. split; [auto|].
           intros g Hg Tg Mg. apply in_app_iff in Hg as [Hg|[<-|[]]]; [|lia]. specialize (D g Hg Tg Mg). lia.
        -- split; [apply in_app_iff; auto|]. split; [auto|]. split; [auto|].
           intros g Hg Tg Mg. apply in_app_iff in Hg as [Hg|[<-|[]]]; [auto|lia].
      * split; [apply in_app_iff; auto|]. split; [auto|]. split; [auto|].
        intros g Hg Tg Mg. apply in_app_iff in Hg as [Hg|[<-|[]]]; [auto|congruence].
    + split; [apply in_app_iff; auto|]. split; [auto|]. split; [auto|].
      intros g Hg Tg Mg. apply in_app_iff in Hg as [Hg|[<-|[]]]; [auto|congruence].
  - destruct (Z.eqb_spec (f_table x) t) as [E|E]; simpl.
    + destruct (matches p (f_match x)) eqn:M.
      * split; [apply in_app_iff; right; left; auto|]. split; [auto|]. split; [auto|].
        intros g Hg Tg Mg. apply in_app_iff in Hg as [Hg|[<-|[]]]; [|lia]. rewrite (IH g Hg Tg) in Mg. discriminate.
      * intros g Hg Tg. apply in_app_iff in Hg as [Hg|[<-|[]]]; auto.
    + intros g Hg Tg. apply in_app_iff in Hg as [Hg|[<-|[]]]; auto. congruence.
Qed.

Lemma walk_run_sound : forall fuel s live t p es, walk_run fuel s live t p = Some es -> walk s live t p es.
Proof.
  induction fuel as [|k IH]; intros s live t p es H; [discriminate|]. cbn [walk_run] in H.
  pose proof (top_spec (sw_flows s) t p) as T. destruct (top (sw_flows s) t p) as [f|].
  - destruct (exec_insts (group_lookup s) live (f_inst f) p) as [[e p'] [t'|]] eqn:E.
    + destruct (walk_run k s live t' p') as [e'|] eqn:W; [|discriminate]. injection H as <-.
      eapply walk_goto; eauto.
    + injection H as <-. eapply walk_end; eauto.
  - injection H as <-. apply walk_miss. auto.
Qed.

(** Histories of a datapath with barriers in use and no shuffling. *)
Inductive script := SEv (ev : cevent) | SFrame (p : packet).
Definition sent (ms : list ofmsg) : list ofmsg :=
  match valve_flowreorder (fun l => l) true ms with Some o => o | None => [] end.
Definition script_step (cfg : dconf) (w : world) (a : script) : option world :=
  match a with
  | SEv (CConnect now ups) =>
      let '(st, ms) := datapath_connect cfg (w_ctl w) now ups in
      match valve_flowreorder (fun l => l) true ms with
      | Some out => Some (mkWorld st (apply_msgs out empty_switch) (w_pins w))
      | None => None
      end
  | SEv (CPacketIn now n vid mac) =>
      if existsb (fun q => (pk_in q =? n) &&
           match pk_tags q with (v, _) :: _ => v =? vid | [] => false end &&
           match pk_hdr q EthSrc with Some m => m =? mac | None => false end) (w_pins w)
      then match cstep cfg (w_ctl w) (CPacketIn now n vid mac) with
           | Some (st, ms) =>
               match valve_flowreorder (fun l => l) true ms with
               | Some out => Some (mkWorld st (apply_msgs out (w_sw w)) (w_pins w))
               | None => None
               end
           | None => None
           end
      else None
  | SEv ev =>
      match cstep cfg (w_ctl w) ev with
      | Some (st, ms) =>
          match valve_flowreorder (fun l => l) true ms with
          | Some out => Some (mkWorld st (apply_msgs out (w_sw w)) (w_pins w))
          | None => None
          end
      | None => None
      end
  | SFrame p =>
      match walk_run 9 (w_sw w) (fun _ => true) (tb_id (d_tvlan cfg)) p with
      | Some es => Some (mkWorld (w_ctl w) (w_sw w) (to_controller es ++ w_pins w))
      | None => None
      end
  end.
Fixpoint script_run (cfg : dconf) (w : world) (l : list script) : option world :=
  match l with
  | [] => Some w
  | a :: r => match script_step cfg w a with Some w' => script_run cfg w' r | None => None end
  end.
Definition script_evs (l : list script) : list cevent :=
  rev (flat_map (fun a => match a with SEv e => [e] | SFrame _ => [] end) l).
Definition script_frames (l : list script) : list packet :=
  flat_map (fun a => match a with SEv _ => [] | SFrame p => [p] end) l.
Definition world0 : world := mkWorld dstate_init empty_switch [].

Lemma script_reach : forall cfg (F : packet -> Prop) l w evs w',
  reach cfg F evs w -> script_run cfg w l = Some w' ->
  (forall p, In p (script_frames l) -> frame_ok p /\ F p) ->
  reach cfg F (script_evs l ++ evs) w'.
Proof.
  intros cfg F l. induction l as [|a l IH]; intros w evs w' R H HF; cbn [script_run] in H.
  { injection H as <-. exact R. }
  destruct (script_step cfg w a) as [w1|] eqn:S; [|discriminate].
  assert (HF' : forall p, In p (script_frames l) -> frame_ok p /\ F p).
  { intros p Hp. apply HF. unfold script_frames. cbn [flat_map]. apply in_app_iff; auto. }
  assert (E : script_evs (a :: l) ++ evs = script_evs l ++ match a with SEv e => [e] | _ => [] end ++ evs).
  { unfold script_evs. cbn [flat_map]. rewrite rev_app_distr, <- app_assoc. destruct a; reflexivity. }
  rewrite E. apply (IH w1); auto. clear IH H E HF'.
  destruct a as [ev|p]; simpl app.
  - assert (Gen : forall st ms out, sent_by_switch w ev -> cstep cfg (w_ctl w) ev = Some (st, ms) ->
       valve_flowreorder (fun l => l) true ms = Some out ->
       reach cfg F (ev :: evs) (mkWorld st (apply_msgs out (w_sw w)) (w_pins w))).
    { intros st ms out A B C. eapply reach_event with (sh := fun l => l); eauto. }
    destruct ev as [now ups|now|now n r d b|now n vid mac|now n sync|now]; cbn [script_step] in S.
    + destruct (datapath_connect cfg (w_ctl w) now ups) as [st ms] eqn:D.
      destruct (valve_flowreorder _ true ms) as [out|] eqn:O; [|discriminate]. injection S as <-.
      pose proof (reach_connect cfg F evs w now ups (fun l => l) true out empty_switch R (fun l => Permutation_refl l)) as X.
      rewrite D in X. apply X. exact O.
    + destruct (cstep cfg (w_ctl w) _) as [[st ms]|] eqn:D; [|discriminate].
      destruct (valve_flowreorder _ true ms) as [out|] eqn:O; [|discriminate]. injection S as <-. eapply Gen; eauto; exact I.
    + destruct (cstep cfg (w_ctl w) _) as [[st ms]|] eqn:D; [|discriminate].
      destruct (valve_flowreorder _ true ms) as [out|] eqn:O; [|discriminate]. injection S as <-. eapply Gen; eauto; exact I.
    + destruct (existsb _ _) eqn:X; [|discriminate].
      destruct (cstep cfg (w_ctl w) _) as [[st ms]|] eqn:D; [|discriminate].
      destruct (valve_flowreorder _ true ms) as [out|] eqn:O; [|discriminate]. injection S as <-. eapply Gen; eauto.
      apply existsb_exists in X as [q [Hq X]]. apply andb_true_iff in X as [X X3]. apply andb_true_iff in X as [X1 X2].
      apply Z.eqb_eq in X1. destruct (pk_tags q) as [|[v pcp] r] eqn:T; [discriminate|]. apply Z.eqb_eq in X2.
      destruct (pk_hdr q EthSrc) as [m|] eqn:M; [|discriminate]. apply Z.eqb_eq in X3.
      exists q, pcp, r. repeat split; congruence.
    + destruct (cstep cfg (w_ctl w) _) as [[st ms]|] eqn:D; [|discriminate].
      destruct (valve_flowreorder _ true ms) as [out|] eqn:O; [|discriminate]. injection S as <-. eapply Gen; eauto; exact I.
    + destruct (cstep cfg (w_ctl w) _) as [[st ms]|] eqn:D; [|discriminate].
      destruct (valve_flowreorder _ true ms) as [out|] eqn:O; [|discriminate]. injection S as <-. eapply Gen; eauto; exact I.
  - cbn [script_step] in S. destruct (walk_run _ _ _ _ p) as [es|] eqn:W; [|discriminate]. injection S as <-.
    destruct (HF p) as [A B]; [left; auto|]. apply walk_run_sound in W. eapply reach_frame; eauto.
Qed.

(** A run that starts with a connection is a history. *)
Lemma script_start : forall cfg (F : packet -> Prop) now ups l w',
  script_run cfg world0 (SEv (CConnect now ups) :: l) = Some w' ->
  (forall p, In p (script_frames l) -> frame_ok p /\ F p) ->
  reach cfg F (script_evs (SEv (CConnect now ups) :: l)) w'.
Proof.
  intros cfg F now ups l w' H HF. cbn [script_run] in H.
  destruct (script_step cfg world0 _) as [w1|] eqn:S; [|discriminate]. cbn [script_step] in S.
  destruct (datapath_connect cfg (w_ctl world0) now ups) as [st ms] eqn:D.
  destruct (valve_flowreorder _ true ms) as [out|] eqn:O; [|discriminate]. injection S as <-.
  replace (script_evs (SEv (CConnect now ups) :: l)) with (script_evs l ++ [CConnect now ups])
    by (unfold script_evs; cbn [flat_map]; rewrite rev_app_distr; reflexivity).
  eapply script_reach; [|exact H|exact HF].
  pose proof (reach_first cfg F now ups (fun l => l) true out empty_switch (fun l => Permutation_refl l)) as X.
  simpl in D. rewrite D in X. apply X. exact O.
Qed.

(** Checking [valid_cfg] by computation. *)
Fixpoint nodupZ (l : list Z) : bool :=
  match l with [] => true | x :: r => negb (memZ x r) && nodupZ r end.
Lemma nodupZ_sound : forall l, nodupZ l = true -> NoDup l.
Proof.
  induction l as [|x r IH]; intros H; [constructor|]. simpl in H. apply andb_true_iff in H as [A B].
  constructor; auto. intros I. apply negb_true_iff in A.
  assert (X : memZ x r = true) by (apply existsb_exists; exists x; split; auto; apply Z.eqb_refl). congruence.
Qed.
Definition pipeline (cfg : dconf) : list table := [d_tvlan cfg; d_tsrc cfg; d_thp cfg; d_tdst cfg; d_tflood cfg].
Definition valid_cfgb (cfg : dconf) : bool :=
  nodupZ (map pc_num (d_ports cfg)) &&
  forallb (fun p => (0 <? pc_num p) && (pc_num p <? OFPP_MAX)) (d_ports cfg) &&
  nodupZ (map vc_vid (d_vlans cfg)) &&
  forallb (fun v => (0 <? vc_vid v) && (vc_vid v <? 4096)) (d_vlans cfg) &&
  forallb (fun p => forallb (fun v => memZ v (map vc_vid (d_vlans cfg))) (port_vlans p)) (d_ports cfg) &&
  forallb (fun p => nodupZ (port_vlans p)) (d_ports cfg) &&
  forallb (fun p => forallb (fun n => (0 <? n) && (n <? OFPP_MAX) &&
      forallb (fun q => negb (pc_num q =? n) || negb (nonempty (port_vlans q))) (d_ports cfg)) (pc_mirror p)) (d_ports cfg) &&
  nodupZ (map tb_id (pipeline cfg)) &&
  forallb (fun t => negb (tb_id t =? OFPTT_ALL) && (tb_cookie t =? tb_cookie (d_tvlan cfg))) (pipeline cfg) &&
  ((0 <=? d_lowest cfg) && (d_lowest cfg <? LOW_PRIORITY) && (LOW_PRIORITY <? d_high cfg) && (d_high cfg <? d_highest cfg)).

Lemma memZ_sound : forall x l, memZ x l = true -> In x l.
Proof. intros x l H. apply existsb_exists in H as [y [H E]]. apply Z.eqb_eq in E. subst. auto. Qed.

Lemma valid_cfgb_sound : forall cfg, valid_cfgb cfg = true -> valid_cfg cfg.
Proof.
  intros cfg H. unfold valid_cfgb in H.
  repeat (apply andb_true_iff in H as [H ?]).
  repeat match goal with X : forallb _ _ = true |- _ => rewrite forallb_forall in X end.
  constructor.
  - apply nodupZ_sound; auto.
  - intros p Hp. specialize (H8 p Hp). apply andb_true_iff in H8 as [A B]. apply Z.ltb_lt in A, B. auto.
  - apply nodupZ_sound; auto.
  - intros v Hv. specialize (H6 v Hv). apply andb_true_iff in H6 as [A B]. apply Z.ltb_lt in A, B. auto.
  - intros p vid Hp Hv. specialize (H5 p Hp). rewrite forallb_forall in H5. apply memZ_sound; auto.
  - intros p Hp. apply nodupZ_sound; auto.
  - intros p n Hp Hn. specialize (H3 p Hp). rewrite forallb_forall in H3. specialize (H3 n Hn).
    apply andb_true_iff in H3 as [A B]. apply andb_true_iff in A as [A1 A2]. apply Z.ltb_lt in A1, A2.
    split; auto. intros q Hq E. rewrite forallb_forall in B. specialize (B q Hq). rewrite E, Z.eqb_refl in B.
    simpl in B. destruct (port_vlans q); auto; discriminate.
  - apply nodupZ_sound; auto.
  - intros t Ht. specialize (H1 t Ht). apply andb_true_iff in H1 as [A B]. apply negb_true_iff, Z.eqb_neq in A. auto.
  - intros t Ht. specialize (H1 t Ht). apply andb_true_iff in H1 as [A B]. apply Z.eqb_eq in B. auto.
  - apply andb_true_iff in H0 as [A D]. apply andb_true_iff in A as [A C]. apply andb_true_iff in A as [A B].
    apply Z.leb_le in A. apply Z.ltb_lt in B, C, D. auto.
Qed.

(** Timeouts that remove every flow with a timeout that satisfies [P]. *)
Definition timed_out (P : flow -> bool) (f : flow) : bool := P f && (negb (f_hard f =? 0) || negb (f_idle f =? 0)).
Definition time_out (P : flow -> bool) (w : world) : world :=
  mkWorld (w_ctl w) (mkSwitch (filter (fun f => negb (timed_out P f)) (sw_flows (w_sw w))) (sw_groups (w_sw w)) (sw_meters (w_sw w)))
    (w_pins w).
Lemma reach_time_out : forall cfg F evs w P, reach cfg F evs w -> reach cfg F evs (time_out P w).
Proof.
  intros cfg F evs w P R.
  assert (G : forall l2 l1, reach cfg F evs (mkWorld (w_ctl w) (mkSwitch (l1 ++ l2) (sw_groups (w_sw w)) (sw_meters (w_sw w))) (w_pins w)) ->
    reach cfg F evs (mkWorld (w_ctl w) (mkSwitch (l1 ++ filter (fun f => negb (timed_out P f)) l2) (sw_groups (w_sw w)) (sw_meters (w_sw w))) (w_pins w))).
  { induction l2 as [|f l2 IH]; intros l1 H; [exact H|]. cbn [filter]. destruct (timed_out P f) eqn:T; cbn [negb].
    - apply IH. apply (reach_timeout cfg F evs _ f l1 l2 H eq_refl).
      apply andb_true_iff in T as [_ T]. apply orb_true_iff in T as [T|T]; apply negb_true_iff, Z.eqb_neq in T; auto.
    - replace (l1 ++ f :: filter (fun f => negb (timed_out P f)) l2) with ((l1 ++ [f]) ++ filter (fun f => negb (timed_out P f)) l2)
        by (rewrite <- app_assoc; reflexivity).
      apply IH. rewrite <- app_assoc. exact H. }
  apply (G (sw_flows (w_sw w)) []). destruct w as [c [fl g m] p]. exact R.
Qed.

(** All entries that may apply. *)
Definition hits (fs : list flow) (t : Z) (p : packet) : list flow :=
  let ms := filter (fun f => (f_table f =? t) && matches p (f_match f)) fs in
  filter (fun f => forallb (fun g => f_prio g <=? f_prio f) ms) ms.
Lemma hits_spec : forall fs t p f, hit fs t p f <-> In f (hits fs t p).
Proof.
  intros fs t p f. unfold hits. cbv zeta. rewrite filter_In, filter_In, forallb_forall. split.
  - intros (A & B & C & D). split.
    + split; auto. rewrite B, Z.eqb_refl. exact C.
    + intros g Hg. apply filter_In in Hg as [G1 G2]. apply andb_true_iff in G2 as [G2 G3]. apply Z.eqb_eq in G2. apply Z.leb_le; auto.
  - intros ((A & B) & C). apply andb_true_iff in B as [B1 B2]. apply Z.eqb_eq in B1. split; auto. split; auto. split; auto.
    intros g G1 G2 G3. apply Z.leb_le. apply C. apply filter_In. split; auto. rewrite G2, Z.eqb_refl. exact G3.
Qed.
