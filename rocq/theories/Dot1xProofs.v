(** * 802.1X: the entries of the port ACL table over histories *)
From Coq Require Import ZArith List Bool Lia Permutation.
From Verif Require Import PyBase PyBaseProofs OpenFlow ReorderModel ReorderSpec ReorderProofs TrimModel TrimProofs
  TableModel FloodRulesProofs BatchProofs ConfProofs L2Proofs AclModel AclSpec AclProofs AclMatchProofs AclStepProofs Dot1xModel Dot1xSpec.
Import ListNotations.
Open Scope Z_scope.

(** ** Ownership: which port's frames an entry is about *)
Definition owns (k : Z) (m : fmatch) : Prop := In (InPort, (k, -1)) m /\ forall x, In (InPort, x) m -> x = (k, -1).

Lemma owns_unique : forall k k' m, owns k m -> owns k' m -> k = k'.
Proof. intros k k' m [A _] [_ B]. apply B in A. congruence. Qed.
Lemma owns_covered : forall k d m, In (InPort, (k, -1)) d -> covers d m = true -> In (InPort, (k, -1)) m.
Proof.
  intros k d m H C. unfold covers in C. rewrite forallb_forall in C. specialize (C _ H). apply existsb_exists in C as [[f' [v' m']] [A B]].
  unfold item_covers in B. rewrite !andb_true_iff, !Z.eqb_eq, field_eqb_spec in B. destruct B as [[<- E1] E2].
  rewrite !Z.land_m1_r in *. subst. auto.
Qed.
Lemma owns_matches : forall k m q, owns k m -> matches q m = true -> pk_in q = k.
Proof.
  intros k m q [A _] M. unfold matches in M. rewrite forallb_forall in M. specialize (M _ A). simpl in M.
  rewrite !Z.land_m1_r, Z.eqb_eq in M. auto.
Qed.
Lemma item_exact : forall q f v, item_matches q (f, (v, -1)) = true <-> pk_get q f = Some v.
Proof.
  intros q f v. unfold item_matches. destruct (pk_get q f) as [x|]; [|split; discriminate].
  rewrite !Z.land_m1_r, Z.eqb_eq. split; congruence.
Qed.

(** ** The address put into a match *)
Lemma put_items : forall (m : fmatch) F x i, NoDup (map fst m) ->
  (In i (dict_put field_eqb F x m) <-> i = (F, x) \/ (In i m /\ fst i <> F)).
Proof.
  intros m F x i N. destruct i as [g y].
  assert (N' : NoDup (map fst (dict_put field_eqb F x m))) by (apply (dict_put_nodup _ field_eqb_spec); auto).
  assert (Q : forall (d : fmatch) (k : field) v, NoDup (map fst d) -> (In (k, v) d <-> dict_get field_eqb k d = Some v)).
  { intros d k v Nd. split; [apply (dict_in_get field_eqb field_eqb_spec); auto|apply (dict_get_in field_eqb field_eqb_spec)]. }
  rewrite (Q _ g y N'), (dict_get_put _ field_eqb_spec), (Q _ g y N). simpl.
  destruct (field_eqb g F) eqn:E.
  - apply field_eqb_spec in E. subst. split; [intros [= ->]; auto|]. intros [[= ->]|[_ B]]; congruence.
  - assert (g <> F) by (intros ->; rewrite (proj2 (field_eqb_spec F F) eq_refl) in E; discriminate).
    split; [auto|]. intros [[= -> ->]|[A _]]; [contradiction|auto].
Qed.
Lemma add_mac_in : forall m mac i, NoDup (map fst m) ->
  (In i (add_mac (Some mac) m) <-> i = (EthSrc, (mac, -1)) \/ (In i m /\ fst i <> EthSrc)).
Proof. intros m mac i N. unfold add_mac. rewrite py_sorted_in. apply put_items. auto. Qed.
Lemma add_mac_owns : forall k m mac, NoDup (map fst m) -> owns k m -> owns k (add_mac mac m).
Proof.
  intros k m [mac|] N [A B]; [|split; auto]. split.
  - apply add_mac_in; auto. right. split; auto. discriminate.
  - intros x Hx. apply add_mac_in in Hx as [Hx|[Hx _]]; auto; discriminate.
Qed.
Lemma mfd_keys : forall d, NoDup (map fst (match_from_dict d)).
Proof.
  intros d. unfold match_from_dict. eapply Permutation_NoDup; [apply Permutation_map, py_sorted_perm|].
  apply fold_put_nodup. constructor.
Qed.

Section Conf.
  Variable c : dconf.
  Hypothesis OK : dconf_ok c.
  Notation t := (dx_table c).
  Notation tid := (tb_id (dx_table c)).
  Notation vl := (am_to_vlan (dx_am c)).

  Lemma t_in : In t (opt_tables (dx_am c)).
  Proof. unfold opt_tables. rewrite (dk_table c OK). simpl. auto. Qed.
  Lemma tid_all : tid <> OFPTT_ALL.
  Proof. intros E. apply (proj1 (dk_tables c OK)). rewrite <- E. apply in_map, t_in. Qed.

  Lemma port_of_in : forall n p, port_of c n = Some p -> In p (dx_ports c) /\ dp_num p = n.
  Proof. intros n p H. apply find_some in H as [A B]. apply Z.eqb_eq in B. auto. Qed.
  Lemma port_of_self : forall p, In p (dx_ports c) -> port_of c (dp_num p) = Some p.
  Proof.
    intros p H. unfold port_of. destruct (find _ _) as [q|] eqn:E.
    - apply find_some in E as [A B]. apply Z.eqb_eq in B. f_equal. apply (NoDup_map_inj_in _ _ dp_num (dx_ports c)); auto. apply (dk_names c OK).
    - exfalso. apply (find_none _ _ E) in H. rewrite Z.eqb_refl in H. discriminate.
  Qed.
  Lemma port_same : forall p q, In p (dx_ports c) -> In q (dx_ports c) -> dp_num p = dp_num q -> p = q.
  Proof. intros p q A B E. apply (NoDup_map_inj_in _ _ dp_num (dx_ports c)); auto. apply (dk_names c OK). Qed.
  Lemma dot1x_nfv : forall p, In p (dx_ports c) -> dp_dot1x p = true -> dp_num p <> dx_nfv c.
  Proof. intros p H D E. destruct (dk_nfv c OK p H E). congruence. Qed.

  (** ** The entries of an ACL *)
  Definition aw (a : acl) (n : Z) (mac : option Z) (i : nat) (r : rule) : flowmod :=
    tb_add_cookie t (ru_cookie r) (auth_priority - Z.of_nat i) (add_mac mac (rule_match (dot1x_place c a n) r))
      (fst (rule_inst None (dot1x_place c a n) r)).

  Lemma all_flows_in : forall ms ws, all_flows ms = Some ws -> ms = map FlowMod ws.
  Proof.
    induction ms as [|m ms IH]; intros ws H; simpl in H; [injection H as <-; auto|].
    destruct m; try discriminate. destruct (all_flows ms) as [r|]; [|discriminate]. injection H as <-. simpl. f_equal. auto.
  Qed.

  Lemma acl_of_in : forall fid a, acl_of c fid = Some a -> exists name, fid = Some name /\ In (name, a) (dx_acls c).
  Proof. intros [x|] a H; [|discriminate]. exists x. split; auto. apply (dict_get_in Z.eqb zspec). auto. Qed.

  Lemma acl_flows_in : forall name a n mac ws, In (name, a) (dx_acls c) -> acl_flows c a n mac = Some ws ->
    (forall w, In w ws <-> exists i r, nth_error (al_rules a) i = Some r /\ w = aw a n mac i r) /\
    (forall r, In r (al_rules a) -> failovers r = []).
  Proof.
    intros name a n mac ws Ha H. destruct (dk_acls c OK name a Ha) as [EX [RO LE]].
    unfold acl_flows, build_acl_port in H. destruct (al_rules a) as [|r0 rs0] eqn:ER; [discriminate|]. rewrite <- ER in *.
    destruct (existsb has_meter (al_rules a)); [discriminate|].
    destruct (all_flows _) as [ws0|] eqn:EA; [|discriminate]. injection H as <-.
    assert (MS := all_flows_in _ _ EA). unfold build_acl_ofmsgs in MS. simpl in MS. rewrite app_nil_r in MS.
    assert (X : pl_exact (dot1x_place c a n) = false) by exact EX.
    assert (MI : forall m, In m (build_rules None false (dot1x_place c a n) (al_rules a) auth_priority) <-> In m (map FlowMod ws0)) by (rewrite MS; tauto).
    rewrite Forall_forall in RO. split.
    - intros w. rewrite in_map_iff. split.
      + intros [w0 [<- Hw]]. apply (in_map FlowMod) in Hw. apply MI, in_build_rules in Hw as [i [r [N [B|B]]]]; auto.
        * exfalso. apply rule_msgs in B; [|apply RO; eapply nth_error_In; eauto]. destruct B as [g [ns [_ [B|[B|[]]]]]]; discriminate.
        * injection B as ->. exists i, r. split; auto.
      + intros [i [r [N ->]]].
        assert (B : In (FlowMod (tb_add_cookie t (ru_cookie r) (auth_priority - Z.of_nat i) (rule_match (dot1x_place c a n) r)
             (fst (rule_inst None (dot1x_place c a n) r)))) (map FlowMod ws0)).
        { apply MI, in_build_rules; auto. exists i, r. auto. }
        apply in_map_iff in B as [w0 [E B]]. injection E as ->. eexists. split; [|exact B]. reflexivity.
    - intros r Hr. destruct (failovers r) as [|[g ns] l] eqn:EF; auto. exfalso.
      apply In_nth_error in Hr as Hn. destruct Hn as [i N].
      assert (B : In (GroupMod GAdd (ff_group g ns)) (map FlowMod ws0)).
      { apply MI, in_build_rules; auto. exists i, r. split; auto. left. apply rule_msgs; auto. exists g, ns. split; [rewrite EF; left; auto|right; left; auto]. }
      apply in_map_iff in B as [? [? _]]. discriminate.
  Qed.

  Lemma rule_owns : forall a n r, rule_ok r -> owns n (rule_match (dot1x_place c a n) r).
  Proof.
    intros a n r [RO _]. assert (S : single (dot1x_place c a n)) by (right; reflexivity).
    split.
    - apply rule_match_in; auto. left. auto.
    - intros x Hx. apply rule_match_in in Hx; auto. simpl in Hx. destruct Hx as [[_ ->]|[N _]]; [auto|contradiction].
  Qed.
  Lemma aw_owns : forall a n mac i r, rule_ok r -> owns n (fm_match (aw a n mac i r)).
  Proof. intros. apply add_mac_owns; [apply mfd_keys|apply rule_owns; auto]. Qed.

  (** ** Entries of a port's ACL manager *)
  Lemma add_port_in : forall p w, In p (dx_ports c) -> In (FlowMod w) (add_port (dx_am c) (dp_base p)) ->
    fm_cmd w = FAdd /\ fm_table w = tid /\ owns (dp_num p) (fm_match w) /\ dp_dot1x p = false /\ ap_output_only (dp_base p) = false.
  Proof.
    intros p w Hp Hw. unfold add_port, port_acls_allowed in Hw. rewrite (dk_dp c OK), (dk_table c OK) in Hw.
    destruct (ap_output_only (dp_base p)) eqn:EO; [destruct Hw|].
    destruct (dk_port_acls c OK p Hp) as [EX [RO LE]].
    destruct (ap_acls (dp_base p)) as [|a l] eqn:EA.
    - destruct (ap_dot1x (dp_base p)) eqn:ED; [destruct Hw|]. destruct Hw as [Hw|[]]. injection Hw as <-.
      repeat (split; auto); [left; reflexivity|]. intros x [E|[]]. injection E as <-. reflexivity.
    - rewrite <- EA in *. assert (ND : dp_dot1x p = false).
      { destruct (dp_dot1x p) eqn:ED; auto. destruct (dk_dot1x c OK p Hp ED) as [X _]. congruence. }
      unfold build_acl_ofmsgs in Hw. apply in_build_rules in Hw.
      + destruct Hw as [i [r [N B]]]. assert (Hr : In r (rules_of (ap_acls (dp_base p)))) by (eapply nth_error_In; eauto).
        rewrite Forall_forall in RO. destruct (RO r Hr) as [R1 R2]. destruct B as [B|B].
        * exfalso. apply rule_msgs in B; auto. destruct B as [g [ns [B _]]]. rewrite R2 in B. destruct B.
        * injection B as ->. repeat (split; auto).
          -- apply rule_match_in; [right; reflexivity|apply R1|]. left. auto.
          -- intros x Hx. apply rule_match_in in Hx; [|right; reflexivity|apply R1]. simpl in Hx. destruct Hx as [[_ ->]|[X _]]; [auto|contradiction].
      + rewrite EA in EX. simpl. rewrite EA. inversion EX; auto.
  Qed.
  Lemma add_port_once : forall p w w', In p (dx_ports c) -> In (FlowMod w) (add_port (dx_am c) (dp_base p)) ->
    In (FlowMod w') (add_port (dx_am c) (dp_base p)) -> fm_prio w = fm_prio w' -> w = w'.
  Proof.
    intros p w w' Hp Hw Hw' E. unfold add_port, port_acls_allowed in Hw, Hw'. rewrite (dk_dp c OK), (dk_table c OK) in Hw, Hw'.
    destruct (ap_output_only (dp_base p)) eqn:EO; [destruct Hw|].
    destruct (dk_port_acls c OK p Hp) as [EX [RO LE]].
    destruct (ap_acls (dp_base p)) as [|a l] eqn:EA.
    - destruct (ap_dot1x (dp_base p)) eqn:ED; [destruct Hw|]. destruct Hw as [Hw|[]]. destruct Hw' as [Hw'|[]]. congruence.
    - rewrite <- EA in *. assert (XF : pl_exact (port_place (dx_am c) t (dp_base p)) = false) by (rewrite EA in EX; simpl; rewrite EA; inversion EX; auto).
      rewrite Forall_forall in RO.
      assert (Q : forall x, In (FlowMod x) (build_acl_ofmsgs None false (port_place (dx_am c) t (dp_base p)) (ap_acls (dp_base p))) ->
         exists i r, nth_error (rules_of (ap_acls (dp_base p))) i = Some r /\
           x = tb_add_cookie t (ru_cookie r) (FILTER_PRIORITY - Z.of_nat i) (rule_match (port_place (dx_am c) t (dp_base p)) r)
                 (fst (rule_inst None (port_place (dx_am c) t (dp_base p)) r))).
      { intros x Hx. apply in_build_rules in Hx; auto. destruct Hx as [i [r [N B]]]. exists i, r. split; auto.
        assert (Hr : In r (rules_of (ap_acls (dp_base p)))) by (eapply nth_error_In; eauto).
        destruct (RO r Hr) as [R1 R2]. destruct B as [B|B]; [|injection B; auto].
        exfalso. apply rule_msgs in B; auto. destruct B as [g [ns [B _]]]. rewrite R2 in B. destruct B. }
      apply Q in Hw as [i [r [N ->]]]. apply Q in Hw' as [i' [r' [N' ->]]]. cbn [fm_prio tb_add_cookie] in E. assert (i = i') by lia. subst. congruence.
  Qed.
  Lemma add_port_msgs : forall p m, In p (dx_ports c) -> In m (add_port (dx_am c) (dp_base p)) -> exists w, m = FlowMod w.
  Proof.
    intros p m Hp Hm. unfold add_port, port_acls_allowed in Hm. rewrite (dk_dp c OK), (dk_table c OK) in Hm.
    destruct (ap_output_only (dp_base p)) eqn:EO; [destruct Hm|].
    destruct (dk_port_acls c OK p Hp) as [EX [RO LE]].
    destruct (ap_acls (dp_base p)) as [|a l] eqn:EA.
    - destruct (ap_dot1x (dp_base p)); [destruct Hm|]. destruct Hm as [<-|[]]. eauto.
    - rewrite <- EA in *. assert (XF : pl_exact (port_place (dx_am c) t (dp_base p)) = false) by (rewrite EA in EX; simpl; rewrite EA; inversion EX; auto).
      apply in_build_rules in Hm; auto. destruct Hm as [i [r [N B]]]. rewrite Forall_forall in RO.
      assert (Hr : In r (rules_of (ap_acls (dp_base p)))) by (eapply nth_error_In; eauto). destruct (RO r Hr) as [R1 R2].
      destruct B as [B|B]; [|eauto]. exfalso. apply rule_msgs in B; auto. destruct B as [g [ns [B _]]]. rewrite R2 in B. destruct B.
  Qed.

  Ltac prio H := cbn [fm_prio eapol_out eapol_back mab_flow aw tb_add tb_write tb_add_cookie] in H; unfold override_priority, mab_priority, auth_priority, FILTER_PRIORITY, HIGH_PRIORITY in H; lia.

  (** ** What ports that come up add *)
  Inductive added (ups : list Z) : flowmod -> Prop :=
  | ad_plain : forall p w, In p (dx_ports c) -> In (FlowMod w) (add_port (dx_am c) (dp_base p)) -> added ups w
  | ad_out : forall p, In p (dx_ports c) -> dp_dot1x p = true -> In (dp_num p) ups -> added ups (eapol_out c (dp_num p))
  | ad_back : forall p, In p (dx_ports c) -> dp_dot1x p = true -> In (dp_num p) ups -> added ups (eapol_back c (dp_num p))
  | ad_mab : forall p, In p (dx_ports c) -> dp_dot1x p = true -> In (dp_num p) ups -> dp_mab p = true -> added ups (mab_flow c (dp_num p))
  | ad_noauth : forall p name a i r, In p (dx_ports c) -> dp_dot1x p = true -> dp_pre p = true -> In (name, a) (dx_acls c) ->
      nth_error (al_rules a) i = Some r -> acl_of c (dx_noauth c) = Some a -> added ups (aw a (dp_num p) None i r).

  Definition the_drop (tb : table) : flowmod := tb_drop tb (dx_lowest c) [] 0.

  Lemma out_owns : forall n, owns n (out_match n).
  Proof. intros n. split; [left; reflexivity|]. intros x [E|[E|[]]]; [injection E as <-; reflexivity|discriminate]. Qed.
  Lemma back_owns : forall n, owns (dx_nfv c) (back_match c n).
  Proof. intros n. split; [left; reflexivity|]. intros x [E|[E|[E|[]]]]; try discriminate. injection E as <-. reflexivity. Qed.
  Lemma mab_owns : forall n, owns n (mab_match n).
  Proof. intros n. split; [left; reflexivity|]. intros x [E|[E|[E|[E|[E|[]]]]]]; try discriminate. injection E as <-. reflexivity. Qed.
  Lemma acl_rule_ok : forall name a i r, In (name, a) (dx_acls c) -> nth_error (al_rules a) i = Some r -> rule_ok r.
  Proof. intros name a i r H N. destruct (dk_acls c OK name a H) as [_ [RO _]]. rewrite Forall_forall in RO. eapply RO, nth_error_In; eauto. Qed.

  (** who owns an added entry *)
  Lemma added_own : forall ups w, added ups w -> fm_cmd w = FAdd /\ fm_table w = tid /\
    ((exists p, In p (dx_ports c) /\ dp_dot1x p = false /\ dp_num p <> dx_nfv c /\ owns (dp_num p) (fm_match w) /\
        In (FlowMod w) (add_port (dx_am c) (dp_base p))) \/
     (exists p, In p (dx_ports c) /\ dp_dot1x p = true /\ owns (dp_num p) (fm_match w) /\
        ((In (dp_num p) ups /\ (w = eapol_out c (dp_num p) \/ (dp_mab p = true /\ w = mab_flow c (dp_num p)))) \/
         (dp_pre p = true /\ exists a i r, acl_of c (dx_noauth c) = Some a /\ nth_error (al_rules a) i = Some r /\ w = aw a (dp_num p) None i r))) \/
     (exists p, In p (dx_ports c) /\ dp_dot1x p = true /\ In (dp_num p) ups /\ owns (dx_nfv c) (fm_match w) /\ w = eapol_back c (dp_num p))).
  Proof.
    intros ups w A. destruct A as [p w Hp Hw|p Hp D U|p Hp D U|p Hp D U M|p name a i r Hp D P Ha N E].
    - destruct (add_port_in p w Hp Hw) as [A1 [A2 [A3 [A4 A5]]]]. split; auto. split; auto. left. exists p. repeat (split; auto).
      intros E. destruct (dk_nfv c OK p Hp E). congruence.
    - split; [reflexivity|]. split; [reflexivity|]. right. left. exists p. split; auto. split; auto. split; [apply out_owns|]. left. auto.
    - split; [reflexivity|]. split; [reflexivity|]. right. right. exists p. split; auto. split; auto. split; auto. split; [apply back_owns|reflexivity].
    - split; [reflexivity|]. split; [reflexivity|]. right. left. exists p. split; auto. split; auto. split; [apply mab_owns|]. left. auto.
    - split; [reflexivity|]. split; [reflexivity|]. right. left. exists p. split; auto. split; auto.
      split; [apply aw_owns; eapply acl_rule_ok; eauto|]. right. split; auto. exists a, i, r. auto.
  Qed.

  Lemma added_slot : forall ups w w', added ups w -> added ups w' -> same_flow_slot w w' -> w = w'.
  Proof.
    intros ups w w' A A' [_ [SP SM]]. destruct (added_own ups w A) as [_ [_ C1]]. destruct (added_own ups w' A') as [_ [_ C2]].
    rewrite <- SM in C2.
    destruct C1 as [[p [Hp [D [NF [O H]]]]]|[[p [Hp [D [O H]]]]|[p [Hp [D [U [O H]]]]]]],
             C2 as [[p' [Hp' [D' [NF' [O' H']]]]]|[[p' [Hp' [D' [O' H']]]]|[p' [Hp' [D' [U' [O' H']]]]]]].
    - assert (p = p') by (apply port_same; auto; eapply owns_unique; eauto). subst. apply (add_port_once p'); auto.
    - assert (p = p') by (apply port_same; auto; eapply owns_unique; eauto). congruence.
    - exfalso. apply NF. eapply owns_unique; eauto.
    - assert (p = p') by (apply port_same; auto; eapply owns_unique; eauto). congruence.
    - assert (p = p') by (apply port_same; auto; eapply owns_unique; eauto). subst p'.
      destruct H as [[_ [->|[M ->]]]|[P [a [i [r [E [N ->]]]]]]], H' as [[_ [->|[M' ->]]]|[P' [a' [i' [r' [E' [N' ->]]]]]]]; auto.
      + exfalso. clear - SP. discriminate SP.
      + exfalso. prio SP.
      + exfalso. clear - SP. discriminate SP.
      + destruct (dk_dot1x c OK p Hp D) as [_ [_ [_ [_ X]]]]. rewrite (X P') in M. discriminate.
      + exfalso. prio SP.
      + destruct (dk_dot1x c OK p Hp D) as [_ [_ [_ [_ X]]]]. rewrite (X P) in M'. discriminate.
      + cbn [fm_prio aw tb_add_cookie] in SP. assert (i = i') by lia. congruence.
    - exfalso. apply (dot1x_nfv p Hp D). eapply owns_unique; eauto.
    - exfalso. apply NF'. symmetry. eapply owns_unique; eauto.
    - exfalso. apply (dot1x_nfv p' Hp' D'). symmetry. eapply owns_unique; eauto.
    - subst w w'. assert (dp_num p = dp_num p'); [|congruence].
      change (back_match c (dp_num p) = back_match c (dp_num p')) in SM. unfold back_match, exact in SM. injection SM as E. clear - E. unfold port_mac in E. lia.
  Qed.

  Lemma opt_app_some : forall A (a b : option (list A)) x, opt_app a b = Some x -> exists y z, a = Some y /\ b = Some z /\ x = y ++ z.
  Proof. intros A [y|] [z|] x H; try discriminate. injection H as <-. eauto. Qed.

  Lemma noauth_in : forall p x, add_unauthenticated c p = Some x -> forall m, In m x ->
    dp_pre p = true /\ exists a i r, acl_of c (dx_noauth c) = Some a /\ nth_error (al_rules a) i = Some r /\ m = FlowMod (aw a (dp_num p) None i r).
  Proof.
    intros p x H m Hm. unfold add_unauthenticated in H. destruct (dp_pre p); [|injection H as <-; destruct Hm]. split; auto.
    unfold add_port_acl in H. destruct (acl_of c (dx_noauth c)) as [a|] eqn:E; [|discriminate].
    destruct (acl_of_in _ _ E) as [name [_ Ha]]. destruct (acl_flows c a (dp_num p) None) as [ws|] eqn:EF; [|discriminate]. injection H as <-.
    apply in_map_iff in Hm as [w [<- Hw]]. apply (proj1 (acl_flows_in name a _ _ _ Ha EF)) in Hw as [i [r [N ->]]]. exists a, i, r. auto.
  Qed.

  Lemma port_add_in : forall ups p ms, In p (dx_ports c) -> In (dp_num p) ups -> port_add c ups p = Some ms ->
    (forall m, In m ms -> exists w, m = FlowMod w /\ added ups w) /\
    (dp_dot1x p = true -> In (FlowMod (eapol_out c (dp_num p))) ms /\ In (FlowMod (eapol_back c (dp_num p))) ms /\
       (dp_mab p = true -> In (FlowMod (mab_flow c (dp_num p))) ms)).
  Proof.
    intros ups p ms Hp U H. unfold port_add in H. apply opt_app_some in H as [y [z [E [H ->]]]]. injection E as <-.
    unfold manager_add in H. split.
    - intros m Hm. apply in_app_iff in Hm as [Hm|Hm].
      + destruct (add_port_msgs p m Hp Hm) as [w ->]. exists w. split; auto. eapply ad_plain; eauto.
      + destruct (dp_num p =? dx_nfv c) eqn:EN.
        * injection H as <-. unfold nfv_up in Hm. apply in_flat_map in Hm as [k [Hk Hm]].
          destruct (dp_dot1x k && existsb (Z.eqb (dp_num k)) ups) eqn:EK; [|destruct Hm].
          apply andb_true_iff in EK as [EK1 EK2]. apply existsb_exists in EK2 as [x [X1 X2]]. apply Z.eqb_eq in X2. subst x.
          destruct Hm as [<-|[<-|[]]]; eexists; (split; [reflexivity|]); constructor; auto.
        * destruct (dp_dot1x p) eqn:D; [|injection H as <-; destruct Hm].
          unfold dot1x_port_up in H. apply opt_app_some in H as [y1 [z1 [E1 [H ->]]]]. injection E1 as <-.
          apply opt_app_some in H as [y2 [z2 [E2 [H ->]]]]. injection H as <-.
          apply in_app_iff in Hm as [[<-|[<-|[]]]|Hm]; [eexists; (split; [reflexivity|]); constructor; auto..|].
          apply in_app_iff in Hm as [Hm|Hm].
          -- destruct (noauth_in p y2 E2 m Hm) as [P [a [i [r [A1 [A2 ->]]]]]]. eexists. split; [reflexivity|].
             destruct (acl_of_in _ _ A1) as [name [_ Ha]]. eapply ad_noauth; eauto.
          -- destruct (dp_mab p) eqn:M; [|destruct Hm]. destruct Hm as [<-|[]]. eexists. split; [reflexivity|]. constructor; auto.
    - intros D. destruct (dp_num p =? dx_nfv c) eqn:EN; [apply Z.eqb_eq in EN; exfalso; apply (dot1x_nfv p Hp D); auto|]. rewrite D in H.
      unfold dot1x_port_up in H. apply opt_app_some in H as [y1 [z1 [E1 [H ->]]]]. injection E1 as <-.
      apply opt_app_some in H as [y2 [z2 [E2 [H ->]]]]. injection H as <-.
      split; [|split].
      + apply in_app_iff. right. left. auto.
      + apply in_app_iff. right. right. left. auto.
      + intros M. rewrite M. apply in_app_iff. right. apply in_app_iff. right. apply in_app_iff. right. left. auto.
  Qed.

  Lemma added_more : forall ups ups' w, incl ups ups' -> added ups w -> added ups' w.
  Proof. intros ups ups' w I A. destruct A; try (econstructor; eauto; fail). Qed.

  Lemma ports_add_in : forall ns ups ms ups', ports_add c ups ns = (Some ms, ups') ->
    (forall k, In k ups' <-> In k ups \/ (In k ns /\ port_of c k <> None)) /\
    (forall m, In m ms -> exists w, m = FlowMod w /\ added ups' w) /\
    (forall p, In p (dx_ports c) -> In (dp_num p) ns -> dp_dot1x p = true ->
       In (FlowMod (eapol_out c (dp_num p))) ms /\ In (FlowMod (eapol_back c (dp_num p))) ms /\
       (dp_mab p = true -> In (FlowMod (mab_flow c (dp_num p))) ms)).
  Proof.
    induction ns as [|n ns IH]; intros ups ms ups' H; simpl in H.
    - injection H as <- <-. split; [|split].
      + intros k. simpl. tauto.
      + intros m [].
      + intros p _ [].
    - destruct (port_of c n) as [q|] eqn:EQ.
      + destruct (ports_add c (n :: ups) ns) as [[ms2|] ups2] eqn:EP.
        2:{ exfalso. destruct (port_add c (n :: ups) q); discriminate. }
        destruct (port_add c (n :: ups) q) as [ms1|] eqn:E1; [|discriminate]. injection H as <- <-.
        destruct (IH _ _ _ EP) as [I1 [I2 I3]]. destruct (port_of_in n q EQ) as [Hq Nq].
        destruct (port_add_in (n :: ups) q ms1 Hq) as [J1 J2]; [left; auto|auto|].
        assert (IN : incl (n :: ups) ups2) by (intros k Hk; apply I1; auto).
        split; [|split].
        * intros k. rewrite I1. simpl. split.
          -- intros [[<-|A]|[A B]]; auto. right. split; auto. congruence.
          -- intros [A|[[<-|A] B]]; auto.
        * intros m Hm. apply in_app_iff in Hm as [Hm|Hm]; [|apply I2; auto].
          destruct (J1 m Hm) as [w [-> A]]. exists w. split; auto. eapply added_more; eauto.
        * intros p Hp [E|Hn] D.
          -- assert (p = q) by (apply port_same; auto; congruence). subst q. destruct (J2 D) as [A [B C]].
             split; [apply in_app_iff; auto|]. split; [apply in_app_iff; auto|]. intros M. apply in_app_iff; auto.
          -- destruct (I3 p Hp Hn D) as [A [B C]].
             split; [apply in_app_iff; auto|]. split; [apply in_app_iff; auto|]. intros M. apply in_app_iff; auto.
      + destruct (IH _ _ _ H) as [I1 [I2 I3]]. split; [|split]; auto.
        * intros k. rewrite I1. simpl. split; [intros [A|[A B]]; auto|]. intros [A|[[<-|A] B]]; auto. congruence.
        * intros p Hp [E|Hn] D; [|apply I3; auto]. exfalso. subst n. rewrite (port_of_self p Hp) in EQ. discriminate.
  Qed.

  (** ** What a port that goes down deletes *)
  Definition about (n : Z) (d : flowmod) : Prop :=
    (fm_cmd d = FDelete \/ fm_cmd d = FDeleteStrict) /\ fm_table d = tid /\ In (InPort, (n, -1)) (fm_match d).
  Definition del_back (n : Z) : flowmod := tb_del t FDelete override_priority (back_match c n) OFPP_ANY.

  Lemma del_acl_about : forall o n mac x m, del_port_acl c (acl_of c o) n mac = Some x -> In m x -> exists d, m = FlowMod d /\ about n d.
  Proof.
    intros o n mac x m H Hm. unfold del_port_acl in H. destruct (acl_of c o) as [a|] eqn:E; [|discriminate].
    destruct (acl_of_in _ _ E) as [name [_ Ha]]. destruct (acl_flows c a n mac) as [ws|] eqn:EF; [|discriminate]. injection H as <-.
    apply in_map_iff in Hm as [w [<- Hw]]. apply (proj1 (acl_flows_in name a _ _ _ Ha EF)) in Hw as [i [r [N ->]]].
    eexists. split; [reflexivity|]. split; [left; reflexivity|]. split; [reflexivity|].
    apply (aw_owns a n mac i r). eapply acl_rule_ok; eauto.
  Qed.
  Lemma del_auth_about : forall p mac x m, del_authenticated c p mac = Some x -> In m x -> exists d, m = FlowMod d /\ about (dp_num p) d.
  Proof.
    intros p mac x m H Hm. unfold del_authenticated in H. destruct (dp_pre p); [eapply del_acl_about; eauto|]. injection H as <-.
    destruct Hm as [<-|[]]. eexists. split; [reflexivity|]. split; [destruct (dp_dyn p); simpl; auto|]. split; [reflexivity|]. left. reflexivity.
  Qed.
  Lemma del_unauth_about : forall p x m, del_unauthenticated c p = Some x -> In m x -> exists d, m = FlowMod d /\ about (dp_num p) d.
  Proof.
    intros p x m H Hm. unfold del_unauthenticated in H. destruct (dp_pre p); [eapply del_acl_about; eauto|]. injection H as <-. destruct Hm.
  Qed.

  Lemma port_delete_in : forall p ms, In p (dx_ports c) -> port_delete c p = Some ms ->
    (forall m, In m ms -> exists d, m = FlowMod d /\ (about (dp_num p) d \/ (dp_dot1x p = true /\ d = del_back (dp_num p)))) /\
    (dp_dot1x p = true -> In (FlowMod (del_back (dp_num p))) ms /\
       In (FlowMod (tb_del t FDelete FILTER_PRIORITY [exact InPort (dp_num p)] OFPP_ANY)) ms).
  Proof.
    intros p ms Hp H. unfold port_delete in H. apply opt_app_some in H as [y [z [E [H ->]]]]. injection E as <-. split.
    - intros m Hm. apply in_app_iff in Hm as [Hm|Hm].
      + unfold del_port, port_acls_allowed in Hm. rewrite (dk_dp c OK), (dk_table c OK) in Hm.
        destruct (ap_output_only (dp_base p)); [destruct Hm|]. destruct Hm as [<-|[]]. eexists. split; [reflexivity|]. left.
        split; [left; reflexivity|]. split; [reflexivity|]. left. reflexivity.
      + unfold manager_del in H. destruct (dp_dot1x p); [|injection H as <-; destruct Hm].
        unfold dot1x_port_down in H. apply opt_app_some in H as [y1 [z1 [E1 [H ->]]]]. apply opt_app_some in H as [y2 [z2 [E2 [H ->]]]]. injection H as <-.
        apply in_app_iff in Hm as [Hm|Hm]; [destruct (del_auth_about _ _ _ _ E1 Hm) as [d [-> A]]; eauto|].
        apply in_app_iff in Hm as [Hm|Hm]; [destruct (del_unauth_about _ _ _ E2 Hm) as [d [-> A]]; eauto|].
        destruct Hm as [<-|[<-|[<-|[]]]]; eexists; (split; [reflexivity|]).
        * left. split; [right; reflexivity|]. split; [reflexivity|]. left. reflexivity.
        * right. auto.
        * left. split; [left; reflexivity|]. split; [reflexivity|]. left. reflexivity.
    - intros D. unfold manager_del in H. rewrite D in H. unfold dot1x_port_down in H.
      apply opt_app_some in H as [y1 [z1 [E1 [H ->]]]]. apply opt_app_some in H as [y2 [z2 [E2 [H ->]]]]. injection H as <-. split.
      + apply in_app_iff. right. apply in_app_iff. right. apply in_app_iff. right. right. left. reflexivity.
      + apply in_app_iff. left. unfold del_port, port_acls_allowed. rewrite (dk_dp c OK), (dk_table c OK).
        destruct (dk_dot1x c OK p Hp D) as [_ [-> _]]. left. reflexivity.
  Qed.

  (** ** What a login adds *)
  Definition login_flows (p : dport) (mac : Z) (fid : option Z) : list flowmod :=
    match dp_dyn p, acl_of c fid with
    | true, Some a => match acl_flows c a (dp_num p) (Some mac) with Some ws => ws | None => [] end
    | _, _ => [tb_add t auth_priority (authed_match (dp_num p) mac) [Goto vl]]
    end.

  Record for_host (n mac : Z) (w : flowmod) : Prop := {
    fh_cmd : fm_cmd w = FAdd;
    fh_table : fm_table w = tid;
    fh_owns : owns n (fm_match w);
    fh_src : In (EthSrc, (mac, -1)) (fm_match w);
    fh_only : forall x, In (EthSrc, x) (fm_match w) -> x = (mac, -1);
    fh_prio : fm_prio w <= auth_priority
  }.
  Lemma authed_for_host : forall n mac, for_host n mac (tb_add t auth_priority (authed_match n mac) [Goto vl]).
  Proof.
    intros n mac. constructor; try reflexivity.
    - split; [left; reflexivity|]. intros x [E|[E|[]]]; [injection E as <-; reflexivity|discriminate].
    - right. left. reflexivity.
    - intros x [E|[E|[]]]; [discriminate|injection E as <-; reflexivity].
  Qed.
  Lemma aw_for_host : forall name a n mac i r, In (name, a) (dx_acls c) -> nth_error (al_rules a) i = Some r -> for_host n mac (aw a n (Some mac) i r).
  Proof.
    intros name a n mac i r Ha N. constructor; try reflexivity.
    - apply aw_owns. eapply acl_rule_ok; eauto.
    - apply add_mac_in; [apply mfd_keys|auto].
    - intros x Hx. apply add_mac_in in Hx as [Hx|[_ Hx]]; [congruence|contradiction|apply mfd_keys].
    - cbn [fm_prio aw tb_add_cookie]. lia.
  Qed.
  Lemma login_for_host : forall p mac fid w, In w (login_flows p mac fid) -> for_host (dp_num p) mac w.
  Proof.
    intros p mac fid w H. unfold login_flows in H.
    destruct (dp_dyn p); [|destruct H as [<-|[]]; apply authed_for_host].
    destruct (acl_of c fid) as [a|] eqn:E; [|destruct H as [<-|[]]; apply authed_for_host].
    destruct (acl_of_in _ _ E) as [name [_ Ha]]. destruct (acl_flows c a (dp_num p) (Some mac)) as [ws|] eqn:EF; [|destruct H].
    apply (proj1 (acl_flows_in name a _ _ _ Ha EF)) in H as [i [r [N ->]]]. eapply aw_for_host; eauto.
  Qed.
  Lemma login_once : forall p mac fid w w', In w (login_flows p mac fid) -> In w' (login_flows p mac fid) -> fm_prio w = fm_prio w' -> w = w'.
  Proof.
    intros p mac fid w w' H H' E. unfold login_flows in H, H'.
    destruct (dp_dyn p); [|destruct H as [<-|[]]; destruct H' as [<-|[]]; auto].
    destruct (acl_of c fid) as [a|] eqn:EA; [|destruct H as [<-|[]]; destruct H' as [<-|[]]; auto].
    destruct (acl_of_in _ _ EA) as [name [_ Ha]]. destruct (acl_flows c a (dp_num p) (Some mac)) as [ws|] eqn:EF; [|destruct H].
    apply (proj1 (acl_flows_in name a _ _ _ Ha EF)) in H as [i [r [N ->]]]. apply (proj1 (acl_flows_in name a _ _ _ Ha EF)) in H' as [i' [r' [N' ->]]].
    cbn [fm_prio aw tb_add_cookie] in E. assert (i = i') by lia. congruence.
  Qed.
  Lemma login_batch : forall p mac fid ms, In p (dx_ports c) -> dp_dot1x p = true -> dp_pre p = false ->
    login_flowmod c p mac fid = Some ms -> ms = map FlowMod (login_flows p mac fid).
  Proof.
    intros p mac fid ms Hp D P H. unfold login_flowmod, del_unauthenticated, add_authenticated in H. rewrite P in H.
    apply opt_app_some in H as [y [z [E [H ->]]]]. injection E as <-. unfold login_flows.
    destruct (dp_dyn p); [|injection H as <-; reflexivity]. destruct (acl_of c fid) as [a|]; [|injection H as <-; reflexivity].
    unfold add_port_acl in H. destruct (acl_flows c a (dp_num p) (Some mac)); [|discriminate]. injection H as <-. reflexivity.
  Qed.
  (** a login or logoff on a port touches that port's entries only *)
  Lemma host_batch_about : forall p ms, (exists mac fid, login_flowmod c p mac fid = Some ms) \/ (exists mac, logoff_flowmod c p mac = Some ms) ->
    forall m, In m ms -> (exists d, m = FlowMod d /\ about (dp_num p) d) \/
      (exists w, m = FlowMod w /\ fm_cmd w = FAdd /\ fm_table w = tid /\ owns (dp_num p) (fm_match w)).
  Proof.
    intros p ms H m Hm. destruct H as [[mac [fid H]]|[mac H]].
    - unfold login_flowmod in H. apply opt_app_some in H as [y [z [E [H ->]]]]. apply in_app_iff in Hm as [Hm|Hm].
      + left. eapply del_unauth_about; eauto.
      + right. unfold add_authenticated in H.
        assert (Q : forall o x, add_port_acl c (acl_of c o) (dp_num p) (Some mac) = Some x -> In m x ->
           exists w, m = FlowMod w /\ fm_cmd w = FAdd /\ fm_table w = tid /\ owns (dp_num p) (fm_match w)).
        { intros o x Hx Hi. unfold add_port_acl in Hx. destruct (acl_of c o) as [a|] eqn:EA; [|discriminate].
          destruct (acl_of_in _ _ EA) as [name [_ Ha]]. destruct (acl_flows c a (dp_num p) (Some mac)) as [ws|] eqn:EF; [|discriminate]. injection Hx as <-.
          apply in_map_iff in Hi as [w [<- Hw]]. apply (proj1 (acl_flows_in name a _ _ _ Ha EF)) in Hw as [i [r [N ->]]].
          destruct (aw_for_host name a (dp_num p) mac i r Ha N). eauto 6. }
        destruct (dp_dyn p).
        * destruct (acl_of c fid) as [a|] eqn:EA; [apply (Q fid z); [rewrite EA|]; auto|].
          destruct (dp_pre p); [eapply Q; eauto|]. injection H as <-. destruct Hm as [<-|[]]. eexists. split; [reflexivity|].
          destruct (authed_for_host (dp_num p) mac). auto.
        * destruct (dp_pre p); [eapply Q; eauto|]. injection H as <-. destruct Hm as [<-|[]]. eexists. split; [reflexivity|].
          destruct (authed_for_host (dp_num p) mac). auto.
    - unfold logoff_flowmod in H. apply opt_app_some in H as [y [z [E [H ->]]]]. apply in_app_iff in Hm as [Hm|Hm].
      + left. eapply del_auth_about; eauto.
      + right. destruct (noauth_in p z H m Hm) as [P [a [i [r [A1 [A2 ->]]]]]]. eexists. split; [reflexivity|].
        destruct (acl_of_in _ _ A1) as [name [_ Ha]]. split; [reflexivity|]. split; [reflexivity|]. apply aw_owns. eapply acl_rule_ok; eauto.
  Qed.

  (** ** The table after a history *)
  Definition entry (s : switch) (f : flow) : Prop := In f (sw_flows s) /\ f_table f = tid.
  Record dinv (evs : list devent) (ups : list Z) (s : switch) : Prop := {
    di_ups : forall p, In p (dx_ports c) -> (In (dp_num p) ups <-> is_up evs (dp_num p) = true);
    di_all : forall f, entry s f -> f = flow_of (the_drop t) \/ exists k, owns k (f_match f);
    di_drop : entry s (flow_of (the_drop t));
    di_port : forall p, In p (dx_ports c) -> dp_dot1x p = true -> dp_pre p = false ->
      (forall f, entry s f -> owns (dp_num p) (f_match f) ->
         (In (dp_num p) ups /\ (f = flow_of (eapol_out c (dp_num p)) \/ (dp_mab p = true /\ f = flow_of (mab_flow c (dp_num p))))) \/
         (exists mac fid w, In fid (logins evs (dp_num p) mac) /\ In w (login_flows p mac fid) /\ f = flow_of w)) /\
      (In (dp_num p) ups -> entry s (flow_of (eapol_out c (dp_num p))) /\ (dp_mab p = true -> entry s (flow_of (mab_flow c (dp_num p))))) /\
      (forall mac fid l w, logins evs (dp_num p) mac = fid :: l -> In w (login_flows p mac fid) -> entry s (flow_of w));
    di_eapol : forall p, In p (dx_ports c) -> dp_dot1x p = true -> In (dp_num p) ups -> entry s (flow_of (eapol_back c (dp_num p)));
    di_nfv : forall f, entry s f -> owns (dx_nfv c) (f_match f) ->
      exists p, In p (dx_ports c) /\ dp_dot1x p = true /\ In (dp_num p) ups /\ f = flow_of (eapol_back c (dp_num p))
  }.

  Lemma table_same : forall tb, In tb (opt_tables (dx_am c)) -> tb_id tb = tid -> tb = t.
  Proof. intros tb H E. apply (NoDup_map_inj_in _ _ tb_id (opt_tables (dx_am c))); auto; [apply (dk_tables c OK)|apply t_in]. Qed.

  Lemma add_delete_false : forall w, fm_cmd w = FAdd -> is_delete (FlowMod w) = false.
  Proof. intros w E. simpl. rewrite E. reflexivity. Qed.
  Lemma about_delete : forall n d, about n d -> is_delete (FlowMod d) = true.
  Proof. intros n d [[E|E] _]; simpl; rewrite E; reflexivity. Qed.
  Lemma about_spares : forall n d f, about n d -> f_match f = [] \/ (exists k, owns k (f_match f) /\ k <> n) -> del_hits d f = false.
  Proof.
    intros n d f [C [T M]] X. unfold del_hits. destruct C as [C|C]; rewrite C.
    - destruct (covers (fm_match d) (f_match f)) eqn:E; [|rewrite andb_false_r; reflexivity]. exfalso.
      apply (owns_covered n) in E; auto. destruct X as [X|[k [[_ K] X]]]; [rewrite X in E; destruct E|]. apply K in E. congruence.
    - destruct (fmatch_eqb (f_match f) (fm_match d)) eqn:E; [|rewrite andb_false_r; reflexivity]. exfalso.
      unfold fmatch_eqb in E. destruct (fmatch_eq_dec _ _) as [E'|]; [|discriminate]. rewrite <- E' in M.
      destruct X as [X|[k [[_ K] X]]]; [rewrite X in M; destruct M|]. apply K in M. congruence.
  Qed.
  Lemma del_back_spares : forall n f, f_match f = [] \/ (exists k, owns k (f_match f) /\ k <> dx_nfv c) -> del_hits (del_back n) f = false.
  Proof. intros n f. apply (about_spares (dx_nfv c)). split; [left; reflexivity|]. split; [reflexivity|]. left. reflexivity. Qed.
  Lemma wiped : forall f d, wipes d -> del_hits d f = true.
  Proof.
    intros f d [C [T [M [O1 O2]]]]. unfold del_hits, out_sel, table_sel. rewrite C, T, M, O1, O2. reflexivity.
  Qed.

  Notation "'WD'" := (mkFlowMod FDelete OFPTT_ALL 0 [] 0 OFPP_ANY OFPG_ANY [] 0 0 0).

  Lemma connect_step : forall evs ns ms ups sh ub out s, (forall l, Permutation (sh l) l) ->
    dbatch c [] (DConnect ns) = (Some ms, ups) -> valve_flowreorder sh ub ms = Some out ->
    dinv (DConnect ns :: evs) ups (apply_msgs out s).
  Proof.
    intros evs ns ms ups sh ub out s Hsh H Ro. simpl in H. destruct (ports_add c [] ns) as [o ups'] eqn:EP.
    destruct o as [ms2|]; [|discriminate]. injection H as <- <-. rename ups' into ups.
    destruct (ports_add_in _ _ _ _ EP) as [I1 [I2 I3]].
    set (ms := (wipe_all (dx_am c) ++ default_drops (dx_am c) (dx_lowest c)) ++ ms2) in *.
    assert (K : forall m, In m ms -> m = FlowMod WD \/ (exists g, m = GroupMod GDelete g) \/
       (exists tb, In tb (opt_tables (dx_am c)) /\ m = FlowMod (the_drop tb)) \/ (exists w, m = FlowMod w /\ added ups w)).
    { intros m Hm. apply in_app_iff in Hm as [Hm|Hm]; [apply in_app_iff in Hm as [Hm|Hm]|].
      - destruct Hm as [<-|Hm]; auto. destruct (am_groups (dx_am c)); [|destruct Hm]. destruct Hm as [<-|[]]. right. left. eauto.
      - unfold default_drops in Hm. apply in_map_iff in Hm as [tb [<- Hm]]. right. right. left. eauto.
      - right. right. right. apply I2. auto. }
    assert (KA : forall w, In (FlowMod w) ms -> fm_cmd w = FAdd -> (exists tb, In tb (opt_tables (dx_am c)) /\ w = the_drop tb) \/ added ups w).
    { intros w Hw C. destruct (K _ Hw) as [E|[[g E]|[[tb [A E]]|[w' [E A]]]]]; try discriminate; injection E as ->; [discriminate|left; eauto|auto]. }
    assert (NM : forall ups w, added ups w -> fm_match w <> []).
    { intros u w A E. destruct (added_own u w A) as [_ [_ B]]. rewrite E in B.
      destruct B as [[p [_ [_ [_ [[[] _] _]]]]]|[[p [_ [_ [[[] _] _]]]]|[p [_ [_ [_ [[[] _] _]]]]]]]. }
    assert (SL : forall w w', In (FlowMod w) ms -> In (FlowMod w') ms -> fm_cmd w = FAdd -> fm_cmd w' = FAdd -> same_flow_slot w w' -> w = w').
    { intros w w' A A' B B' S. destruct (KA w A B) as [[tb [D ->]]|D]; destruct (KA w' A' B') as [[tb' [D' ->]]|D'].
      - destruct S as [E _]. simpl in E. f_equal. apply (NoDup_map_inj_in _ _ tb_id (opt_tables (dx_am c))); auto. apply (dk_tables c OK).
      - exfalso. apply (NM _ _ D'). destruct S as [_ [_ E]]. symmetry. exact E.
      - exfalso. apply (NM _ _ D). destruct S as [_ [_ E]]. exact E.
      - eapply added_slot; eauto. }
    destruct (clean_of ms) as [CB Adds]; auto.
    { intros m Hm. destruct (K m Hm) as [->|[[g ->]|[[tb [A ->]]|[w [-> A]]]]].
      - right. left. eexists. split; [reflexivity|]. split; [left; reflexivity|]. intros _. repeat split.
      - right. right. eauto.
      - left. eexists. split; reflexivity.
      - left. exists w. split; auto. apply (added_own ups w A). }
    { intros d w Hd Hw C1 C2 [S _]. destruct (K _ Hd) as [E|[[g E]|[[tb [A E]]|[w' [E A]]]]]; try discriminate; injection E as ->.
      - simpl in S. destruct (KA w Hw C2) as [[tb [D ->]]|D].
        + simpl in S. apply (proj1 (dk_tables c OK)). rewrite S. apply in_map. auto.
        + destruct (added_own _ _ D) as [_ [E _]]. rewrite E in S. apply tid_all. auto.
      - discriminate.
      - destruct (added_own _ _ A) as [E _]. congruence. }
    assert (FROM : forall f, entry (apply_msgs out s) f -> f = flow_of (the_drop t) \/ exists w, added ups w /\ f = flow_of w).
    { intros f [Hf Ft]. destruct (exact_from sh ub ms out s CB Hsh Ro Adds f Hf) as [[w [A [B ->]]]|[_ X]].
      - destruct (KA w A B) as [[tb [D ->]]|D]; [|right; eauto]. left. simpl in Ft. rewrite (table_same tb); auto.
      - exfalso. specialize (X (FlowMod WD)). simpl in X. rewrite wiped in X; [|repeat split].
        enough (true = false) by discriminate. apply X; auto. }
    assert (TO : forall w, In (FlowMod w) ms -> fm_cmd w = FAdd -> In (flow_of w) (sw_flows (apply_msgs out s))).
    { intros w A B. apply (exact_written sh ub ms out s CB Hsh Ro w A B). intros w' A' B' S. f_equal. symmetry. apply SL; auto. }
    assert (UP : forall p, In p (dx_ports c) -> (In (dp_num p) ups <-> In (dp_num p) ns)).
    { intros p Hp. rewrite I1. simpl. rewrite (port_of_self p Hp). split; [tauto|]. intros X. right. split; auto. discriminate. }
    constructor.
    - intros p Hp. rewrite UP; auto. simpl. rewrite existsb_exists. split.
      + intros X. exists (dp_num p). split; auto. apply Z.eqb_refl.
      + intros [x [X1 X2]]. apply Z.eqb_eq in X2. congruence.
    - intros f Hf. destruct (FROM f Hf) as [->|[w [A ->]]]; auto. right. destruct (added_own _ _ A) as [_ [_ B]].
      destruct B as [[p [_ [_ [_ [B _]]]]]|[[p [_ [_ [B _]]]]|[p [_ [_ [_ [B _]]]]]]]; eexists; exact B.
    - split; [|reflexivity]. apply TO; [|reflexivity]. apply in_app_iff. left. apply in_app_iff. right. apply in_map_iff. exists t. split; auto. apply t_in.
    - intros p Hp D P. split; [|split].
      + intros f Hf O. destruct (FROM f Hf) as [->|[w [A ->]]]; [destruct O as [[] _]|]. left.
        destruct (added_own _ _ A) as [_ [_ B]]. destruct B as [[p' [Hp' [D' [_ [O' _]]]]]|[[p' [Hp' [D' [O' B]]]]|[p' [Hp' [_ [_ [O' _]]]]]]].
        * assert (p' = p) by (apply port_same; auto; eapply owns_unique; eauto). congruence.
        * assert (p' = p) by (apply port_same; auto; eapply owns_unique; eauto). subst p'.
          destruct B as [[U [->|[M ->]]]|[P' _]]; [auto|auto|congruence].
        * exfalso. apply (dot1x_nfv p Hp D). eapply owns_unique; eauto.
      + intros U. apply UP in U; auto. destruct (I3 p Hp U D) as [A [_ C]].
        split; [|intros M]; (split; [|reflexivity]); (apply TO; [|reflexivity]); apply in_app_iff; right; auto.
      + intros mac fid l w X. discriminate.
    - intros p Hp D U. apply UP in U; auto. destruct (I3 p Hp U D) as [_ [A _]]. split; [|reflexivity]. apply TO; [|reflexivity]. apply in_app_iff; right; auto.
    - intros f Hf O. destruct (FROM f Hf) as [->|[w [A ->]]]; [destruct O as [[] _]|].
      destruct (added_own _ _ A) as [_ [_ B]]. destruct B as [[p' [Hp' [D' [NF [O' _]]]]]|[[p' [Hp' [D' [O' B]]]]|[p' [Hp' [D' [U [O' ->]]]]]]].
      + exfalso. apply NF. eapply owns_unique; eauto.
      + exfalso. apply (dot1x_nfv p' Hp' D'). eapply owns_unique; eauto.
      + exists p'. auto.
  Qed.

  (** ** A port comes up *)
  Lemma up_batch : forall ups n ms ups', dbatch c ups (DPortUp n) = (Some ms, ups') ->
    (forall k, In k ups' <-> In k ups \/ (k = n /\ port_of c n <> None)) /\
    (forall m, In m ms -> exists w, m = FlowMod w /\ added ups' w) /\
    (forall p, In p (dx_ports c) -> dp_num p = n -> ~ In n ups -> dp_dot1x p = true ->
       In (FlowMod (eapol_out c (dp_num p))) ms /\ In (FlowMod (eapol_back c (dp_num p))) ms /\
       (dp_mab p = true -> In (FlowMod (mab_flow c (dp_num p))) ms)).
  Proof.
    intros ups n ms ups' H. cbn [dbatch] in H. destruct (existsb (Z.eqb n) ups) eqn:E.
    - injection H as <- <-. apply existsb_exists in E as [x [X1 X2]]. apply Z.eqb_eq in X2. subst x. split; [|split].
      + intros k. split; auto. intros [A|[-> _]]; auto.
      + intros m [].
      + intros p _ _ B. contradiction.
    - destruct (ports_add_in _ _ _ _ H) as [I1 [I2 I3]]. split; [|split]; auto.
      + intros k. rewrite I1. simpl. split; intros [A|A]; auto; [destruct A as [[<-|[]] A]|destruct A as [<- A]]; auto.
      + intros p Hp Hn _ D. apply I3; auto. left. auto.
  Qed.

  Lemma login_src : forall p mac fid w m, In w (login_flows p mac fid) -> m = out_match (dp_num p) \/ m = mab_match (dp_num p) -> fm_match w <> m.
  Proof.
    intros p mac fid w m H M E. apply login_for_host in H. pose proof (fh_src _ _ _ H) as S. rewrite E in S.
    destruct M as [->| ->]; simpl in S; repeat destruct S as [S|S]; discriminate || destruct S.
  Qed.
  Lemma out_mab_slot : forall n k, same_flow_slot (eapol_out c n) (mab_flow c k) -> False.
  Proof. intros n k [_ [_ E]]. discriminate. Qed.

  Lemma up_step : forall evs ups n ms ups' sh ub out s, (forall l, Permutation (sh l) l) -> dinv evs ups s ->
    dbatch c ups (DPortUp n) = (Some ms, ups') -> valve_flowreorder sh ub ms = Some out ->
    dinv (DPortUp n :: evs) ups' (apply_msgs out s).
  Proof.
    intros evs ups n ms ups' sh ub out s Hsh I H Ro. destruct (up_batch _ _ _ _ H) as [U1 [U2 U3]]. clear H.
    assert (KA : forall w, In (FlowMod w) ms -> added ups' w).
    { intros w Hw. destruct (U2 _ Hw) as [w' [E A]]. injection E as ->. auto. }
    assert (SL : forall w w', In (FlowMod w) ms -> In (FlowMod w') ms -> fm_cmd w = FAdd -> fm_cmd w' = FAdd -> same_flow_slot w w' -> w = w').
    { intros w w' A A' _ _ S. eapply added_slot; eauto. }
    destruct (clean_of ms) as [CB Adds]; auto.
    { intros m Hm. left. destruct (U2 m Hm) as [w [-> A]]. exists w. split; auto. apply (added_own _ _ A). }
    { intros d w Hd Hw C1 C2. destruct (added_own _ _ (KA d Hd)). congruence. }
    assert (FROM : forall f, entry (apply_msgs out s) f -> (exists w, added ups' w /\ f = flow_of w) \/ entry s f).
    { intros f [Hf Ft]. destruct (exact_from sh ub ms out s CB Hsh Ro Adds f Hf) as [[w [A [B ->]]]|[X _]]; [left; eauto|right; split; auto]. }
    assert (TO : forall w, In (FlowMod w) ms -> In (flow_of w) (sw_flows (apply_msgs out s))).
    { intros w A. apply (exact_written sh ub ms out s CB Hsh Ro w A); [apply (added_own _ _ (KA w A))|]. intros w' A' B' S. f_equal. symmetry. apply SL; auto.
      apply (added_own _ _ (KA w A)). }
    assert (KEEP : forall f, entry s f -> (forall w, added ups' w -> fm_prio w = f_prio f -> fm_match w = f_match f -> flow_of w = f) -> entry (apply_msgs out s) f).
    { intros f [Hf Ft] X. split; auto. apply (exact_kept sh ub ms out s CB Hsh Ro Adds f Hf).
      - intros w A B [_ [C D]]. apply X; auto.
      - intros m Hm D. destruct (U2 m Hm) as [w [-> A]]. rewrite add_delete_false in D; [discriminate|]. apply (added_own _ _ A). }
    assert (INC : incl ups ups') by (intros k Hk; apply U1; auto).
    assert (NEW : forall p, In p (dx_ports c) -> In (dp_num p) ups' -> ~ In (dp_num p) ups -> dp_num p = n).
    { intros p Hp A B. apply U1 in A as [A|[A _]]; [contradiction|auto]. }
    assert (OWN : forall p w, In p (dx_ports c) -> dp_dot1x p = true -> dp_pre p = false -> added ups' w -> owns (dp_num p) (fm_match w) ->
        In (dp_num p) ups' /\ (w = eapol_out c (dp_num p) \/ (dp_mab p = true /\ w = mab_flow c (dp_num p)))).
    { intros p w Hp D P A O. destruct (added_own _ _ A) as [_ [_ B]]. destruct B as [[p' [Hp' [D' [_ [O' _]]]]]|[[p' [Hp' [D' [O' B]]]]|[p' [Hp' [_ [_ [O' _]]]]]]].
      * assert (p' = p) by (apply port_same; auto; eapply owns_unique; eauto). congruence.
      * assert (p' = p) by (apply port_same; auto; eapply owns_unique; eauto). subst p'.
        destruct B as [B|[P' _]]; [auto|congruence].
      * exfalso. apply (dot1x_nfv p Hp D). eapply owns_unique; eauto. }
    assert (NFV : forall w, added ups' w -> owns (dx_nfv c) (fm_match w) -> exists p, In p (dx_ports c) /\ dp_dot1x p = true /\ In (dp_num p) ups' /\ w = eapol_back c (dp_num p)).
    { intros w A O. destruct (added_own _ _ A) as [_ [_ B]]. destruct B as [[p' [Hp' [D' [NF [O' _]]]]]|[[p' [Hp' [D' [O' B]]]]|[p' [Hp' [D' [U [O' ->]]]]]]].
      + exfalso. apply NF. eapply owns_unique; eauto.
      + exfalso. apply (dot1x_nfv p' Hp' D'). eapply owns_unique; eauto.
      + exists p'. auto. }
    constructor.
    - intros p Hp. rewrite U1, (di_ups _ _ _ I p Hp). simpl. rewrite orb_true_iff, Z.eqb_eq. split.
      + intros [A|[A _]]; auto.
      + intros [A|A]; auto. right. split; auto. subst n. rewrite (port_of_self p Hp). discriminate.
    - intros f Hf. destruct (FROM f Hf) as [[w [A ->]]|A]; [|apply (di_all _ _ _ I f A)]. right.
      destruct (added_own _ _ A) as [_ [_ B]].
      destruct B as [[p [_ [_ [_ [B _]]]]]|[[p [_ [_ [B _]]]]|[p [_ [_ [_ [B _]]]]]]]; eexists; exact B.
    - apply KEEP; [apply (di_drop _ _ _ I)|]. intros w A _ M. exfalso. cbn in M. destruct (added_own _ _ A) as [_ [_ B]]. rewrite M in B.
      destruct B as [[p [_ [_ [_ [[[] _] _]]]]]|[[p [_ [_ [[[] _] _]]]]|[p [_ [_ [_ [[[] _] _]]]]]]].
    - intros p Hp D P. destruct (di_port _ _ _ I p Hp D P) as [I1 [I2 I3]]. split; [|split].
      + intros f Hf O. destruct (FROM f Hf) as [[w [A ->]]|A].
        * left. destruct (OWN p w Hp D P A O) as [X [->|[Y ->]]]; auto.
        * destruct (I1 f A O) as [[X Y]|X]; auto.
      + intros U. destruct (in_dec Z.eq_dec (dp_num p) ups) as [V|V].
        * destruct (I2 V) as [A B]. split; [|intros M]; (apply KEEP; [auto|]); intros w X Y Z.
          -- destruct (OWN p w Hp D P X) as [_ [->|[_ ->]]]; [change (owns (dp_num p) (fm_match w)); rewrite Z; apply out_owns|auto|discriminate].
          -- destruct (OWN p w Hp D P X) as [_ [->|[_ ->]]]; [change (owns (dp_num p) (fm_match w)); rewrite Z; apply mab_owns|discriminate|auto].
        * assert (E := NEW p Hp U V). destruct (U3 p Hp E) as [A [_ B]]; [congruence|auto|].
          split; [|intros M]; (split; [|reflexivity]); apply TO; auto.
      + intros mac fid l w L W. apply KEEP; [apply (I3 mac fid l w L W)|]. intros w' X Y Z. exfalso. cbn [f_match flow_of] in Z.
        destruct (OWN p w' Hp D P X) as [_ [->|[_ ->]]].
        * rewrite Z. apply (fh_owns _ _ _ (login_for_host _ _ _ _ W)).
        * symmetry in Z. revert Z. apply (login_src p mac fid w); auto.
        * symmetry in Z. revert Z. apply (login_src p mac fid w); auto.
    - intros p Hp D U. destruct (in_dec Z.eq_dec (dp_num p) ups) as [V|V].
      + apply KEEP; [apply (di_eapol _ _ _ I p Hp D V)|]. intros w X Y Z. cbn [f_match flow_of] in Z.
        destruct (NFV w X) as [p' [_ [_ [_ ->]]]]; [rewrite Z; apply back_owns|].
        assert (dp_num p' = dp_num p); [|congruence].
        change (back_match c (dp_num p') = back_match c (dp_num p)) in Z. unfold back_match, exact in Z. injection Z as E. clear - E. unfold port_mac in E. lia.
      + assert (E := NEW p Hp U V). destruct (U3 p Hp E) as [_ [A _]]; [congruence|auto|]. split; [|reflexivity]. apply TO; auto.
    - intros f Hf O. destruct (FROM f Hf) as [[w [A ->]]|A].
      + destruct (NFV w A O) as [p [X1 [X2 [X3 ->]]]]. exists p. auto.
      + destruct (di_nfv _ _ _ I f A O) as [p [X1 [X2 [X3 ->]]]]. exists p. auto.
  Qed.

  (** ** A port goes down *)
  Lemma nothing_step : forall (evs evs' : list devent) ups s sh ub out, (forall l, Permutation (sh l) l) -> dinv evs ups s ->
    valve_flowreorder sh ub [] = Some out ->
    (forall p, In p (dx_ports c) -> is_up evs' (dp_num p) = is_up evs (dp_num p)) ->
    (forall p mac, In p (dx_ports c) -> logins evs' (dp_num p) mac = logins evs (dp_num p) mac) ->
    dinv evs' ups (apply_msgs out s).
  Proof.
    intros evs evs' ups s sh ub out Hsh I Ro HU HL.
    assert (E : forall f, entry (apply_msgs out s) f <-> entry s f).
    { intros f. unfold entry. rewrite (apply_frame (fun _ => True) out s); [tauto| |auto].
      intros m Hm. destruct (reorder_invents_nothing_lemma sh ub [] out m Hsh Ro Hm) as [->|[]]. auto. }
    constructor.
    - intros p Hp. rewrite HU; auto. apply (di_ups _ _ _ I p Hp).
    - intros f Hf. apply E in Hf. apply (di_all _ _ _ I f Hf).
    - apply E, (di_drop _ _ _ I).
    - intros p Hp D P. destruct (di_port _ _ _ I p Hp D P) as [I1 [I2 I3]]. split; [|split].
      + intros f Hf O. apply E in Hf. destruct (I1 f Hf O) as [X|[mac [fid [w [X Y]]]]]; auto. right. exists mac, fid, w. rewrite HL; auto.
      + intros U. destruct (I2 U). split; [|intros M]; apply E; auto.
      + intros mac fid l w L W. rewrite HL in L; auto. apply E. eapply I3; eauto.
    - intros p Hp D U. apply E, (di_eapol _ _ _ I p Hp D U).
    - intros f Hf O. apply E in Hf. apply (di_nfv _ _ _ I f Hf O).
  Qed.

  (** a batch of deletions *)
  Lemma del_clean : forall ms, (forall m, In m ms -> exists d, m = FlowMod d /\ (fm_cmd d = FDelete \/ fm_cmd d = FDeleteStrict) /\ fm_table d = tid) ->
    clean_batch ms /\ forall w, In (FlowMod w) ms -> is_flow_write (FlowMod w) = true -> fm_cmd w = FAdd.
  Proof.
    intros ms K.
    assert (NA : forall w, In (FlowMod w) ms -> fm_cmd w = FAdd -> False).
    { intros w H C. destruct (K _ H) as [d [E [[A|A] _]]]; injection E as <-; congruence. }
    apply clean_of.
    - intros m Hm. right. left. destruct (K m Hm) as [d [-> [A B]]]. exists d. split; auto. split; auto. intros X. exfalso. apply tid_all. congruence.
    - intros w w' A _ B. exfalso. eauto.
    - intros d w _ A _ B. exfalso. eauto.
  Qed.
  Lemma del_exact : forall sh ub ms out s, (forall l, Permutation (sh l) l) -> valve_flowreorder sh ub ms = Some out ->
    (forall m, In m ms -> exists d, m = FlowMod d /\ (fm_cmd d = FDelete \/ fm_cmd d = FDeleteStrict) /\ fm_table d = tid) ->
    forall f, In f (sw_flows (apply_msgs out s)) <-> In f (sw_flows s) /\ forall d, In (FlowMod d) ms -> del_hits d f = false.
  Proof.
    intros sh ub ms out s Hsh Ro K f. destruct (del_clean ms K) as [CB Adds]. split.
    - intros Hf. destruct (exact_from sh ub ms out s CB Hsh Ro Adds f Hf) as [[w [A [B _]]]|[A B]].
      + exfalso. destruct (K _ A) as [d [E [[X|X] _]]]; injection E as <-; congruence.
      + split; auto. intros d Hd. apply (B (FlowMod d)); auto. destruct (K _ Hd) as [d' [E [[X|X] _]]]; injection E as <-; simpl; rewrite X; auto.
    - intros [A B]. apply (exact_kept sh ub ms out s CB Hsh Ro Adds f A).
      + intros w Hw W _. exfalso. destruct (K _ Hw) as [d [E [[X|X] _]]]; injection E as <-; simpl in W; rewrite X in W; discriminate.
      + intros m Hm _. destruct (K m Hm) as [d [-> _]]. apply B. auto.
  Qed.

  Lemma owned_hit : forall prio n f, f_table f = tid -> owns n (f_match f) -> del_hits (tb_del t FDelete prio [exact InPort n] OFPP_ANY) f = true.
  Proof.
    intros prio n f T [O _]. unfold del_hits, table_sel, out_sel. cbn [fm_cmd fm_table fm_match fm_out_port fm_out_group tb_del].
    rewrite T, Z.eqb_refl, orb_true_r. simpl. rewrite andb_true_r. apply andb_true_iff. split; [|reflexivity]. 
    apply existsb_exists. exists (InPort, (n, -1)). split; auto. unfold item_covers, exact. simpl. rewrite !Z.land_m1_r, !Z.eqb_refl. reflexivity.
  Qed.
  Lemma back_hit : forall n, del_hits (del_back n) (flow_of (eapol_back c n)) = true.
  Proof.
    intros n. unfold del_hits, table_sel, out_sel, del_back, eapol_back. cbn [fm_cmd fm_table fm_match fm_out_port fm_out_group tb_del flow_of tb_add tb_write f_table f_match].
    rewrite Z.eqb_refl, orb_true_r. simpl. unfold item_covers. simpl. rewrite !Z.land_m1_r, !Z.eqb_refl. reflexivity.
  Qed.
  Lemma back_miss : forall n k, del_hits (del_back n) (flow_of (eapol_back c k)) = true -> n = k.
  Proof.
    intros n k H. unfold del_hits in H. cbn [fm_cmd del_back tb_del] in H. apply andb_true_iff in H as [H _]. apply andb_true_iff in H as [_ H].
    cbn [fm_match tb_del del_back f_match flow_of eapol_back tb_add tb_write back_match] in H. unfold covers in H. rewrite forallb_forall in H.
    specialize (H (exact EthSrc (port_mac c n)) (or_intror (or_introl eq_refl))).
    apply existsb_exists in H as [[g [v m]] [A B]].
    unfold item_covers, exact in B. rewrite !andb_true_iff, !Z.eqb_eq, field_eqb_spec in B. destruct B as [[<- E1] E2].
    destruct A as [A|[A|[A|[]]]]; try discriminate A. unfold exact in A. injection A as <- <-. rewrite !Z.land_m1_r in *.
    unfold port_mac in E2. lia.
  Qed.

  Lemma down_step : forall evs ups n ms ups' sh ub out s, (forall l, Permutation (sh l) l) -> dinv evs ups s ->
    dbatch c ups (DPortDown n) = (Some ms, ups') -> valve_flowreorder sh ub ms = Some out ->
    dinv (DPortDown n :: evs) ups' (apply_msgs out s).
  Proof.
    intros evs ups n ms ups' sh ub out s Hsh I H Ro. cbn [dbatch] in H. destruct (existsb (Z.eqb n) ups) eqn:EX.
    2:{ injection H as <- <-.
        assert (N : forall p, In p (dx_ports c) -> dp_num p = n -> is_up evs n = false).
        { intros p Hp E. destruct (is_up evs n) eqn:U; auto. exfalso. rewrite <- E in U. apply (di_ups _ _ _ I p Hp) in U.
          assert (existsb (Z.eqb n) ups = true); [|congruence]. apply existsb_exists. exists (dp_num p). split; auto. apply Z.eqb_eq. auto. }
        apply (nothing_step evs _ ups s sh ub out); auto.
        - intros p Hp. simpl. destruct (n =? dp_num p) eqn:E; auto. apply Z.eqb_eq in E. simpl. rewrite <- E. symmetry. apply (N p); auto.
        - intros p mac Hp. simpl. destruct (n =? dp_num p) eqn:E; auto. apply Z.eqb_eq in E. rewrite <- E. rewrite (N p); auto. }
    destruct (port_of c n) as [p0|] eqn:EP.
    2:{ injection H as <- <-.
        assert (N : forall p, In p (dx_ports c) -> n =? dp_num p = false).
        { intros p Hp. apply Z.eqb_neq. intros ->. rewrite (port_of_self p Hp) in EP. discriminate. }
        apply (nothing_step evs _ ups s sh ub out); auto.
        - intros p Hp. simpl. rewrite N; auto.
        - intros p mac Hp. simpl. rewrite N; auto. }
    assert (HU : In n ups) by (apply existsb_exists in EX as [x [X1 X2]]; apply Z.eqb_eq in X2; subst; auto).
    destruct (port_of_in n p0 EP) as [Hp0 Np0]. injection H as H <-.
    assert (UPS : forall p, In (dp_num p) (filter (fun k => negb (k =? n)) ups) <-> In (dp_num p) ups /\ dp_num p <> n).
    { intros p. rewrite filter_In. destruct (Z.eqb_spec (dp_num p) n); simpl; intuition congruence. }
    destruct (port_delete_in p0 ms Hp0 H) as [D1 D2].
    (* the NFV port sends nothing *)
    assert (NF : forall m, In m ms -> exists d, m = FlowMod d /\
        (n <> dx_nfv c /\ about n d \/ (dp_dot1x p0 = true /\ d = del_back n))).
    { intros m Hm. destruct (D1 m Hm) as [d [-> A]]. exists d. split; auto. rewrite Np0 in A. destruct A as [A|A]; auto. left. split; auto.
      intros E. destruct (dk_nfv c OK p0 Hp0) as [X Y]; [congruence|]. unfold port_delete, manager_del, del_port, port_acls_allowed in H.
      rewrite X, Y, (dk_dp c OK) in H. injection H as <-. destruct Hm. }
    assert (K : forall m, In m ms -> exists d, m = FlowMod d /\ (fm_cmd d = FDelete \/ fm_cmd d = FDeleteStrict) /\ fm_table d = tid).
    { intros m Hm. destruct (NF m Hm) as [d [-> [[_ [A [B _]]]|[_ ->]]]]; eexists; split; auto. }
    assert (EXA := del_exact sh ub ms out s Hsh Ro K).
    assert (OLD : forall f, entry (apply_msgs out s) f -> entry s f) by (intros f [A B]; apply EXA in A as [A _]; split; auto).
    assert (KEEP : forall f, entry s f -> f_match f = [] \/ (exists k, owns k (f_match f) /\ k <> n /\ k <> dx_nfv c) -> entry (apply_msgs out s) f).
    { intros f [A B] X. split; auto. apply EXA. split; auto. intros d Hd. destruct (NF _ Hd) as [d' [E [[_ Y]|[_ Y]]]]; injection E as <-.
      - apply (about_spares n); auto. destruct X as [X|[k [X1 [X2 _]]]]; eauto.
      - rewrite Y. apply del_back_spares. destruct X as [X|[k [X1 [_ X2]]]]; eauto. }
    constructor.
    - intros p Hp. rewrite UPS, (di_ups _ _ _ I p Hp). simpl. destruct (Z.eqb_spec n (dp_num p)); simpl; intuition congruence.
    - intros f Hf. apply (di_all _ _ _ I). auto.
    - apply KEEP; [apply (di_drop _ _ _ I)|]. left. reflexivity.
    - intros p Hp D P. destruct (di_port _ _ _ I p Hp D P) as [I1 [I2 I3]]. destruct (Z.eq_dec (dp_num p) n) as [E|E].
      + assert (p = p0) by (apply port_same; auto; congruence). subst p0. split; [|split].
        * intros f Hf O. exfalso. destruct Hf as [Hf Ft]. apply EXA in Hf as [_ Hf]. destruct (D2 D) as [_ A]. apply Hf in A.
          rewrite owned_hit in A; auto. discriminate.
        * intros U. apply UPS in U. tauto.
        * intros mac fid l w L _. exfalso. simpl in L. rewrite E, Z.eqb_refl in L. simpl in L.
          assert (U := HU). rewrite <- E in U. apply (di_ups _ _ _ I p Hp) in U. rewrite <- E, U in L. discriminate.
      + assert (NL : forall mac, logins (DPortDown n :: evs) (dp_num p) mac = logins evs (dp_num p) mac).
        { intros mac. simpl. destruct (Z.eqb_spec n (dp_num p)); auto. congruence. }
        assert (X := dot1x_nfv p Hp D). split; [|split].
        * intros f Hf O. destruct (I1 f (OLD f Hf) O) as [[Y Z]|[mac [fid [w [Y Z]]]]].
          -- left. split; auto. apply UPS. auto.
          -- right. exists mac, fid, w. rewrite NL. auto.
        * intros U. apply UPS in U as [U _]. destruct (I2 U) as [Y Z]. split; [|intros M]; (apply KEEP; [auto|]); right; exists (dp_num p).
          -- split; [apply out_owns|auto].
          -- split; [apply mab_owns|auto].
        * intros mac fid l w L W. rewrite NL in L. apply KEEP; [eapply I3; eauto|]. right. exists (dp_num p).
          split; [apply (fh_owns _ _ _ (login_for_host _ _ _ _ W))|auto].
    - intros p Hp D U. apply UPS in U as [U E]. destruct (di_eapol _ _ _ I p Hp D U) as [A B]. split; auto. apply EXA. split; auto.
      intros d Hd. destruct (NF _ Hd) as [d' [X [[NN Y]|[_ Y]]]]; injection X as <-.
      + apply (about_spares n); auto. right. exists (dx_nfv c). split; [apply back_owns|auto].
      + rewrite Y. destruct (del_hits _ _) eqn:Z; auto. apply back_miss in Z. congruence.
    - intros f Hf O. destruct (di_nfv _ _ _ I f (OLD f Hf) O) as [p [Hp [D [U ->]]]]. exists p. split; auto. split; auto. split; auto.
      apply UPS. split; auto. intros E. assert (p = p0) by (apply port_same; auto; congruence). subst p0.
      destruct Hf as [Hf _]. apply EXA in Hf as [_ Hf]. destruct (D2 D) as [A _]. apply Hf in A. rewrite back_hit in A. discriminate.
  Qed.

  (** ** Hosts log in and off *)
  Definition host_batch (p : dport) (ms : list ofmsg) : Prop :=
    (exists mac fid, login_flowmod c p mac fid = Some ms) \/ (exists mac, logoff_flowmod c p mac = Some ms).

  Lemma host_frame : forall p ms sh ub out s f, (forall l, Permutation (sh l) l) -> host_batch p ms -> valve_flowreorder sh ub ms = Some out ->
    f_match f = [] \/ (exists k, owns k (f_match f) /\ k <> dp_num p) ->
    (entry (apply_msgs out s) f <-> entry s f).
  Proof.
    intros p ms sh ub out s f Hsh H Ro X. unfold entry.
    rewrite (apply_frame (fun f => f_match f = [] \/ (exists k, owns k (f_match f) /\ k <> dp_num p)) out s); [tauto| |exact X].
    intros m Hm. destruct (reorder_invents_nothing_lemma sh ub ms out m Hsh Ro Hm) as [->|Hin]; auto.
    destruct (host_batch_about p ms H m Hin) as [[d [-> A]]|[w [-> [A [B O]]]]].
    - destruct A as [[C|C] A']; rewrite C; intros g G; apply (about_spares (dp_num p)); auto; split; auto.
    - rewrite A. intros g G. unfold same_slot. destruct (fmatch_eqb (f_match g) (fm_match w)) eqn:E; [|rewrite !andb_false_r; auto].
      exfalso. unfold fmatch_eqb in E. destruct (fmatch_eq_dec _ _) as [E'|]; [|discriminate]. rewrite E' in G.
      destruct G as [G|[k [G1 G2]]]; [rewrite G in O; destruct O as [[] _]|]. apply G2. eapply owns_unique; eauto.
  Qed.
  Lemma host_all : forall p ms sh ub out s f, (forall l, Permutation (sh l) l) -> host_batch p ms -> valve_flowreorder sh ub ms = Some out ->
    entry (apply_msgs out s) f -> entry s f \/ owns (dp_num p) (f_match f).
  Proof.
    intros p ms sh ub out s f Hsh H Ro [Hf Ft].
    assert (X : In f (sw_flows s) \/ owns (dp_num p) (f_match f)); [|unfold entry; tauto].
    revert f Hf Ft.
    enough (Q : forall f, In f (sw_flows (apply_msgs out s)) -> In f (sw_flows s) \/ owns (dp_num p) (f_match f)) by (intros; auto).
    assert (K := host_batch_about p ms H).
    apply (reorder_inv (fun f => In f (sw_flows s) \/ owns (dp_num p) (f_match f)) sh ub ms out s Hsh Ro); auto.
    - intros w Hw C. destruct (K _ Hw) as [[d [E [[A|A] _]]]|[w' [E [_ [_ A]]]]]; injection E as ->; [congruence|congruence|auto].
    - intros w f Hw C. exfalso. destruct (K _ Hw) as [[d [E [[A|A] _]]]|[w' [E [A _]]]]; injection E as ->; congruence.
    - intros w Hw C. destruct (K _ Hw) as [[d [E [[A|A] _]]]|[w' [E [A _]]]]; injection E as ->; congruence.
  Qed.

  (** Everything but the port's own entries is as it was. *)
  Lemma host_step : forall evs e p ups ms sh ub out s, (forall l, Permutation (sh l) l) -> dinv evs ups s ->
    In p (dx_ports c) -> dp_dot1x p = true -> host_batch p ms -> valve_flowreorder sh ub ms = Some out ->
    (forall n, is_up (e :: evs) n = is_up evs n) ->
    (forall n mac, n <> dp_num p -> logins (e :: evs) n mac = logins evs n mac) ->
    (dp_pre p = false ->
      (forall f, entry (apply_msgs out s) f -> owns (dp_num p) (f_match f) ->
         (In (dp_num p) ups /\ (f = flow_of (eapol_out c (dp_num p)) \/ (dp_mab p = true /\ f = flow_of (mab_flow c (dp_num p))))) \/
         (exists mac fid w, In fid (logins (e :: evs) (dp_num p) mac) /\ In w (login_flows p mac fid) /\ f = flow_of w)) /\
      (In (dp_num p) ups -> entry (apply_msgs out s) (flow_of (eapol_out c (dp_num p))) /\
         (dp_mab p = true -> entry (apply_msgs out s) (flow_of (mab_flow c (dp_num p))))) /\
      (forall mac fid l w, logins (e :: evs) (dp_num p) mac = fid :: l -> In w (login_flows p mac fid) -> entry (apply_msgs out s) (flow_of w))) ->
    dinv (e :: evs) ups (apply_msgs out s).
  Proof.
    intros evs e p ups ms sh ub out s Hsh I Hp D HB Ro EU EL OWN.
    assert (FR := fun f => host_frame p ms sh ub out s f Hsh HB Ro). assert (NN := dot1x_nfv p Hp D).
    constructor.
    - intros q Hq. rewrite EU. apply (di_ups _ _ _ I q Hq).
    - intros f Hf. destruct (host_all p ms sh ub out s f Hsh HB Ro Hf) as [A|A]; [apply (di_all _ _ _ I f A)|eauto].
    - apply FR; [left; reflexivity|apply (di_drop _ _ _ I)].
    - intros q Hq Dq Pq. destruct (Z.eq_dec (dp_num q) (dp_num p)) as [E|E].
      + assert (q = p) by (apply port_same; auto). subst q. auto.
      + destruct (di_port _ _ _ I q Hq Dq Pq) as [I1 [I2 I3]]. split; [|split].
        * intros f Hf O. apply FR in Hf; [|eauto]. destruct (I1 f Hf O) as [X|[mac [fid [w [X Y]]]]]; auto.
          right. exists mac, fid, w. rewrite EL; auto.
        * intros U. destruct (I2 U) as [A B]. split; [|intros M]; (apply FR; [right; exists (dp_num q); split; auto|auto]).
          -- apply out_owns.
          -- apply mab_owns.
        * intros mac fid l w L W. rewrite EL in L; auto. apply FR; [|eapply I3; eauto]. right. exists (dp_num q). split; auto.
          apply (fh_owns _ _ _ (login_for_host _ _ _ _ W)).
    - intros q Hq Dq U. apply FR; [|apply (di_eapol _ _ _ I q Hq Dq U)]. right. exists (dx_nfv c). split; auto. apply back_owns.
    - intros f Hf O. apply FR in Hf; [|eauto]. apply (di_nfv _ _ _ I f Hf O).
  Qed.

  Lemma login_step : forall evs ups n mac fid ms ups' sh ub out s, (forall l, Permutation (sh l) l) -> dinv evs ups s ->
    dbatch c ups (DLogin n mac fid) = (Some ms, ups') -> valve_flowreorder sh ub ms = Some out ->
    dinv (DLogin n mac fid :: evs) ups' (apply_msgs out s).
  Proof.
    intros evs ups n mac fid ms ups' sh ub out s Hsh I H Ro. cbn [dbatch] in H. injection H as H <-.
    unfold dot1x_port in H. destruct (port_of c n) as [p|] eqn:EP; [|discriminate]. destruct (dp_dot1x p) eqn:D; [|discriminate].
    destruct (port_of_in n p EP) as [Hp Np].
    apply (host_step evs _ p ups ms sh ub out s); auto.
    - left. eauto.
    - intros k m NK. simpl. destruct (Z.eqb_spec n k); auto. congruence.
    - intros P. destruct (di_port _ _ _ I p Hp D P) as [I1 [I2 I3]].
      assert (MS := login_batch p mac fid ms Hp D P H). subst ms.
      assert (INV : forall w, In (FlowMod w) (map FlowMod (login_flows p mac fid)) -> In w (login_flows p mac fid)).
      { intros w X. apply in_map_iff in X as [w' [E X]]. injection E as ->. auto. }
      assert (SL : forall w w', In w (login_flows p mac fid) -> In w' (login_flows p mac fid) -> same_flow_slot w w' -> w = w').
      { intros w w' A A' [_ [S _]]. eapply login_once; eauto. }
      destruct (clean_of (map FlowMod (login_flows p mac fid))) as [CB Adds].
      { intros m Hm. apply in_map_iff in Hm as [w [<- Hw]]. left. exists w. split; auto. apply (fh_cmd _ _ _ (login_for_host _ _ _ _ Hw)). }
      { intros w w' A A' _ _ S. apply SL; auto. }
      { intros d w Hd _ C. apply INV in Hd. rewrite (fh_cmd _ _ _ (login_for_host _ _ _ _ Hd)) in C. discriminate. }
      assert (KEEP : forall f, entry s f -> (forall w, In w (login_flows p mac fid) -> f_match f <> fm_match w) -> entry (apply_msgs out s) f).
      { intros f [Hf Ft] X. split; auto. apply (exact_kept sh ub _ out s CB Hsh Ro Adds f Hf).
        - intros w A _ [_ [_ B]]. exfalso. apply (X w); auto.
        - intros m Hm Dm. apply in_map_iff in Hm as [w [<- Hw]]. rewrite add_delete_false in Dm; [discriminate|].
          apply (fh_cmd _ _ _ (login_for_host _ _ _ _ Hw)). }
      split; [|split].
      + intros f [Hf Ft] O. destruct (exact_from sh ub _ out s CB Hsh Ro Adds f Hf) as [[w [A [_ ->]]]|[A _]].
        * right. exists mac, fid, w. split; auto. simpl. rewrite Np, !Z.eqb_refl. left. auto.
        * destruct (I1 f (conj A Ft) O) as [X|[m [g [w [X Y]]]]]; auto. right. exists m, g, w. split; auto. simpl.
          destruct ((n =? dp_num p) && (mac =? m)); [right|]; auto.
      + intros U. destruct (I2 U) as [A B]. split; [|intros M]; (apply KEEP; [auto|]); intros w W E; symmetry in E; revert E;
          apply (login_src p mac fid w); auto.
      + intros m g l w L W. simpl in L. rewrite Np, Z.eqb_refl in L. simpl in L. destruct (Z.eqb_spec mac m) as [<-|NE].
        * injection L as <- <-. split; [|apply (fh_table _ _ _ (login_for_host _ _ _ _ W))].
          apply (exact_written sh ub _ out s CB Hsh Ro w); [apply in_map; auto|apply (fh_cmd _ _ _ (login_for_host _ _ _ _ W))|].
          intros w' A _ S. f_equal. symmetry. apply SL; auto.
        * apply KEEP; [rewrite <- Np in L; eapply I3; eauto|]. intros w' W' E. cbn [f_match flow_of] in E.
          assert (X := fh_src _ _ _ (login_for_host _ _ _ _ W')). rewrite <- E in X. apply (fh_only _ _ _ (login_for_host _ _ _ _ W)) in X. congruence.
  Qed.

  (** what a logoff deletes *)
  Lemma src_hit : forall n mac strict f, f_table f = tid -> owns n (f_match f) ->
    In (EthSrc, (mac, -1)) (f_match f) -> (strict = true -> f_prio f = auth_priority /\ f_match f = authed_match n mac) ->
    forall d, In (FlowMod d) (del_authed_mac c n mac strict) -> del_hits d f = true.
  Proof.
    intros n mac strict f T [O _] S X d [E|[]]. injection E as <-. unfold del_hits, table_sel, out_sel.
    destruct strict; cbn [fm_cmd fm_table fm_match fm_prio fm_out_port fm_out_group tb_del]; rewrite T, Z.eqb_refl, orb_true_r.
    - destruct (X eq_refl) as [-> ->]. rewrite Z.eqb_refl. unfold fmatch_eqb. destruct (fmatch_eq_dec _ _); [|congruence]. reflexivity.
    - simpl. rewrite !andb_true_r. apply andb_true_iff. split;
        apply existsb_exists; [exists (InPort, (n, -1))|exists (EthSrc, (mac, -1))]; (split; [assumption|]); unfold item_covers, exact; simpl; rewrite !Z.land_m1_r, !Z.eqb_refl; reflexivity.
  Qed.
  Lemma src_miss : forall n mac strict f, ~ In (EthSrc, (mac, -1)) (f_match f) ->
    forall d, In (FlowMod d) (del_authed_mac c n mac strict) -> del_hits d f = false.
  Proof.
    intros n mac strict f S d [E|[]]. injection E as <-. unfold del_hits. destruct strict; cbn [fm_cmd fm_table fm_match fm_prio tb_del].
    - destruct (fmatch_eqb _ _) eqn:E; [|rewrite !andb_false_r; auto]. exfalso. apply S. unfold fmatch_eqb in E.
      destruct (fmatch_eq_dec _ _) as [->|]; [|discriminate]. right. left. reflexivity.
    - destruct (covers _ _) eqn:E; [|rewrite !andb_false_r; auto]. exfalso. apply S. unfold covers in E. rewrite forallb_forall in E.
      specialize (E (exact EthSrc mac) (or_intror (or_introl eq_refl))). apply existsb_exists in E as [[g [v m]] [A B]].
      unfold item_covers, exact in B. rewrite !andb_true_iff, !Z.eqb_eq, field_eqb_spec in B. destruct B as [[<- E1] E2].
      rewrite !Z.land_m1_r in *. subst. auto.
  Qed.

  Lemma logoff_step : forall evs ups e n mac ms ups' sh ub out s, (forall l, Permutation (sh l) l) -> dinv evs ups s ->
    e = DLogoff n mac \/ e = DFailure n mac ->
    dbatch c ups e = (Some ms, ups') -> valve_flowreorder sh ub ms = Some out ->
    dinv (e :: evs) ups' (apply_msgs out s).
  Proof.
    intros evs ups e n mac ms ups' sh ub out s Hsh I HE H Ro.
    assert (H' : match dot1x_port c n with Some p => logoff_flowmod c p mac | None => None end = Some ms /\ ups = ups').
    { destruct HE as [->| ->]; cbn [dbatch] in H; injection H as H <-; auto. }
    destruct H' as [H' <-]. clear H. rename H' into H.
    assert (EU : forall k, is_up (e :: evs) k = is_up evs k) by (destruct HE as [->| ->]; reflexivity).
    assert (EL : forall k m, logins (e :: evs) k m = if (n =? k) && (mac =? m) then [] else logins evs k m) by (destruct HE as [->| ->]; reflexivity).
    unfold dot1x_port in H. destruct (port_of c n) as [p|] eqn:EP; [|discriminate]. destruct (dp_dot1x p) eqn:D; [|discriminate].
    destruct (port_of_in n p EP) as [Hp Np].
    apply (host_step evs _ p ups ms sh ub out s); auto.
    - right. eauto.
    - intros k m NK. rewrite EL. destruct (Z.eqb_spec n k); auto. congruence.
    - intros P. destruct (di_port _ _ _ I p Hp D P) as [I1 [I2 I3]].
      unfold logoff_flowmod, del_authenticated, add_unauthenticated in H. rewrite P in H. cbn [opt_app] in H. injection H as <-. rewrite ?app_nil_r in Ro.
      assert (EXA := fun s => del_exact sh ub _ out s Hsh Ro).
      assert (K : forall m, In m (del_authed_mac c (dp_num p) mac (negb (dp_dyn p))) -> exists d, m = FlowMod d /\ (fm_cmd d = FDelete \/ fm_cmd d = FDeleteStrict) /\ fm_table d = tid).
      { intros m [<-|[]]. eexists. split; [reflexivity|]. split; [|reflexivity]. destruct (dp_dyn p); simpl; auto. }
      specialize (EXA s K).
      assert (KEEP : forall f, entry s f -> ~ In (EthSrc, (mac, -1)) (f_match f) -> entry (apply_msgs out s) f).
      { intros f [Hf Ft] X. split; auto. apply EXA. split; auto. apply src_miss. auto. }
      split; [|split].
      + intros f [Hf Ft] O. apply EXA in Hf as [Hf Hd]. destruct (I1 f (conj Hf Ft) O) as [X|[m [g [w [X [Y Z]]]]]]; auto.
        right. exists m, g, w. split; auto. rewrite EL, Np, Z.eqb_refl. simpl. destruct (Z.eqb_spec mac m) as [<-|NE]; [|rewrite <- Np; auto].
        exfalso. assert (FH := login_for_host _ _ _ _ Y). specialize (Hd _ (or_introl eq_refl)).
        rewrite (src_hit (dp_num p) mac (negb (dp_dyn p))) in Hd; [discriminate|auto|auto| | |left; reflexivity].
        * rewrite Z. apply (fh_src _ _ _ FH).
        * intros S. unfold login_flows in Y. destruct (dp_dyn p); [discriminate|]. destruct Y as [<-|[]]. rewrite Z. split; reflexivity.
      + intros U. destruct (I2 U) as [A B]. split; [|intros M]; (apply KEEP; [auto|]); intros X; simpl in X; repeat destruct X as [X|X]; discriminate || destruct X.
      + intros m g l w L W. rewrite EL, Np, Z.eqb_refl in L. simpl in L. destruct (Z.eqb_spec mac m) as [<-|NE]; [discriminate|].
        apply KEEP; [rewrite <- Np in L; eapply I3; eauto|]. intros X. apply (fh_only _ _ _ (login_for_host _ _ _ _ W)) in X. congruence.
  Qed.

  Theorem dhistory_inv : forall evs ups s, dhistory c evs ups s -> dinv evs ups s.
  Proof.
    induction 1 as [s ns ms ups sh ub out Hsh H Ro|evs ups s e ms ups' sh ub out Hh IH Hsh H Ro].
    - eapply connect_step; eauto.
    - destruct e as [ns|n|n|n mac fid|n mac|n mac].
      + eapply connect_step; eauto.
      + eapply up_step; eauto.
      + eapply down_step; eauto.
      + eapply login_step; eauto.
      + eapply logoff_step; eauto.
      + eapply logoff_step; eauto.
  Qed.
End Conf.
