(** * Proofs about flooding *)
From Coq Require Import ZArith List Bool Lia Permutation Sorted.
From Verif Require Import PyBase PyBaseProofs OpenFlow FloodModel FloodSpec TrimProofs.
Import ListNotations.
Open Scope Z_scope.

Lemma in_ports_spec : forall q l, in_ports q l = true <-> exists r, In r l /\ p_num r = p_num q.
Proof.
  intros. unfold in_ports, port_eqb. rewrite existsb_exists.
  split; intros [r [A B]]; exists r; split; auto.
  - apply Z.eqb_eq in B; auto.
  - apply Z.eqb_eq; auto.
Qed.

Lemma filter_filter : forall A (f g : A -> bool) l,
  filter f (filter g l) = filter (fun x => g x && f x) l.
Proof.
  induction l as [|a l IH]; simpl; auto. destruct (g a) eqn:E; simpl; rewrite ?IH; auto.
Qed.

Lemma filter_head : forall A (P : A -> bool) l s r,
  filter P l = s :: r -> exists l1 l2, l = l1 ++ s :: l2 /\ P s = true /\ forall x, In x l1 -> P x = false.
Proof.
  induction l as [|a l IH]; simpl; intros s r H; [discriminate|].
  destruct (P a) eqn:E.
  - inversion H; subst. exists [], l. repeat split; auto. intros x [].
  - destruct (IH s r H) as [l1 [l2 [-> [B C]]]]. exists (a :: l1), l2. repeat split; auto.
    intros x [<-|Hx]; auto.
Qed.

Lemma filter_head_rev : forall A (P : A -> bool) l1 s l2,
  P s = true -> (forall x, In x l1 -> P x = false) -> exists r, filter P (l1 ++ s :: l2) = s :: r.
Proof.
  intros A P l1 s l2 Hs H. rewrite filter_app. simpl. rewrite Hs.
  exists (filter P l2).
  assert (E : filter P l1 = []).
  { induction l1 as [|a l1 IH]; simpl; auto. rewrite H by (left; auto). apply IH. intros; apply H; right; auto. }
  rewrite E. reflexivity.
Qed.

Lemma remove_first_in : forall s l q, NoDup (map p_num l) -> In s l ->
  (in_ports q (remove_first s l) = true <-> in_ports q l = true /\ p_num q <> p_num s).
Proof.
  induction l as [|a l IH]; intros q Hn Hs; [contradiction|].
  simpl in Hn. inversion Hn as [|x y Hx Hy]; subst. cbn [remove_first]. unfold port_eqb at 1.
  destruct (Z.eqb_spec (p_num s) (p_num a)) as [E|N].
  - rewrite !in_ports_spec. split.
    + intros [r [A B]]. split; [exists r; split; [apply in_cons|]; auto|].
      intros C. apply Hx. replace (p_num a) with (p_num r) by congruence. apply in_map; auto.
    + intros [[r [[<-|A] B]] C]; [congruence|]. exists r; auto.
  - destruct Hs as [->|Hs]; [congruence|]. specialize (IH q Hy Hs).
    change (in_ports q (a :: remove_first s l)) with (port_eqb q a || in_ports q (remove_first s l)).
    change (in_ports q (a :: l)) with (port_eqb q a || in_ports q l).
    rewrite !orb_true_iff, IH.
    unfold port_eqb. rewrite Z.eqb_eq. split; [|tauto].
    intros [A|[A B]]; split; auto. congruence.
Qed.

Section Vlan.
  Variable v : vlan.
  Hypothesis WF : wf_vlan v.

  Lemma members_eq : get_ports v = members v.
  Proof. reflexivity. Qed.

  Lemma members_inj : forall a b, In a (members v) -> In b (members v) -> p_num a = p_num b -> a = b.
  Proof. intros a b Ha Hb E. eapply NoDup_map_inj_in; eauto. apply (wf_nodup v WF). Qed.

  Lemma NoDup_map_filter : forall (P : port -> bool) l, NoDup (map p_num l) -> NoDup (map p_num (filter P l)).
  Proof.
    induction l as [|a l IH]; simpl; intros H; [constructor|]. inversion H; subst.
    destruct (P a); simpl; auto. constructor; auto.
    intros X. apply H2. apply in_map_iff in X as [b [E Hb]]. apply filter_In in Hb as [Hb _].
    rewrite <- E. apply in_map; auto.
  Qed.

  Definition is_sel (l : Z) (q : port) : bool :=
    (has_lacp q && (p_selected q && p_actor_up q)) && (p_lacp q =? l).

  Lemma selected_filter : forall l, selected_lag_members v l = filter (is_sel l) (members v).
  Proof.
    intros l. unfold selected_lag_members, lacp_up_selected_ports, lacp_ports.
    rewrite !filter_filter. apply filter_ext. intros q. unfold is_sel.
    rewrite !andb_assoc. reflexivity.
  Qed.

  Lemma lag_members_in : forall l q, In q (lag_members v l) <-> In q (members v) /\ p_lacp q <> 0 /\ p_lacp q = l.
  Proof.
    intros l q. unfold lag_members, lacp_ports. rewrite !filter_In, Z.eqb_eq. unfold has_lacp.
    rewrite negb_true_iff, Z.eqb_neq. rewrite members_eq. tauto.
  Qed.

  Lemma is_sel_spec : forall l q, is_sel l q = true <->
    p_lacp q <> 0 /\ p_selected q = true /\ p_actor_up q = true /\ p_lacp q = l.
  Proof.
    intros l q. unfold is_sel, has_lacp. rewrite !andb_true_iff, negb_true_iff, Z.eqb_neq, Z.eqb_eq. tauto.
  Qed.

  Lemma carrier_head : forall q, In q (members v) -> p_lacp q <> 0 ->
    (lag_carrier v q <-> exists r, selected_lag_members v (p_lacp q) = q :: r).
  Proof.
    intros q Hq Hl. rewrite selected_filter. split.
    - intros [S [U [l1 [l2 [E H]]]]]. rewrite E. apply filter_head_rev.
      + apply is_sel_spec; auto.
      + intros x Hx. destruct (is_sel (p_lacp q) x) eqn:X; auto. apply is_sel_spec in X as [A [B [C D]]].
        exfalso. apply (H x); auto.
    - intros [r E]. apply filter_head in E as [l1 [l2 [E [P H]]]].
      apply is_sel_spec in P as [A [B [C D]]]. repeat split; auto.
      exists l1, l2. split; auto. intros x Hx El [Sx Ux].
      specialize (H x Hx). assert (X : is_sel (p_lacp q) x = true) by (apply is_sel_spec; repeat split; congruence).
      congruence.
  Qed.

  Lemma excluded_lag_spec : forall i q, In q (members v) ->
    (in_ports q (excluded_lag_ports v i) = false <->
     (p_lacp q <> 0 -> lag_carrier v q /\ match i with Some i => p_lacp i <> p_lacp q | None => True end)).
  Proof.
    intros i q Hq.
    assert (Hex : in_ports q (excluded_lag_ports v i) = true <->
       p_lacp q <> 0 /\ ((match i with Some i => p_lacp i = p_lacp q | None => False end) \/ ~ lag_carrier v q)).
    { unfold excluded_lag_ports.
      assert (App : forall a b, in_ports q (a ++ b) = true <-> in_ports q a = true \/ in_ports q b = true).
      { intros. unfold in_ports. rewrite existsb_app, orb_true_iff. tauto. }
      rewrite App.
      assert (A1 : in_ports q (match i with Some i => if has_lacp i then lag_members v (p_lacp i) else [] | None => [] end) = true
               <-> p_lacp q <> 0 /\ match i with Some i => p_lacp i = p_lacp q | None => False end).
      { destruct i as [i|]; [|simpl; intuition discriminate].
        unfold has_lacp. destruct (Z.eqb_spec (p_lacp i) 0) as [E|N]; simpl.
        - split; [discriminate|intuition congruence].
        - rewrite in_ports_spec. split.
          + intros [r [Hr E]]. apply lag_members_in in Hr as [Hr [A B]].
            assert (r = q) by (apply members_inj; auto). subst; auto.
          + intros [A B]. exists q. split; auto. apply lag_members_in; auto. }
      assert (Mem : forall l, in_ports q (lag_members v l) = true <-> p_lacp q <> 0 /\ p_lacp q = l).
      { intros l. rewrite in_ports_spec. split.
        - intros [r [Hr E]]. apply lag_members_in in Hr as [Hr [A B]].
          assert (r = q) by (apply members_inj; auto). subst; auto.
        - intros [A B]. exists q. split; auto. apply lag_members_in; auto. }
      assert (A2 : forall keys, in_ports q (flat_map (fun l => match selected_lag_members v l with
                        | s :: _ => remove_first s (lag_members v l)
                        | [] => lag_members v l end) keys) = true
               <-> In (p_lacp q) keys /\ p_lacp q <> 0 /\ ~ lag_carrier v q).
      { assert (One : forall l, in_ports q (match selected_lag_members v l with
                        | s :: _ => remove_first s (lag_members v l)
                        | [] => lag_members v l end) = true <-> p_lacp q = l /\ p_lacp q <> 0 /\ ~ lag_carrier v q).
        { intros l. destruct (selected_lag_members v l) as [|s r] eqn:Es.
          - rewrite Mem. split.
            + intros [A B]. subst l. repeat split; auto. intros C.
              apply (carrier_head q Hq A) in C as [r C]. congruence.
            + tauto.
          - assert (Hs : In s (lag_members v l)).
            { assert (X : In s (selected_lag_members v l)) by (rewrite Es; left; auto).
              rewrite selected_filter in X. apply filter_In in X as [X Y].
              apply is_sel_spec in Y. apply lag_members_in. tauto. }
            assert (Hn : NoDup (map p_num (lag_members v l))).
            { unfold lag_members, lacp_ports. apply NoDup_map_filter, NoDup_map_filter. apply (wf_nodup v WF). }
            rewrite (remove_first_in s _ q Hn Hs), Mem. split.
            + intros [[A B] C]. subst l. repeat split; auto. intros D.
              apply (carrier_head q Hq A) in D as [r' D]. rewrite Es in D. inversion D; subst. congruence.
            + intros [A [B C]]. subst l. repeat split; auto. intros D. apply C.
              apply lag_members_in in Hs as [Hs _].
              assert (q = s) by (apply members_inj; auto). subst s.
              apply (carrier_head q Hq B). eauto. }
        induction keys as [|k keys IHk]; simpl; [intuition discriminate|].
        rewrite App, One, IHk. intuition congruence. }
      rewrite A1, A2.
      assert (K : p_lacp q <> 0 -> In (p_lacp q) (nodup Z.eq_dec (map p_lacp (lacp_ports v)))).
      { intros A. apply nodup_In, in_map. unfold lacp_ports. apply filter_In. split; [exact Hq|].
        unfold has_lacp. apply negb_true_iff, Z.eqb_neq; auto. }
      split.
      - intros [[A B]|[A [B C]]]; split; auto.
      - intros [A [B|B]]; auto. }
    destruct (in_ports q (excluded_lag_ports v i)) eqn:E.
    - assert (X := proj1 Hex eq_refl). destruct X as [A B]. split; [discriminate|].
      intros H. specialize (H A). destruct H as [C D]. destruct B as [B|B]; [|contradiction].
      destruct i; [congruence|contradiction].
    - split; auto. intros _ A. assert (N : ~ (p_lacp q <> 0 /\ ((match i with Some i => p_lacp i = p_lacp q | None => False end) \/ ~ lag_carrier v q))).
      { intros X. apply Hex in X. discriminate. }
      split.
      + (* decidable: selected head *)
        destruct (selected_lag_members v (p_lacp q)) as [|s r] eqn:Es.
        * exfalso. apply N. split; auto. right. intros C. apply (carrier_head q Hq A) in C as [r C]. congruence.
        * destruct (Z.eq_dec (p_num q) (p_num s)) as [En|Nn].
          -- assert (In s (members v)).
             { assert (X : In s (selected_lag_members v (p_lacp q))) by (rewrite Es; left; auto).
               rewrite selected_filter in X. apply filter_In in X; tauto. }
             assert (q = s) by (apply members_inj; auto). subst s. apply (carrier_head q Hq A). eauto.
          -- exfalso. apply N. split; auto. right. intros C. apply (carrier_head q Hq A) in C as [r' C].
             rewrite Es in C. inversion C; subst. congruence.
      + destruct i as [i|]; auto.
  Qed.

  (** external ports *)
  Lemma sorted_head_min : forall l a r, canonical_port_order l = a :: r ->
    forall x, In x l -> p_num a <= p_num x.
  Proof.
    intros l a r E x Hx. unfold canonical_port_order in E.
    assert (S : StronglySorted (fun a b => (p_num a <=? p_num b) = true) (py_sorted (fun a b => p_num a <=? p_num b) l)).
    { apply py_sorted_sorted.
      - intros b c. rewrite !Z.leb_le. lia.
      - intros b c d. rewrite !Z.leb_le. lia. }
    rewrite E in S. inversion S as [|? ? S1 S2]; subst.
    assert (X : In x (a :: r)) by (rewrite <- E; apply py_sorted_in; auto).
    destruct X as [->|X]; [lia|]. rewrite Forall_forall in S2. specialize (S2 x X). apply Z.leb_le in S2; auto.
  Qed.

  Lemma external_in : forall q, In q (external_ports_up v) <->
    In q (members v) /\ p_external q = true /\ p_phys_up q = true.
  Proof. intros q. unfold external_ports_up, external_ports. rewrite !filter_In. rewrite members_eq. tauto. Qed.

  Lemma external_spec : forall q ae (ext_in : bool), In q (members v) ->
    (in_ports q (let ext := canonical_port_order (external_ports_up v) in
                 if ae || ext_in then ext else tl ext) = false <->
     (p_external q = true -> p_phys_up q = true -> ae = false /\ external_carrier v q /\ ext_in = false)).
  Proof.
    intros q ae ei Hq. cbv zeta. set (ext := canonical_port_order (external_ports_up v)).
    assert (Hext : forall r, In r ext <-> In r (external_ports_up v)) by (intro; apply py_sorted_in).
    assert (Hin : forall l, (forall r, In r l -> In r ext) -> (in_ports q l = true <-> In q l)).
    { intros l Hl. rewrite in_ports_spec. split; [|intros; exists q; auto].
      intros [r [A B]]. assert (In r (members v)) by (apply Hl, Hext, external_in in A; tauto).
      assert (r = q) by (apply members_inj; auto). subst; auto. }
    assert (Nb : forall b : bool, b = false <-> ~ b = true) by (intros []; split; congruence).
    rewrite Nb. rewrite Hin.
    2:{ destruct (ae || ei); auto. intros r Hr. destruct ext; simpl in *; auto. }
    destruct (ae || ei) eqn:Eo.
    - rewrite Hext, external_in. split.
      + intros H A B. exfalso; apply H; auto.
      + intros H [A [B C]]. destruct (H B C) as [X [_ Y]]. subst. discriminate.
    - apply orb_false_iff in Eo as [-> ->].
      assert (ND : NoDup (map p_num ext)).
      { eapply Permutation_NoDup; [apply Permutation_map, py_sorted_perm|].
        unfold external_ports_up, external_ports. apply NoDup_map_filter, NoDup_map_filter, (wf_nodup v WF). }
      split.
      + intros H A B. split; auto. split; auto.
        assert (X : In q ext) by (apply Hext, external_in; auto).
        destruct ext as [|a r] eqn:Ee; [contradiction|]. simpl in H. destruct X as [->|X]; [|contradiction].
        intros y Hy E U. eapply sorted_head_min; [exact Ee|]. apply external_in; auto.
      + intros H X. destruct ext as [|a r] eqn:Ee; simpl in X; [contradiction|].
        assert (X' : In q (external_ports_up v)) by (apply Hext; right; auto).
        apply external_in in X' as [A [B C]]. destruct (H B C) as [_ [D _]].
        assert (Ha : In a (external_ports_up v)) by (apply Hext; left; auto).
        apply external_in in Ha as [A1 [B1 C1]].
        assert (p_num q <= p_num a) by (apply D; auto).
        assert (p_num a <= p_num q) by (eapply sorted_head_min; [exact Ee|apply external_in; auto]).
        assert (q = a) by (apply members_inj; auto; lia). subst a.
        simpl in ND. inversion ND; subst. apply H4. apply in_map; auto.
  Qed.

  Lemma exclude_spec : forall i ae er q, In q (members v) ->
    (in_ports q (flood_exclude v i ae er) = false <->
     (p_lacp q <> 0 -> lag_carrier v q /\ match i with Some i => p_lacp i <> p_lacp q | None => True end) /\
     (p_external q = true -> p_phys_up q = true -> ae = false /\ external_carrier v q /\
         match i with Some i => p_external i = false | None => True end) /\
     (er = true -> p_restricted q = false) /\
     (In q (v_untagged v) -> p_dot1x_vlan q = None \/ p_dot1x_vlan q = Some (v_vid v))).
  Proof.
    intros i ae er q Hq. unfold flood_exclude.
    assert (App : forall a b, in_ports q (a ++ b) = false <-> in_ports q a = false /\ in_ports q b = false).
    { intros. unfold in_ports. rewrite existsb_app, orb_false_iff. tauto. }
    rewrite !App. rewrite (excluded_lag_spec i q Hq).
    rewrite (external_spec q ae (match i with Some i => p_external i | None => false end) Hq).
    assert (Nb : forall b : bool, b = false <-> ~ b = true) by (intros []; split; congruence).
    assert (D : in_ports q (exclude_native_if_dot1x v) = false <->
       (In q (v_untagged v) -> p_dot1x_vlan q = None \/ p_dot1x_vlan q = Some (v_vid v))).
    { rewrite Nb, in_ports_spec. unfold exclude_native_if_dot1x. split.
      - intros H Hu. destruct (p_dot1x_vlan q) as [vid|] eqn:E; auto. right.
        destruct (Z.eq_dec vid (v_vid v)) as [->|N]; auto. exfalso. apply H. exists q. split; auto.
        apply filter_In. split; auto. rewrite E. apply negb_true_iff, Z.eqb_neq; auto.
      - intros H [r [Hr En]]. apply filter_In in Hr as [Hr Hc].
        assert (In r (members v)) by (unfold members; rewrite !in_app_iff; auto).
        assert (r = q) by (apply members_inj; auto). subst r.
        destruct (H Hr) as [E|E]; rewrite E in Hc; [discriminate|]. rewrite Z.eqb_refl in Hc. discriminate. }
    assert (R : in_ports q (if er then restricted_ports v else []) = false <-> (er = true -> p_restricted q = false)).
    { destruct er; [|simpl; split; auto; discriminate]. rewrite Nb, in_ports_spec. unfold restricted_ports. split.
      - intros H _. destruct (p_restricted q) eqn:E; auto. exfalso; apply H. exists q; split; auto.
        apply filter_In; auto.
      - intros H [r [Hr En]]. apply filter_In in Hr as [Hr Hc].
        assert (r = q) by (apply members_inj; auto). subst r. rewrite H in Hc; auto; discriminate. }
    rewrite D, R. destruct i; tauto.
  Qed.

  (** ** Output port lists *)
  Lemma dedupe_outputs_in : forall l n, In n (dedupe_outputs l) <-> In n l.
  Proof. intros. unfold dedupe_outputs. rewrite py_sorted_in. apply nodup_In. Qed.
  Lemma dedupe_outputs_nodup : forall l, NoDup (dedupe_outputs l).
  Proof.
    intros. unfold dedupe_outputs. eapply Permutation_NoDup; [apply py_sorted_perm|].
    apply NoDup_nodup.
  Qed.

  Definition flooded (i : option port) (ex : list port) (l : list port) : list Z :=
    dedupe_outputs (flat_map (flood_one i ex) l).

  Lemma flood_one_member : forall i ex l q, (forall x, In x l -> In x (members v)) -> In q (members v) ->
    (In (p_num q) (flooded i ex l) <-> In q l /\ is_in_port i q = false /\ in_ports q ex = false).
  Proof.
    intros i ex l q Hl Hq. unfold flooded. rewrite dedupe_outputs_in, in_flat_map.
    pose proof (wf_range v WF q Hq) as Rq. unfold OFPP_MAX in Rq.
    split.
    - intros [x [Hx Hn]]. unfold flood_one in Hn.
      destruct (is_in_port i x) eqn:Ei.
      + exfalso. destruct i as [i|]; [|contradiction]. destruct (p_hairpin i); [|contradiction].
        destruct Hn as [Hn|[]]. unfold OFPP_IN_PORT in Hn. lia.
      + destruct (in_ports x ex) eqn:Ex; [contradiction|]. destruct Hn as [Hn|Hn].
        * assert (x = q) by (apply members_inj; auto). subst; auto.
        * exfalso.
          assert (Hm : In (p_num q) (p_mirror x)).
          { destruct i as [i|]; auto. destruct (set_eqb (p_mirror i) (p_mirror x)); auto; contradiction. }
          destruct (wf_mirror v WF x (p_num q) (Hl x Hx) Hm) as [_ Hd]. apply (Hd q Hq eq_refl).
    - intros [A [B C]]. exists q. split; auto. unfold flood_one. rewrite B, C. left; auto.
  Qed.

  Lemma flood_one_in_port : forall i ex l, (forall x, In x l -> In x (members v)) ->
    (In OFPP_IN_PORT (flooded (Some i) ex l) <-> (exists x, In x l /\ p_num x = p_num i) /\ p_hairpin i = true).
  Proof.
    intros i ex l Hl. unfold flooded. rewrite dedupe_outputs_in, in_flat_map. split.
    - intros [x [Hx Hn]]. unfold flood_one, is_in_port, port_eqb in Hn.
      destruct (Z.eqb_spec (p_num x) (p_num i)) as [E|N].
      + destruct (p_hairpin i); [|contradiction]. split; eauto.
      + exfalso. destruct (in_ports x ex); [contradiction|].
        pose proof (wf_range v WF x (Hl x Hx)) as R. destruct Hn as [Hn|Hn].
        * rewrite Hn in R. unfold OFPP_IN_PORT, OFPP_MAX in R; lia.
        * destruct (set_eqb (p_mirror i) (p_mirror x)); [contradiction|].
          destruct (wf_mirror v WF x _ (Hl x Hx) Hn) as [R2 _]. unfold OFPP_IN_PORT, OFPP_MAX in R2; lia.
    - intros [[x [Hx E]] Hh]. exists x; split; auto. unfold flood_one, is_in_port, port_eqb.
      rewrite (proj2 (Z.eqb_eq _ _) E), Hh. left; auto.
  Qed.

  Lemma flood_one_none : forall ex l, (forall x, In x l -> In x (members v)) -> ~ In OFPP_IN_PORT (flooded None ex l).
  Proof.
    intros ex l Hl H. unfold flooded in H. rewrite dedupe_outputs_in, in_flat_map in H.
    destruct H as [x [Hx Hn]]. unfold flood_one, is_in_port in Hn. destruct (in_ports x ex); [contradiction|].
    pose proof (wf_range v WF x (Hl x Hx)) as R. destruct Hn as [Hn|Hn].
    - rewrite Hn in R. unfold OFPP_IN_PORT, OFPP_MAX in R; lia.
    - destruct (wf_mirror v WF x _ (Hl x Hx) Hn) as [R2 _]. unfold OFPP_IN_PORT, OFPP_MAX in R2; lia.
  Qed.

  Lemma flood_one_other : forall i ex l n, (forall x, In x l -> In x (members v)) ->
    In n (flooded i ex l) -> n <> OFPP_IN_PORT -> (forall q, In q (members v) -> p_num q <> n) ->
    exists q, In q l /\ is_in_port i q = false /\ in_ports q ex = false /\ In n (p_mirror q).
  Proof.
    intros i ex l n Hl Hn Hne Hno. unfold flooded in Hn. rewrite dedupe_outputs_in, in_flat_map in Hn.
    destruct Hn as [x [Hx Hn]]. unfold flood_one in Hn. destruct (is_in_port i x) eqn:Ei.
    - exfalso. destruct i as [i|]; [|contradiction]. destruct (p_hairpin i); [|contradiction].
      destruct Hn as [Hn|[]]. congruence.
    - destruct (in_ports x ex) eqn:Ex; [contradiction|]. exists x. repeat split; auto.
      destruct Hn as [Hn|Hn]; [exfalso; apply (Hno x); auto|].
      destruct i as [i|]; auto. destruct (set_eqb _ _); auto; contradiction.
  Qed.
End Vlan.

(** ** Emissions of a flood list *)

Definition popouts (l : list Z) : list action := match l with [] => [] | _ :: _ => PopVlan :: map out l end.
Definition pcp_prefix (b : bool) : list action := if b then [set_external_forwarding_requested] else [].
Definition pcp_packet (b : bool) (p : packet) : packet := if b then set_field VlanPcp PCP_EXT_PORT_FLAG p else p.

Lemma exec_outs : forall g live l p, exec_acts g live (map out l) p = (map (fun n => (n, p)) l, p).
Proof. induction l as [|n l IH]; intros p; simpl; auto. rewrite IH; auto. Qed.

Lemma flood_acts_shape : forall v eu i ae er, 
  let ex := flood_exclude v i ae er in
  let b := nonempty (external_ports v) && nonempty (tagged_flood_ports v eu) in
  flood_rule_actions v eu i ae er =
  pcp_prefix b ++ map out (flooded i ex (tagged_flood_ports v eu)) ++
  popouts (flooded i ex (untagged_flood_ports v eu)).
Proof.
  intros v eu i ae er ex b. unfold flood_rule_actions. fold b. f_equal.
  unfold flood_local_rule_actions, flood_port_outputs. fold ex. f_equal.
  unfold flood_untagged_port_outputs, flood_tagged_port_outputs, flooded.
  destruct (dedupe_outputs (flat_map (flood_one i ex) (untagged_flood_ports v eu))); reflexivity.
Qed.

Lemma flood_emits : forall g live v eu i ae er p,
  let ex := flood_exclude v i ae er in
  let b := nonempty (external_ports v) && nonempty (tagged_flood_ports v eu) in
  fst (exec_acts g live (flood_rule_actions v eu i ae er) p) =
  map (fun n => (n, pcp_packet b p)) (flooded i ex (tagged_flood_ports v eu)) ++
  map (fun n => (n, pop_vlan (pcp_packet b p))) (flooded i ex (untagged_flood_ports v eu)).
Proof.
  intros g live v eu i ae er p ex b. rewrite flood_acts_shape. fold ex. fold b.
  assert (P : exec_acts g live (pcp_prefix b ++ map out (flooded i ex (tagged_flood_ports v eu)) ++
     popouts (flooded i ex (untagged_flood_ports v eu))) p =
     exec_acts g live (map out (flooded i ex (tagged_flood_ports v eu)) ++
     popouts (flooded i ex (untagged_flood_ports v eu))) (pcp_packet b p)).
  { destruct b; reflexivity. }
  rewrite P, exec_acts_app, exec_outs. cbn [fst snd].
  f_equal. destruct (flooded i ex (untagged_flood_ports v eu)) as [|n l] eqn:E; auto.
  change (exec_acts g live (popouts (n :: l)) (pcp_packet b p))
    with (exec_acts g live (map out (n :: l)) (act_on PopVlan (pcp_packet b p))).
  rewrite exec_outs. reflexivity.
Qed.

Lemma copies_app : forall n a b, copies n (a ++ b) = copies n a ++ copies n b.
Proof. intros. unfold copies. rewrite filter_app, map_app. reflexivity. Qed.

Lemma copies_map : forall n x l, NoDup l ->
  copies n (map (fun m => (m, x)) l) = if existsb (Z.eqb n) l then [x] else [].
Proof.
  induction l as [|m l IH]; intros H; simpl; auto. inversion H; subst. unfold copies in *. simpl.
  rewrite (Z.eqb_sym n m). destruct (Z.eqb_spec m n) as [->|N]; simpl.
  - rewrite IH by auto. destruct (existsb (Z.eqb n) l) eqn:E; auto.
    exfalso. apply existsb_exists in E as [y [A B]]. apply Z.eqb_eq in B; subst; auto.
  - apply IH; auto.
Qed.

Lemma existsb_Zeqb : forall n l, existsb (Z.eqb n) l = true <-> In n l.
Proof.
  intros. rewrite existsb_exists. split; [intros [x [A B]]; apply Z.eqb_eq in B; subst; auto|].
  intros; exists n; split; auto. apply Z.eqb_refl.
Qed.

Lemma pcp_tagged : forall b p, pk_tags p <> [] -> same_frame_tagged p (pcp_packet b p).
Proof.
  intros b p H. destruct p as [i t h]. simpl in H. destruct t as [|[vid pcp] r]; [congruence|].
  destruct b; unfold same_frame_tagged; simpl; repeat split; auto; eauto 8.
Qed.
Lemma pcp_untagged : forall b p, same_frame_untagged p (pop_vlan (pcp_packet b p)).
Proof.
  intros b p. destruct p as [i t h]. destruct b; destruct t as [|[vid pcp] r]; unfold same_frame_untagged; simpl; auto.
Qed.

Lemma flood_ports_in : forall l eu q, In q (flood_ports l eu) <-> In q l /\ (eu = true -> p_unicast_flood q = true).
Proof.
  intros l [] q; unfold flood_ports; [rewrite filter_In|]; intuition discriminate.
Qed.

Section Flood.
  Variables (v : vlan) (eu ae er : bool) (i : option port).
  Hypothesis WF : wf_vlan v.
  Let ex := flood_exclude v i ae er.
  Let T := flooded i ex (tagged_flood_ports v eu).
  Let U := flooded i ex (untagged_flood_ports v eu).

  Lemma tagged_sub : forall x, In x (tagged_flood_ports v eu) -> In x (members v).
  Proof. intros x H. apply flood_ports_in in H as [H _]. unfold members. rewrite in_app_iff; auto. Qed.
  Lemma untagged_sub : forall x, In x (untagged_flood_ports v eu) -> In x (members v).
  Proof. intros x H. apply flood_ports_in in H as [H _]. unfold members. rewrite in_app_iff; auto. Qed.

  Lemma in_port_neq : forall q, is_in_port i q = false <-> match i with Some i => p_num q <> p_num i | None => True end.
  Proof. intros q. destruct i; simpl; [unfold port_eqb; apply Z.eqb_neq|tauto]. Qed.

  Lemma T_spec : forall q, In q (members v) -> (In (p_num q) T <-> is_tagged v q /\ eligible v eu ae er i q).
  Proof.
    intros q Hq. unfold T. rewrite (flood_one_member v WF i ex _ q tagged_sub Hq).
    unfold ex. rewrite (exclude_spec v WF i ae er q Hq), in_port_neq.
    unfold tagged_flood_ports. rewrite flood_ports_in. unfold eligible, is_tagged. tauto.
  Qed.
  Lemma U_spec : forall q, In q (members v) -> (In (p_num q) U <-> is_untagged v q /\ eligible v eu ae er i q).
  Proof.
    intros q Hq. unfold U. rewrite (flood_one_member v WF i ex _ q untagged_sub Hq).
    unfold ex. rewrite (exclude_spec v WF i ae er q Hq), in_port_neq.
    unfold untagged_flood_ports. rewrite flood_ports_in. unfold eligible, is_untagged. tauto.
  Qed.

  Lemma tagged_not_untagged : forall q, is_tagged v q -> ~ is_untagged v q.
  Proof.
    intros q A B. pose proof (wf_nodup v WF) as N. unfold members in N. rewrite map_app in N.
    apply NoDup_app_iff_ in N as [_ [_ N]]. apply (N (p_num q)); apply in_map; auto.
  Qed.

  Variables (b dd : bool) (p : packet).
  Hypothesis Tagged : pk_tags p <> [].
  Definition keep_new (dd : bool) (T U : list Z) : list Z :=
    if dd then filter (fun n => negb (existsb (Z.eqb n) T)) U else U.
  Let U' := keep_new dd T U.
  Let es := map (fun n => (n, pcp_packet b p)) T ++ map (fun n => (n, pop_vlan (pcp_packet b p))) U'.

  Lemma U'_in : forall n, In n U' -> In n U.
  Proof. intros n. unfold U', keep_new. destruct dd; auto. rewrite filter_In; tauto. Qed.
  Lemma U'_in2 : forall n, In n U -> ~ In n T -> In n U'.
  Proof.
    intros n. unfold U', keep_new. destruct dd; auto. rewrite filter_In, negb_true_iff. split; auto.
    destruct (existsb (Z.eqb n) T) eqn:E; auto. apply existsb_Zeqb in E. contradiction.
  Qed.
  Lemma U'_nodup : NoDup U'.
  Proof. unfold U', keep_new. destruct dd; [apply NoDup_filter|]; apply dedupe_outputs_nodup. Qed.

  Lemma es_copies : forall n, copies n es =
    (if existsb (Z.eqb n) T then [pcp_packet b p] else []) ++
    (if existsb (Z.eqb n) U' then [pop_vlan (pcp_packet b p)] else []).
  Proof.
    intros n. unfold es. rewrite copies_app, !copies_map; auto using U'_nodup. apply dedupe_outputs_nodup.
  Qed.

  Lemma es_tagged : forall q, is_tagged v q -> eligible v eu ae er i q ->
    exists p', copies (p_num q) es = [p'] /\ same_frame_tagged p p'.
  Proof.
    intros q Ht He. assert (Hq : In q (members v)) by (destruct He; auto).
    rewrite es_copies. exists (pcp_packet b p). split; [|apply pcp_tagged; auto].
    rewrite (proj2 (existsb_Zeqb _ _)) by (apply T_spec; auto).
    destruct (existsb (Z.eqb (p_num q)) U') eqn:E; auto.
    exfalso. apply existsb_Zeqb, U'_in, U_spec in E as [E _]; auto. eapply tagged_not_untagged; eauto.
  Qed.
  Lemma es_untagged : forall q, is_untagged v q -> eligible v eu ae er i q ->
    exists p', copies (p_num q) es = [p'] /\ same_frame_untagged p p'.
  Proof.
    intros q Ht He. assert (Hq : In q (members v)) by (destruct He; auto).
    rewrite es_copies. exists (pop_vlan (pcp_packet b p)). split; [|apply pcp_untagged; auto].
    assert (NT : ~ In (p_num q) T).
    { intros E. apply T_spec in E as [E _]; auto. eapply tagged_not_untagged; eauto. }
    rewrite (proj2 (existsb_Zeqb _ U')) by (apply U'_in2; auto; apply U_spec; auto).
    destruct (existsb (Z.eqb (p_num q)) T) eqn:E; auto.
    exfalso. apply existsb_Zeqb in E; auto.
  Qed.
  Lemma es_in : forall n, copies n es <> [] -> In n T \/ In n U.
  Proof.
    intros n Hc. rewrite es_copies in Hc.
    destruct (existsb (Z.eqb n) T) eqn:E1; [left; apply existsb_Zeqb; auto|].
    destruct (existsb (Z.eqb n) U') eqn:E2; [right; apply U'_in, existsb_Zeqb; auto|].
    simpl in Hc; congruence.
  Qed.
  Lemma es_other : forall n, n <> OFPP_IN_PORT -> (forall q, In q (members v) -> p_num q <> n) ->
    copies n es <> [] -> exists q, eligible v eu ae er i q /\ In n (p_mirror q).
  Proof.
    intros n Hn Hno Hc. apply es_in in Hc as [X|X].
    - apply (flood_one_other v i ex _ n tagged_sub) in X as [q [A [B [C D]]]]; auto.
      exists q; split; auto. assert (Hq := tagged_sub q A). apply (T_spec q Hq).
      unfold T. apply (flood_one_member v WF i ex _ q tagged_sub Hq). auto.
    - apply (flood_one_other v i ex _ n untagged_sub) in X as [q [A [B [C D]]]]; auto.
      exists q; split; auto. assert (Hq := untagged_sub q A). apply (U_spec q Hq).
      unfold U. apply (flood_one_member v WF i ex _ q untagged_sub Hq). auto.
  Qed.
  (** the hairpin copy *)
  Lemma es_in_port : forall j, i = Some j -> In j (members v) ->
    (p_hairpin j = true /\ (eu = true -> p_unicast_flood j = true) -> exists p', copies OFPP_IN_PORT es = [p'] /\
         (is_tagged v j -> same_frame_tagged p p') /\ (is_untagged v j -> same_frame_untagged p p')) /\
    (~ (p_hairpin j = true /\ (eu = true -> p_unicast_flood j = true)) -> copies OFPP_IN_PORT es = []).
  Proof.
    intros j Ej Hj.
    assert (A : In OFPP_IN_PORT T <-> is_tagged v j /\ p_hairpin j = true /\ (eu = true -> p_unicast_flood j = true)).
    { unfold T. rewrite Ej. rewrite (flood_one_in_port v WF j ex _ tagged_sub). unfold tagged_flood_ports, is_tagged. split.
      - intros [[x [Hx En]] Hh]. assert (x = j) by (apply (members_inj v WF); auto using tagged_sub).
        subst x. apply flood_ports_in in Hx. tauto.
      - intros [Ht [Hh He]]. split; auto. exists j; split; auto. apply flood_ports_in; auto. }
    assert (B : In OFPP_IN_PORT U <-> is_untagged v j /\ p_hairpin j = true /\ (eu = true -> p_unicast_flood j = true)).
    { unfold U. rewrite Ej. rewrite (flood_one_in_port v WF j ex _ untagged_sub). unfold untagged_flood_ports, is_untagged. split.
      - intros [[x [Hx En]] Hh]. assert (x = j) by (apply (members_inj v WF); auto using untagged_sub).
        subst x. apply flood_ports_in in Hx. tauto.
      - intros [Ht [Hh He]]. split; auto. exists j; split; auto. apply flood_ports_in; auto. }
    pose proof (tagged_not_untagged j) as TU.
    rewrite es_copies. split.
    - intros H.
      assert (C : is_tagged v j \/ is_untagged v j).
      { unfold is_tagged, is_untagged. unfold members in Hj. rewrite in_app_iff in Hj. tauto. }
      destruct C as [C|C].
      + rewrite (proj2 (existsb_Zeqb _ T)) by tauto.
        destruct (existsb (Z.eqb OFPP_IN_PORT) U') eqn:E.
        * exfalso. apply existsb_Zeqb, U'_in, B in E. tauto.
        * eexists; split; [reflexivity|]. split; [intros; apply pcp_tagged; auto|tauto].
      + assert (NT : ~ In OFPP_IN_PORT T) by tauto.
        rewrite (proj2 (existsb_Zeqb _ U')) by (apply U'_in2; tauto).
        destruct (existsb (Z.eqb OFPP_IN_PORT) T) eqn:E; [apply existsb_Zeqb in E; tauto|].
        eexists; split; [reflexivity|]. split; [tauto|intros; apply pcp_untagged].
    - intros H.
      destruct (existsb (Z.eqb OFPP_IN_PORT) T) eqn:E; [apply existsb_Zeqb in E; tauto|].
      destruct (existsb (Z.eqb OFPP_IN_PORT) U') eqn:E2; [apply existsb_Zeqb, U'_in in E2; tauto|].
      reflexivity.
  Qed.
  Lemma es_in_port_none : i = None -> copies OFPP_IN_PORT es = [].
  Proof.
    intros E. destruct (copies OFPP_IN_PORT es) eqn:C; auto. exfalso.
    assert (X : copies OFPP_IN_PORT es <> []) by congruence. apply es_in in X as [X|X].
    - unfold T in X. rewrite E in X. eapply flood_one_none in X; eauto. apply tagged_sub.
    - unfold U in X. rewrite E in X. eapply flood_one_none in X; eauto. apply untagged_sub.
  Qed.
  Lemma es_floods : floods v eu ae er i p es.
  Proof.
    split; [apply es_tagged|split; [apply es_untagged|split; [|apply es_other]]].
    intros q Hq Hc. apply es_in in Hc as [X|X]; [apply T_spec in X|apply U_spec in X]; tauto.
  Qed.
End Flood.

(** ** Deduplicated lists (port-specific rules) *)

Lemma dedupe_acts_outs : forall l ps as_, NoDup l ->
  dedupe_acts (map out l) ps as_ = map out (filter (fun n => negb (existsb (Z.eqb n) ps)) l).
Proof.
  induction l as [|n l IH]; intros ps as_ H; simpl; auto. inversion H; subst.
  destruct (existsb (Z.eqb n) ps) eqn:E; simpl; rewrite IH by auto; auto.
  f_equal. f_equal. apply filter_ext_in. intros m Hm. simpl.
  destruct (Z.eqb_spec m n); subst; auto. contradiction.
Qed.
Lemma dedupe_acts_outs_app : forall l r ps as_, NoDup l ->
  dedupe_acts (map out l ++ r) ps as_ =
  map out (filter (fun n => negb (existsb (Z.eqb n) ps)) l) ++ dedupe_acts r (rev l ++ ps) as_.
Proof.
  induction l as [|n l IH]; intros r ps as_ H; simpl; auto. inversion H; subst.
  destruct (existsb (Z.eqb n) ps) eqn:E; simpl; rewrite IH by auto.
  - f_equal. clear - E. rewrite <- app_assoc. simpl.
    (* seen set is the same *)
    assert (S : forall r a b c, (forall m, existsb (Z.eqb m) a = existsb (Z.eqb m) b) -> dedupe_acts r a c = dedupe_acts r b c).
    { clear. induction r as [|x r IH]; intros a b c H; simpl; auto.
      destruct x; try (destruct (existsb (action_eqb _) c); [apply IH|f_equal; apply IH]; auto).
      rewrite H. destruct (existsb (Z.eqb port) b); [apply IH; auto|f_equal; apply IH].
      intros m; simpl. rewrite H; auto. }
    apply S. intros m. rewrite !existsb_app. simpl.
    destruct (Z.eqb_spec m n); subst; simpl; auto. rewrite E. rewrite orb_true_r; auto.
  - f_equal. rewrite <- app_assoc. simpl. f_equal. f_equal.
    apply filter_ext_in. intros m Hm. simpl. destruct (Z.eqb_spec m n); subst; auto. contradiction.
Qed.

Lemma dedupe_flood : forall v eu i ae er,
  let ex := flood_exclude v i ae er in
  let b := nonempty (external_ports v) && nonempty (tagged_flood_ports v eu) in
  let T := flooded i ex (tagged_flood_ports v eu) in
  let U := flooded i ex (untagged_flood_ports v eu) in
  dedupe_acts (flood_rule_actions v eu i ae er) [] [] =
  pcp_prefix b ++ map out T ++
  match U with [] => [] | _ :: _ => PopVlan :: map out (filter (fun n => negb (existsb (Z.eqb n) T)) U) end.
Proof.
  intros v eu i ae er ex b T U. rewrite flood_acts_shape. fold ex b T U.
  assert (NT : NoDup T) by apply dedupe_outputs_nodup.
  assert (NU : NoDup U) by apply dedupe_outputs_nodup.
  assert (FT : filter (fun n => negb (existsb (Z.eqb n) [])) T = T).
  { clear. induction T; simpl; auto. f_equal; auto. }
  assert (RT : forall m, existsb (Z.eqb m) (rev T ++ []) = existsb (Z.eqb m) T).
  { intros m. rewrite app_nil_r. apply eq_true_iff_eq. rewrite !existsb_Zeqb. rewrite <- in_rev. tauto. }
  assert (Rest : forall as_, existsb (action_eqb PopVlan) as_ = false ->
     dedupe_acts (map out T ++ popouts U) [] as_ =
     map out T ++ match U with [] => [] | _ :: _ => PopVlan :: map out (filter (fun n => negb (existsb (Z.eqb n) T)) U) end).
  { intros as_ Ha. rewrite dedupe_acts_outs_app, FT by auto. f_equal.
    destruct U as [|n l] eqn:EU; auto.
    change (dedupe_acts (popouts (n :: l)) (rev T ++ []) as_) with
      (if existsb (action_eqb PopVlan) as_ then dedupe_acts (map out (n :: l)) (rev T ++ []) as_
       else PopVlan :: dedupe_acts (map out (n :: l)) (rev T ++ []) (PopVlan :: as_)).
    rewrite Ha. f_equal. rewrite dedupe_acts_outs by auto. f_equal. apply filter_ext. intros m. rewrite RT; auto. }
  destruct b; unfold pcp_prefix.
  - change (dedupe_acts ([set_external_forwarding_requested] ++ ?r) [] []) with
      (set_external_forwarding_requested :: dedupe_acts r [] [set_external_forwarding_requested]).
    rewrite Rest by reflexivity. reflexivity.
  - cbn [app]. apply Rest. reflexivity.
Qed.

Lemma flood_emits_dedupe : forall g live v eu i ae er p,
  let ex := flood_exclude v i ae er in
  let b := nonempty (external_ports v) && nonempty (tagged_flood_ports v eu) in
  let T := flooded i ex (tagged_flood_ports v eu) in
  let U := flooded i ex (untagged_flood_ports v eu) in
  fst (exec_acts g live (dedupe_acts (flood_rule_actions v eu i ae er) [] []) p) =
  map (fun n => (n, pcp_packet b p)) T ++
  map (fun n => (n, pop_vlan (pcp_packet b p))) (keep_new true T U).
Proof.
  intros g live v eu i ae er p ex b T U. rewrite dedupe_flood. fold ex b T U.
  assert (P : forall r, exec_acts g live (pcp_prefix b ++ r) p = exec_acts g live r (pcp_packet b p))
    by (intros; destruct b; reflexivity).
  rewrite P, exec_acts_app, exec_outs. cbn [fst snd]. f_equal.
  destruct U as [|n l] eqn:E; auto.
  change (exec_acts g live (PopVlan :: ?x) (pcp_packet b p)) with (exec_acts g live x (act_on PopVlan (pcp_packet b p))).
  cbn [exec_acts]. rewrite exec_outs. reflexivity.
Qed.

Lemma output_ports_pcp : forall b, output_ports (pcp_prefix b) = [].
Proof. intros []; reflexivity. Qed.

Lemma output_ports_app : forall a b, output_ports (a ++ b) = output_ports a ++ output_ports b.
Proof. intros. unfold output_ports. apply flat_map_app. Qed.
Lemma output_ports_outs : forall l, output_ports (map out l) = l.
Proof. induction l; simpl; f_equal; auto. Qed.

Lemma exec_empty_outputs : forall g live acts p,
  (forall a, In a acts -> match a with GroupAct _ => False | _ => True end) ->
  (output_ports acts = [] <-> fst (exec_acts g live acts p) = []).
Proof.
  induction acts as [|a acts IH]; intros p H; simpl; [tauto|].
  assert (H' : forall a, In a acts -> match a with GroupAct _ => False | _ => True end) by (intros; apply H; right; auto).
  specialize (H a (or_introl eq_refl)).
  destruct a; simpl; try (apply IH; auto); [|contradiction].
  specialize (IH p H'). destruct (exec_acts g live acts p); simpl in *. split; discriminate.
Qed.

(** Buckets of a flood group do what the action list does. *)
Fixpoint no_groups (acts : list action) : Prop :=
  match acts with [] => True | GroupAct _ :: _ => False | _ :: r => no_groups r end.

Lemma exec_simple_app : forall a b p,
  exec_simple (a ++ b) p =
  (fst (exec_simple a p) ++ fst (exec_simple b (snd (exec_simple a p))), snd (exec_simple b (snd (exec_simple a p)))).
Proof.
  induction a as [|x a IH]; intros b p; simpl; [destruct (exec_simple b p); auto|].
  destruct x; simpl; try apply IH.
  rewrite IH. destruct (exec_simple a p) as [e1 p1]; simpl. destruct (exec_simple b p1); reflexivity.
Qed.
Lemma flood_buckets_emit : forall g live acts pre p, no_groups acts ->
  existsb is_output pre = false ->
  flat_map (fun b => exec_bucket b p) (flood_buckets acts pre) =
  fst (exec_acts g live acts (snd (exec_simple pre p))).
Proof.
  induction acts as [|a acts IH]; intros pre p Hg Hp; simpl; auto.
  assert (Np : fst (exec_simple pre p) = []).
  { clear -Hp. revert p. induction pre as [|x pre IH]; intros p; simpl in *; auto.
    destruct x; simpl in *; try discriminate; apply IH; auto. }
  assert (St : forall x, is_output x = false -> match x with GroupAct _ => False | _ => True end ->
     snd (exec_simple (pre ++ [x]) p) = act_on x (snd (exec_simple pre p))).
  { intros x Hx Hn. rewrite exec_simple_app. simpl. destruct x; simpl in *; try discriminate; auto. }
  destruct a; simpl in *; try contradiction;
    try (rewrite IH; [rewrite St by (simpl; auto); reflexivity| auto | rewrite existsb_app, Hp; reflexivity]).
  rewrite IH by auto. unfold exec_bucket at 1. cbn [b_acts]. rewrite exec_simple_app, Np. simpl.
  destruct (exec_acts g live acts (snd (exec_simple pre p))); reflexivity.
Qed.

Lemma no_groups_outs : forall l r, no_groups r -> no_groups (map out l ++ r).
Proof. induction l; simpl; auto. Qed.
Lemma flood_no_groups : forall v eu i ae er, no_groups (flood_rule_actions v eu i ae er).
Proof.
  intros. rewrite flood_acts_shape.
  assert (H : forall b r, no_groups r -> no_groups (pcp_prefix b ++ r)) by (intros [] ?; simpl; auto).
  apply H, no_groups_outs. unfold popouts. destruct (flooded _ _ _) eqn:E; simpl; auto.
  rewrite <- (app_nil_r (map out _)). apply no_groups_outs. simpl; auto.
Qed.
Lemma dedupe_no_groups : forall l a b, no_groups l -> no_groups (dedupe_acts l a b).
Proof.
  induction l as [|x l IH]; intros a b H; simpl; auto.
  destruct x; simpl in *; try contradiction; try (destruct (existsb _ _); simpl; apply IH; auto).
Qed.

(** ** The property lemmas *)

Lemma port_flood_lemma : forall g live v eu q ae er p, wf_vlan v -> pk_tags p <> [] ->
  flood_acts_for_port v eu q ae er <> [] ->
  floods v eu ae (er && p_restricted q) (Some q) p (fst (exec_acts g live (flood_acts_for_port v eu q ae er) p)).
Proof.
  intros g live v eu q ae er p WF Ht Hn. unfold flood_acts_for_port in *.
  destruct (p_phys_up q); [|congruence].
  destruct (nonempty _); [|congruence].
  rewrite flood_emits_dedupe. apply es_floods; auto.
Qed.

Lemma no_groups_in : forall l, no_groups l -> forall a, In a l -> match a with GroupAct _ => False | _ => True end.
Proof. induction l as [|x l IH]; intros H a Ha; [contradiction|]. destruct Ha as [<-|Ha]; [destruct x; auto|]. apply IH; auto. destruct x; simpl in H; tauto. Qed.

Lemma port_no_flood_lemma : forall v eu q ae er, wf_vlan v ->
  flood_acts_for_port v eu q ae er = [] -> p_phys_up q = true ->
  forall r, ~ eligible v eu ae (er && p_restricted q) (Some q) r.
Proof.
  intros v eu q ae er WF Hn Hu r He. unfold flood_acts_for_port in Hn. rewrite Hu in Hn.
  set (p := mkPacket 1 [(1, 0)] (fun _ => None)).
  assert (F := flood_emits_dedupe (fun _ => None) (fun _ => true) v eu (Some q) ae (er && p_restricted q) p).
  cbv zeta in F.
  assert (Fl := es_floods v eu ae (er && p_restricted q) (Some q) WF
     (nonempty (external_ports v) && nonempty (tagged_flood_ports v eu)) true p ltac:(discriminate)).
  rewrite <- F in Fl. clear F.
  assert (E : fst (exec_acts (fun _ => None) (fun _ => true)
     (dedupe_acts (flood_rule_actions v eu (Some q) ae (er && p_restricted q)) [] []) p) = []).
  { apply exec_empty_outputs.
    - apply no_groups_in, dedupe_no_groups, flood_no_groups.
    - destruct (output_ports _) eqn:E; auto. simpl in Hn. rewrite Hn in E. discriminate. }
  rewrite E in Fl. destruct Fl as [A [B _]].
  assert (Hr : is_tagged v r \/ is_untagged v r).
  { destruct He as [He _]. unfold members in He. rewrite in_app_iff in He. unfold is_tagged, is_untagged. tauto. }
  destruct Hr as [Hr|Hr].
  - destruct (A r Hr He) as [p' [X _]]. discriminate.
  - destruct (B r Hr He) as [p' [X _]]. discriminate.
Qed.

Lemma vlan_flood_lemma : forall g live v eu p, wf_vlan v -> pk_tags p <> [] ->
  floods v eu false true None p (fst (exec_acts g live (flood_acts_for_vlan v eu) p)).
Proof.
  intros. unfold flood_acts_for_vlan. rewrite flood_emits.
  apply (es_floods v eu false true None H _ false p H0).
Qed.

Lemma copies_wire : forall n m es, n <> OFPP_IN_PORT ->
  copies n (wire n es) = copies OFPP_IN_PORT es /\
  (m <> n -> m <> OFPP_IN_PORT -> copies m (wire n es) = copies m es).
Proof.
  intros n m es Hn. unfold copies, wire. split.
  - induction es as [|[k p] es IH]; simpl; auto. unfold transmit.
    destruct (Z.eqb_spec k OFPP_IN_PORT) as [->|N1]; simpl.
    + rewrite Z.eqb_refl. cbn [map snd]. f_equal; exact IH.
    + destruct (Z.eqb_spec k n) as [->|N2]; simpl; auto.
      destruct (Z.eqb_spec k n); [congruence|]. auto.
  - intros Hm Hm2. induction es as [|[k p] es IH]; [reflexivity|]; cbn [flat_map filter fst]; unfold transmit.
    destruct (Z.eqb_spec k OFPP_IN_PORT) as [->|N1]; cbn [flat_map app filter fst map snd].
    + destruct (Z.eqb_spec n m); [congruence|]. destruct (Z.eqb_spec OFPP_IN_PORT m); [congruence|]. auto.
    + destruct (Z.eqb_spec k n) as [->|N2]; cbn [flat_map app filter fst map snd].
      * destruct (Z.eqb_spec n m); [congruence|]. auto.
      * destruct (Z.eqb_spec k m);cbn [flat_map app filter fst map snd]; [f_equal|]; auto.
Qed.

Lemma port_reflect_lemma : forall g live v eu q ae er p, wf_vlan v -> pk_tags p <> [] -> In q (members v) ->
  flood_acts_for_port v eu q ae er <> [] ->
  let es := fst (exec_acts g live (flood_acts_for_port v eu q ae er) p) in
  (p_hairpin q = true /\ (eu = true -> p_unicast_flood q = true) -> exists p', copies (p_num q) (wire (p_num q) es) = [p'] /\
         (is_tagged v q -> same_frame_tagged p p') /\ (is_untagged v q -> same_frame_untagged p p')) /\
  (~ (p_hairpin q = true /\ (eu = true -> p_unicast_flood q = true)) -> copies (p_num q) (wire (p_num q) es) = []).
Proof.
  intros g live v eu q ae er p WF Ht Hq Hn es.
  assert (R := wf_range v WF q Hq).
  rewrite (proj1 (copies_wire (p_num q) 0 es ltac:(unfold OFPP_MAX, OFPP_IN_PORT in *; lia))).
  unfold es. unfold flood_acts_for_port in *.
  destruct (p_phys_up q); [|congruence]. destruct (nonempty _); [|congruence].
  rewrite flood_emits_dedupe. eapply es_in_port; eauto.
Qed.

Lemma vlan_reflect_lemma : forall g live v eu q p, wf_vlan v -> pk_tags p <> [] -> In q (members v) ->
  copies (p_num q) (wire (p_num q) (fst (exec_acts g live (flood_acts_for_vlan v eu) p))) = [].
Proof.
  intros g live v eu q p WF Ht Hq. assert (R := wf_range v WF q Hq).
  rewrite (proj1 (copies_wire (p_num q) 0 _ ltac:(unfold OFPP_MAX, OFPP_IN_PORT in *; lia))).
  unfold flood_acts_for_vlan. rewrite flood_emits.
  apply (es_in_port_none v eu false true None WF _ false p); auto.
Qed.

Lemma carrier_unique : forall v q r, wf_vlan v -> lag_carrier v q -> lag_carrier v r -> 
  In q (members v) -> In r (members v) -> p_lacp q <> 0 -> p_lacp q = p_lacp r -> p_num q = p_num r.
Proof.
  intros v q r WF Cq Cr Hq Hr N E.
  apply (carrier_head v q Hq N) in Cq as [x Cq]. assert (N' : p_lacp r <> 0) by congruence.
  apply (carrier_head v r Hr N') in Cr as [y Cr]. rewrite <- E, Cq in Cr. inversion Cr; auto.
Qed.

Lemma lag_flood_lemma : forall v eu ae er i p es, wf_vlan v -> floods v eu ae er i p es ->
  forall q, In q (members v) -> p_lacp q <> 0 -> copies (p_num q) es <> [] ->
    p_selected q = true /\ p_actor_up q = true /\
    (match i with Some j => p_lacp j <> p_lacp q | None => True end) /\
    (forall r, In r (members v) -> p_lacp r = p_lacp q -> copies (p_num r) es <> [] -> p_num r = p_num q).
Proof.
  intros v eu ae er i p es WF [_ [_ [F _]]] q Hq N Hc.
  destruct (F q Hq Hc) as [_ [_ [_ [L _]]]]. destruct (L N) as [C I].
  split; [apply C|split; [apply C|split]].
  - destruct i; auto.
  - intros r Hr E Hc'. destruct (F r Hr Hc') as [_ [_ [_ [L' _]]]].
    symmetry. eapply carrier_unique; eauto. apply L'. congruence.
Qed.

Lemma group_flood_lemma : forall g live v eu i ae er p gid,
  exec_group live (mkGroup gid GT_ALL (flood_buckets (flood_rule_actions v eu i ae er) [])) p =
  fst (exec_acts g live (flood_rule_actions v eu i ae er) p).
Proof.
  intros. unfold exec_group. cbn [g_type g_buckets]. apply flood_buckets_emit; auto. apply flood_no_groups.
Qed.
