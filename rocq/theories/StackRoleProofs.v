(** * Proofs about the roles of stack ports and the floods they make *)
From Coq Require Import ZArith List Bool Permutation Lia Sorted Arith.
From Verif Require Import PyBase PyBaseProofs StackModel StackSpec StackProofs StackFloodProofs.
Import ListNotations.
Open Scope Z_scope.

Lemma tl_in : forall {A} (x : A) l, In x (tl l) -> In x l.
Proof. intros A x [|a l] H; [exact H|right; exact H]. Qed.

Lemma conn_pos : forall root s0 x, conn root s0 x -> (1 <= length (path root s0 x))%nat.
Proof. intros root s0 x H. unfold conn in H. destruct (path root s0 x); [contradiction|cbn; lia]. Qed.

Section Roles.
  Variables (f : fabric) (root : Z).
  Hypothesis AG : agreed f root.
  Variable s0 : snode.
  Hypothesis S0 : In s0 f.
  Notation path := (path root s0).
  Notation conn := (conn root s0).
  Notation child := (child root s0).
  Notation sub := (sub root s0).

  Lemma up_adj : forall s p, In s f -> In p (sn_ports s) -> sp_up p = true -> adj s0 (sn_name s) (sp_dp p).
  Proof. intros s p I P U. apply (adj_link f root AG s0 S0). destruct (ag_ends f root (proj1 AG) s p I P U) as (q & L). eauto. Qed.
  Lemma adj_up : forall s y, In s f -> adj s0 (sn_name s) y -> exists p, In p (sn_ports s) /\ sp_up p = true /\ sp_dp p = y.
  Proof.
    intros s y I A. apply (adj_link f root AG s0 S0) in A as (p & q & s' & t & Is & Ns & Ip & Up & _ & _ & _ & _ & E & _).
    exists p. assert (s' = s) by (apply (same_name f root AG); assumption). subst s'. auto.
  Qed.
  Lemma peer_distance_spec : forall s p, In s f -> In p (sn_ports s) -> sp_up p = true -> peer_distance f p = Z.of_nat (length (path (sp_dp p))).
  Proof.
    intros s p I P U. destruct (far_end f root AG s p I P U) as (t & q & It & Nt & _). unfold peer_distance.
    rewrite (proj2 (node_spec f root AG (sp_dp p) t) (conj It Nt)). rewrite (path_to_root_path f root AG s0 S0 t It), Nt. reflexivity.
  Qed.

  Variable s : snode.
  Hypothesis I : In s f.
  Let v := sn_name s.
  Hypothesis C : conn v.
  Let r := reset_peer_distances f s.
  Let all := canonical (up_ports (sn_ports s)).

  Lemma all_in : forall p, In p all <-> In p (sn_ports s) /\ sp_up p = true.
  Proof. intros p. unfold all. rewrite canonical_in, up_ports_in. reflexivity. Qed.
  Lemma all_nodup : NoDup all.
  Proof. apply canonical_nodup. apply NoDup_filter. exact (ports_nodup f root AG s I). Qed.
  Lemma all_conn : forall p, In p all -> conn (sp_dp p) /\ (length (path v) <= S (length (path (sp_dp p))))%nat.
  Proof.
    intros p J. apply all_in in J as [P U]. assert (A := up_adj s p I P U). destruct (conn_adj f root AG s0 S0 v (sp_dp p) C A) as [CD _].
    split; [exact CD|]. apply (conn_adj f root AG s0 S0 (sp_dp p) v CD). apply adj_sym. exact A.
  Qed.
  Lemma conn_len : forall x, conn x -> (1 <= length (path x))%nat.
  Proof. intros x H. unfold StackFloodProofs.conn in H. destruct (path x); [contradiction|cbn; lia]. Qed.

  Lemma is_root_spec : is_root s = (v =? root).
  Proof. unfold is_root. rewrite (ag_root f root (proj1 AG) s I). reflexivity. Qed.

  Let is_shortest p := match minimum (map (peer_distance f) all) with Some d => peer_distance f p =? d | None => false end.
  Lemma shortest_spec : v <> root -> forall p, In p all -> (is_shortest p = true <-> (length (path (sp_dp p)) < length (path v))%nat).
  Proof.
    intros NR p J. destruct (nonroot_child f root AG s0 S0 v C NR) as (w & CH). assert (D := child_dist root s0 v w CH).
    destruct (adj_up s w I) as (p0 & P0 & U0 & E0); [exact (child_adj f root AG s0 S0 v w CH)|].
    assert (J0 : In p0 all) by (apply all_in; auto). unfold is_shortest.
    assert (M := minimum_spec (map (peer_distance f) all)). destruct (minimum (map (peer_distance f) all)) as [d|].
    - destruct M as [IM LM]. apply in_map_iff in IM as (p1 & E1 & J1). assert (L0 := LM _ (in_map (peer_distance f) all p0 J0)).
      destruct (all_conn p1 J1) as [_ L1]. destruct (all_conn p J) as [_ L2].
      apply all_in in J1 as [P1 U1]. apply all_in in J as [P U]. rewrite (peer_distance_spec s p0 I P0 U0), E0 in L0.
      rewrite (peer_distance_spec s p1 I P1 U1) in E1. rewrite (peer_distance_spec s p I P U). rewrite Z.eqb_eq. split; intros; lia.
    - apply map_eq_nil in M. rewrite M in J. destruct J.
  Qed.

  Lemma towards_in : forall p, In p (ro_towards r) <-> In p all /\ (length (path (sp_dp p)) < length (path v))%nat.
  Proof.
    intros p. unfold r, reset_peer_distances. rewrite is_root_spec. destruct (Z.eqb_spec v root) as [E|NE]; cbn [ro_towards].
    - split; [intros []|]. intros [J L]. rewrite E, (path_root f root AG s0 S0) in L. cbn [length] in L. destruct (all_conn p J) as [H _]. apply conn_len in H. lia.
    - rewrite filter_In. fold all. fold (is_shortest p). split; intros [J L]; (split; [exact J|]); apply (shortest_spec NE p J); exact L.
  Qed.
  Lemma away_in : forall p, In p (ro_away r) <-> In p all /\ (length (path v) <= length (path (sp_dp p)))%nat.
  Proof.
    intros p. unfold r, reset_peer_distances. rewrite is_root_spec. destruct (Z.eqb_spec v root) as [E|NE]; cbn [ro_away]; fold all.
    - split; [|tauto]. intros J. split; [exact J|]. rewrite E, (path_root f root AG s0 S0). destruct (all_conn p J) as [H _]. apply conn_len in H. exact H.
    - rewrite filter_In. fold (is_shortest p). rewrite negb_true_iff. split; intros [J L]; (split; [exact J|]); assert (S := shortest_spec NE p J); destruct (is_shortest p); try discriminate; try reflexivity.
      + destruct (le_lt_dec (length (path v)) (length (path (sp_dp p)))) as [H|H]; [exact H|]. apply S in H. discriminate.
      + exfalso. assert (H := proj1 S eq_refl). lia.
  Qed.
  Lemma chosen_in : forall p, In p (ro_chosen r) <-> In p all /\ child v (sp_dp p).
  Proof.
    intros p. unfold r, reset_peer_distances. rewrite is_root_spec. destruct (Z.eqb_spec v root) as [E|NE]; cbn [ro_chosen].
    - split; [intros []|]. intros [_ H]. exfalso. exact (child_root f root AG s0 S0 v (sp_dp p) H E).
    - fold all. destruct (nonroot_child f root AG s0 S0 v C NE) as (w & CH). assert (CW := CH). destruct CW as [CW E].
      rewrite (path_to_root_path f root AG s0 S0 s I). fold v. rewrite E. destruct (path_hd f root AG s0 S0 w CW) as (rest & EW). rewrite EW.
      rewrite filter_In, filter_In. fold (is_shortest p). split.
      + intros [[J _] W]. apply Z.eqb_eq in W. rewrite W. auto.
      + intros [J H]. assert (W := child_parent f root AG s0 S0 v _ _ H CH). split; [|apply Z.eqb_eq; exact W]. split; [exact J|].
        apply (shortest_spec NE p J). assert (D := child_dist root s0 v _ H). lia.
  Qed.
  Lemma chosen_port_spec : match ro_chosen_port r with
    | Some q => In q (ro_chosen r) /\ forall p, In p (ro_chosen r) -> sp_no q <= sp_no p
    | None => ro_chosen r = [] end.
  Proof.
    unfold r, reset_peer_distances. rewrite is_root_spec. destruct (Z.eqb_spec v root) as [E|NE]; cbn [ro_chosen ro_chosen_port]; [reflexivity|].
    set (ch := filter _ (filter _ _)). destruct (canonical (up_ports ch)) as [|q l] eqn:E; cbn [hd_error].
    - destruct ch as [|p l] eqn:EC; [reflexivity|]. exfalso. assert (J : In p ch) by (rewrite EC; left; reflexivity).
      assert (H : In p (canonical (up_ports ch))).
      { apply canonical_in. apply up_ports_in. split; [exact J|]. unfold ch in J. apply filter_In in J as [J _]. apply filter_In in J as [J _]. apply all_in in J. apply J. }
      rewrite EC in H. rewrite E in H. destruct H.
    - destruct (canonical_hd _ _ _ E) as [H M]. apply up_ports_in in H as [H _]. split; [exact H|]. intros p J. apply M. apply up_ports_in.
      split; [exact J|]. unfold ch in J. apply filter_In in J as [J _]. apply filter_In in J as [J _]. apply all_in in J. apply J.
  Qed.
  Lemma inactive_in : forall p, In p (ro_inactive r) <-> In p (ro_away r) /\ ~ child (sp_dp p) v.
  Proof.
    intros p. assert (E : ro_inactive r = filter (fun p => negb (is_in_path s (sp_dp p) (sn_root s))) (ro_away r)).
    { unfold r, reset_peer_distances. destruct (is_root s); reflexivity. }
    rewrite E, filter_In, negb_true_iff. split; intros [J H]; (split; [exact J|]); unfold is_in_path in *; rewrite (ag_root f root (proj1 AG) s I), (shortest_same f root AG s0 S0 s I) in *;
      change (shortest_path (sn_graph s0) (sp_dp p) root) with (path (sp_dp p)) in *.
    - apply memz_false in H. intros CH. apply H. destruct CH as [_ ->]. right. destruct (path_hd f root AG s0 S0 v C) as (l & ->). left. reflexivity.
    - apply memz_false. intros K. apply H. apply (child_of f root AG s0 S0); [|exact K]. apply adj_sym. apply away_in in J as [J _].
      apply all_in in J as [P U]. exact (up_adj s p I P U).
  Qed.
  Lemma away_nodup : NoDup (ro_away r).
  Proof. unfold r, reset_peer_distances. destruct (is_root s); cbn [ro_away]; [exact all_nodup|apply NoDup_filter; exact all_nodup]. Qed.
  Lemma chosen_nodup : NoDup (ro_chosen r).
  Proof. unfold r, reset_peer_distances. destruct (is_root s); cbn [ro_chosen]; [constructor|]. do 2 apply NoDup_filter. exact all_nodup. Qed.
  Lemma all_ports : forall l, (forall p, In p l -> In p all) -> incl l (sn_ports s).
  Proof. intros l H p J. apply H in J. apply all_in in J. apply J. Qed.
  Lemma is_away_spec : forall p, In p all -> (is_away r p = true <-> (length (path v) <= length (path (sp_dp p)))%nat).
  Proof.
    intros p J. unfold is_away. rewrite (port_in_spec f root AG s p); [|exact I|apply all_in in J; apply J|apply all_ports; intros q Q; apply away_in in Q; apply Q].
    rewrite away_in. tauto.
  Qed.
  Lemma is_towards_spec : forall p, In p all -> (is_towards r p = true <-> (length (path (sp_dp p)) < length (path v))%nat).
  Proof.
    intros p J. unfold is_towards. rewrite (port_in_spec f root AG s p); [|exact I|apply all_in in J; apply J|apply all_ports; intros q Q; apply towards_in in Q; apply Q].
    rewrite towards_in. tauto.
  Qed.
  Lemma selected_spec : forall p, In p all -> (is_selected r p = true <-> ro_chosen_port r = Some p).
  Proof.
    intros p J. unfold is_selected. assert (S := chosen_port_spec). destruct (ro_chosen_port r) as [q|]; [|split; discriminate].
    destruct S as [Q _]. apply chosen_in in Q as [Q _]. apply all_in in Q as [Q _]. apply all_in in J as [P _]. split.
    - intros E. apply Z.eqb_eq in E. f_equal. exact (same_no f root AG s q p I Q P (eq_sym E)).
    - intros [= ->]. apply Z.eqb_refl.
  Qed.

  (** [p] is the one of several links to the same switch that is used: the far end
      has the lowest number. *)
  Definition best (p : sport) : Prop := forall p', In p' all -> sp_dp p' = sp_dp p -> sp_peer p <= sp_peer p'.

  Lemma remote_all : forall p, In p all -> exists q, remote f p = [q] /\ sp_no q = sp_peer p /\ sp_peer q = sp_no p /\ sp_up q = true.
  Proof.
    intros p J. apply all_in in J as [P U]. destruct (far_end f root AG s p I P U) as (t & q & It & Nt & Iq & Uq & E1 & E2 & E3 & ER).
    exists q. auto.
  Qed.
  Lemma peers_differ : forall p p', In p all -> In p' all -> sp_dp p = sp_dp p' -> sp_peer p = sp_peer p' -> p = p'.
  Proof.
    intros p p' J J' E1 E2. apply all_in in J as [P U], J' as [P' U'].
    destruct (far_end f root AG s p I P U) as (t & q & It & Nt & Iq & Uq & A1 & A2 & A3 & _).
    destruct (far_end f root AG s p' I P' U') as (t' & q' & It' & Nt' & Iq' & Uq' & B1 & B2 & B3 & _).
    assert (t = t') by (apply (same_name f root AG); congruence). subst t'. assert (q = q') by (apply (same_no f root AG t); congruence). subst q'.
    apply (same_no f root AG s); congruence.
  Qed.
  Lemma pruned_spec : forall p, In p (ro_away r) -> (mem Z.eqb (sp_no p) (ro_pruned r) = false <-> best p).
  Proof.
    intros p J. assert (E : ro_pruned r = pruned_away f (ro_away r)) by (unfold r, reset_peer_distances; destruct (is_root s); reflexivity).
    assert (JA := proj1 (proj1 (away_in p) J)).
    (* the ports of one group *)
    set (grp := fun d => filter (fun q => sp_dp q =? d) (ro_away r)).
    assert (GI : forall d q, In q (grp d) <-> In q all /\ sp_dp q = d /\ (length (path v) <= length (path d))%nat).
    { intros d q. unfold grp. rewrite filter_In, away_in, Z.eqb_eq. split; [intros [[H1 H2] H3]; subst d; auto|intros (H1 & H2 & H3); subst d; auto]. }
    (* their far ends *)
    assert (RI : forall d q', In q' (up_ports (flat_map (remote f) (grp d))) <-> exists q, In q (grp d) /\ remote f q = [q'] ).
    { intros d q'. rewrite up_ports_in, in_flat_map. split.
      - intros [(q & Q & R) _]. exists q. split; [exact Q|]. apply GI in Q as [Q _]. destruct (remote_all q Q) as (x & ER & _). rewrite ER in R |- *. destruct R as [<-|[]]. reflexivity.
      - intros (q & Q & R). split; [exists q; split; [exact Q|rewrite R; left; reflexivity]|]. apply GI in Q as [Q _]. destruct (remote_all q Q) as (x & ER & _ & _ & U). congruence. }
    assert (IN : mem Z.eqb (sp_no p) (ro_pruned r) = true <-> exists q', In q' (tl (canonical (up_ports (flat_map (remote f) (grp (sp_dp p)))))) /\ sp_peer q' = sp_no p).
    { rewrite memz, E. unfold pruned_away. rewrite in_flat_map. split.
      - intros (p1 & J1 & K). apply in_map_iff in K as (q' & EQ & K). change (filter (fun q => sp_dp q =? sp_dp p1) (ro_away r)) with (grp (sp_dp p1)) in K.
        assert (K' : In q' (canonical (up_ports (flat_map (remote f) (grp (sp_dp p1)))))) by (apply tl_in; exact K).
        apply canonical_in, RI in K' as (q & Q & R). apply GI in Q as (Q & ED & _). destruct (remote_all q Q) as (x & ER & X1 & X2 & _). rewrite R in ER. injection ER as <-.
        assert (q = p). { apply all_in in Q as [Q _]. apply all_in in JA as [P _]. apply (same_no f root AG s); [exact I|exact Q|exact P|congruence]. }
        subst q. exists q'. rewrite ED. auto.
      - intros (q' & K & EQ). exists p. split; [exact J|]. apply in_map_iff. exists q'. auto. }
    destruct (remote_all p JA) as (qp & RP & NP & PP & UP).
    assert (GP : In p (grp (sp_dp p))) by (apply GI; split; [exact JA|]; split; [reflexivity|]; apply away_in; exact J).
    assert (QP : In qp (up_ports (flat_map (remote f) (grp (sp_dp p))))) by (apply RI; exists p; auto).
    destruct (canonical (up_ports (flat_map (remote f) (grp (sp_dp p))))) as [|h rest] eqn:EC.
    { exfalso. apply canonical_in in QP. rewrite EC in QP. destruct QP. }
    destruct (canonical_hd _ _ _ EC) as [HI HM]. cbn [tl] in IN.
    assert (ND : NoDup (h :: rest)).
    { rewrite <- EC. apply canonical_nodup. apply NoDup_filter.
      assert (GN : NoDup (grp (sp_dp p))) by (apply NoDup_filter; exact away_nodup).
      assert (GA : forall q, In q (grp (sp_dp p)) -> In q all) by (intros q Q; apply GI in Q; apply Q).
      revert GN GA. generalize (grp (sp_dp p)). clear - I AG. induction l as [|a l IH]; intros GN GA; [constructor|]. cbn [flat_map].
      apply NoDup_cons_iff in GN as [NI GN]. destruct (remote_all a (GA a (or_introl eq_refl))) as (x & RX & X1 & X2 & X3). rewrite RX. cbn [app].
      constructor; [|apply IH; [exact GN|intros q Q; apply GA; right; exact Q]]. intros H. apply in_flat_map in H as (b & B & R).
      destruct (remote_all b (GA b (or_intror B))) as (y & RY & Y1 & Y2 & Y3). rewrite RY in R. destruct R as [->|[]]. apply NI.
      assert (EA : a = b). { assert (JA := GA a (or_introl eq_refl)). assert (JB := GA b (or_intror B)). apply all_in in JA as [JA _], JB as [JB _]. apply (same_no f root AG s); [exact I|exact JA|exact JB|congruence]. }
      rewrite EA. exact B. }
    apply NoDup_cons_iff in ND as [NH _].
    assert (KEY : mem Z.eqb (sp_no p) (ro_pruned r) = true <-> qp <> h).
    { rewrite IN. split.
      - intros (q' & K & EQ) ->. assert (K' : In q' (canonical (up_ports (flat_map (remote f) (grp (sp_dp p)))))) by (rewrite EC; right; exact K).
        apply canonical_in, RI in K' as (q & Q & R). apply GI in Q as (Q & ED & _). destruct (remote_all q Q) as (x & ER & X1 & X2 & _). rewrite R in ER. injection ER as <-.
        assert (q = p). { apply all_in in Q as [Q _]. apply all_in in JA as [P _]. apply (same_no f root AG s); [exact I|exact Q|exact P|congruence]. }
        subst q. rewrite R in RP. injection RP as <-. contradiction.
      - intros NE. exists qp. split; [|exact PP]. apply canonical_in in QP. rewrite EC in QP. destruct QP as [<-|QP]; [contradiction|exact QP]. }
    split.
    - intros F p' J' ED. assert (EH : qp = h). { destruct (mem Z.eqb (sp_no p) (ro_pruned r)); [discriminate|]. destruct (Z.eq_dec (sp_no qp) (sp_no h)) as [EQ|NE].
        - apply RI in HI as (q & Q & R). apply GI in Q as (Q & EQD & _). destruct (remote_all q Q) as (x & ER & X1 & X2 & _). rewrite R in ER. injection ER as <-.
          assert (q = p) by (apply peers_differ; [exact Q|exact JA|exact EQD|congruence]). subst q. congruence.
        - exfalso. assert (X : false = true); [|discriminate]. apply KEY. congruence. }
      subst h. destruct (remote_all p' J') as (q' & R' & N' & _). assert (In q' (up_ports (flat_map (remote f) (grp (sp_dp p))))).
      { apply RI. exists p'. split; [|exact R']. apply GI. split; [exact J'|]. split; [exact ED|]. apply away_in in J. apply J. }
      specialize (HM q' H). lia.
    - intros B. destruct (mem Z.eqb (sp_no p) (ro_pruned r)) eqn:M; [|reflexivity]. exfalso. apply (proj1 KEY eq_refl).
      apply RI in HI as (q & Q & R). apply GI in Q as (Q & EQD & _). destruct (remote_all q Q) as (x & ER & X1 & X2 & _). rewrite R in ER. injection ER as <-.
      assert (L1 := B q Q EQD). assert (L2 := HM qp QP). assert (q = p) by (apply peers_differ; [exact Q|exact JA|exact EQD|lia]). subst q. congruence.
  Qed.
End Roles.
