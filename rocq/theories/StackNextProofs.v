(** * Proofs about following next hops, and the final form of the flooding proof *)
From Coq Require Import ZArith List Bool Permutation Lia Arith.
From Verif Require Import PyBase PyBaseProofs StackModel StackSpec StackProofs StackFloodProofs StackRoleProofs StackOnceProofs.
Import ListNotations.
Open Scope Z_scope.

Section Follow.
  Variables (f : fabric) (root : Z).
  Hypothesis AG : agreed f root.
  Variable choose : snode -> option sport.

  Lemma follows_det : forall n x y, follows choose f n x y -> forall s, In s f -> sn_name s = y -> choose s = None ->
    forall m z, follows choose f m x z -> (m <= n)%nat /\ follows choose f (n - m) z y.
  Proof.
    intros n x y F. induction F as [x I|n s p y q z Is CH L F IH]; intros t It Nt CN m w F'.
    - destruct F' as [x I'|m s p y q z Is CH L F']; [split; [lia|constructor; exact I']|]. exfalso.
      assert (s = t) by (apply (same_name f root AG); congruence). congruence.
    - inversion F' as [x I' E1 E2 E3|m' s' p' y' q' z' Is' CH' L' F'' E1 E2 E3]; subst.
      + split; [lia|]. rewrite Nat.sub_0_r. exact (follows_next choose f n s p y q (sn_name t) Is CH L F).
      + assert (s' = s) by (apply (same_name f root AG); assumption). subst s'. rewrite CH in CH'. injection CH' as <-.
        destruct (link_unique f root AG _ _ _ _ _ _ L L') as [<- <-]. destruct (IH t It eq_refl CN m' w F'') as [LE R]. split; [lia|exact R].
  Qed.
  Lemma arrives_intro : forall n x y s, In s f -> sn_name s = y -> choose s = None -> follows choose f n x y -> arrives choose f x y n.
  Proof.
    intros n x y s I N CN F. split; [exact F|]. split; [intros m z H; apply (follows_det n x y F s I N CN m z H)|].
    intros i j z Fi Fj. destruct (follows_det n x y F s I N CN i z Fi) as [Li Ri]. destruct (follows_det n x y F s I N CN j z Fj) as [Lj Rj].
    destruct (follows_det (n - i) z y Ri s I N CN (n - j) y Rj) as [L1 _]. destruct (follows_det (n - j) z y Rj s I N CN (n - i) y Ri) as [L2 _]. lia.
  Qed.
End Follow.

Lemma follows_inv : forall choose f i x y, follows choose f i x y -> (i = O /\ y = x) \/
  exists n s p w q, i = S n /\ In s f /\ sn_name s = x /\ choose s = Some p /\ link_up f x p w q /\ follows choose f n w y.
Proof. intros choose f i x y F. destruct F as [x I|n s p w q z I C L F]; [left; auto|right]. exists n, s, p, w, q. auto 10. Qed.

Section Next.
  Variables (f : fabric) (root : Z).
  Hypothesis AG : agreed f root.
  Variable s0 : snode.
  Hypothesis S0 : In s0 f.
  Notation path := (path root s0).
  Notation conn := (conn root s0).
  Notation child := (child root s0).
  Notation sub := (sub root s0).
  Notation all s := (canonical (up_ports (sn_ports s))).
  Notation rl s := (reset_peer_distances f s).
  Notation G := (sn_graph s0).

  Lemma link_names : forall x p y q, link_up f x p y q -> In x (names f) /\ In y (names f).
  Proof. intros x p y q (s & t & Is & Ns & _ & _ & It & Nt & _). unfold names. rewrite <- Ns, <- Nt. split; apply in_map; assumption. Qed.
  Lemma chain_path : forall n x y, chain f n x y <-> exists p, is_path G x y p /\ length p = S n.
  Proof.
    intros n x y. split.
    - intros H. induction H as [x I|n x p y q z L H (r & R & E)].
      + exists [x]. split; [constructor; apply (ag_nodes f root (proj1 AG) s0 S0); exact I|reflexivity].
      + exists (x :: r). split; [apply (path_step G x z y); [apply (ag_links f root (proj1 AG) s0 S0); eauto|exact R]|cbn; congruence].
    - intros (p & P & E). revert n E. induction P as [x I|x y z p L P IH]; intros n E.
      + injection E as <-. constructor. apply (ag_nodes f root (proj1 AG) s0 S0). exact I.
      + destruct n as [|n]; [destruct (path_shape G _ _ _ P) as (r & ->); discriminate|]. apply (ag_links f root (proj1 AG) s0 S0) in L as (a & b & L).
        apply (chain_link f n x a z b y L). apply IH. cbn in E. congruence.
  Qed.
  Lemma joined_path : forall x y, joined f x y <-> connected G x y.
  Proof.
    intros x y. split.
    - intros J. induction J as [x I|x p y q z L J (r & R)].
      + exists [x]. constructor. apply (ag_nodes f root (proj1 AG) s0 S0). exact I.
      + exists (x :: r). apply (path_step G x z y); [apply (ag_links f root (proj1 AG) s0 S0); eauto|exact R].
    - intros (p & P). induction P as [x I|x y z p L P IH].
      + constructor. apply (ag_nodes f root (proj1 AG) s0 S0). exact I.
      + apply (ag_links f root (proj1 AG) s0 S0) in L as (a & b & L). exact (joined_link f x a z b y L IH).
  Qed.
  Lemma joined_trans : forall x y z, joined f x y -> joined f y z -> joined f x z.
  Proof. intros x y z J. induction J as [x I|x p y q w L J IH]; intros K; [exact K|]. exact (joined_link f x p y q z L (IH K)). Qed.
  Lemma joined_sym : forall x y, joined f x y -> joined f y x.
  Proof.
    intros x y J. induction J as [x I|x p y q w L J IH]; [constructor; exact I|]. apply (joined_trans w y x IH).
    apply (joined_link f y q x p x (link_sym f _ _ _ _ L)). constructor. apply (link_names x p y q L).
  Qed.
  Lemma shortest_distance : forall x y p, shortest_path G x y = p -> p <> [] -> distance f x y (length p - 1).
  Proof.
    intros x y p E NE. apply (shortest_path_chosen G (graph_ok_of f root AG s0 S0)) in E; [|exact NE]. destruct E as [P M].
    assert (L : (1 <= length p)%nat) by (destruct p; [contradiction|cbn; lia]). split.
    - apply chain_path. exists p. split; [exact P|lia].
    - intros m H. apply chain_path in H as (q & Q & EQ). destruct (M q Q) as [H|[H _]]; lia.
  Qed.

  (** Towards the root. *)
  Lemma follow_up : forall s, In s f -> conn (sn_name s) -> sn_name s <> root ->
    exists q t p, ro_chosen_port (rl s) = Some q /\ link_up f (sn_name s) q (sn_name t) p /\ In t f /\ child (sn_name s) (sn_name t).
  Proof.
    intros s I C NE. destruct (nonroot_chosen f root AG s0 S0 s I C NE) as (q & SE & Q & CH). destruct (ends_exist f root AG s q I Q) as (t & p & E).
    exists q, t, p. split; [exact SE|]. split; [exact (ends_link f _ _ _ _ E)|]. split; [apply E|]. replace (sn_name t) with (sp_dp q); [exact CH|apply E].
  Qed.
  Lemma root_none : forall s, In s f -> sn_name s = root -> ro_chosen_port (rl s) = None.
  Proof.
    intros s I E. unfold reset_peer_distances. rewrite (is_root_spec f root AG s I). rewrite (proj2 (Z.eqb_eq (sn_name s) root) E). reflexivity.
  Qed.
  Lemma follow_root : forall n s, length (path (sn_name s)) = S n -> In s f -> forall i y,
    (follows (fun s => ro_chosen_port (rl s)) f i (sn_name s) y <-> nth_error (path (sn_name s)) i = Some y).
  Proof.
    induction n as [|n IH]; intros s L I i y; assert (C : conn (sn_name s)) by (unfold StackFloodProofs.conn; intros E; rewrite E in L; discriminate);
      destruct (path_cases f root AG s0 S0 _ C) as [[E1 E2]|[NE (z & E & A & CZ)]].
    - rewrite E2. split.
      + intros F. apply follows_inv in F as [[-> ->]|(k & s' & p & w & q & -> & Is & NS & CH & LK & F')]; [reflexivity|].
        assert (s' = s) by (apply (same_name f root AG); assumption). subst s'. rewrite (root_none s I E1) in CH. discriminate.
      + destruct i as [|[|i]]; cbn; [|discriminate..]. intros [= <-]. constructor. unfold names. apply in_map. exact I.
    - exfalso. rewrite E in L. cbn in L. assert (P := conn_pos root s0 z CZ). lia.
    - exfalso. rewrite E2 in L. discriminate.
    - destruct (follow_up s I C NE) as (q & t & p & SE & LK & It & CH). assert (EC := proj2 CH). rewrite EC in L |- *.
      destruct i as [|i]; cbn [nth_error].
      + split; [intros F; apply follows_inv in F as [[_ ->]|(k & s' & p' & w & q' & E0 & _)]; [reflexivity|discriminate E0]|]. intros [= <-]. constructor. unfold names. apply in_map. exact I.
      + rewrite <- (IH t) by (cbn in L; congruence || assumption). split.
        * intros F. apply follows_inv in F as [[E0 _]|(k & s' & p' & w & q' & E0 & Is & NS & CH' & LK' & F')]; [discriminate E0|]. injection E0 as <-. assert (s' = s) by (apply (same_name f root AG); assumption). subst s'.
          rewrite SE in CH'. injection CH' as <-. destruct (link_unique f root AG _ _ _ _ _ _ LK LK') as [<- <-]. exact F'.
        * intros F. exact (follows_next _ f i s q (sn_name t) p y I SE LK F).
  Qed.

  (** Towards another switch, along the tree. *)
  Lemma before_spec : forall x l prev, In x l -> NoDup l -> forall pre post, l = pre ++ x :: post -> before x prev l = Some (last pre prev).
  Proof.
    intros x l. induction l as [|y l IH]; intros prev I N pre post E; [destruct I|]. cbn [before]. apply NoDup_cons_iff in N as [NI N]. destruct pre as [|a pre].
    - injection E as -> ->. rewrite Z.eqb_refl. reflexivity.
    - injection E as <- E. destruct (Z.eqb_spec y x) as [->|NE]; [exfalso; apply NI; rewrite E; apply in_or_app; right; left; reflexivity|].
      rewrite (IH y ltac:(rewrite E; apply in_or_app; right; left; reflexivity) N pre post E). destruct pre as [|b pre]; [reflexivity|].
      assert (H : forall (l : list Z) d1 d2, l <> [] -> last l d1 = last l d2).
      { clear. induction l as [|a [|b l] IH]; intros d1 d2 NE; [contradiction|reflexivity|]. cbn [last] in *. apply IH. discriminate. }
      change (last (y :: b :: pre) prev) with (last (b :: pre) prev). f_equal. apply H. discriminate.
  Qed.
  Lemma before_none : forall x l prev, ~ In x l -> before x prev l = None.
  Proof.
    intros x l. induction l as [|y l IH]; intros prev NI; [reflexivity|]. cbn [before]. destruct (Z.eqb_spec y x) as [->|NE]; [exfalso; apply NI; left; reflexivity|].
    apply IH. intros H. apply NI. right. exact H.
  Qed.
  (** The child of [v] on the path of [d]. *)
  Lemma path_child : forall d v, In v (path d) -> v <> d -> exists c pre, child c v /\ In c (path d) /\ path d = pre ++ c :: v :: tl (path v).
  Proof.
    intros d v I NE. destruct (path_suffix_of f root AG s0 S0 (length (path d)) d v (le_n _) I) as (CV & pre & E & EN).
    destruct (@exists_last Z pre) as (pre' & c & ->); [intros ->; apply NE; symmetry; apply EN; reflexivity|].
    destruct (path_hd f root AG s0 S0 v CV) as (r & ER). rewrite <- app_assoc in E. cbn [app] in E.
    assert (IC : In c (path d)) by (rewrite E; apply in_or_app; right; left; reflexivity). exists c, pre'.
    destruct (path_suffix_of f root AG s0 S0 (length (path d)) d c (le_n _) IC) as (CC & pre2 & E2 & _).
    assert (ND : NoDup (path d)). { apply (StackProofs.chosen_nodup G d root). apply (path_chosen f root AG s0 S0). apply (in_path_conn root s0 d v I). }
    destruct (path_hd f root AG s0 S0 c CC) as (rc & ERC).
    assert (EQ : forall (a b a' b' : list Z) x, NoDup (a ++ x :: b) -> a ++ x :: b = a' ++ x :: b' -> b = b').
    { clear. induction a as [|y a IH]; intros b a' b' x N E.
      - destruct a' as [|z a']; [injection E as E; exact E|]. exfalso. injection E as -> E. apply NoDup_cons_iff in N as [N _]. apply N. rewrite E. apply in_or_app. right. left. reflexivity.
      - destruct a' as [|z a']; injection E as -> E.
        + exfalso. apply NoDup_cons_iff in N as [N _]. apply N. apply in_or_app. right. left. reflexivity.
        + apply NoDup_cons_iff in N as [_ N]. exact (IH b a' b' x N E). }
    assert (RC : path v = rc). { rewrite ERC in E2. apply (EQ pre' (path v) pre2 rc c); [rewrite <- E; exact ND|rewrite <- E, <- E2; reflexivity]. }
    split; [split; [exact CV|rewrite ERC, RC; reflexivity]|]. split; [exact IC|]. rewrite E, ER. reflexivity.
  Qed.

  Section To.
    Variable d : Z.
    Hypothesis CD : conn d.
    Notation rel := (fun s => relative_port_towards f s d).

    Lemma dst_path : forall s, In s f -> shortest_path (sn_graph s) d (sn_root s) = path d.
    Proof. intros s I. rewrite (ag_root f root (proj1 AG) s I). apply (shortest_same f root AG s0 S0 s I). Qed.
    Lemma rel_nonempty : forall s, In s f -> conn (sn_name s) -> path_to_root s <> [].
    Proof. intros s I C. rewrite (path_to_root_path f root AG s0 S0 s I). exact C. Qed.
    Lemma rel_up : forall s, In s f -> conn (sn_name s) -> ~ In (sn_name s) (path d) -> rel s = ro_chosen_port (rl s).
    Proof.
      intros s I C NI. unfold relative_port_towards. assert (NE := rel_nonempty s I C). destruct (path_to_root s); [contradiction|].
      destruct (Z.eqb_spec (sn_name s) d) as [E|_]; [exfalso; apply NI; rewrite E; destruct (path_hd f root AG s0 S0 d CD) as (r & ->); left; reflexivity|].
      rewrite (dst_path s I), before_none by exact NI. reflexivity.
    Qed.
    Lemma rel_down : forall s, In s f -> In (sn_name s) (path d) -> sn_name s <> d ->
      exists p c q, rel s = Some p /\ child c (sn_name s) /\ In c (path d) /\ link_up f (sn_name s) p c q.
    Proof.
      intros s I IN NE. destruct (path_suffix_of f root AG s0 S0 (length (path d)) d (sn_name s) (le_n _) IN) as (C & _).
      unfold relative_port_towards. assert (NEP := rel_nonempty s I C). destruct (path_to_root s); [contradiction|].
      rewrite (proj2 (Z.eqb_neq _ _) NE), (dst_path s I). destruct (path_child d (sn_name s) IN NE) as (c & pre & CH & IC & EP).
      assert (ND : NoDup (path d)) by (apply (StackProofs.chosen_nodup G d root); exact (path_chosen f root AG s0 S0 d CD)).
      rewrite (before_spec (sn_name s) (path d) (last (path d) 0) IN ND (pre ++ [c]) (tl (path (sn_name s)))) by (rewrite EP, <- app_assoc; reflexivity).
      rewrite last_last. destruct (node_named f root AG s0 S0 c (child_conn root s0 _ _ CH)) as (t & It & Nt). subst c.
      assert (CT := child_conn root s0 _ _ CH).
      destruct (nonroot_chosen f root AG s0 S0 t It CT (child_root f root AG s0 S0 _ _ CH)) as (q & SE & Q & CQ).
      assert (W := child_parent f root AG s0 S0 _ _ _ CQ CH). destruct (ends_to f root AG t q s It I Q W) as (p & E). apply ends_sym in E.
      assert (DP : sp_dp p = sn_name t) by apply E. assert (P : In p (all s)) by apply E.
      assert (B := proj2 (meet f root AG s0 S0 s p t q E CH) SE).
      assert (PR : is_pruned (rl s) p = false) by (apply (pruned_down f root AG s0 S0 s p I P); [rewrite DP; exact CH|exact B]).
      assert (AW := child_away f root AG s0 S0 s p I P ltac:(rewrite DP; exact CH)).
      destruct (find (fun q => (sp_dp q =? sn_name t) && negb (is_pruned (rl s) q)) (ro_away (rl s))) as [p'|] eqn:F.
      - apply find_some in F as [J F]. apply andb_true_iff in F as [F1 F2]. apply Z.eqb_eq in F1.
        assert (P' : In p' (all s)) by (apply (away_in f root AG s0 S0 s I C) in J; apply J).
        destruct (ends_to f root AG s p' t I It P' F1) as (q' & E'). exists p', (sn_name t), q'. split; [reflexivity|]. split; [exact CH|]. split; [exact IC|].
        exact (ends_link f _ _ _ _ E').
      - exfalso. assert (X := find_none _ _ F p AW). cbv beta in X; rewrite DP, Z.eqb_refl, PR in X. discriminate.
    Qed.
    Lemma rel_here : forall s, In s f -> sn_name s = d -> rel s = None.
    Proof.
      intros s I E. unfold relative_port_towards. assert (NE := rel_nonempty s I ltac:(rewrite E; exact CD)). destruct (path_to_root s); [contradiction|].
      rewrite (proj2 (Z.eqb_eq _ _) E). unfold default_port_towards. rewrite (shortest_same f root AG s0 S0 s I). rewrite E.
      assert (P : is_path G d d [d]) by (constructor; apply (ag_nodes f root (proj1 AG) s0 S0); rewrite <- E; unfold names; apply in_map; exact I).
      assert (CP : chosen_path G d d [d]).
      { split; [exact P|]. intros q Q. destruct (path_shape G _ _ _ Q) as (r & ->). destruct r; [right; split; [reflexivity|apply earlier_refl]|left; cbn; lia]. }
      apply (chosen_shortest G (graph_ok_of f root AG s0 S0)) in CP as [-> _]. reflexivity.
    Qed.
    Lemma follow_down : forall n s, In s f -> In (sn_name s) (path d) -> (length (path d) - length (path (sn_name s)) = n)%nat -> follows rel f n (sn_name s) d.
    Proof.
      induction n as [|n IH]; intros s I IN L.
      - destruct (Z.eq_dec (sn_name s) d) as [E|NE]; [rewrite E; constructor; unfold names; rewrite <- E; apply in_map; exact I|].
        exfalso. destruct (path_suffix_of f root AG s0 S0 (length (path d)) d (sn_name s) (le_n _) IN) as (_ & pre & E & EN).
        apply (f_equal (@length Z)) in E. rewrite app_length in E. destruct pre; [apply NE; symmetry; apply EN; reflexivity|cbn in E; lia].
      - destruct (Z.eq_dec (sn_name s) d) as [E|NE]; [rewrite E in L; lia|]. destruct (rel_down s I IN NE) as (p & c & q & R & CH & IC & LK).
        destruct (node_named f root AG s0 S0 c (child_conn root s0 _ _ CH)) as (t & It & Nt). subst c.
        apply (follows_next rel f n s p (sn_name t) q d I R LK). apply IH; [exact It|exact IC|]. assert (D := child_dist root s0 _ _ CH). lia.
    Qed.
    Lemma follow_to : forall n s, (length (path (sn_name s)) <= n)%nat -> In s f -> conn (sn_name s) ->
      exists k, follows rel f k (sn_name s) d /\ (k + 2 <= length (path (sn_name s)) + length (path d))%nat.
    Proof.
      assert (PD := conn_pos root s0 d CD).
      induction n as [|n IH]; intros s L I C; assert (PS := conn_pos root s0 _ C); [lia|].
      destruct (in_dec Z.eq_dec (sn_name s) (path d)) as [IN|NI].
      - exists (length (path d) - length (path (sn_name s)))%nat. split; [apply follow_down; auto|lia].
      - assert (NR : sn_name s <> root) by (intros E; apply NI; rewrite E; apply (sub_root f root AG s0 S0 d); exact CD).
        destruct (follow_up s I C NR) as (q & t & p & SE & LK & It & CH). assert (D := child_dist root s0 _ _ CH).
        destruct (IH t) as (k & F & B); [lia|exact It|apply CH|]. exists (S k). split; [|lia].
        apply (follows_next rel f k s q (sn_name t) p d I); [rewrite (rel_up s I C NI); exact SE|exact LK|exact F].
    Qed.
  End To.

  (** Towards another switch, along a shortest path. *)
  Section Default.
    Hypothesis RUN : forall s p, In s f -> In p (sn_ports s) -> sp_running p = sp_up p.
    Variable d : Z.
    Notation dft := (fun s => default_port_towards s d).
    Lemma follow_default : forall p s, In s f -> shortest_path G (sn_name s) d = p -> p <> [] -> follows dft f (length p - 1) (sn_name s) d.
    Proof.
      induction p as [|x p IH]; intros s I E NE; [contradiction|].
      assert (OK := graph_ok_of f root AG s0 S0). assert (CP := shortest_path_chosen G OK _ _ _ E ltac:(discriminate)).
      destruct (path_shape G _ _ _ (proj1 CP)) as (r & EX). injection EX as -> ->. cbn [length]. rewrite Nat.sub_succ, Nat.sub_0_r.
      destruct r as [|z r].
      - destruct CP as [P _]. cbn [length]. inversion P as [x0 I0 E1|x0 y z p0 L P' E1 E2]; subst; [constructor; unfold names; apply in_map; exact I|].
        exfalso. inversion P'.
      - assert (CZ := chosen_suffix G _ _ _ _ CP). destruct (path_inv2 G _ _ _ _ (proj1 CP)) as [L _].
        assert (IZ : In z (names f)) by (apply (ag_nodes f root (proj1 AG) s0 S0); apply (gk_ends G OK _ _ L)).
        unfold names in IZ. apply in_map_iff in IZ as (t & Nt & It). subst z.
        destruct (adj_up f root AG s0 S0 s (sn_name t) I L) as (p0 & P0 & U0 & D0).
        assert (PU : In p0 (peer_up_ports s (sn_name t))).
        { unfold peer_up_ports. apply canonical_in. apply filter_In. split; [exact P0|]. rewrite (RUN s p0 I P0), U0, D0, Z.eqb_refl. reflexivity. }
        destruct (peer_up_ports s (sn_name t)) as [|h rest] eqn:PP; [destruct PU|].
        assert (H : In h (peer_up_ports s (sn_name t))) by (rewrite PP; left; reflexivity). unfold peer_up_ports in H. apply canonical_in, filter_In in H as [PH H].
        apply andb_true_iff in H as [UH DH]. rewrite (RUN s h I PH) in UH. apply Z.eqb_eq in DH.
        destruct (ag_ends f root (proj1 AG) s h I PH UH) as (q & LK). rewrite DH in LK. cbn [length].
        apply (follows_next dft f (length r) s h (sn_name t) q d I).
        + unfold default_port_towards. rewrite (shortest_same f root AG s0 S0 s I), E, PP. reflexivity.
        + exact LK.
        + assert (F := IH t It). cbn [length] in F. rewrite Nat.sub_succ, Nat.sub_0_r in F. apply F; [|discriminate].
          apply (chosen_shortest G OK). exact CZ.
    Qed.
    Lemma default_here : forall s, In s f -> sn_name s = d -> dft s = None.
    Proof.
      intros s I E. unfold default_port_towards. rewrite (shortest_same f root AG s0 S0 s I). rewrite E.
      assert (P : is_path G d d [d]) by (constructor; apply (ag_nodes f root (proj1 AG) s0 S0); rewrite <- E; unfold names; apply in_map; exact I).
      assert (CP : chosen_path G d d [d]).
      { split; [exact P|]. intros q Q. destruct (path_shape G _ _ _ Q) as (r & ->). destruct r; [right; split; [reflexivity|apply earlier_refl]|left; cbn; lia]. }
      apply (chosen_shortest G (graph_ok_of f root AG s0 S0)) in CP as [-> _]. reflexivity.
    Qed.
  End Default.
End Next.

Lemma joined_node : forall f x y, joined f x y -> exists s, In s f /\ sn_name s = x.
Proof.
  intros f x y J. destruct J as [x I|x p y q z L J].
  - unfold names in I. apply in_map_iff in I as (s & E & I). eauto.
  - destruct L as (s & t & Is & Ns & _). eauto.
Qed.

Lemma once : forall f root refl group x, agreed f root -> group = true \/ no_parallel f -> joined f x root -> floods_once refl group f x.
Proof.
  intros f root refl group x AG MODE J. destruct (joined_node f x root J) as (s & I & N). subst x.
  assert (C := proj2 (conn_joined f root AG s I _) J). destruct (host_gives f root AG s I refl group MODE s I C) as (d & n & B & ND & M).
  exists n. intros k t H. destruct (hops_bigs refl group f k _ t H d n B) as (e & m & B' & -> & P). cbn [fst snd sent_from app] in P.
  assert (NP := Permutation_NoDup P ND). split; [lia|]. split; [|split; [|split]].
  - destruct (fst t) as [|pk rest] eqn:E; [contradiction|]. intros _. destruct t as [fl dl]. cbn [fst] in E. subst fl.
    destruct (handle refl group f pk) as [given sent] eqn:HD. exists ([] ++ sent ++ rest, dl ++ given). exact (hop_one refl group f [] pk rest dl given sent HD).
  - apply NoDup_app_iff_ in NP. apply NP.
  - intros y K. apply (joined_trans f _ _ _ J). apply (joined_sym f). apply (conn_joined f root AG s I). apply M.
    apply (Permutation_in _ (Permutation_sym P)). apply in_or_app. left. exact K.
  - intros E y JY. rewrite E in B'. inversion B'; subst. rewrite app_nil_r in P. apply (Permutation_in _ P). apply M.
    apply (conn_joined f root AG s I). apply (joined_trans f _ _ _ (joined_sym f _ _ JY) J).
Qed.
