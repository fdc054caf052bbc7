(** * Proofs about learning in stacks *)
From Coq Require Import ZArith List Bool Lia Arith.
From Verif Require Import PyBase PyBaseProofs StackModel StackSpec StackProofs StackFloodProofs StackRoleProofs StackOnceProofs StackNextProofs.
From Verif Require Import StackLearnModel StackLearnSpec.
Import ListNotations.
Open Scope Z_scope.

Lemma ep_eqb_spec : forall a b : Z * Z, endpoint_eqb a b = true <-> a = b.
Proof. intros [a b] [x y]. unfold endpoint_eqb. cbn. rewrite andb_true_iff, !Z.eqb_eq. split; [intros [-> ->]; reflexivity|intros E; injection E; auto]. Qed.

Lemma entry_put : forall st h d k g e, entry_of (dict_put endpoint_eqb (k, g) e st) h d = if (d =? k) && (h =? g) then Some e else entry_of st h d.
Proof. intros. unfold entry_of. rewrite (dict_get_put _ ep_eqb_spec). reflexivity. Qed.
Lemma cached_put : forall st h d k g e, cached (dict_put endpoint_eqb (k, g) e st) h d = if (d =? k) && (h =? g) then Some (fst e) else cached st h d.
Proof. intros. unfold cached. rewrite entry_put. destruct (_ && _); reflexivity. Qed.
Lemma entry_del : forall st h d k g, entry_of (dict_del endpoint_eqb (k, g) st) h d = if (d =? k) && (h =? g) then None else entry_of st h d.
Proof. intros. unfold entry_of. rewrite (dict_get_del _ ep_eqb_spec). reflexivity. Qed.
Lemma cached_del : forall st h d k g, cached (dict_del endpoint_eqb (k, g) st) h d = if (d =? k) && (h =? g) then None else cached st h d.
Proof. intros. unfold cached. rewrite entry_del. destruct (_ && _); reflexivity. Qed.
Lemma discarded_not : forall c w st h d pl, (forall n, cached st h d <> Some (Edge n)) -> discarded c w st h d pl = false.
Proof.
  intros c w st h d pl N. unfold discarded. unfold cached in N. destruct (entry_of st h d) as [[[n|n] t]|]; [|apply andb_false_r..]. destruct (N n eq_refl).
Qed.

Lemma node_in : forall f d s, node f d = Some s -> In s f /\ sn_name s = d.
Proof. intros f d s H. unfold node in H. apply find_some in H as [A B]. apply Z.eqb_eq in B. auto. Qed.
Lemma node_of : forall f s, NoDup (names f) -> In s f -> node f (sn_name s) = Some s.
Proof.
  induction f as [|a f IH]; intros s N I; [destruct I|]. unfold node in *. cbn. inversion_clear N as [|? ? N1 N2]. destruct I as [->|I].
  - rewrite Z.eqb_refl. reflexivity.
  - destruct (sn_name a =? sn_name s) eqn:E; [|apply IH; assumption]. exfalso. apply N1. apply Z.eqb_eq in E. rewrite E. apply in_map. exact I.
Qed.
Lemma same_node : forall f s t, NoDup (names f) -> In s f -> In t f -> sn_name s = sn_name t -> s = t.
Proof. intros f s t N I J E. assert (A := node_of f s N I). assert (B := node_of f t N J). congruence. Qed.

Lemma others_in : forall c w d x, In x (others c w d) <-> In x (w_order w) /\ x <> d /\ In x (names (sl_fabric c)).
Proof.
  intros c w d x. unfold others. rewrite filter_In, andb_true_iff, negb_true_iff, Z.eqb_neq, memz. reflexivity.
Qed.
Lemma entries_in : forall c w st h d ext x, In x (entries c w st h d ext) <->
  In x (w_order w) /\ x <> d /\ In x (names (sl_fabric c)) /\ In x (sl_vlan c) /\
  exists n, cached st h x = Some (Edge n) /\ w_forwarding w x n = true /\ sl_external c x n = ext.
Proof.
  intros c w st h d ext x. unfold entries. rewrite filter_In, others_in, andb_true_iff, memz. split.
  - intros ((A & B & C) & D & E). repeat split; auto. destruct (cached st h x) as [[n|n]|]; try discriminate. apply andb_true_iff in E as [E F].
    apply Bool.eqb_prop in F. eauto.
  - intros (A & B & C & D & n & E & F & G). repeat split; auto. rewrite E, F, G. cbn. apply Bool.eqb_reflx.
Qed.
Lemma learned_some : forall c w st h d x, non_stack_learned c w st h d = Some x ->
  x <> d /\ In x (names (sl_fabric c)) /\ exists n, cached st h x = Some (Edge n).
Proof.
  intros c w st h d x H. unfold non_stack_learned in H.
  assert (exists ext, In x (entries c w st h d ext)) as (ext & I).
  { destruct (entries c w st h d false) as [|y l] eqn:E; [|injection H as <-; exists false; rewrite E; left; reflexivity].
    destruct (entries c w st h d true) as [|y l] eqn:E'; [discriminate|]. destruct (cached st h d); [discriminate|]. injection H as <-.
    exists true. rewrite E'. left. reflexivity. }
  apply entries_in in I as (_ & A & B & _ & n & C & _). eauto.
Qed.

Lemma learn_other_host : forall c w h s inp st g d, g <> h -> cached (learn_host c w h s inp st) g d = cached st g d.
Proof.
  intros c w h s inp st g d N. unfold learn_host. destruct (edge_learn_port _ _ _ _ _ _); [|reflexivity]. destruct (w_update _ _ && _); [|reflexivity].
  rewrite cached_put. replace (g =? h) with false by (symmetry; apply Z.eqb_neq; exact N). rewrite andb_false_r. reflexivity.
Qed.
Lemma tell_other_host : forall c w h d st x g y, g <> h -> cached (tell_other c w h d st x) g y = cached st g y.
Proof.
  intros c w h d st x g y N. unfold tell_other. destruct (node _ _); [|reflexivity]. destruct (relative_port_towards _ _ _); [|reflexivity].
  destruct (mem _ _ _); [|reflexivity]. apply learn_other_host. exact N.
Qed.
Lemma tells_other_host : forall c w h d l st g y, g <> h -> cached (fold_left (tell_other c w h d) l st) g y = cached st g y.
Proof. intros c w h d. induction l as [|x l IH]; intros st g y N; [reflexivity|]. cbn [fold_left]. rewrite IH, tell_other_host; auto. Qed.
Lemma pkt_other_host : forall c w h s inp st g d, g <> h -> cached (learn_host_from_pkt c w h s inp st) g d = cached st g d.
Proof.
  intros c w h s inp st g d N. unfold learn_host_from_pkt. destruct (sl_route c); [|apply learn_other_host; exact N].
  match goal with |- context [if ?b then _ else _] => destruct b end; [reflexivity|]. rewrite learn_other_host, tells_other_host; auto.
Qed.

Section Home.
  Variable c : slconf.
  Variables h e p : Z.
  Hypothesis ND : NoDup (names (sl_fabric c)).
  Hypothesis WI : wired_within (sl_fabric c).

  (** Every entry is right, or what it was in [st0]. *)
  Definition rinv (st0 st : caches) : Prop := forall s pl, In s (sl_fabric c) -> cached st h (sn_name s) = Some pl ->
    right c e p s pl \/ (cached st0 h (sn_name s) = Some pl /\ forall n, pl <> Edge n).

  Lemma rinv_edge : forall st0 st x n, rinv st0 st -> In x (names (sl_fabric c)) -> cached st h x = Some (Edge n) -> x = e /\ n = p.
  Proof.
    intros st0 st x n R I H. apply in_map_iff in I as (s & <- & I). destruct (R s _ I H) as [[[A B]|(_ & q & _ & B)]|[_ B]].
    - injection B as ->. auto.
    - discriminate.
    - destruct (B n eq_refl).
  Qed.
  Lemma rinv_learned : forall st0 st w d x, rinv st0 st -> non_stack_learned c w st h d = Some x -> x = e /\ d <> e.
  Proof.
    intros st0 st w d x R H. apply learned_some in H as (N & I & n & H). destruct (rinv_edge _ _ _ _ R I H) as [-> _]. auto.
  Qed.
  Lemma right_via : forall s pl, sn_name s <> e -> via (edge_learn_port_towards c s e) = Some pl -> right c e p s pl.
  Proof.
    intros s pl N H. right. split; [exact N|]. unfold towards. unfold edge_learn_port_towards in H.
    destruct (if sl_tree c then _ else _) as [q|]; [|discriminate]. injection H as <-. eauto.
  Qed.
  Lemma learn_right : forall st0 st w s inp pl, rinv st0 st -> In s (sl_fabric c) ->
    (forall t, In t (sl_fabric c) -> w_running w (sn_name t) = true) ->
    (forall q, inp = Edge q -> sn_name s = e /\ q = p) ->
    edge_learn_port c w st h s inp = Some pl -> right c e p s pl.
  Proof.
    intros st0 st w s inp pl R I RUN HOME H. unfold edge_learn_port in H. destruct inp as [no|no].
    - destruct (HOME no eq_refl) as [E ->]. assert (Some (Edge p) = Some pl) as EQ; [|injection EQ as <-; left; auto].
      destruct (sl_external _ _ _); [|exact H]. destruct (non_stack_learned c w st h (sn_name s)) as [x|] eqn:L; [|exact H].
      destruct (rinv_learned _ _ _ _ _ R L) as [_ N]. contradiction.
    - destruct (sport_of s no) as [q|] eqn:Q; [|discriminate].
      assert (In q (sn_ports s)) as IQ by (unfold sport_of in Q; apply find_some in Q; tauto).
      unfold edge_dp_for_host in H. assert (w_running w (sp_dp q) = true) as RQ.
      { specialize (WI s q I IQ). apply in_map_iff in WI as (t & <- & IT). apply RUN. exact IT. }
      rewrite RQ in H. destruct (non_stack_learned c w st h (sn_name s)) as [x|] eqn:L; [|discriminate].
      destruct (rinv_learned _ _ _ _ _ R L) as [-> N]. apply right_via; assumption.
  Qed.
  Lemma learn_rinv : forall st0 st w s inp, rinv st0 st -> In s (sl_fabric c) ->
    (forall t, In t (sl_fabric c) -> w_running w (sn_name t) = true) ->
    (forall q, inp = Edge q -> sn_name s = e /\ q = p) -> rinv st0 (learn_host c w h s inp st).
  Proof.
    intros st0 st w s inp R I RUN HOME t pl IT H. unfold learn_host in H. destruct (edge_learn_port c w st h s inp) as [pl'|] eqn:L; [|exact (R t pl IT H)].
    destruct (w_update w (sn_name s) && _); [|exact (R t pl IT H)]. rewrite cached_put in H. destruct ((sn_name t =? sn_name s) && (h =? h)) eqn:E; [|exact (R t pl IT H)].
    apply andb_true_iff in E as [E _]. apply Z.eqb_eq in E. injection H as <-. left.
    rewrite (same_node _ t s ND IT I E). exact (learn_right _ _ _ _ _ _ R I RUN HOME L).
  Qed.
  Lemma tell_rinv : forall st0 w d l st, rinv st0 st -> (forall t, In t (sl_fabric c) -> w_running w (sn_name t) = true) ->
    rinv st0 (fold_left (tell_other c w h d) l st).
  Proof.
    intros st0 w d. induction l as [|x l IH]; intros st R RUN; [exact R|]. cbn [fold_left]. apply IH; [|exact RUN]. unfold tell_other.
    destruct (node (sl_fabric c) x) as [s|] eqn:N; [|exact R]. destruct (node_in _ _ _ N) as [I _]. destruct (relative_port_towards _ _ _) as [q|]; [|exact R].
    destruct (mem _ _ _); [|exact R]. apply learn_rinv; auto. discriminate.
  Qed.
  Lemma step_rinv : forall st0 st ev, managed c ev -> stays h e p ev -> rinv st0 st -> rinv st0 (slstep c st ev).
  Proof.
    intros st0 st [g d inp w|g d] M HOME R; cbn [slstep].
    - destruct (node (sl_fabric c) d) as [s|] eqn:N; [|exact R]. destruct (node_in _ _ _ N) as [I NM]. destruct (mem Z.eqb d (sl_vlan c)); [|exact R].
      destruct (Z.eq_dec g h) as [->|NE].
      + assert (forall q, inp = Edge q -> sn_name s = e /\ q = p) as HM by (intros q ->; rewrite NM; exact (HOME eq_refl)).
        unfold learn_host_from_pkt. destruct (sl_route c); [|apply learn_rinv; auto].
        match goal with |- context [if ?b then _ else _] => destruct b end; [exact R|]. apply learn_rinv; auto. apply tell_rinv; auto.
      + intros t pl IT H. apply (R t pl IT). rewrite pkt_other_host in H; [exact H|congruence].
    - intros t pl IT H. rewrite cached_del in H. destruct (_ && _); [discriminate|]. exact (R t pl IT H).
  Qed.
  Lemma run_rinv : forall st0 evs st, Forall (managed c) evs -> Forall (stays h e p) evs -> rinv st0 st -> rinv st0 (slrun c st evs).
  Proof.
    intros st0. induction evs as [|ev evs IH]; intros st M HOME R; [exact R|]. inversion_clear M. inversion_clear HOME.
    unfold slrun. cbn [fold_left]. apply IH; auto. apply step_rinv; auto.
  Qed.

  (** ** Hearing the host makes a switch learn *)
  Lemma learned_is : forall st w d, In e (names (sl_fabric c)) -> In e (sl_vlan c) -> d <> e ->
    (forall x n, In x (names (sl_fabric c)) -> cached st h x = Some (Edge n) -> x = e) -> cached st h e = Some (Edge p) ->
    In e (w_order w) -> w_forwarding w e p = true -> sl_external c e p = false \/ cached st h d = None ->
    non_stack_learned c w st h d = Some e.
  Proof.
    intros st w d IE VE NE U HE IW FW EXT. unfold non_stack_learned.
    assert (forall ext x, In x (entries c w st h d ext) -> x = e) as ONLY.
    { intros ext x I. apply entries_in in I as (_ & _ & I & _ & n & H & _). exact (U x n I H). }
    assert (In e (entries c w st h d (sl_external c e p))) as IN.
    { apply entries_in. repeat split; auto. exists p. auto. }
    destruct (entries c w st h d false) as [|x l] eqn:E1.
    - destruct (sl_external c e p) eqn:X; [|rewrite E1 in IN; destruct IN]. destruct EXT as [?|EXT]; [discriminate|].
      destruct (entries c w st h d true) as [|x l] eqn:E2; [destruct IN|]. rewrite EXT. f_equal. apply (ONLY true). rewrite E2. left. reflexivity.
    - f_equal. apply (ONLY false). rewrite E1. left. reflexivity.
  Qed.
  Lemma learn_hears : forall st w s no q, In s (sl_fabric c) -> In e (names (sl_fabric c)) -> In e (sl_vlan c) -> sn_name s <> e ->
    (forall t, In t (sl_fabric c) -> w_running w (sn_name t) = true) ->
    (forall x n, In x (names (sl_fabric c)) -> cached st h x = Some (Edge n) -> x = e) -> cached st h e = Some (Edge p) ->
    In e (w_order w) -> w_forwarding w e p = true -> sl_external c e p = false \/ cached st h (sn_name s) = None ->
    In no (map sp_no (sn_ports s)) -> w_update w (sn_name s) = true -> towards c s e = Some q ->
    cached (learn_host c w h s (Via no) st) h (sn_name s) = Some (Via (sp_no q)).
  Proof.
    intros st w s no q I IE VE NE RUN U HE IW FW EXT INO UPD TW. unfold learn_host, edge_learn_port.
    destruct (sport_of s no) as [r|] eqn:Q.
    2: { exfalso. apply in_map_iff in INO as (r & <- & IR). unfold sport_of in Q. assert (X := find_none _ _ Q r IR). cbn in X. rewrite Z.eqb_refl in X. discriminate. }
    assert (In r (sn_ports s)) as IR by (unfold sport_of in Q; apply find_some in Q; tauto).
    unfold edge_dp_for_host. assert (w_running w (sp_dp r) = true) as RQ.
    { specialize (WI s r I IR). apply in_map_iff in WI as (t & <- & IT). apply RUN. exact IT. }
    rewrite RQ, (learned_is st w (sn_name s)); auto. unfold towards in TW. unfold edge_learn_port_towards. rewrite TW. cbn [via option_map].
    rewrite UPD, discarded_not; [cbn [negb andb]; rewrite cached_put, !Z.eqb_refl; reflexivity|].
    intros n K. apply NE. exact (U _ n (in_map sn_name _ _ I) K).
  Qed.
End Home.

(** ** The ports are ports of the switch *)
Lemma canonical_in : forall l x, In x (canonical l) <-> In x l.
Proof. intros l x. unfold canonical. rewrite (py_sorted_in _). reflexivity. Qed.
Lemma default_in : forall s d q, default_port_towards s d = Some q -> In q (sn_ports s).
Proof.
  intros s d q H. unfold default_port_towards in H. destruct (shortest_path _ _ _) as [|a [|b l]]; try discriminate.
  assert (In q (peer_up_ports s b)) as I by (destruct (peer_up_ports s b); [discriminate|injection H as <-; left; reflexivity]).
  unfold peer_up_ports in I. apply (proj1 (canonical_in _ _)), filter_In in I. tauto.
Qed.
Lemma up_all_in : forall s q, In q (canonical (up_ports (sn_ports s))) -> In q (sn_ports s).
Proof. intros s q I. apply (proj1 (canonical_in _ _)) in I. unfold up_ports in I. apply filter_In in I. tauto. Qed.
Lemma away_in : forall f s q, In q (ro_away (reset_peer_distances f s)) -> In q (sn_ports s).
Proof.
  intros f s q I. unfold reset_peer_distances in I. destruct (is_root s); cbn in I; [apply up_all_in; exact I|].
  apply filter_In in I. apply up_all_in. tauto.
Qed.
Lemma chosen_in : forall f s q, ro_chosen_port (reset_peer_distances f s) = Some q -> In q (sn_ports s).
Proof.
  intros f s q H. unfold reset_peer_distances in H. destruct (is_root s); cbn in H; [discriminate|].
  match type of H with hd_error ?l = _ => assert (In q l) as I by (destruct l; [discriminate|injection H as <-; left; reflexivity]) end.
  apply (proj1 (canonical_in _ _)) in I. unfold up_ports in I at 1. apply filter_In in I as [I _]. apply filter_In in I as [I _]. apply filter_In in I as [I _].
  apply up_all_in. exact I.
Qed.
Lemma relative_in : forall f s d q, relative_port_towards f s d = Some q -> In q (sn_ports s).
Proof.
  intros f s d q H. unfold relative_port_towards in H. destruct (path_to_root s); [eapply default_in; exact H|].
  destruct (sn_name s =? d); [eapply default_in; exact H|]. destruct (before _ _ _).
  - apply find_some in H as [I _]. eapply away_in. exact I.
  - eapply chosen_in. exact H.
Qed.
Lemma towards_in : forall c s e q, towards c s e = Some q -> In q (sn_ports s).
Proof. intros c s e q H. unfold towards in H. destruct (sl_tree c); [eapply relative_in|eapply default_in]; exact H. Qed.
Lemma sport_of_in : forall s q, NoDup (map sp_no (sn_ports s)) -> In q (sn_ports s) -> sport_of s (sp_no q) = Some q.
Proof.
  intros s q. unfold sport_of. induction (sn_ports s) as [|a l IH]; intros N I; [destruct I|]. cbn. inversion_clear N as [|? ? N1 N2]. destruct I as [->|I].
  - rewrite Z.eqb_refl. reflexivity.
  - destruct (sp_no a =? sp_no q) eqn:E; [|apply IH; assumption]. exfalso. apply N1. apply Z.eqb_eq in E. rewrite E. apply in_map. exact I.
Qed.

(** ** Following what has been learned *)
Lemma sends_right : forall c root st h e p s, agreed (sl_fabric c) root -> In s (sl_fabric c) -> sn_name s <> e ->
  (forall pl, cached st h (sn_name s) = Some pl -> right c e p s pl) -> cached st h (sn_name s) <> None -> sends st h s = towards c s e.
Proof.
  intros c root st h e p s AG I N R K. unfold sends. destruct (cached st h (sn_name s)) as [pl|] eqn:C; [|congruence].
  destruct (R pl eq_refl) as [[E _]|(_ & q & T & ->)]; [contradiction|]. rewrite T. apply sport_of_in; [exact (ag_numbers _ _ (proj1 AG) s I)|].
  eapply towards_in. exact T.
Qed.
Lemma way_sends : forall c root st h e p, agreed (sl_fabric c) root ->
  (forall s pl, In s (sl_fabric c) -> cached st h (sn_name s) = Some pl -> right c e p s pl) ->
  forall n x y, follows (fun s => towards c s e) (sl_fabric c) n x y -> y = e ->
  exists m z, follows (sends st h) (sl_fabric c) m x z /\ (z = e \/ cached st h z = None).
Proof.
  intros c root st h e p AG R n x y F. induction F as [x I|n s q y r z I CH L F IH]; intros E.
  - exists O, x. split; [constructor; exact I|auto].
  - destruct (Z.eq_dec (sn_name s) e) as [H|NE]; [exists O, (sn_name s); split; [constructor; apply in_map; exact I|auto]|].
    destruct (cached st h (sn_name s)) as [pl|] eqn:C; [|exists O, (sn_name s); split; [constructor; apply in_map; exact I|auto]].
    destruct (IH E) as (m & w & F' & D). exists (S m), w. split; [|exact D]. apply (follows_next _ _ m s q y r w I); auto.
    rewrite (sends_right c root st h e p s AG I NE); auto. congruence.
Qed.
Lemma known_sends : forall c root st h e p, agreed (sl_fabric c) root ->
  (forall s pl, In s (sl_fabric c) -> cached st h (sn_name s) = Some pl -> right c e p s pl) ->
  forall n x y, follows (fun s => towards c s e) (sl_fabric c) n x y -> y = e ->
  (forall m, (m < n)%nat -> ~ follows (fun s => towards c s e) (sl_fabric c) m x e) ->
  (forall s, In s (sl_fabric c) -> joined (sl_fabric c) x (sn_name s) -> cached st h (sn_name s) <> None) ->
  follows (sends st h) (sl_fabric c) n x y.
Proof.
  intros c root st h e p AG R n x y F. induction F as [x I|n s q y r z I CH L F IH]; intros E FIRST K.
  - constructor. exact I.
  - assert (sn_name s <> e) as NE.
    { intros E'. apply (FIRST O); [lia|]. rewrite E'. constructor. rewrite <- E'. apply in_map. exact I. }
    apply (follows_next _ _ n s q y r z I); auto.
    + rewrite (sends_right c root st h e p s AG I NE); auto. apply (K s I). constructor. apply in_map. exact I.
    + apply IH; auto.
      * intros m LT F'. apply (FIRST (S m)); [lia|]. exact (follows_next _ _ m s q y r e I CH L F').
      * intros t IT J. apply (K t IT). exact (joined_link _ _ q y r _ L J).
Qed.

(** ** What is learned stays, and hearing corrects it *)
Lemma learn_keeps : forall c w h s inp st g d, cached st g d <> None -> cached (learn_host c w h s inp st) g d <> None.
Proof.
  intros c w h s inp st g d K. unfold learn_host. destruct (edge_learn_port _ _ _ _ _ _); [|exact K]. destruct (w_update _ _ && _); [|exact K].
  rewrite cached_put. destruct (_ && _); [discriminate|exact K].
Qed.
Lemma tell_keeps : forall c w h d l st g y, cached st g y <> None -> cached (fold_left (tell_other c w h d) l st) g y <> None.
Proof.
  intros c w h d. induction l as [|x l IH]; intros st g y K; [exact K|]. cbn [fold_left]. apply IH. unfold tell_other.
  destruct (node _ _); [|exact K]. destruct (relative_port_towards _ _ _); [|exact K]. destruct (mem _ _ _); [|exact K]. apply learn_keeps. exact K.
Qed.
Lemma step_keeps : forall c st ev h d, ev <> SForget h d -> cached st h d <> None -> cached (slstep c st ev) h d <> None.
Proof.
  intros c st [g x inp w|g x] h d NF K; cbn [slstep].
  - destruct (node _ _); [|exact K]. destruct (mem _ _ _); [|exact K]. unfold learn_host_from_pkt. destruct (sl_route c); [|apply learn_keeps; exact K].
    match goal with |- context [if ?b then _ else _] => destruct b end; [exact K|]. apply learn_keeps, tell_keeps. exact K.
  - rewrite cached_del. destruct ((d =? x) && (h =? g)) eqn:E; [|exact K]. apply andb_true_iff in E as [E F]. apply Z.eqb_eq in E, F. subst. congruence.
Qed.

Lemma learn_at_other : forall c w h s inp st g d, sn_name s <> d -> cached (learn_host c w h s inp st) g d = cached st g d.
Proof.
  intros c w h s inp st g d N. unfold learn_host. destruct (edge_learn_port _ _ _ _ _ _); [|reflexivity]. destruct (w_update _ _ && _); [|reflexivity].
  rewrite cached_put. replace (d =? sn_name s) with false by (symmetry; apply Z.eqb_neq; congruence). reflexivity.
Qed.
Lemma tell_at_other : forall c w h d st x g y, x <> y -> cached (tell_other c w h d st x) g y = cached st g y.
Proof.
  intros c w h d st x g y N. unfold tell_other. destruct (node _ _) as [s|] eqn:E; [|reflexivity]. destruct (node_in _ _ _ E) as [_ NM].
  destruct (relative_port_towards _ _ _); [|reflexivity]. destruct (mem _ _ _); [|reflexivity]. apply learn_at_other. congruence.
Qed.

Section Hear.
  Variable c : slconf.
  Variables h e p : Z.
  Hypothesis ND : NoDup (names (sl_fabric c)).
  Hypothesis WI : wired_within (sl_fabric c).
  Hypothesis IE : In e (names (sl_fabric c)).
  Hypothesis VE : In e (sl_vlan c).

  Lemma heard_step : forall st ev d s q, sl_route c = false -> managed c ev -> heard c h e p d ev -> In s (sl_fabric c) -> sn_name s = d -> d <> e ->
    (forall x n, In x (names (sl_fabric c)) -> cached st h x = Some (Edge n) -> x = e \/ x = d) -> cached st h e = Some (Edge p) ->
    sl_external c e p = false \/ cached st h d = None -> settled c st h d ev -> towards c s e = Some q ->
    cached (slstep c st ev) h d = Some (Via (sp_no q)).
  Proof.
    intros st ev d s q RT M (no & w & s' & -> & I' & N' & INO & VD & IW & FW & UPD) I N NE U HE EXT SET TW.
    assert (s' = s) by (apply (same_node _ _ _ ND I' I); congruence). subst s' d. cbn [slstep].
    rewrite (node_of _ s ND I), (proj2 (memz _ _) VD). unfold learn_host_from_pkt. rewrite RT.
    unfold learn_host, edge_learn_port. destruct (sport_of s no) as [r|] eqn:Q.
    2: { exfalso. apply in_map_iff in INO as (r & <- & IR). unfold sport_of in Q. assert (X := find_none _ _ Q r IR). cbn in X. rewrite Z.eqb_refl in X. discriminate. }
    assert (In r (sn_ports s)) as IR by (unfold sport_of in Q; apply find_some in Q; tauto).
    unfold edge_dp_for_host. assert (w_running w (sp_dp r) = true) as RQ.
    { specialize (WI s r I IR). apply in_map_iff in WI as (t & <- & IT). apply M. exact IT. }
    rewrite RQ. assert (non_stack_learned c w st h (sn_name s) = Some e) as ->.
    { unfold non_stack_learned.
      assert (forall ext x, In x (entries c w st h (sn_name s) ext) -> x = e) as ONLY.
      { intros ext x J. apply entries_in in J as (_ & NX & J & _ & n & H & _). destruct (U x n J H); [assumption|contradiction]. }
      assert (In e (entries c w st h (sn_name s) (sl_external c e p))) as IN.
      { apply entries_in. repeat split; auto. exists p. auto. }
      destruct (entries c w st h (sn_name s) false) as [|x l] eqn:E1.
      - destruct (sl_external c e p) eqn:X; [|rewrite E1 in IN; destruct IN]. destruct EXT as [?|EXT]; [discriminate|].
        destruct (entries c w st h (sn_name s) true) as [|x l] eqn:E2; [destruct IN|]. rewrite EXT. f_equal. apply (ONLY true). rewrite E2. left. reflexivity.
      - f_equal. apply (ONLY false). rewrite E1. left. reflexivity. }
    unfold towards in TW. unfold edge_learn_port_towards. rewrite TW. cbn [via option_map]. rewrite UPD.
    assert (discarded c w st h (sn_name s) (Via (sp_no q)) = false) as ->; [|cbn [negb andb]; rewrite cached_put, !Z.eqb_refl; reflexivity].
    unfold discarded. destruct (sl_reflection c) eqn:RF; [|reflexivity]. destruct (entry_of st h (sn_name s)) as [[[n|n] u]|] eqn:EN; [|reflexivity..].
    specialize (SET RF (Via no) w n u eq_refl EN). replace (w_now w - u <? 2) with false by (symmetry; apply Z.ltb_ge; lia). reflexivity.
  Qed.

  Lemma rinv_here : forall st0 st, rinv c h e p st0 st -> cached st0 h e = Some (Edge p) \/ cached st0 h e = None -> cached st h e <> None -> cached st h e = Some (Edge p).
  Proof.
    intros st0 st R O K. destruct (cached st h e) as [pl|] eqn:C; [|congruence]. apply in_map_iff in IE as (t & NT & IT). rewrite <- NT in C.
    destruct (R t pl IT C) as [[[_ ->]|[N _]]|[A B]]; [reflexivity|congruence|]. rewrite NT in A. destruct O as [O|O]; rewrite O in A; [|discriminate].
    injection A as <-. destruct (B p eq_refl).
  Qed.
  Lemma rinv_refl : forall st, (forall x n, In x (names (sl_fabric c)) -> cached st h x = Some (Edge n) -> x = e /\ n = p) -> rinv c h e p st st.
  Proof.
    intros st U s pl I H. destruct pl as [n|n].
    - left. left. destruct (U (sn_name s) n (in_map _ _ _ I) H) as [-> ->]. auto.
    - right. split; [exact H|]. intros k. discriminate.
  Qed.
  Lemma rinv_edges : forall st0 st x n, rinv c h e p st0 st -> In x (names (sl_fabric c)) -> cached st h x = Some (Edge n) -> x = e /\ n = p.
  Proof. intros st0 st x n R I H. exact (rinv_edge c h e p st0 st x n R I H). Qed.

  (** Once a switch has heard the host, its entry is right for good. *)
  Lemma heard_run : forall evs st d s q, sl_route c = false -> Forall (managed c) evs -> Forall (stays h e p) evs -> ~ In (SForget h e) evs ->
    (forall x n, In x (names (sl_fabric c)) -> cached st h x = Some (Edge n) -> x = e /\ n = p) -> cached st h e = Some (Edge p) ->
    Exists (heard c h e p d) evs -> In s (sl_fabric c) -> sn_name s = d -> d <> e -> sl_external c e p = false -> towards c s e = Some q ->
    forall pl, cached (slrun c st evs) h d = Some pl -> pl = Via (sp_no q).
  Proof.
    induction evs as [|ev evs IH]; intros st d s q RT M ST NF U HE EX I N NE EXT TW pl H; [inversion EX|].
    inversion_clear M as [|? ? M1 M2]. inversion_clear ST as [|? ? S1 S2]. unfold slrun in H. cbn [fold_left] in H.
    assert (rinv c h e p st (slstep c st ev)) as R1 by (apply step_rinv; auto; apply rinv_refl; exact U).
    assert (cached (slstep c st ev) h e = Some (Edge p)) as HE1.
    { apply (rinv_here st); auto. apply step_keeps; [intros ->; apply NF; left; reflexivity|congruence]. }
    inversion EX as [? ? HD|? ? TL]; subst.
    - set (st1 := slstep c st ev) in *.
      assert (cached st1 h (sn_name s) = Some (Via (sp_no q))) as L.
      { eapply (heard_step st ev (sn_name s) s q RT M1 HD I eq_refl NE); auto.
        - intros x n J K. left. exact (proj1 (U x n J K)).
        - intros _ inp w n t _ EN. destruct (NE (proj1 (U (sn_name s) n (in_map sn_name _ _ I) ltac:(unfold cached; rewrite EN; reflexivity)))). }
      assert (rinv c h e p (dict_del endpoint_eqb (sn_name s, h) st1) st1) as R.
      { intros t pl' IT K. destruct (Z.eq_dec (sn_name t) (sn_name s)) as [E|D].
        - rewrite (same_node _ _ _ ND IT I E) in *. rewrite L in K. injection K as <-. left. right. split; [exact NE|]. exists q. auto.
        - destruct pl' as [n|n].
          + destruct (rinv_edges st st1 _ n R1 (in_map sn_name _ _ IT) K) as [A ->]. left. left. auto.
          + right. rewrite cached_del. apply Z.eqb_neq in D. rewrite D. cbn [andb]. split; [exact K|discriminate]. }
      apply (run_rinv c h e p ND WI _ evs _ M2 S2) in R. destruct (R s pl I H) as [[[A _]|(_ & q' & T & ->)]|[A _]]; [contradiction| |].
      + congruence.
      + rewrite cached_del, !Z.eqb_refl in A. discriminate.
    - refine (IH (slstep c st ev) (sn_name s) s q RT M2 S2 _ _ HE1 TL I eq_refl NE EXT TW pl H).
      + intros A. apply NF. right. exact A.
      + intros x n J K. exact (rinv_edges st _ x n R1 J K).
  Qed.
End Hear.
