(** * Gauge polls each connected datapath once (C77) *)

From Coq Require Import ZArith List Bool Lia.
From Verif Require Import PyBase PyBaseProofs GaugeModel GaugeSpec GaugeProofs.
Import ListNotations.
Open Scope Z_scope.

Lemma configured_unique evs cs cs' : configured_with evs cs -> configured_with evs cs' -> cs = cs'.
Proof.
  intros H. revert cs'. induction H as [|evs cs|evs ev cs H IH N]; intros cs' H'; inversion H'; subst; try reflexivity.
  - exfalso. exact (H3 cs eq_refl).
  - exfalso. exact (N cs' eq_refl).
  - apply IH. assumption.
Qed.
Lemma connected_unique dp evs c c' : connected dp evs c -> connected dp evs c' -> c = c'.
Proof.
  intros H. revert c'. induction H as [dp|dp evs c|dp evs c H IH|dp evs ev c H IH N1 N2]; intros c' H'; inversion H'; subst; try reflexivity.
  - exfalso. eapply H3. reflexivity.
  - exfalso. specialize (IH _ H2). apply (H6 c eq_refl). congruence.
  - exfalso. eapply N1. reflexivity.
  - exfalso. match goal with K : connected _ _ (Some ?x) |- _ => specialize (IH _ K); exact (N2 x eq_refl IH) end.
  - apply IH. assumption.
Qed.
(** What a polling thread means *)
Lemma polls_obj evs b cs s th c t : hinv evs b cs s -> polls s th c t ->
  exists o dp, In (th, o) (g_live s) /\ hd_error (look (g_watchers s) dp t) = Some o /\ b dp = Some c /\ threaded t = true.
Proof.
  intros [I C N Q S] P. unfold polls in P. cbn [gstep snd] in P. unfold poll in P.
  destruct (dict_get Z.eqb th (g_live s)) as [o|] eqn:E; [|discriminate]. apply (dict_get_in Z.eqb Z.eqb_eq) in E.
  destruct (o_conn (g_objs s o)) as [c'|] eqn:Ec; [|discriminate]. injection P as -> <-.
  assert (T : o_thread (g_objs s o) = Some th) by (apply (ag_live _ (gi_agree _ _ _ I)); exact E).
  destruct (gi_thread _ _ _ I o ltac:(congruence)) as (dp & t & H & B). exists o, dp. pose proof (hd_in _ _ H) as Hin.
  destruct (gi_conf _ _ _ I dp t o Hin) as (_ & -> & _). split; [exact E|]. split; [exact H|].
  destruct (b dp) as [c''|] eqn:Eb; [|congruence].
  destruct (gi_on _ _ _ I dp c'' t o Eb Hin) as (_ & X & _). split; [congruence|].
  pose proof (ag_type _ (gi_agree _ _ _ I) o th T) as Y. rewrite (proj1 (proj2 (gi_conf _ _ _ I dp t o Hin))) in Y. exact Y.
Qed.

(** At no time do two threads poll the same statistics of a datapath. *)
Theorem C77_one_poller : forall evs s th th' c t,
  greach evs s -> own evs -> polls s th c t -> polls s th' c t -> th = th'.
Proof.
  intros evs s th th' c t R O P P'. destruct (greach_inv evs s R) as (b & cs & H).
  destruct (polls_obj _ _ _ _ _ _ _ H P) as (o & dp & L & Hd & B & _). destruct (polls_obj _ _ _ _ _ _ _ H P') as (o' & dp' & L' & Hd' & B' & _).
  assert (dp = dp') by (apply (O dp dp' c); apply (hi_said _ _ _ _ H); left; assumption). subst dp'.
  assert (o = o') by congruence. subst o'.
  apply (ag_live _ (gi_agree _ _ _ (hi_inv _ _ _ _ H))) in L, L'. congruence.
Qed.
Print Assumptions C77_one_poller.

(** Only statistics that a watcher is configured for are polled, on the connection that
    the datapath has. *)
Theorem C77_only_configured : forall evs s th c t cs,
  greach evs s -> settled s -> configured_with evs cs -> polls s th c t ->
  exists w, In w cs /\ connected (wc_dp w) evs (Some c) /\ wc_type w = t /\ t <> PortState.
Proof.
  intros evs s th c t cs R Q C P. destruct (greach_inv evs s R) as (b & cs' & H).
  rewrite (configured_unique _ _ _ C (hi_cs _ _ _ _ H)).
  destruct (polls_obj _ _ _ _ _ _ _ H P) as (o & dp & L & Hd & B & T). pose proof (hd_in _ _ Hd) as Hin.
  destruct (gi_conf _ _ _ (hi_inv _ _ _ _ H) dp t o Hin) as (E1 & E2 & _).
  exists (o_conf (g_objs s o)). split; [|split; [|split; [exact E2|intros ->; discriminate]]].
  - apply (in_map (fun x => o_conf (g_objs s x))) in Hin. rewrite (gi_cs _ _ _ (hi_inv _ _ _ _ H)) in Hin. apply filter_In in Hin. apply Hin.
  - rewrite E1, <- B. pose proof (hi_queue _ _ _ _ H dp) as X. unfold settled in Q. rewrite Q in X. cbn in X. rewrite X. apply (hi_conn _ _ _ _ H).
Qed.
Print Assumptions C77_only_configured.

(** Once Gauge has caught up: statistics of a connected datapath that a watcher is
    configured for are polled, on its connection. *)
Theorem C77_polled : forall evs s c w cs,
  greach evs s -> settled s -> configured_with evs cs -> In w cs -> wc_type w <> PortState -> connected (wc_dp w) evs (Some c) ->
  exists th, polls s th c (wc_type w).
Proof.
  intros evs s c w cs R Q C Hw Ht Hc. destruct (greach_inv evs s R) as (b & cs' & H). destruct H as [I C' N Q' S].
  pose proof (configured_unique _ _ _ C C') as <-.
  assert (B : b (wc_dp w) = Some c).
  { pose proof (Q' (wc_dp w)) as X. unfold settled in Q. rewrite Q in X. cbn in X. rewrite X. exact (connected_unique _ _ _ _ (N (wc_dp w)) Hc). }
  assert (Hne : In w (filter (of_dp_type (wc_dp w) (wc_type w)) cs)).
  { apply filter_In. split; [exact Hw|]. unfold of_dp_type. rewrite Z.eqb_refl. apply wtype_eqb_eq. reflexivity. }
  rewrite <- (gi_cs _ _ _ I) in Hne.
  destruct (look (g_watchers s) (wc_dp w) (wc_type w)) as [|o l] eqn:E; [destruct Hne|].
  assert (Hin : In o (look (g_watchers s) (wc_dp w) (wc_type w))) by (rewrite E; left; reflexivity).
  destruct (gi_on _ _ _ I _ c _ o B Hin) as (_ & X & Y).
  assert (T : threaded (wc_type w) = true) by (destruct (wc_type w); [contradiction|reflexivity..]).
  specialize (Y T ltac:(rewrite E; reflexivity)). destruct (o_thread (g_objs s o)) as [th|] eqn:Eth; [|congruence].
  exists th. unfold polls. cbn [gstep snd]. unfold poll. apply (ag_live _ (gi_agree _ _ _ I)) in Eth.
  rewrite (dict_in_get Z.eqb Z.eqb_eq th o _ (ag_ids _ (gi_agree _ _ _ I)) Eth), X.
  rewrite (proj1 (proj2 (gi_conf _ _ _ I _ _ o Hin))). reflexivity.
Qed.
Print Assumptions C77_polled.

(** What a connected datapath sends is given to all watchers configured for it, in order,
    once each, and to no others. *)
Theorem C77_replies : forall evs s c cs dp t m l,
  greach evs s -> settled s -> configured_with evs cs -> connected dp evs (Some c) -> watchers_for cs dp t l ->
  (exists w, In w cs /\ wc_dp w = dp) ->
  snd (gstep s (GReply dp c t m)) = map (fun w => OUpdate w m) l.
Proof.
  intros evs s c cs dp t m l R Q C Hc (f & -> & Hf) (w & Hw & Ew). destruct (greach_inv evs s R) as (b & cs' & H). destruct H as [I C' N Q' S].
  pose proof (configured_unique _ _ _ C C') as <-.
  assert (B : b dp = Some c).
  { pose proof (Q' dp) as X. unfold settled in Q. rewrite Q in X. cbn in X. rewrite X. exact (connected_unique _ _ _ _ (N dp) Hc). }
  assert (Ff : filter f cs = map (fun x => o_conf (g_objs s x)) (look (g_watchers s) dp t)).
  { rewrite (gi_cs _ _ _ I). apply filter_ext. intros w'. apply eq_true_iff_eq. rewrite Hf. unfold of_dp_type.
    rewrite andb_true_iff, Z.eqb_eq, wtype_eqb_eq. split; intros [-> ->]; auto. }
  assert (Run : forall o, In o (look (g_watchers s) dp t) -> o_running (g_objs s o) = true) by (intros o Ho; apply (gi_on _ _ _ I dp c t o B Ho)).
  rewrite Ff. cbn [gstep snd]. unfold reply. unfold look in *.
  destruct (dict_get Z.eqb dp (g_watchers s)) as [ws|] eqn:E.
  - destruct (dict_get wtype_eqb t ws) as [l|]; [|reflexivity]. clear Ff. induction l as [|o l IH]; [reflexivity|].
    cbn [flat_map map]. rewrite (Run o (or_introl eq_refl)). cbn [app]. f_equal. apply IH. intros o' Ho. apply Run. right. exact Ho.
  - exfalso.
    assert (Hne : In w (filter (of_dp_type dp (wc_type w)) cs)).
    { apply filter_In. split; [exact Hw|]. unfold of_dp_type. rewrite <- Ew, Z.eqb_refl. apply wtype_eqb_eq. reflexivity. }
    rewrite <- (gi_cs _ _ _ I) in Hne. unfold look in Hne. rewrite E in Hne. exact Hne.
Qed.
Print Assumptions C77_replies.

(** Two watchers of port statistics on datapath 1 and one on datapath 2; both connect,
    the first twice without the loss being noticed, the second leaves, and there is a
    reload. *)
Definition ex_w (dp : Z) (t : wtype) (n : Z) : wconf := mkWconf dp t n.
Definition ex_cs : list wconf := [ex_w 1 PortStats 1; ex_w 2 PortStats 2; ex_w 1 PortStats 3; ex_w 1 PortState 4].
Definition ex_evs : list gevent :=
  [GReload (Some ex_cs); GHandle; GHandle; GHandle; GHandle; GLost 2 21; GLost 1 11; GConnect 1 12; GConnect 2 21; GConnect 1 11; GReload (Some ex_cs)].
Fixpoint run (evs : list gevent) : gstate := match evs with [] => gauge_start | ev :: r => fst (gstep (run r) ev) end.
Lemma run_reach evs : greach evs (run evs).
Proof. induction evs as [|ev r IH]; [constructor|]. apply gr_step, IH. Qed.
Example C77_example :
  greach ex_evs (run ex_evs) /\ own ex_evs /\ settled (run ex_evs) /\ configured_with ex_evs ex_cs /\
  connected 1 ex_evs (Some 12) /\ connected 2 ex_evs None /\
  (exists th, polls (run ex_evs) th 12 PortStats) /\ length (g_live (run ex_evs)) = 1%nat /\
  snd (gstep (run ex_evs) (GReply 1 12 PortStats 7)) = [OUpdate (ex_w 1 PortStats 1) 7; OUpdate (ex_w 1 PortStats 3) 7].
Proof.
  split; [apply run_reach|]. split.
  { assert (G : forall dp c, In (GConnect dp c) ex_evs -> dp = c / 10).
    { intros dp c H. cbn in H. repeat (destruct H as [H|H]; [first [discriminate H|injection H as <- <-; reflexivity]|]). destruct H. }
    intros dp dp' c H H'. rewrite (G dp c H), (G dp' c H'). reflexivity. }
  split; [vm_compute; reflexivity|]. split; [apply cw_now|].
  split.
  { do 7 (apply cn_before; [|discriminate|intros c' X; first [discriminate X|injection X as <-; discriminate]]). apply cn_now. }
  split.
  { do 5 (apply cn_before; [|discriminate|intros c' X; first [discriminate X|injection X as <-; discriminate]]). apply cn_lost.
    do 2 (apply cn_before; [|discriminate|intros c' X; first [discriminate X|injection X as <-; discriminate]]). apply cn_now. }
  split; [exists 3; vm_compute; reflexivity|]. split; vm_compute; reflexivity.
Qed.
