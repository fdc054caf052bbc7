(** * LACP frames: theorems (C93) *)
From Coq Require Import List Bool ZArith Lia.
From Verif Require Import PyBase L2Model LacpPduModel LacpPduSpec LacpPduProofs.
Import ListNotations.
Open Scope Z_scope.

(** Whatever happened before, every LACP frame sent goes out of a port of a LAG, only on
    an LACP frame there or (on ports set to be active) as advertisement; it says of this
    switch what the configuration and the port's role when it is sent say, and of the
    partner just what the partner last said of itself; and all ports the port passes
    LACP through from have partners in sync. *)
Theorem C93_frames : forall cfg es pre e l post n f,
  lconf_ok cfg -> history cfg es = pre ++ (e, Sent l) :: post -> In (n, f) l ->
  l = [(n, f)] /\
  exists p, lag_port cfg p /\ lp_num p = n /\ carried cfg f /\
    of_us cfg p (roles_after cfg (map fst pre) n) f /\
    of_partner (heard n (map fst pre ++ [e])) f /\
    (forall m, In m (lp_passthrough p) -> in_sync m (map fst pre)) /\
    ((exists now g roles, e = LFrame now n g roles /\ is_lacp g = true) \/
     e = LAdvertise n /\ lp_active p = true).
Proof.
  intros cfg es pre e l post n f OK H Hin.
  destruct (history_split _ _ _ _ _ _ H) as (es2 & _ & _ & Ho).
  pose proof (agrees_run cfg (map fst pre) OK) as AG.
  set (st := pstate_of cfg (map fst pre)) in *. clearbody st. destruct AG as [AL AU AR].
  destruct e as [now m g roles|m roles|m|running roles]; cbn [pstep] in Ho.
  - unfold lacp_handler in Ho. destruct (find_port cfg m) as [p|] eqn:F;
      [|injection Ho as ->; contradiction].
    change ((fr_dst g =? slow_multicast) && (fr_type g =? eth_type_slow)) with (is_lacp g) in Ho.
    destruct (is_lacp g && negb (lp_lag p =? 0)) eqn:G; [|injection Ho as ->; contradiction].
    apply andb_true_iff in G. destruct G as [IL LG].
    destruct (due st p now (fr_pdu g)); [|injection Ho as ->; contradiction].
    destruct (lacp_req_reply cfg st (Some (fr_pdu g)) p) as [l'|] eqn:RR; [|discriminate].
    cbn [snd] in Ho. injection Ho as <-.
    destruct (reply_says _ _ _ _ _ _ _ RR Hin) as (E1 & E2 & E3 & E4 & E5 & E6).
    apply find_port_in in F. destruct F as [Hp <-]. subst n.
    split; [exact E1|]. exists p.
    split; [split; [exact Hp|]; intro C; rewrite C in LG; discriminate|].
    split; [reflexivity|]. split; [exact E3|]. split; [rewrite <- AR; exact E4|].
    split; [rewrite heard_snoc; cbn; rewrite IL, Z.eqb_refl; exact E5|].
    split; [intros m Hm; apply AU; apply E6; exact Hm|].
    left. eauto.
  - injection Ho as ->. contradiction.
  - destruct (find_port cfg m) as [p|] eqn:F; cbn [snd] in Ho; [|injection Ho as ->; contradiction].
    destruct (lp_lag p =? 0) eqn:LG; cbn [negb] in Ho; [injection Ho as ->; contradiction|].
    unfold lacp_advertise in Ho.
    destruct (ls_running st (lp_num p) && lp_active p) eqn:RA; [|injection Ho as ->; contradiction].
    symmetry in Ho. apply andb_true_iff in RA. destruct RA as [_ RA].
    destruct (reply_says _ _ _ _ _ _ _ Ho Hin) as (E1 & E2 & E3 & E4 & E5 & E6).
    apply find_port_in in F. destruct F as [Hp <-]. subst n. apply Z.eqb_neq in LG.
    assert (LP : lag_port cfg p) by (split; assumption).
    split; [exact E1|]. exists p.
    split; [exact LP|]. split; [reflexivity|]. split; [exact E3|]. split; [rewrite <- AR; exact E4|].
    split; [rewrite heard_snoc; cbn; rewrite <- (AL _ LP); exact E5|].
    split; [intros m Hm; apply AU; apply E6; exact Hm|].
    right. split; [reflexivity|exact RA].
  - injection Ho as ->. contradiction.
Qed.
Print Assumptions C93_frames.

Lemma frame_outcome : forall cfg es pre now n f roles o post p,
  lconf_ok cfg -> history cfg es = pre ++ (LFrame now n f roles, o) :: post ->
  lag_port cfg p -> lp_num p = n -> is_lacp f = true ->
  o = (if due (pstate_of cfg (map fst pre)) p now (fr_pdu f)
       then lacp_req_reply cfg (pstate_of cfg (map fst pre)) (Some (fr_pdu f)) p else Sent []).
Proof.
  intros cfg es pre now n f roles o post p OK H LP En IL.
  destruct (history_split _ _ _ _ _ _ H) as (es2 & _ & _ & Ho).
  cbn [pstep] in Ho. unfold lacp_handler in Ho.
  rewrite <- En, (find_port_of _ _ (proj1 OK) (proj1 LP)) in Ho.
  change ((fr_dst f =? slow_multicast) && (fr_type f =? eth_type_slow)) with (is_lacp f) in Ho.
  rewrite IL in Ho. destruct LP as [Hp LG]. apply Z.eqb_neq in LG. rewrite LG in Ho. cbn [andb negb] in Ho.
  destruct (due _ p now (fr_pdu f)); [|exact Ho].
  destruct (lacp_req_reply cfg _ (Some (fr_pdu f)) p); exact Ho.
Qed.

(** A packet that says something new is answered. *)
Theorem C93_news : forall cfg es pre now n f roles o post p,
  lconf_ok cfg -> history cfg es = pre ++ (LFrame now n f roles, o) :: post ->
  lag_port cfg p -> lp_num p = n -> lp_passthrough p = [] -> is_lacp f = true ->
  heard n (map fst pre) <> Some (fr_pdu f) -> answered now n (fr_pdu f) (LFrame now n f roles, o).
Proof.
  intros cfg es pre now n f roles o post p OK H LP En PT IL New.
  rewrite (frame_outcome _ _ _ _ _ _ _ _ _ _ OK H LP En IL).
  replace (due _ p now (fr_pdu f)) with true.
  - destruct (reply_sent cfg (pstate_of cfg (map fst pre)) (Some (fr_pdu f)) p PT) as [r ->].
    rewrite En. exists f, roles, r. auto.
  - unfold due. rewrite (ag_last _ _ _ (agrees_run cfg (map fst pre) OK) _ LP), En.
    destruct (heard n (map fst pre)) as [q|]; [|reflexivity].
    destruct (pdu_eqb (fr_pdu f) q) eqn:E; [|reflexivity].
    apply pdu_eqb_eq in E. congruence.
Qed.
Print Assumptions C93_news.

(** Every packet is answered, or the same packet was answered at most the answering
    interval ago. *)
Theorem C93_fresh : forall cfg es pre now n f roles o post p,
  lconf_ok cfg -> clock_ok es -> history cfg es = pre ++ (LFrame now n f roles, o) :: post ->
  lag_port cfg p -> lp_num p = n -> lp_passthrough p = [] -> is_lacp f = true ->
  answered now n (fr_pdu f) (LFrame now n f roles, o) \/
  exists x t, In x pre /\ answered t n (fr_pdu f) x /\ now - t <= lp_interval p.
Proof.
  intros cfg es pre now n f roles o post p OK CK H LP En PT IL.
  destruct (history_split _ _ _ _ _ _ H) as (es2 & Ees & Epre & _).
  assert (CK1 : clock_ok (map fst pre)).
  { unfold clock_ok in *. rewrite Ees, times_app in CK. apply rising_app in CK. exact CK. }
  pose proof (fresh_run cfg _ OK CK1) as FR.
  rewrite (frame_outcome _ _ _ _ _ _ _ _ _ _ OK H LP En IL).
  destruct (due _ p now (fr_pdu f)) eqn:D.
  - left. destruct (reply_sent cfg (pstate_of cfg (map fst pre)) (Some (fr_pdu f)) p PT) as [r ->].
    rewrite En. exists f, roles, r. auto.
  - right. unfold due in D. apply orb_false_iff in D. destruct D as [D1 D2].
    destruct (ls_last (pstate_of cfg (map fst pre)) (lp_num p)) as [q|] eqn:L; [|discriminate].
    apply negb_false_iff, pdu_eqb_eq in D1. subst q.
    destruct (fi_last _ _ _ FR _ _ LP PT L) as (t & R & x & Hx & A).
    exists x, t. rewrite <- Epre in Hx. rewrite En in A. split; [exact Hx|]. split; [exact A|].
    rewrite R in D2. pose proof (rising_in _ _ _ CK1 (fi_resp _ _ _ FR _ _ R)).
    destruct (t =? 0) eqn:E0; [apply Z.eqb_eq in E0; lia|]. rewrite Z.gtb_ltb in D2. apply Z.ltb_ge in D2. exact D2.
Qed.
Print Assumptions C93_fresh.

(** A packet that says nothing new is answered only when every earlier answer is more
    than the interval ago. *)
Theorem C93_no_storm : forall cfg es pre e o post now n k p,
  lconf_ok cfg -> clock_ok es -> history cfg es = pre ++ (e, o) :: post ->
  lag_port cfg p -> lp_num p = n -> answered now n k (e, o) -> heard n (map fst pre) = Some k ->
  forall x t k', In x pre -> answered t n k' x -> now - t > lp_interval p.
Proof.
  intros cfg es pre e o post now n k p OK CK H LP En A Old x t k' Hx Ax.
  destruct (history_split _ _ _ _ _ _ H) as (es2 & Ees & Epre & _).
  assert (CK1 : clock_ok (map fst pre)).
  { unfold clock_ok in *. rewrite Ees, times_app in CK. apply rising_app in CK. exact CK. }
  pose proof (fresh_run cfg _ OK CK1) as FR.
  destruct A as (f & roles & r & E & IL & <-). injection E as -> ->.
  pose proof (frame_outcome _ _ _ _ _ _ _ _ _ _ OK H LP En IL) as Ho.
  destruct (due _ p now (fr_pdu f)) eqn:D; [|discriminate].
  unfold due in D. rewrite (ag_last _ _ _ (agrees_run cfg (map fst pre) OK) _ LP), En, Old in D.
  replace (pdu_eqb (fr_pdu f) (fr_pdu f)) with true in D by (symmetry; apply pdu_eqb_eq; reflexivity).
  destruct (fi_all _ _ _ FR n t k') as (t' & R & LE).
  { exists x. rewrite <- Epre. auto. }
  rewrite R in D. cbn [negb orb] in D. destruct (t' =? 0); [discriminate|].
  rewrite Z.gtb_ltb in D. apply Z.ltb_lt in D. lia.
Qed.
Print Assumptions C93_no_storm.

(** No event ends in an error. *)
Theorem C93_no_errors : forall cfg es, lconf_ok cfg -> forall x, In x (history cfg es) -> snd x <> Crashed.
Proof.
  intros cfg es OK [e o] Hx C. cbn in C. subst o. apply in_split in Hx. destruct Hx as (pre & post & H).
  destruct (history_split _ _ _ _ _ _ H) as (es2 & _ & _ & Ho).
  set (st := pstate_of cfg (map fst pre)) in *. clearbody st.
  destruct e as [now m g roles|m roles|m|running roles]; cbn [pstep] in Ho; try discriminate.
  - unfold lacp_handler in Ho. destruct (find_port cfg m) as [p|] eqn:F; [|discriminate].
    apply find_port_in in F. destruct F as [Hp _].
    destruct (_ && _ && _); [|discriminate]. destruct (due st p now (fr_pdu g)); [|discriminate].
    destruct (lacp_req_reply cfg st (Some (fr_pdu g)) p) eqn:RR; [discriminate|].
    apply (reply_no_crash cfg st _ p OK Hp RR).
  - destruct (find_port cfg m) as [p|] eqn:F; [|discriminate].
    apply find_port_in in F. destruct F as [Hp _]. cbn [snd] in Ho.
    destruct (negb (lp_lag p =? 0)); [|discriminate]. unfold lacp_advertise in Ho.
    destruct (_ && _); [|discriminate]. symmetry in Ho. apply (reply_no_crash cfg st _ p OK Hp Ho).
Qed.
Print Assumptions C93_no_errors.

(** The IDs given to LAG ports by default differ over all switches of a configuration
    whose ports are numbered up to 100. *)
Theorem C93_port_ids : forall i j p q,
  0 <= i -> 0 <= j -> 1 <= lp_num p <= 100 -> 1 <= lp_num q <= 100 ->
  lp_lag p <> 0 -> lp_lag q <> 0 -> lp_id p = -1 -> lp_id q = -1 ->
  port_id i p = port_id j q -> i = j /\ lp_num p = lp_num q.
Proof.
  intros i j p q Hi Hj Hp Hq Lp Lq Ip Iq. unfold port_id. rewrite Ip, Iq.
  apply Z.eqb_neq in Lp, Lq. rewrite Lp, Lq. cbn [negb andb]. rewrite Z.eqb_refl. lia.
Qed.
Print Assumptions C93_port_ids.

(** ** A case: a port of a LAG meets its partner *)
Definition lx_side (sync : Z) : side := mkSide 200 32768 7 3 128 1 0 1 sync 0 0 0 0.
Definition lx_pdu (sync : Z) : pdu := mkPdu 1 (lx_side sync) nothing_known.
Definition lx_frame (sync : Z) : lframe := mkLframe 200 1652522221570 None 34825 (lx_pdu sync).
Definition lx_port (n : Z) (pass : list Z) : lport := mkLport n 5 true false (100 + n) 255 1 pass.
Definition lx_cfg : lconf := mkLconf 14 [lx_port 1 []; lx_port 2 [1]].
Definition lx_unsel : Z -> port_role := fun _ => RUnselected.
Definition lx_sel : Z -> port_role := fun _ => RSelected.
Definition lx_es : list levent :=
  [LChange (fun _ => true) lx_unsel; LReset 1 lx_unsel; LAdvertise 1; LFrame 10 1 (lx_frame 1) lx_sel;
   LFrame 11 1 (lx_frame 1) lx_sel; LFrame 12 1 (lx_frame 1) lx_sel; LFrame 12 2 (lx_frame 1) lx_sel].
(** Ports and, of each frame: in sync, collecting, and the partner's key. *)
Definition told (x : entry) : list (Z * Z * Z * Z) :=
  match snd x with
  | Crashed => []
  | Sent l => map (fun nf => let k := fr_pdu (snd nf) in
      (fst nf, sd_synchronization (pd_actor k), sd_collecting (pd_actor k), sd_key (pd_partner k))) l
  end.

Lemma lx_cfg_ok : lconf_ok lx_cfg.
Proof.
  split.
  - repeat constructor; cbn; intuition discriminate.
  - intros p m [<-|[<-|[]]] Hm; cbn in *; intuition.
Qed.
Example ex_lacp :
  lconf_ok lx_cfg /\ clock_ok lx_es /\
  map told (history lx_cfg lx_es) =
    [[]; []; [(1, 0, 0, 0)]; [(1, 0, 0, 7)]; []; [(1, 1, 1, 7)]; [(2, 1, 1, 7)]].
Proof.
  split; [exact lx_cfg_ok|]. split; [cbn; lia|]. vm_compute. reflexivity.
Qed.

(** Finding: the answer is made before the packet is acted on.  A partner whose packet
    gets the port selected is told that the port is not in sync, and is not told
    otherwise when it sends the packet again within the interval, although the port is
    selected (and forwards) all the while. *)
Theorem C93_role_told_refuted : exists cfg es n,
  lconf_ok cfg /\ clock_ok es /\ roles_after cfg es n = RSelected /\
  (exists now f roles pre, es = pre ++ [LFrame now n f roles] /\ roles_after cfg pre n = RSelected) /\
  Forall (fun x => forall f, snd x = Sent [(n, f)] -> sd_synchronization (pd_actor (fr_pdu f)) = 0)
    (history cfg es) /\
  exists x f, In x (history cfg es) /\ snd x = Sent [(n, f)].
Proof.
  exists lx_cfg, [LFrame 10 1 (lx_frame 1) lx_sel; LFrame 11 1 (lx_frame 1) lx_sel], 1.
  split; [exact lx_cfg_ok|]. split; [cbn; lia|]. split; [reflexivity|].
  split; [exists 11, (lx_frame 1), lx_sel, [LFrame 10 1 (lx_frame 1) lx_sel]; split; reflexivity|].
  split.
  - repeat constructor; intros f H; vm_compute in H; [injection H as <-; reflexivity|discriminate].
  - eexists. eexists. split; [left; reflexivity|]. vm_compute. reflexivity.
Qed.
Print Assumptions C93_role_told_refuted.

(** Finding: on ports that pass LACP through from others, an answer that is held back
    because a peer is down counts as given.  When the peer is up again the same packet
    goes unanswered, although nothing was ever sent. *)
Theorem C93_fresh_passthrough_refuted : exists cfg es pre now n f roles p,
  lconf_ok cfg /\ clock_ok es /\ history cfg es = pre ++ [(LFrame now n f roles, Sent [])] /\
  lag_port cfg p /\ lp_num p = n /\ is_lacp f = true /\
  (forall m, In m (lp_passthrough p) -> in_sync m (map fst pre)) /\
  forall x t k, In x pre -> ~ answered t n k x.
Proof.
  exists lx_cfg.
  exists [LFrame 10 2 (lx_frame 1) lx_sel; LFrame 10 1 (lx_frame 1) lx_sel; LFrame 11 2 (lx_frame 1) lx_sel].
  exists (history lx_cfg [LFrame 10 2 (lx_frame 1) lx_sel; LFrame 10 1 (lx_frame 1) lx_sel]).
  exists 11, 2, (lx_frame 1), lx_sel, (lx_port 2 [1]).
  split; [exact lx_cfg_ok|]. split; [cbn; lia|]. split; [reflexivity|].
  split; [split; [right; left; reflexivity|discriminate]|]. split; [reflexivity|]. split; [reflexivity|].
  split.
  - intros m [<-|[]]. exists (lx_pdu 1). split; [reflexivity|discriminate].
  - intros x t k Hx (f & roles & r & E & _). vm_compute in Hx.
    destruct Hx as [<-|[<-|[]]]; discriminate.
Qed.
Print Assumptions C93_fresh_passthrough_refuted.

(** Finding: nothing checks that ports named as peers exist.  With one that does not,
    every LACP packet on the port ends in an error, and LACP never comes up there. *)
Theorem C93_missing_peer_refuted : forall cfg p m rest es now f roles,
  NoDup (map lp_num (lc_ports cfg)) -> lag_port cfg p -> lp_passthrough p = m :: rest ->
  ~ In m (map lp_num (lc_ports cfg)) -> is_lacp f = true ->
  history cfg (es ++ [LFrame now (lp_num p) f roles]) =
    history cfg es ++ [(LFrame now (lp_num p) f roles, Crashed)] /\
  ls_up (snd (ptrace cfg pstate_init (es ++ [LFrame now (lp_num p) f roles]))) (lp_num p) = false.
Proof.
  intros cfg p m rest es now f roles ND [Hp LG] HP HM IL. split.
  - rewrite history_snoc. do 3 f_equal.
    destruct (missing_peer_down cfg p m rest es ND Hp HP HM) as [L _].
    cbn [pstep]. unfold lacp_handler. rewrite (find_port_of _ _ ND Hp).
    change ((fr_dst f =? slow_multicast) && (fr_type f =? eth_type_slow)) with (is_lacp f).
    apply Z.eqb_neq in LG. rewrite IL, LG. cbn [andb negb].
    replace (due _ p now (fr_pdu f)) with true by (unfold due; rewrite L; reflexivity).
    unfold lacp_req_reply. rewrite HP. cbn.
    destruct (find_port cfg m) eqn:FM; [|reflexivity].
    apply find_port_in in FM. destruct FM as [F1 <-]. exfalso. apply HM. apply in_map. exact F1.
  - apply (missing_peer_down cfg p m rest _ ND Hp HP HM).
Qed.
Print Assumptions C93_missing_peer_refuted.
Example ex_missing_peer :
  map (fun x => match snd x with Crashed => true | Sent _ => false end)
    (history (mkLconf 14 [lx_port 2 [9]]) [LFrame 10 2 (lx_frame 1) lx_sel]) = [true].
Proof. reflexivity. Qed.

(** Finding: beyond port 100 the IDs of ports of different switches meet, so a partner
    with a LAG to both sees one port twice. *)
Theorem C93_port_ids_refuted : exists i j p q,
  i <> j /\ lp_lag p = lp_lag q /\ lp_lag p <> 0 /\ lp_id p = -1 /\ lp_id q = -1 /\
  port_id i p = port_id j q.
Proof.
  exists 0, 1, (mkLport 101 5 true false (-1) 255 1 []), (mkLport 1 5 true false (-1) 255 1 []).
  repeat split; discriminate.
Qed.
Print Assumptions C93_port_ids_refuted.
