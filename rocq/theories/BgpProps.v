(** * BGP: routes follow what the neighbours say (C75), and what they are told (C76) *)

From Coq Require Import ZArith List Bool Lia.
From Verif Require Import PyBase PyBaseProofs OpenFlow IpModel IpSpec IpProofs RouteModel RouteSpec RouteRib RouteInv RouterCheckModel RouterCheckProps RouteProps BgpModel BgpSpec BgpProofs.
Import ListNotations.
Open Scope Z_scope.

Lemma route_get r d g : rib_ok r -> (route r d g <-> dict_get net_eqb d (r_routes r) = Some g).
Proof.
  intros O. unfold route. split; [apply net_get_in, (ro_keys _ O)|apply (dict_get_in net_eqb net_eqb_eq)].
Qed.

(** ** Examples

    Two configurations of the datapath of RouteProps, whose VLAN 200 has a configured
    route to 10.99.0.0/16: BGP on VLAN 200, and BGP on no VLAN. *)
Definition ex_on : bconf := mkBconf ex_c ex_static [200].
Definition ex_off : bconf := mkBconf ex_c ex_static [].
Definition never_kept (_ _ : Z) : bool := false.
Definition ex_up : bevent := BReload [(1, ex_on)] never_kept.
Definition ex_down : bevent := BReload [(1, ex_off)] never_kept.
Definition ex_k : key := (1, 200).
Definition ex_far : net := mkNet 4 (ip_val (ip4 10 50 0 0)) 16.
Definition ex_peer : ip := ip4 10 0 1 7.
Definition ex_peer2 : ip := ip4 10 0 0 7.       (* on VLAN 100 *)

(** Playing events, latest first. *)
Fixpoint exec (evs : list bevent) : option bstate :=
  match evs with
  | [] => Some bgp_start
  | ev :: r =>
    match exec r with
    | Some s =>
      match ev with
      | BUpdate k _ _ _ => if mem key_eqb k (map fst (b_speakers s)) then bgp_step s ev else None
      | _ => bgp_step s ev
      end
    | None => None
    end
  end.
Definition final (evs : list bevent) : bstate := match exec evs with Some s => s | None => bgp_start end.
Definition simple (ev : bevent) : Prop :=
  match ev with
  | BReload new kept => (exists c, new = [(1, c)] /\ (c = ex_on \/ c = ex_off)) /\ kept = never_kept
  | _ => True
  end.
Lemma exec_breach evs s : exec evs = Some s -> Forall simple evs -> breach evs s.
Proof.
  revert s. induction evs as [|ev r IH]; intros s H F; [injection H as <-; constructor|].
  inversion F as [|? ? F1 F2]; subst. cbn [exec] in H. destruct (exec r) as [s0|] eqn:E; [|discriminate].
  specialize (IH s0 eq_refl F2). destruct ev as [new kept|k d g w|k].
  - destruct F1 as [(c & -> & _) ->]. eapply br_reload; [exact IH| |exact H]. split; [repeat constructor; intros []|discriminate].
  - destruct (mem key_eqb k (map fst (b_speakers s0))) eqn:M; [|discriminate].
    apply (mem_spec _ key_eqb key_eqb_eq) in M. eapply br_update; eassumption.
  - eapply br_down; eassumption.
Qed.
Lemma final_breach evs : match exec evs with Some _ => true | None => false end = true -> Forall simple evs -> breach evs (final evs).
Proof. unfold final. destruct (exec evs) as [s|] eqn:E; [|discriminate]. intros _ F. apply exec_breach; assumption. Qed.
Lemma simple_reload evs new kept : Forall simple evs -> In (BReload new kept) evs -> exists c, new = [(1, c)] /\ (c = ex_on \/ c = ex_off).
Proof. intros F I. rewrite Forall_forall in F. apply (F _ I). Qed.
Lemma simple_valid evs : Forall simple evs -> valid evs.
Proof.
  intros F new kept dp c I G. destruct (simple_reload evs new kept F I) as (c' & -> & Hc). cbn in G.
  destruct (dp =? 1); [|discriminate]. injection G as ->. destruct Hc as [-> | ->];
    (split; [apply ex_cfg|]; split; [apply ex_one_router|]; split; [apply ex_apart|]; intros v; cbn; tauto).
Qed.
Definition good_update (ev : bevent) : Prop :=
  match ev with BUpdate k _ g w => k = ex_k /\ (g = Some ex_peer \/ (g = None /\ w = true)) | _ => True end.
Lemma ex_peer_local c : (c = ex_on \/ c = ex_off) ->
  my_ip (bc_r c) ex_peer /\ RouteSpec.on_link (bc_r c) 200 ex_peer /\ forall p, In p (vl_vips (get_vlan (bc_r c) 200)) -> v_ip p <> ex_peer.
Proof.
  intros H. replace (bc_r c) with ex_c by (destruct H as [-> | ->]; reflexivity).
  split; [split; [left; cbn; lia|reflexivity]|]. split.
  - eexists (mkVlan 200 _ _ _ _ _), _. split; [right; left; reflexivity|]. split; [reflexivity|]. split; [left; reflexivity|].
    split; [reflexivity|vm_compute; split; discriminate || reflexivity].
  - intros p [<-|[]]. discriminate.
Qed.
Lemma good_local evs : Forall simple evs -> Forall good_update evs -> local evs.
Proof.
  intros F U k d g w new kept c I J G _. rewrite Forall_forall in U. destruct (U _ I) as [-> [X|[X _]]]; [|discriminate X]. injection X as ->.
  destruct (simple_reload evs new kept F J) as (c' & -> & Hc). cbn in G. injection G as ->. apply ex_peer_local. exact Hc.
Qed.
Lemma good_complete evs : Forall good_update evs -> complete evs.
Proof. intros U k d I. rewrite Forall_forall in U. destruct (U _ I) as [_ [X|[_ X]]]; discriminate X. Qed.

(** ** C75 *)

(** While BGP stays on the VLAN: the route to [d] is the one that was announced last, if
    it was not withdrawn since, and otherwise the one in the configuration. *)
Theorem C75_routes_follow : forall evs s k d c g,
  valid evs -> local evs -> complete evs -> stays k evs -> ~ mentioned k d evs \/ not_static k d evs ->
  breach evs s -> dict_get Z.eqb (fst k) (b_valves s) = Some c ->
  (route (b_rst s (fst k) (snd k)) d g <->
   announced k d evs g \/ ((forall g', ~ announced k d evs g') /\ last_route (bc_static c (snd k)) d g)).
Proof.
  intros evs s k d c g V L C S D R G.
  pose proof (breach_inv evs V L C evs s R (fun _ H => H)) as I.
  destruct (fo_route _ _ _ _ (breach_followed evs V L C k S d D evs s R (fun _ H => H)) c G) as (_ & _ & E).
  rewrite (route_get _ _ _ (iv_ok _ _ I _ _)), E. destruct (ann k d evs) as [h|] eqn:A.
  - split; [intros X; injection X as <-; left; apply ann_spec; exact A|]. intros [X|[X _]].
    + apply ann_spec in X. congruence.
    + exfalso. apply (X h), ann_spec. exact A.
  - rewrite last_route_spec. split; [intros X; right; split; [|exact X]|].
    + intros g' Y. apply ann_spec in Y. congruence.
    + intros [X|[_ X]]; [|exact X]. apply ann_spec in X. congruence.
Qed.
Print Assumptions C75_routes_follow.

(** VLANs that never had BGP have exactly the configured routes. *)
Theorem C75_others_untouched : forall evs s k d c g,
  valid evs -> local evs -> complete evs -> never k evs ->
  breach evs s -> dict_get Z.eqb (fst k) (b_valves s) = Some c ->
  (route (b_rst s (fst k) (snd k)) d g <-> last_route (bc_static c (snd k)) d g).
Proof.
  intros evs s k d c g V L C N R G.
  pose proof (breach_inv evs V L C evs s R (fun _ H => H)) as I.
  destruct (breach_plain evs V L C evs s R (fun _ H => H)) as [P1 P2 P3].
  destruct (dict_get key_eqb k (b_speakers s)) as [adv|] eqn:E.
  - exfalso. destruct (P3 k adv E) as (c' & F & _). clear - F N. induction F as [e new kept H1 H2 H3|e ev F IH].
    + exact (N new kept c' (or_introl eq_refl) H1 H2).
    + apply IH. intros new kept c0 J. apply (N new kept c0). right. exact J.
  - rewrite (route_get _ _ _ (iv_ok _ _ I _ _)), (P2 k c d E G). apply last_route_spec.
Qed.
Print Assumptions C75_others_untouched.

(** No event fails. *)
Theorem C75_never_fails : forall evs s ev,
  breach evs s -> valid (ev :: evs) -> local (ev :: evs) -> complete (ev :: evs) -> exists s', bgp_step s ev = Some s'.
Proof.
  intros evs s ev R V L C. destruct (bgp_step s ev) as [s'|] eqn:E; [exists s'; reflexivity|].
  exfalso. exact (never_fails evs s ev R V L C E).
Qed.
Print Assumptions C75_never_fails.

(** Announced, then a reload from scratch: the route is there again, beside the one in
    the configuration. *)
Definition ex_evs1 : list bevent := [BDown ex_k; ex_up; BUpdate ex_k ex_far (Some ex_peer) false; ex_up].
Ltac simple_evs := repeat constructor; (eexists; split; [reflexivity|]; first [left; reflexivity|right; reflexivity]).
Example C75_example :
  breach ex_evs1 (final ex_evs1) /\ valid ex_evs1 /\ local ex_evs1 /\ complete ex_evs1 /\ stays ex_k ex_evs1 /\
  not_static ex_k ex_far ex_evs1 /\ ~ mentioned ex_k ex_dst ex_evs1 /\ announced ex_k ex_far ex_evs1 ex_peer /\
  r_routes (b_rst (final ex_evs1) 1 200) = [(ex_dst, ex_gw); (ex_far, ex_peer)] /\ never (1, 100) ex_evs1.
Proof.
  assert (F : Forall simple ex_evs1) by simple_evs. assert (U : Forall good_update ex_evs1) by (repeat constructor; left; reflexivity).
  split; [apply final_breach; [vm_compute; reflexivity|exact F]|].
  split; [apply simple_valid, F|]. split; [apply good_local; assumption|]. split; [apply good_complete, U|].
  split; [intros new kept [H|[H|[H|[H|[]]]]]; try discriminate H; injection H as <- <-; exists ex_on; split; try reflexivity; left; reflexivity|].
  split.
  { intros new kept c g [H|[H|[H|[H|[]]]]]; try discriminate H; injection H as <- <-; cbn; intros X; injection X as <-;
      cbn; intros [Y|[]]; discriminate Y. }
  split; [intros (g & w & [H|[H|[H|[H|[]]]]]); discriminate H|].
  split; [do 2 (apply an_before; [|discriminate]); apply an_now|].
  split; [vm_compute; reflexivity|].
  intros new kept c [H|[H|[H|[H|[]]]]]; try discriminate H; injection H as <- <-; cbn; intros X; injection X as <-;
    cbn; intros [Y|[]]; discriminate Y.
Qed.

(** Finding: a route whose next hop is on another VLAN of the router stays when it is
    withdrawn (it is added to that VLAN, and deleted from the VLAN with BGP). *)
Definition ex_evs2 : list bevent := [BUpdate ex_k ex_far None true; BUpdate ex_k ex_far (Some ex_peer2) false; ex_up].
Theorem C75_withdrawn_stays_refuted : exists evs s d g v,
  valid evs /\ complete evs /\ stays ex_k evs /\ breach evs s /\ (forall k g, ~ announced k d evs g) /\
  not_static ex_k d evs /\ route (b_rst s 1 v) d g /\ ~ In (d, g) (ex_static v).
Proof.
  exists ex_evs2, (final ex_evs2), ex_far, ex_peer2, 100.
  assert (F : Forall simple ex_evs2) by simple_evs.
  split; [apply simple_valid, F|]. split; [intros k d [H|[H|[H|[]]]]; discriminate H|].
  split; [intros new kept [H|[H|[H|[]]]]; try discriminate H; injection H as <- <-; exists ex_on; split; [reflexivity|left; reflexivity]|].
  split; [apply final_breach; [vm_compute; reflexivity|exact F]|]. split.
  { intros k g H. apply ann_spec in H. cbn in H. destruct (key_eqb k ex_k); cbn in H; discriminate H. }
  split.
  { intros new kept c g [H|[H|[H|[]]]]; try discriminate H; injection H as <- <-; cbn; intros X; injection X as <-;
      cbn; intros [Y|[]]; discriminate Y. }
  split; [vm_compute; left; reflexivity|intros []].
Qed.
Print Assumptions C75_withdrawn_stays_refuted.

(** Finding: a neighbour that withdraws a prefix removes the configured route to it. *)
Definition ex_evs3 : list bevent := [BUpdate ex_k ex_dst None true; ex_up].
Theorem C75_static_lost_refuted : exists evs s c d g,
  valid evs /\ local evs /\ complete evs /\ stays ex_k evs /\ breach evs s /\ dict_get Z.eqb 1 (b_valves s) = Some c /\
  last_route (bc_static c 200) d g /\ forall g', ~ route (b_rst s 1 200) d g'.
Proof.
  exists ex_evs3, (final ex_evs3), ex_on, ex_dst, ex_gw.
  assert (F : Forall simple ex_evs3) by simple_evs. assert (U : Forall good_update ex_evs3) by (repeat constructor; right; split; reflexivity).
  split; [apply simple_valid, F|]. split; [apply good_local; assumption|]. split; [apply good_complete, U|].
  split; [intros new kept [H|[H|[]]]; try discriminate H; injection H as <- <-; exists ex_on; split; [reflexivity|left; reflexivity]|].
  split; [apply final_breach; [vm_compute; reflexivity|exact F]|]. split; [vm_compute; reflexivity|].
  split; [exists [], []; split; [reflexivity|intros g' []]|].
  assert (E : r_routes (b_rst (final ex_evs3) 1 200) = []) by (vm_compute; reflexivity).
  unfold route. rewrite E. intros g' [].
Qed.
Print Assumptions C75_static_lost_refuted.

(** Finding: a neighbour of a VLAN whose BGP was taken out of the configuration still
    adds routes. *)
Definition ex_evs4 : list bevent := [BUpdate ex_k ex_far (Some ex_peer) false; ex_down; ex_up].
Theorem C75_deconfigured_refuted : exists evs s c d g,
  valid evs /\ local evs /\ complete evs /\ breach (BUpdate ex_k d (Some g) false :: evs) s /\
  hd_error evs = Some (BReload [(1, c)] never_kept) /\ bc_bgp c = [] /\ route (b_rst s 1 200) d g.
Proof.
  exists [ex_down; ex_up], (final ex_evs4), ex_off, ex_far, ex_peer.
  assert (F : Forall simple ex_evs4) by simple_evs. assert (F' : Forall simple [ex_down; ex_up]) by simple_evs.
  split; [apply simple_valid, F'|]. split; [apply good_local; [exact F'|repeat constructor]|].
  split; [apply good_complete; repeat constructor|].
  split; [change (breach ex_evs4 (final ex_evs4)); apply final_breach; [vm_compute; reflexivity|exact F]|].
  split; [reflexivity|]. split; [reflexivity|]. vm_compute. right. left. reflexivity.
Qed.
Print Assumptions C75_deconfigured_refuted.

(** Finding: when a neighbour goes down its routes stay. *)
Theorem C75_down_refuted : exists evs s k d g,
  breach (BDown k :: evs) s /\ not_static k d evs /\ announced k d evs g /\ route (b_rst s (fst k) (snd k)) d g.
Proof.
  destruct C75_example as (R & _ & _ & _ & _ & N & _ & A & E & _).
  exists [ex_up; BUpdate ex_k ex_far (Some ex_peer) false; ex_up], (final ex_evs1), ex_k, ex_far, ex_peer.
  split; [exact R|]. split; [intros new kept c g I; apply (N new kept c g); right; exact I|].
  split; [apply an_before; [apply an_now|discriminate]|]. unfold route. cbn [ex_k fst snd]. rewrite E. right. left. reflexivity.
Qed.
Print Assumptions C75_down_refuted.

(** Finding: an announcement without a next hop ends the controller. *)
Theorem C75_no_next_hop_refuted : exists evs s k d,
  valid evs /\ local evs /\ complete evs /\ breach evs s /\ In k (map fst (b_speakers s)) /\ bgp_step s (BUpdate k d None false) = None.
Proof.
  exists [ex_up], (final [ex_up]), ex_k, ex_far. assert (F : Forall simple [ex_up]) by simple_evs.
  split; [apply simple_valid, F|]. split; [apply good_local; [exact F|repeat constructor]|]. split; [apply good_complete; repeat constructor|].
  split; [apply final_breach; [vm_compute; reflexivity|exact F]|]. split; [vm_compute; left; reflexivity|vm_compute; reflexivity].
Qed.
Print Assumptions C75_no_next_hop_refuted.

(** ** C76 *)

(** Who speaks BGP on a VLAN offers exactly the router's subnets and the configured
    routes of the configuration that BGP was started with. *)
Theorem C76_offers : forall evs s k c,
  valid evs -> local evs -> complete evs -> breach evs s -> first_config k c evs ->
  exists adv, dict_get key_eqb k (b_speakers s) = Some adv /\ forall d g, In (d, g) adv <-> offered c (snd k) d g.
Proof.
  intros evs s k c V L C R F. destruct (breach_plain evs V L C evs s R (fun _ H => H)) as [P1 P2 P3].
  destruct (dict_get key_eqb k (b_speakers s)) as [adv|] eqn:E.
  - exists adv. split; [reflexivity|]. destruct (P3 k adv E) as (c' & F' & O). rewrite (unique_config k c c' evs F F'). exact O.
  - exfalso. pose proof (P1 k E) as N. clear - F N. induction F as [e new kept H1 H2 H3|e ev F IH].
    + exact (N new kept c (or_introl eq_refl) H1 H2).
    + apply IH. intros new kept c0 J. apply (N new kept c0). right. exact J.
Qed.
Print Assumptions C76_offers.

(** Nobody speaks BGP on other VLANs. *)
Theorem C76_silent : forall evs s k,
  valid evs -> local evs -> complete evs -> breach evs s -> never k evs -> dict_get key_eqb k (b_speakers s) = None.
Proof.
  intros evs s k V L C R N. destruct (breach_plain evs V L C evs s R (fun _ H => H)) as [P1 P2 P3].
  destruct (dict_get key_eqb k (b_speakers s)) as [adv|] eqn:E; [|reflexivity].
  exfalso. destruct (P3 k adv E) as (c & F & _). clear - F N. induction F as [e new kept H1 H2 H3|e ev F IH].
  + exact (N new kept c (or_introl eq_refl) H1 H2).
  + apply IH. intros new kept c0 J. apply (N new kept c0). right. exact J.
Qed.
Print Assumptions C76_silent.

Example C76_example :
  breach ex_evs1 (final ex_evs1) /\ first_config ex_k ex_on ex_evs1 /\
  b_speakers (final ex_evs1) = [(ex_k, [(mkNet 4 (ip_val (ip4 10 0 1 0)) 24, ip4 10 0 1 254); (ex_dst, ex_gw)])].
Proof.
  split; [apply C75_example|]. split; [|vm_compute; reflexivity].
  do 3 apply fc_before. apply fc_now; [reflexivity|left; reflexivity|intros new kept c []].
Qed.

(** Finding: later configurations change nothing.  Here a route is added to the
    configuration by a reload, and is not offered. *)
Definition ex_on2 : bconf := mkBconf ex_c (fun v => ex_static v ++ if v =? 200 then [(ex_far, ex_gw)] else []) [200].
Definition ex_evs5 : list bevent := [BReload [(1, ex_on2)] never_kept; ex_up].
Theorem C76_reload_refuted : exists evs s c k d g adv,
  valid evs /\ local evs /\ complete evs /\ breach evs s /\ dict_get Z.eqb (fst k) (b_valves s) = Some c /\ In (snd k) (bc_bgp c) /\
  offered c (snd k) d g /\ dict_get key_eqb k (b_speakers s) = Some adv /\ ~ In (d, g) adv.
Proof.
  exists ex_evs5, (final ex_evs5), ex_on2, ex_k, ex_far, ex_gw, [(mkNet 4 (ip_val (ip4 10 0 1 0)) 24, ip4 10 0 1 254); (ex_dst, ex_gw)].
  split.
  { intros new kept dp c [H|[H|[]]]; injection H as <- <-; cbn; (destruct (dp =? 1); [|discriminate]); intros X; injection X as <-;
      (split; [apply ex_cfg|]; split; [apply ex_one_router|]; split; [apply ex_apart|]; intros v; cbn; tauto). }
  split; [intros k d g w new kept c [H|[H|[]]]; discriminate H|]. split; [intros k d [H|[H|[]]]; discriminate H|].
  split.
  { eapply (br_reload [ex_up] (final [ex_up])); [apply final_breach; [vm_compute; reflexivity|simple_evs]| |reflexivity].
    split; [repeat constructor; intros []|discriminate]. }
  split; [vm_compute; reflexivity|]. split; [left; reflexivity|].
  split; [right; exists [(ex_dst, ex_gw)], []; split; [reflexivity|intros g' []]|].
  split; [vm_compute; reflexivity|]. intros [H|[H|[]]]; discriminate H.
Qed.
Print Assumptions C76_reload_refuted.
