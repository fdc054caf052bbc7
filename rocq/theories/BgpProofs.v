(** * Proofs about routes from BGP *)

From Coq Require Import ZArith List Bool Lia.
From Verif Require Import PyBase PyBaseProofs OpenFlow IpModel IpSpec IpProofs RouteModel RouteSpec RouteRib RouteMicro RouteShape RouteInv
  RouteCalm RouteWanted BgpModel BgpSpec.
Import ListNotations.
Open Scope Z_scope.

Lemma key_eqb_eq a b : key_eqb a b = true <-> a = b.
Proof.
  unfold key_eqb. rewrite andb_true_iff, !Z.eqb_eq. destruct a, b; cbn. split; [intros [-> ->]; reflexivity|].
  intros H; injection H as -> ->. split; reflexivity.
Qed.
Lemma key_eqb_refl a : key_eqb a a = true.
Proof. apply key_eqb_eq. reflexivity. Qed.
Lemma dict_get_fst {V} d k (l : list (key * V)) : In k (map fst l) -> dict_get key_eqb k l = d -> d <> None.
Proof.
  intros I <-. induction l as [|[k' v] r IH]; [destruct I|]. cbn. destruct (key_eqb k k') eqn:E; [discriminate|].
  destruct I as [<-|I]; [rewrite key_eqb_refl in E; discriminate|]. apply IH, I.
Qed.
Lemma dict_get_none {K V} (eqb : K -> K -> bool) (H : forall a b, eqb a b = true <-> a = b) k (l : list (K * V)) :
  dict_get eqb k l = None <-> ~ In k (map fst l).
Proof.
  induction l as [|[k' v] r IH]; cbn; [tauto|]. destruct (eqb k k') eqn:E.
  - apply H in E as ->. split; [discriminate|]. intros X. exfalso. apply X. left. reflexivity.
  - rewrite IH. split; [intros N [X|X]; [subst; assert (eqb k k = true) by (apply H; reflexivity); congruence|exact (N X)]|].
    intros N X. apply N. right. exact X.
Qed.

(** ** The specification as functions *)

Fixpoint ann (k : key) (d : net) (evs : list bevent) : option ip :=
  match evs with
  | [] => None
  | BUpdate k' d' g w :: r => if key_eqb k k' && net_eqb d d' then (if w then None else g) else ann k d r
  | _ :: r => ann k d r
  end.
Lemma ann_spec k d evs g : ann k d evs = Some g <-> announced k d evs g.
Proof.
  split.
  - induction evs as [|ev r IH]; [discriminate|]. destruct ev as [new kept|k' d' h w|k']; cbn [ann].
    + intros H. apply an_before; [apply IH, H|]. intros; discriminate.
    + destruct (key_eqb k k' && net_eqb d d') eqn:E.
      * apply andb_true_iff in E as [E1 E2]. apply key_eqb_eq in E1 as <-. apply net_eqb_eq in E2 as <-.
        destruct w; [discriminate|]. intros ->. apply an_now.
      * intros H. apply an_before; [apply IH, H|]. intros h' w' X. injection X as -> -> _ _.
        rewrite key_eqb_refl, net_eqb_refl in E. discriminate.
    + intros H. apply an_before; [apply IH, H|]. intros; discriminate.
  - intros H. induction H as [r g|r ev g H IH N]; cbn [ann].
    + rewrite key_eqb_refl, net_eqb_refl. reflexivity.
    + destruct ev as [new kept|k' d' h w|k']; [exact IH| |exact IH].
      destruct (key_eqb k k' && net_eqb d d') eqn:E; [|exact IH].
      apply andb_true_iff in E as [E1 E2]. apply key_eqb_eq in E1 as <-. apply net_eqb_eq in E2 as <-.
      exfalso. exact (N h w eq_refl).
Qed.
Lemma ann_mentioned k d evs g : ann k d evs = Some g -> In (BUpdate k d (Some g) false) evs.
Proof.
  induction evs as [|ev r IH]; [discriminate|]. destruct ev as [new kept|k' d' h w|k']; cbn [ann].
  - intros H. right. apply IH, H.
  - destruct (key_eqb k k' && net_eqb d d') eqn:E; [|intros H; right; apply IH, H].
    apply andb_true_iff in E as [E1 E2]. apply key_eqb_eq in E1 as <-. apply net_eqb_eq in E2 as <-.
    destruct w; [discriminate|]. intros ->. left. reflexivity.
  - intros H. right. apply IH, H.
Qed.
Lemma last_route_spec l d g : rget d (static_rib l) = Some g <-> last_route l d g.
Proof.
  induction l as [|[d' g'] l IH] using rev_ind.
  - cbn. split; [discriminate|]. intros (l1 & l2 & E & _). destruct l1; discriminate.
  - unfold static_rib. rewrite fold_left_app. cbn [fold_left fst snd]. fold (static_rib l). rewrite rib_add_routes.
    destruct (net_eqb d' d) eqn:E.
    + apply net_eqb_eq in E as ->. split.
      * intros X. injection X as ->. exists l, []. split; [reflexivity|]. intros g0 [].
      * intros (l1 & l2 & X & N). destruct l2 as [|q l2] using rev_ind.
        -- apply app_inj_tail in X as [_ X]. injection X as ->. reflexivity.
        -- exfalso. rewrite app_comm_cons, app_assoc in X. apply app_inj_tail in X as [_ <-].
           apply (N g'). apply in_or_app. right. left. reflexivity.
    + rewrite IH. split.
      * intros (l1 & l2 & -> & N). exists l1, (l2 ++ [(d', g')]). split; [rewrite <- app_assoc; reflexivity|].
        intros g0 I. apply in_app_or in I as [I|[I|[]]]; [exact (N g0 I)|]. injection I as -> _. rewrite net_eqb_refl in E. discriminate.
      * intros (l1 & l2 & X & N). destruct l2 as [|q l2] using rev_ind.
        -- apply app_inj_tail in X as [_ X]. injection X as -> ->. rewrite net_eqb_refl in E. discriminate.
        -- clear IHl2. rewrite app_comm_cons, app_assoc in X. apply app_inj_tail in X as [-> _]. exists l1, l2.
           split; [reflexivity|]. intros g0 I. apply (N g0). apply in_or_app. left. exact I.
Qed.
Lemma static_rib_ok l : rib_ok (static_rib l).
Proof.
  induction l as [|q l IH] using rev_ind; [exact empty_rib_ok|].
  unfold static_rib. rewrite fold_left_app. cbn [fold_left]. apply rib_add_ok. exact IH.
Qed.

(** ** Single operations *)

Definition all_ok (r : rst) : Prop := forall v, rib_ok (r v).
Lemma add_ok c r v g d : all_ok r -> all_ok (fst (add_route c r v g d)).
Proof.
  intros O. unfold add_route. destruct (router_vlan_for_gw c v g) as [v'|]; [|exact O].
  rewrite no_vip_net.
  assert (U : all_ok (upd r v' (rib_add d g (r v')))).
  { intros x. destruct (upd_cases r v' (rib_add d g (r v')) x) as [[_ ->]|[_ ->]]; [apply rib_add_ok, O|apply O]. }
  destruct (dict_get net_eqb d (r_routes (r v'))) as [g'|]; [destruct (ip_eqb g' g)|]; cbn [fst]; assumption.
Qed.
Lemma add_get c r v g d x d' : router_vlan_for_gw c v g = Some v ->
  rget d' (fst (add_route c r v g d) x) = if (x =? v) && net_eqb d d' then Some g else rget d' (r x).
Proof.
  intros L. destruct (add_route c r v g d) as [r' ms] eqn:E. cbn [fst]. rewrite (add_route_get c r v g d r' ms E). rewrite L. reflexivity.
Qed.
Lemma del_ok c r v d : all_ok r -> exists r' ms, del_route c r v d = Some (r', ms) /\ all_ok r' /\
  forall x d', rget d' (r' x) = if (x =? v) && net_eqb d d' then None else rget d' (r x).
Proof.
  intros O. unfold del_route. rewrite no_vip_net. pose proof (rib_del_spec d (r v) (O v)) as S.
  destruct (dict_get net_eqb d (r_routes (r v))) as [g|] eqn:G.
  - destruct S as (r1 & -> & O1 & R & _). eexists _, _. split; [reflexivity|]. split.
    + intros x. destruct (upd_cases r v r1 x) as [[_ ->]|[_ ->]]; [exact O1|apply O].
    + intros x d'. destruct (upd_cases r v r1 x) as [[-> ->]|[N ->]].
      * rewrite R, Z.eqb_refl. reflexivity.
      * apply Z.eqb_neq in N. rewrite N. reflexivity.
  - eexists _, _. split; [reflexivity|]. split; [exact O|]. intros x d'.
    destruct (Z.eqb_spec x v) as [->|N]; [|reflexivity]. cbn [andb]. destruct (net_eqb d d') eqn:E; [|reflexivity].
    apply net_eqb_eq in E as <-. exact G.
Qed.

(** Adding the routes of a speaker again *)
Definition readd (c : rconf) (v : Z) (q : list (net * ip)) (r : rst) : rst :=
  fold_left (fun r q => fst (add_route c r v (snd q) (fst q))) q r.
Lemma readd_ok c v q r : all_ok r -> all_ok (readd c v q r).
Proof. revert r. induction q as [|[d g] q IH]; intros r O; [exact O|]. cbn. apply IH, add_ok, O. Qed.
Lemma readd_get c v q r x d : NoDup (map fst q) -> (forall d g, In (d, g) q -> router_vlan_for_gw c v g = Some v) ->
  rget d (readd c v q r x) = if x =? v then match dict_get net_eqb d q with Some g => Some g | None => rget d (r x) end else rget d (r x).
Proof.
  revert r. induction q as [|[d' g] q IH]; intros r N L; [cbn; destruct (x =? v); reflexivity|].
  inversion N as [|? ? N1 N2]; subst. cbn [readd fold_left fst snd]. fold (readd c v q (fst (add_route c r v g d'))).
  rewrite IH; [|exact N2|intros; eapply L; right; eassumption].
  rewrite add_get by (eapply L; left; reflexivity). cbn [dict_get].
  destruct (x =? v); cbn [andb]; [|reflexivity].
  destruct (net_eqb d d') eqn:E.
  - apply net_eqb_eq in E as <-. rewrite (proj2 (dict_get_none net_eqb net_eqb_eq d q) N1). rewrite net_eqb_refl. reflexivity.
  - replace (net_eqb d' d) with false; [reflexivity|]. symmetry. rewrite net_eqb_sym. exact E.
Qed.

(** ** Starting and keeping speakers *)

Lemma key_rib_put s k r k' : key_rib (set_rib s k r) k' = if key_eqb k' k then r else key_rib s k'.
Proof. unfold key_rib, set_rib. cbn [b_rib]. rewrite (dict_get_put key_eqb key_eqb_eq). destruct (key_eqb k' k); reflexivity. Qed.

Section Reset.
Variable s0 : bstate.
Hypothesis Hok : forall dp, all_ok (b_rst s0 dp).
Hypothesis Hnd : forall k, NoDup (map fst (key_rib s0 k)).
Hypothesis Hlocal : forall dp c v d g, In (dp, c) (b_valves s0) -> In v (bc_bgp c) -> In (d, g) (key_rib s0 (dp, v)) ->
  router_vlan_for_gw (bc_r c) v g = Some v.
Variable k : key.
Variable d : net.

Lemma or_iff_compat (A B C D : Prop) : (A <-> C) -> (B <-> D) -> (A \/ B <-> C \/ D).
Proof. tauto. Qed.
Lemma net_get_in {V} d0 (v : V) l : NoDup (map fst l) -> In (d0, v) l -> dict_get net_eqb d0 l = Some v.
Proof.
  induction l as [|[d' v'] r IH]; intros N H; [destruct H|]. inversion N as [|? ? N1 N2]; subst. cbn.
  destruct H as [H|H]; [injection H as -> ->; rewrite net_eqb_refl; reflexivity|].
  destruct (net_eqb d0 d') eqn:E; [|apply IH; assumption]. apply net_eqb_eq in E as ->. exfalso. apply N1.
  apply (in_map fst) in H. exact H.
Qed.

(** What the routes of [k] become *)
Definition merged (before : option ip) : option ip :=
  match dict_get net_eqb d (key_rib s0 k) with Some g => Some g | None => before end.
Definition before : option ip := rget d (b_rst s0 (fst k) (snd k)).
(** What a speaker that is started now is told *)
Definition told (c : bconf) (g : ip) : Prop :=
  (exists p, In p (vl_vips (get_vlan (bc_r c) (snd k))) /\ ip_ver (v_ip p) = rc_ver (bc_r c) /\ vip_net p = d /\ v_ip p = g) \/ before = Some g.
Record during (done : Prop) (acc : bstate * list (key * list (net * ip))) : Prop := {
  du_valves : b_valves (fst acc) = b_valves s0;
  du_rib : b_rib (fst acc) = b_rib s0;
  du_ok : forall dp, all_ok (b_rst (fst acc) dp);
  du_some : rget d (b_rst (fst acc) (fst k) (snd k)) = before \/
            (rget d (b_rst (fst acc) (fst k) (snd k)) = merged before /\ In k (map fst (b_speakers s0)));
  du_done : done -> (In k (map fst (b_speakers s0)) -> rget d (b_rst (fst acc) (fst k) (snd k)) = merged before) /\ In k (map fst (snd acc));
  du_old : forall a adv, dict_get key_eqb k (b_speakers s0) = Some a -> dict_get key_eqb k (snd acc) = Some adv -> adv = a;
  du_new : forall adv, dict_get key_eqb k (b_speakers s0) = None -> dict_get key_eqb k (snd acc) = Some adv ->
    exists c, In (fst k, c) (b_valves s0) /\ In (snd k) (bc_bgp c) /\ forall g, In (d, g) adv <-> told c g }.
Lemma prefixes_told c s : all_ok (b_rst s (fst k)) -> rget d (b_rst s (fst k) (snd k)) = before ->
  forall g, In (d, g) (prefixes c (b_rst s (fst k)) (snd k)) <-> told c g.
Proof.
  intros O B g. unfold prefixes, told. rewrite in_app_iff, in_map_iff, <- B.
  apply or_iff_compat.
  - split.
    + intros (p & E & I). apply filter_In in I as [I V]. apply Z.eqb_eq in V. injection E as E1 E2. exists p. auto.
    + intros (p & I & V & E1 & E2). exists p. split; [congruence|]. apply filter_In. rewrite Z.eqb_eq. auto.
  - split.
    + intros I. apply net_get_in; [apply (ro_keys _ (O (snd k)))|exact I].
    + apply (dict_get_in net_eqb net_eqb_eq).
Qed.

Lemma merged_merged x : merged (merged x) = merged x.
Proof. unfold merged. destruct (dict_get _ _ _); reflexivity. Qed.
Lemma put_in {V} k1 k2 (v : V) l : In k1 (map fst (dict_put key_eqb k2 v l)) <-> k1 = k2 \/ In k1 (map fst l).
Proof.
  induction l as [|[k' v'] r IH]; cbn; [split; [intros [->|[]]; left; reflexivity|intros [->|[]]; left; reflexivity]|].
  destruct (key_eqb k2 k') eqn:E; cbn.
  - apply key_eqb_eq in E as ->. split; [intros [->|H]; [left; reflexivity|right; right; exact H]|].
    intros [->|[->|H]]; [left; reflexivity|left; reflexivity|right; exact H].
  - rewrite IH. tauto.
Qed.

Lemma one_speaker dp c v acc (done : Prop) : In (dp, c) (b_valves s0) -> In v (bc_bgp c) -> during done acc ->
  during (done \/ k = (dp, v)) (add_bgp_speaker (b_speakers s0) dp c acc v).
Proof.
  intros Hin Hv D. destruct acc as [s new]. destruct D as [D1 D2 D3 D4 D5 D6 D7]. cbn [fst snd] in *.
  assert (Hrib : forall k', key_rib s k' = key_rib s0 k') by (intros; unfold key_rib; rewrite D2; reflexivity).
  unfold add_bgp_speaker. destruct (dict_get key_eqb (dp, v) (b_speakers s0)) as [adv|] eqn:E.
  - assert (Hsp : In (dp, v) (map fst (b_speakers s0))).
    { apply (dict_get_in key_eqb key_eqb_eq) in E. apply (in_map fst) in E. exact E. }
    rewrite Hrib. fold (readd (bc_r c) v (key_rib s0 (dp, v)) (b_rst s dp)).
    assert (G : rget d (b_rst (set_rst s dp (readd (bc_r c) v (key_rib s0 (dp, v)) (b_rst s dp))) (fst k) (snd k)) =
                if key_eqb k (dp, v) then merged (rget d (b_rst s (fst k) (snd k))) else rget d (b_rst s (fst k) (snd k))).
    { unfold set_rst, merged. cbn [b_rst]. destruct (key_eqb k (dp, v)) eqn:Ek.
      - apply key_eqb_eq in Ek. rewrite Ek. cbn [fst snd]. rewrite Z.eqb_refl.
        rewrite readd_get; [|apply Hnd|intros d' g' I; eapply Hlocal; eassumption]. rewrite Z.eqb_refl. reflexivity.
      - unfold key_eqb in Ek. cbn [fst snd] in Ek. destruct (fst k =? dp) eqn:Ed; [|reflexivity].
        rewrite readd_get; [|apply Hnd|intros d' g' I; eapply Hlocal; eassumption].
        cbn [andb] in Ek. rewrite Ek. apply Z.eqb_eq in Ed. rewrite Ed. reflexivity. }
    constructor; cbn [fst snd].
    + exact D1.
    + exact D2.
    + intros dp'. unfold set_rst. cbn [b_rst]. destruct (dp' =? dp); [apply readd_ok, D3|apply D3].
    + rewrite G. destruct (key_eqb k (dp, v)) eqn:Ek; [|exact D4].
      apply key_eqb_eq in Ek. right. split; [|rewrite Ek; exact Hsp].
      destruct D4 as [->|[-> _]]; [reflexivity|apply merged_merged].
    + intros Hd. rewrite G. split; [|apply put_in; destruct Hd as [Hd|Hd]; [right; apply D5, Hd|left; exact Hd]].
      intros Hk. destruct (key_eqb k (dp, v)) eqn:Ek.
      * destruct D4 as [->|[-> _]]; [reflexivity|apply merged_merged].
      * destruct Hd as [Hd|Hd]; [apply D5; assumption|]. rewrite Hd, key_eqb_refl in Ek. discriminate.
    + intros a adv' Ha. rewrite (dict_get_put key_eqb key_eqb_eq). destruct (key_eqb k (dp, v)) eqn:Ek; [|apply D6, Ha].
      apply key_eqb_eq in Ek. rewrite Ek in Ha. congruence.
    + intros adv' Hn. rewrite (dict_get_put key_eqb key_eqb_eq). destruct (key_eqb k (dp, v)) eqn:Ek; [|apply D7, Hn].
      apply key_eqb_eq in Ek. rewrite Ek in Hn. congruence.
  - constructor; cbn [fst snd]; [exact D1|exact D2|exact D3|exact D4| | |].
    2:{ intros a adv' Ha. rewrite (dict_get_put key_eqb key_eqb_eq). destruct (key_eqb k (dp, v)) eqn:Ek; [|apply D6, Ha].
        apply key_eqb_eq in Ek. rewrite Ek in Ha. congruence. }
    2:{ intros adv' Hn. rewrite (dict_get_put key_eqb key_eqb_eq). destruct (key_eqb k (dp, v)) eqn:Ek; [|apply D7, Hn].
        apply key_eqb_eq in Ek. intros H. injection H as <-. exists c.
        assert (E1 : fst k = dp) by (rewrite Ek; reflexivity). assert (E2 : snd k = v) by (rewrite Ek; reflexivity).
        rewrite E1, E2. split; [exact Hin|]. split; [exact Hv|]. rewrite <- E1, <- E2. apply prefixes_told; [apply D3|].
        destruct D4 as [D4|[_ D4]]; [exact D4|]. apply (dict_get_none key_eqb key_eqb_eq) in Hn. contradiction. }
    intros Hd. split; [|apply put_in; destruct Hd as [Hd|Hd]; [right; apply D5, Hd|left; exact Hd]].
    intros Hk. destruct Hd as [Hd|Hd]; [apply D5; assumption|]. exfalso.
    apply (dict_get_none key_eqb key_eqb_eq) in E. apply E. rewrite <- Hd. exact Hk.
Qed.
Lemma during_weak (P Q : Prop) acc : (Q -> P) -> during P acc -> during Q acc.
Proof. intros H [D1 D2 D3 D4 D5 D6 D7]. constructor; try assumption. intros q. apply D5, H, q. Qed.
Lemma one_valve dp c acc (done : Prop) : In (dp, c) (b_valves s0) -> during done acc ->
  during (done \/ (fst k = dp /\ In (snd k) (bc_bgp c))) (fold_left (add_bgp_speaker (b_speakers s0) dp c) (bc_bgp c) acc).
Proof.
  intros Hin. assert (G : forall vs acc (done : Prop), (forall v, In v vs -> In v (bc_bgp c)) -> during done acc ->
    during (done \/ (fst k = dp /\ In (snd k) vs)) (fold_left (add_bgp_speaker (b_speakers s0) dp c) vs acc)).
  { induction vs as [|v vs IH]; intros a dn Hv D.
    - cbn. eapply during_weak; [|exact D]. intros [H|[_ []]]. exact H.
    - cbn [fold_left]. eapply during_weak; [|apply IH; [intros; apply Hv; right; assumption|apply one_speaker; [exact Hin|apply Hv; left; reflexivity|exact D]]].
      intros [H|[H1 [H2|H2]]]; [left; left; exact H|left; right; destruct k; cbn in *; congruence|right; split; assumption]. }
  intros D. apply G; [intros; assumption|exact D].
Qed.
Lemma all_valves : during (exists c, In (fst k, c) (b_valves s0) /\ In (snd k) (bc_bgp c))
  (fold_left (fun acc q => fold_left (add_bgp_speaker (b_speakers s0) (fst q) (snd q)) (bc_bgp (snd q)) acc) (b_valves s0) (s0, [])).
Proof.
  assert (G : forall qs acc (done : Prop), (forall q, In q qs -> In q (b_valves s0)) -> during done acc ->
    during (done \/ exists c, In (fst k, c) qs /\ In (snd k) (bc_bgp c))
      (fold_left (fun acc q => fold_left (add_bgp_speaker (b_speakers s0) (fst q) (snd q)) (bc_bgp (snd q)) acc) qs acc)).
  { induction qs as [|[dp c] qs IH]; intros a dn Hq D.
    - cbn. eapply during_weak; [|exact D]. intros [H|(c & [] & _)]. exact H.
    - cbn [fold_left fst snd].
      eapply during_weak; [|apply IH; [intros; apply Hq; right; assumption|apply one_valve; [apply Hq; left; reflexivity|exact D]]].
      intros [H|(c' & [H1|H1] & H2)]; [left; left; exact H| |right; exists c'; split; assumption].
      injection H1 as H1 H3. left. right. split; [symmetry; exact H1|rewrite H3; exact H2]. }
  eapply during_weak; [|apply (G (b_valves s0) (s0, []) False); [intros; assumption|]].
  - intros H. right. exact H.
  - constructor; cbn [fst snd]; [reflexivity|reflexivity|exact Hok|left; reflexivity|intros []|discriminate|discriminate].
Qed.
Lemma reset_spec :
  let s := reset s0 in
  b_valves s = b_valves s0 /\ (forall k', key_rib s k' = key_rib s0 k') /\ (forall dp, all_ok (b_rst s dp)) /\
  (In k (map fst (b_speakers s0)) -> In k (map fst (b_speakers s))) /\
  ((exists c, In (fst k, c) (b_valves s0) /\ In (snd k) (bc_bgp c)) -> In k (map fst (b_speakers s))) /\
  (rget d (b_rst s (fst k) (snd k)) = before \/ (rget d (b_rst s (fst k) (snd k)) = merged before /\ In k (map fst (b_speakers s0)))) /\
  ((exists c, In (fst k, c) (b_valves s0) /\ In (snd k) (bc_bgp c)) -> In k (map fst (b_speakers s0)) ->
    rget d (b_rst s (fst k) (snd k)) = merged before) /\
  (forall a, dict_get key_eqb k (b_speakers s0) = Some a -> dict_get key_eqb k (b_speakers s) = Some a) /\
  (forall adv, dict_get key_eqb k (b_speakers s0) = None -> dict_get key_eqb k (b_speakers s) = Some adv ->
    exists c, In (fst k, c) (b_valves s0) /\ In (snd k) (bc_bgp c) /\ forall g, In (d, g) adv <-> told c g).
Proof.
  unfold reset. assert (D := all_valves).
  destruct (fold_left _ (b_valves s0) (s0, [])) as [s1 new] eqn:E. cbn zeta.
  destruct D as [D1 D2 D3 D4 D5 D6 D7]. cbn [fst snd] in *. cbn [b_valves b_rst b_speakers].
  assert (M : forall old new k', In k' (map fst (fold_left (fun new q => match dict_get key_eqb (fst q) new with Some _ => new | None => dict_put key_eqb (fst q) (snd q) new end) old new))
              <-> In k' (map fst old) \/ In k' (map fst (new : list (key * list (net * ip))))).
  { clear. induction old as [|[k1 v1] old IH]; intros new k'; [cbn; tauto|]. cbn [fold_left fst snd map]. rewrite IH.
    destruct (dict_get key_eqb k1 new) eqn:G.
    - split; [intros [H|H]; [left; right; exact H|right; exact H]|]. intros [[<-|H]|H]; [right|left; exact H|right; exact H].
      apply (dict_get_in key_eqb key_eqb_eq) in G. apply (in_map fst) in G. exact G.
    - rewrite put_in. split; [intros [H|[->|H]]; [left; right; exact H|left; left; reflexivity|right; exact H]|].
      intros [[<-|H]|H]; [right; left; reflexivity|left; exact H|right; right; exact H]. }
  assert (Q : forall old new k', dict_get key_eqb k' (fold_left (fun new q => match dict_get key_eqb (fst q) new with Some _ => new | None => dict_put key_eqb (fst q) (snd q) new end) old new)
              = match dict_get key_eqb k' (new : list (key * list (net * ip))) with Some a => Some a | None => dict_get key_eqb k' old end).
  { clear. induction old as [|[k1 v1] old IH]; intros new k'; [cbn; destruct (dict_get key_eqb k' new); reflexivity|]. cbn [fold_left fst snd]. rewrite IH.
    cbn [dict_get]. destruct (dict_get key_eqb k1 new) eqn:G.
    - destruct (dict_get key_eqb k' new) eqn:G'; [reflexivity|]. destruct (key_eqb k' k1) eqn:E; [|reflexivity].
      apply key_eqb_eq in E as ->. congruence.
    - rewrite (dict_get_put key_eqb key_eqb_eq). destruct (key_eqb k' k1) eqn:E; [|reflexivity]. apply key_eqb_eq in E as ->. rewrite G. reflexivity. }
  split; [exact D1|]. split; [intros k'; unfold key_rib; cbn [b_rib]; rewrite D2; reflexivity|]. split; [exact D3|].
  split; [intros H; apply M; left; exact H|].
  split; [intros H; apply M; right; apply D5, H|]. split; [exact D4|]. split; [intros H1 H2; apply D5; assumption|].
  split.
  - intros a Ha. rewrite Q. destruct (dict_get key_eqb k new) as [a'|] eqn:G; [rewrite (D6 a a' Ha eq_refl); reflexivity|exact Ha].
  - intros adv Hn. rewrite Q, Hn. destruct (dict_get key_eqb k new) as [a'|] eqn:G; [|discriminate]. intros H. injection H as <-.
    apply D7; [exact Hn|reflexivity].
Qed.
End Reset.

(** ** Histories *)

Definition sub {A} (p q : list A) : Prop := forall x, In x p -> In x q.

Record inv (evs : list bevent) (s : bstate) : Prop := {
  iv_ok : forall dp, all_ok (b_rst s dp);
  iv_nodup : forall k, NoDup (map fst (key_rib s k));
  iv_said : forall k d g, In (d, g) (key_rib s k) -> exists w, In (BUpdate k d (Some g) w) evs;
  iv_valves : forall dp c, dict_get Z.eqb dp (b_valves s) = Some c ->
    exists new kept, In (BReload new kept) evs /\ dict_get Z.eqb dp new = Some c;
  iv_keys : NoDup (map fst (b_valves s));
  iv_none : forall k, ~ In k (map fst (b_speakers s)) -> key_rib s k = [] /\ forall d, ann k d evs = None }.

Lemma get_in_nodup {V} k (v : V) l : NoDup (map fst l) -> In (k, v) l -> dict_get Z.eqb k l = Some v.
Proof.
  induction l as [|[k' v'] r IH]; intros N H; [destruct H|]. inversion N as [|? ? N1 N2]; subst. cbn.
  destruct H as [H|H]; [injection H as -> ->; rewrite Z.eqb_refl; reflexivity|].
  destruct (Z.eqb_spec k k') as [->|E]; [|apply IH; assumption]. exfalso. apply N1.
  apply (in_map fst) in H. exact H.
Qed.

Section Evs.
Variable all : list bevent.
Hypothesis Hvalid : valid all.
Hypothesis Hlocal : local all.
Hypothesis Hcomplete : complete all.

Lemma gateway_here new kept k d g w c : In (BReload new kept) all -> dict_get Z.eqb (fst k) new = Some c ->
  configured (bc_r c) (snd k) -> In (BUpdate k d (Some g) w) all ->
  router_vlan_for_gw (bc_r c) (snd k) g = Some (snd k) /\ is_faucet_vip (get_vlan (bc_r c) (snd k)) g = false.
Proof.
  intros Hn Hg Hc Hu. destruct (Hvalid new kept (fst k) c Hn Hg) as (V1 & V2 & V3 & _).
  destruct (Hlocal k d g w new kept c Hu Hn Hg Hc) as (L1 & L2 & L3). split.
  - apply gateway_vlan_spec; try assumption. split; [exact L2|].
    destruct (existsb (fun r => mem Z.eqb (snd k) r) (rc_routers (bc_r c))) eqn:E.
    + apply existsb_exists in E as (r & I & M). apply (mem_spec _ Z.eqb Z.eqb_eq) in M. left. exists r. auto.
    + right. split; [reflexivity|]. intros r I J. apply (mem_spec _ Z.eqb Z.eqb_eq) in J.
      assert (existsb (fun r => mem Z.eqb (snd k) r) (rc_routers (bc_r c)) = true) by (apply existsb_exists; exists r; auto). congruence.
  - unfold is_faucet_vip. destruct (vlan_vip_map _ g) as [p|] eqn:E; [|reflexivity].
    apply find_some in E as [I _]. destruct (ip_eqb g (v_ip p)) eqn:Eq; [|reflexivity].
    apply ip_eqb_eq in Eq. exfalso. exact (L3 p I (eq_sym Eq)).
Qed.

Lemma inv_weak evs ev s : inv evs s -> (forall k d, ann k d (ev :: evs) = ann k d evs) -> inv (ev :: evs) s.
Proof.
  intros [A B C D E F] H. constructor; try assumption.
  - intros k d g I. destruct (C k d g I) as [w J]. exists w. right. exact J.
  - intros dp c I. destruct (D dp c I) as (new & kept & J & G). exists new, kept. split; [right; exact J|exact G].
  - intros k I. destruct (F k I) as [G J]. split; [exact G|]. intros d. rewrite H. apply J.
Qed.

(** One reload *)
Definition fresh (new : list (Z * bconf)) (kept : Z -> Z -> bool) (s : bstate) : bstate :=
  mkBstate new (fun dp v => if kept dp v then b_rst s dp v
                            else match dict_get Z.eqb dp new with Some c => static_rib (bc_static c v) | None => empty_rib end)
    (b_speakers s) (b_rib s).
Lemma fresh_ok new kept s : (forall dp, all_ok (b_rst s dp)) -> forall dp, all_ok (b_rst (fresh new kept s) dp).
Proof.
  intros O dp v. cbn [fresh b_rst]. destruct (kept dp v); [apply O|].
  destruct (dict_get Z.eqb dp new); [apply static_rib_ok|apply empty_rib_ok].
Qed.
Lemma fresh_local evs new kept s : inv evs s -> sub (BReload new kept :: evs) all -> NoDup (map fst new) ->
  forall dp c v d g, In (dp, c) (b_valves (fresh new kept s)) -> In v (bc_bgp c) -> In (d, g) (key_rib (fresh new kept s) (dp, v)) ->
  router_vlan_for_gw (bc_r c) v g = Some v.
Proof.
  intros I Hs N dp c v d g H1 H2 H3. cbn [fresh b_valves] in H1.
  destruct (iv_said evs s I (dp, v) d g H3) as [w Hu].
  assert (Hn : In (BReload new kept) all) by (apply Hs; left; reflexivity).
  pose proof (get_in_nodup dp c new N H1) as Hg.
  destruct (Hvalid new kept dp c Hn Hg) as (_ & _ & _ & Hcf).
  apply (gateway_here new kept (dp, v) d g w c Hn Hg (Hcf v H2)). apply Hs. right. exact Hu.
Qed.
Lemma inv_reload evs s new kept : inv evs s -> sub (BReload new kept :: evs) all -> reload_ok s new kept ->
  inv (BReload new kept :: evs) (reload new kept s).
Proof.
  intros I Hs [N _].
  pose proof (fun k d => reset_spec (fresh new kept s) (fresh_ok new kept s (iv_ok _ _ I)) (iv_nodup _ _ I)
                           (fresh_local evs new kept s I Hs N) k d) as R.
  change (reload new kept s) with (reset (fresh new kept s)).
  set (z := mkNet 4 0 0). constructor.
  - apply (R (0, 0) z).
  - intros k. destruct (R k z) as (_ & E & _). rewrite E. apply (iv_nodup _ _ I).
  - intros k d g. destruct (R k z) as (_ & E & _). rewrite E. intros H. destruct (iv_said _ _ I k d g H) as [w J].
    exists w. right. exact J.
  - destruct (R (0, 0) z) as (E & _). rewrite E. intros dp c H. exists new, kept. split; [left; reflexivity|exact H].
  - destruct (R (0, 0) z) as (E & _). rewrite E. exact N.
  - intros k H. destruct (R k z) as (_ & E & _ & S1 & _). rewrite E.
    assert (N1 : ~ In k (map fst (b_speakers s))) by (intros X; apply H, S1, X).
    apply (iv_none _ _ I k N1).
Qed.

(** One update *)
Definition updated (k : key) (d : net) (g : option ip) (w : bool) (s s' : bstate) : Prop :=
  b_valves s' = b_valves s /\ b_speakers s' = b_speakers s /\ (forall dp, all_ok (b_rst s' dp)) /\
  (s' = s \/
   (forall k', key_rib s' k' = if key_eqb k' k then (if w then dict_del net_eqb d (key_rib s k)
                                                     else match g with Some h => dict_put net_eqb d h (key_rib s k) | None => [] end)
                               else key_rib s k') /\
   (w = false -> g <> None) /\
   (forall x v d', rget d' (b_rst s' x v) =
      if key_eqb (x, v) k && net_eqb d d' then (if w then None else g) else rget d' (b_rst s x v))).
Lemma handler_updates evs s k d g w s' : inv evs s -> sub (BUpdate k d g w :: evs) all -> route_handler k d g w s = Some s' ->
  updated k d g w s s' /\
  (forall c, valve_vlan s k = Some c ->
     (forall k', key_rib s' k' = if key_eqb k' k then (if w then dict_del net_eqb d (key_rib s k)
                                                     else match g with Some h => dict_put net_eqb d h (key_rib s k) | None => [] end)
                               else key_rib s k') /\
     (forall x v d', rget d' (b_rst s' x v) =
        if key_eqb (x, v) k && net_eqb d d' then (if w then None else g) else rget d' (b_rst s x v))).
Proof.
  intros I Hs H. assert (Hu : In (BUpdate k d g w) all) by (apply Hs; left; reflexivity).
  unfold route_handler in H. destruct (valve_vlan s k) as [c|] eqn:V.
  2:{ injection H as <-. split; [|discriminate].
      split; [reflexivity|]. split; [reflexivity|]. split; [apply (iv_ok _ _ I)|]. left. reflexivity. }
  unfold valve_vlan in V. destruct (dict_get Z.eqb (fst k) (b_valves s)) as [c'|] eqn:G; [|discriminate].
  destruct (mem Z.eqb (snd k) (map vl_id (rc_vlans (bc_r c')))) eqn:M; [|discriminate]. injection V as ->.
  apply (mem_spec _ Z.eqb Z.eqb_eq) in M.
  destruct (iv_valves _ _ I (fst k) c G) as (new & kept & Hr & Hn).
  assert (Hr' : In (BReload new kept) all) by (apply Hs; right; exact Hr).
  assert (Hskip : match g with
                  | Some h => is_faucet_vip (get_vlan (bc_r c) (snd k)) h
                              || match router_vlan_for_gw (bc_r c) (snd k) h with None => true | Some _ => false end
                  | None => false
                  end = false).
  { destruct g as [h|]; [|reflexivity]. destruct (gateway_here new kept k d h w c Hr' Hn M Hu) as [-> ->]. reflexivity. }
  rewrite Hskip in H.
  assert (X : (forall dp, all_ok (b_rst s' dp)) /\ b_valves s' = b_valves s /\ b_speakers s' = b_speakers s /\
     (forall k', key_rib s' k' = if key_eqb k' k then (if w then dict_del net_eqb d (key_rib s k)
                                                     else match g with Some h => dict_put net_eqb d h (key_rib s k) | None => [] end)
                               else key_rib s k') /\
     (w = false -> g <> None) /\
     (forall x v d', rget d' (b_rst s' x v) =
        if key_eqb (x, v) k && net_eqb d d' then (if w then None else g) else rget d' (b_rst s x v))).
  { destruct w.
    - destruct (del_ok (bc_r c) (b_rst s (fst k)) (snd k) d (iv_ok _ _ I (fst k))) as (r & ms & E & O & Gt).
      cbn [set_rib b_rst] in H. rewrite E in H. injection H as <-.
      split; [|split; [reflexivity|split; [reflexivity|split; [|split; [discriminate|]]]]].
      + intros dp. cbn [set_rst b_rst set_rib]. destruct (dp =? fst k); [exact O|apply (iv_ok _ _ I)].
      + intros k'. change (key_rib (set_rst ?a ?b ?e) k') with (key_rib a k'). apply key_rib_put.
      + intros x v d'. cbn [set_rst b_rst set_rib]. unfold key_eqb. cbn [fst snd].
        destruct (Z.eqb_spec x (fst k)) as [->|N]; cbn [andb]; [|reflexivity]. apply Gt.
    - destruct g as [h|]; [|exfalso; exact (Hcomplete k d Hu)].
      destruct (gateway_here new kept k d h false c Hr' Hn M Hu) as [L _].
      injection H as <-.
      split; [|split; [reflexivity|split; [reflexivity|split; [|split; [discriminate|]]]]].
      + intros dp. cbn [set_rst b_rst set_rib]. destruct (dp =? fst k); [apply add_ok, (iv_ok _ _ I)|apply (iv_ok _ _ I)].
      + intros k'. change (key_rib (set_rst ?a ?b ?e) k') with (key_rib a k'). apply key_rib_put.
      + intros x v d'. cbn [set_rst b_rst set_rib]. unfold key_eqb. cbn [fst snd].
        destruct (Z.eqb_spec x (fst k)) as [->|N]; cbn [andb]; [|reflexivity]. apply add_get. exact L. }
  destruct X as (X1 & X2 & X3 & X4 & X5 & X6).
  split; [|intros c0 _; split; assumption].
  split; [exact X2|]. split; [exact X3|]. split; [exact X1|]. right. split; [exact X4|]. split; [exact X5|exact X6].
Qed.
Lemma del_nodup {V} d (l : list (net * V)) : NoDup (map fst l) -> NoDup (map fst (dict_del net_eqb d l)).
Proof.
  unfold dict_del. induction l as [|[d' v] l IH]; intros N; [constructor|]. inversion N as [|? ? N1 N2]; subst. cbn [filter fst].
  destruct (negb (net_eqb d d')); [|apply IH, N2]. cbn [map fst]. constructor; [|apply IH, N2].
  intros X. apply N1. apply in_map_iff in X as ([d1 v1] & E & X). apply filter_In in X as [X _]. cbn in E. subst. apply (in_map fst) in X. exact X.
Qed.
Lemma in_put d (g : ip) l d' g' : In (d', g') (dict_put net_eqb d g l) -> (d' = d /\ g' = g) \/ In (d', g') l.
Proof.
  induction l as [|[d1 g1] l IH]; cbn; [intros [H|[]]; injection H as <- <-; left; split; reflexivity|].
  destruct (net_eqb d d1) eqn:E; cbn.
  - apply net_eqb_eq in E as ->. intros [H|H]; [injection H as <- <-; left; split; reflexivity|right; right; exact H].
  - intros [H|H]; [right; left; exact H|]. destruct (IH H) as [X|X]; [left; exact X|right; right; exact X].
Qed.
Lemma inv_update evs s k d g w s' : inv evs s -> sub (BUpdate k d g w :: evs) all -> In k (map fst (b_speakers s)) ->
  route_handler k d g w s = Some s' -> inv (BUpdate k d g w :: evs) s'.
Proof.
  intros I Hs Hk H. destruct (handler_updates evs s k d g w s' I Hs H) as ((V & S & O & X) & _).
  assert (An : forall k' d', k' <> k -> ann k' d' (BUpdate k d g w :: evs) = ann k' d' evs).
  { intros k' d' N. cbn [ann]. destruct (key_eqb k' k) eqn:E; [apply key_eqb_eq in E; contradiction|reflexivity]. }
  constructor.
  - exact O.
  - intros k'. destruct X as [->|(R & _ & _)]; [apply (iv_nodup _ _ I)|]. rewrite R. destruct (key_eqb k' k); [|apply (iv_nodup _ _ I)].
    destruct w; [apply del_nodup, (iv_nodup _ _ I)|]. destruct g; [|constructor].
    apply (dict_put_nodup net_eqb net_eqb_eq), (iv_nodup _ _ I).
  - intros k' d' g' J.
    assert (Old : In (d', g') (key_rib s k') -> exists w', In (BUpdate k' d' (Some g') w') (BUpdate k d g w :: evs)).
    { intros Y. destruct (iv_said _ _ I k' d' g' Y) as [w' Z]. exists w'. right. exact Z. }
    destruct X as [->|(R & Q & _)]; [apply Old, J|]. rewrite R in J. destruct (key_eqb k' k) eqn:E; [|apply Old, J].
    apply key_eqb_eq in E as ->. destruct w.
    + unfold dict_del in J. apply filter_In in J as [J _]. apply Old, J.
    + destruct g as [h|]; [|destruct J]. destruct (in_put d h _ d' g' J) as [[-> ->]|Y]; [exists false; left; reflexivity|apply Old, Y].
  - rewrite V. intros dp c J. destruct (iv_valves _ _ I dp c J) as (new & kept & Y & Z). exists new, kept. split; [right; exact Y|exact Z].
  - rewrite V. apply (iv_keys _ _ I).
  - rewrite S. intros k' N. destruct (iv_none _ _ I k' N) as [R A].
    assert (Ne : k' <> k) by (intros ->; exact (N Hk)). split.
    + destruct X as [->|(R' & _ & _)]; [exact R|]. rewrite R'. destruct (key_eqb k' k) eqn:E; [apply key_eqb_eq in E; contradiction|exact R].
    + intros d'. rewrite An by exact Ne. apply A.
Qed.
Lemma sub_tail {A} (x : A) p q : sub (x :: p) q -> sub p q.
Proof. intros H y I. apply H. right. exact I. Qed.
Lemma breach_inv evs s : breach evs s -> sub evs all -> inv evs s.
Proof.
  intros R. induction R as [|evs s new kept s' R IH Ok E|evs s k d g w s' R IH Hk E|evs s k s' R IH E]; intros Hs.
  - constructor; cbn; try discriminate; try contradiction.
    + intros dp v. apply empty_rib_ok.
    + intros; constructor.
    + constructor.
    + intros; split; reflexivity.
  - cbn [bgp_step] in E. injection E as <-. apply inv_reload; [apply IH; eapply sub_tail; exact Hs|exact Hs|exact Ok].
  - cbn [bgp_step] in E. eapply inv_update; [apply IH; eapply sub_tail; exact Hs|exact Hs|exact Hk|exact E].
  - cbn [bgp_step] in E. injection E as <-. apply inv_weak; [apply IH; eapply sub_tail; exact Hs|]. reflexivity.
Qed.

(** ** VLANs without a speaker, and what speakers are told *)
Lemma unique_config k c c' evs : first_config k c evs -> first_config k c' evs -> c = c'.
Proof.
  assert (N : forall c evs, first_config k c evs -> never k evs -> False).
  { intros c0 e H. induction H as [e new kept H1 H2 H3|e ev H IH]; intros Z.
    - exact (Z new kept c0 (or_introl eq_refl) H1 H2).
    - apply IH. intros new kept c1 I. apply (Z new kept c1). right. exact I. }
  intros H. induction H as [e new kept H1 H2 H3|e ev H IH]; intros H'; inversion H' as [? ? ? G1 G2 G3|? ? G]; subst.
  - congruence.
  - exfalso. exact (N _ _ G H3).
  - exfalso. exact (N _ _ H G3).
  - apply IH, G.
Qed.
Record plain (evs : list bevent) (s : bstate) : Prop := {
  pl_none : forall k, dict_get key_eqb k (b_speakers s) = None -> never k evs;
  pl_static : forall k c d, dict_get key_eqb k (b_speakers s) = None -> dict_get Z.eqb (fst k) (b_valves s) = Some c ->
    rget d (b_rst s (fst k) (snd k)) = rget d (static_rib (bc_static c (snd k)));
  pl_told : forall k adv, dict_get key_eqb k (b_speakers s) = Some adv ->
    exists c, first_config k c evs /\ forall d g, In (d, g) adv <-> offered c (snd k) d g }.
Lemma breach_plain evs s : breach evs s -> sub evs all -> plain evs s.
Proof.
  intros R. induction R as [|evs s new kept s' R IH Ok E|evs s k' d' g w s' R IH Hk E|evs s k' s' R IH E]; intros Hs.
  - constructor; [intros k _ new kept c []|discriminate|discriminate].
  - pose proof (sub_tail _ _ _ Hs) as Hs'. pose proof (breach_inv evs s R Hs') as I. specialize (IH Hs').
    cbn [bgp_step] in E. injection E as <-. change (reload new kept s) with (reset (fresh new kept s)).
    destruct Ok as [N Hkept].
    pose proof (fun k d => reset_spec (fresh new kept s) (fresh_ok new kept s (iv_ok _ _ I)) (iv_nodup _ _ I)
                (fresh_local evs new kept s I Hs N) k d) as RS.
    assert (Old : forall k, dict_get key_eqb k (b_speakers (reset (fresh new kept s))) = None -> dict_get key_eqb k (b_speakers s) = None).
    { intros k H. destruct (dict_get key_eqb k (b_speakers s)) as [a|] eqn:G; [|reflexivity].
      destruct (RS k (mkNet 4 0 0)) as (_ & _ & _ & _ & _ & _ & _ & R8 & _). rewrite (R8 a G) in H. discriminate. }
    assert (Bef : forall k c d, dict_get key_eqb k (b_speakers s) = None -> dict_get Z.eqb (fst k) new = Some c ->
                  before (fresh new kept s) k d = rget d (static_rib (bc_static c (snd k)))).
    { intros k c d H Hc. unfold before. cbn [fresh b_rst]. rewrite Hc. destruct (kept (fst k) (snd k)) eqn:Ek; [|reflexivity].
      destruct (Hkept _ _ Ek) as (c1 & c2 & E1 & E2 & E3). rewrite Hc in E2. injection E2 as <-.
      rewrite (pl_static _ _ IH k c1 d H E1), E3. reflexivity. }
    constructor.
    + intros k H new' kept' c [J|J] Hc.
      * injection J as <- <-. intros Hb. destruct (RS k (mkNet 4 0 0)) as (_ & _ & _ & _ & R5 & _).
        apply (dict_get_none key_eqb key_eqb_eq) in H. apply H, R5. exists c. split; [|exact Hb].
        cbn [fresh b_valves]. apply (dict_get_in Z.eqb Z.eqb_eq). exact Hc.
      * exact (pl_none _ _ IH k (Old k H) new' kept' c J Hc).
    + intros k c d H. destruct (RS k d) as (R1 & _ & _ & _ & _ & R6 & _). rewrite R1. cbn [fresh b_valves]. intros Hc.
      pose proof (Old k H) as Ho. rewrite <- (Bef k c d Ho Hc).
      destruct R6 as [R6|[_ R6]]; [exact R6|]. apply (dict_get_none key_eqb key_eqb_eq) in Ho. contradiction.
    + intros k adv H. destruct (dict_get key_eqb k (b_speakers s)) as [a|] eqn:G.
      * destruct (RS k (mkNet 4 0 0)) as (_ & _ & _ & _ & _ & _ & _ & R8 & _). rewrite (R8 a G) in H. injection H as <-.
        destruct (pl_told _ _ IH k a G) as (c & F & O). exists c. split; [apply fc_before, F|exact O].
      * assert (X : forall d, exists c, dict_get Z.eqb (fst k) new = Some c /\ In (snd k) (bc_bgp c) /\ forall g, In (d, g) adv <-> offered c (snd k) d g).
        { intros d. destruct (RS k d) as (_ & _ & _ & _ & _ & _ & _ & _ & R9).
          destruct (R9 adv G H) as (c & Y1 & Y2 & Y3). apply get_in_nodup in Y1; [|exact N]. exists c. split; [exact Y1|]. split; [exact Y2|].
          intros g. rewrite Y3. unfold told, offered. rewrite (Bef k c d G Y1), last_route_spec. reflexivity. }
        destruct (X (mkNet 4 0 0)) as (c & X1 & X2 & _). exists c. split; [apply fc_now; [exact X1|exact X2|apply (pl_none _ _ IH k G)]|].
        intros d g. destruct (X d) as (c' & X1' & _ & X3). rewrite X1 in X1'. injection X1' as <-. apply X3.
  - pose proof (sub_tail _ _ _ Hs) as Hs'. pose proof (breach_inv evs s R Hs') as I. specialize (IH Hs').
    cbn [bgp_step] in E. destruct (handler_updates evs s k' d' g w s' I Hs E) as ((V & S & _ & X) & _).
    constructor; rewrite S.
    + intros k H new kept c [J|J]; [discriminate J|]. exact (pl_none _ _ IH k H new kept c J).
    + rewrite V. intros k c d H Hc. rewrite <- (pl_static _ _ IH k c d H Hc). destruct X as [->|(_ & _ & X)]; [reflexivity|].
      rewrite X. replace (fst k, snd k) with k by (destruct k; reflexivity).
      destruct (key_eqb k k') eqn:Ek; [|reflexivity]. apply key_eqb_eq in Ek. subst k'.
      apply (dict_get_none key_eqb key_eqb_eq) in H. contradiction.
    + intros k adv H. destruct (pl_told _ _ IH k adv H) as (c & F & O). exists c. split; [apply fc_before, F|exact O].
  - cbn [bgp_step] in E. injection E as <-. destruct (IH (sub_tail _ _ _ Hs)) as [F1 F2 F3]. constructor.
    + intros k H new kept c [J|J]; [discriminate J|]. exact (F1 k H new kept c J).
    + exact F2.
    + intros k adv H. destruct (F3 k adv H) as (c & F & O). exists c. split; [apply fc_before, F|exact O].
Qed.

(** ** The speaker that stays *)
Lemma key_dec (a b : key) : {a = b} + {a <> b}.
Proof. unfold key in *. decide equality; apply Z.eq_dec. Qed.
Variable k : key.
Hypothesis Hstays : stays k all.
Variable d : net.
Hypothesis Hsep : ~ mentioned k d all \/ not_static k d all.

Record followed (evs : list bevent) (s : bstate) : Prop := {
  fo_rib : dict_get net_eqb d (key_rib s k) = ann k d evs;
  fo_start : dict_get Z.eqb (fst k) (b_valves s) = None -> b_speakers s = [] /\ b_valves s = [];
  fo_route : forall c, dict_get Z.eqb (fst k) (b_valves s) = Some c ->
    In (snd k) (bc_bgp c) /\ In k (map fst (b_speakers s)) /\
    rget d (b_rst s (fst k) (snd k)) =
      match ann k d evs with Some g => Some g | None => rget d (static_rib (bc_static c (snd k))) end }.

Lemma breach_followed evs s : breach evs s -> sub evs all -> followed evs s.
Proof.
  intros R. induction R as [|evs s new kept s' R IH Ok E|evs s k' d' g w s' R IH Hk E|evs s k' s' R IH E]; intros Hs.
  - constructor; [reflexivity|intros _; split; reflexivity|discriminate].
  - pose proof (sub_tail _ _ _ Hs) as Hs'. pose proof (breach_inv evs s R Hs') as I. specialize (IH Hs').
    cbn [bgp_step] in E. injection E as <-. change (reload new kept s) with (reset (fresh new kept s)).
    destruct Ok as [N Hkept].
    destruct (reset_spec (fresh new kept s) (fresh_ok new kept s (iv_ok _ _ I)) (iv_nodup _ _ I)
                (fresh_local evs new kept s I Hs N) k d) as (R1 & R2 & _ & R4 & R5 & R6 & R7 & _).
    assert (Hn : In (BReload new kept) all) by (apply Hs; left; reflexivity).
    destruct (Hstays new kept Hn) as (c & Hc & Hb).
    assert (Hex : exists c, In (fst k, c) (b_valves (fresh new kept s)) /\ In (snd k) (bc_bgp c)).
    { exists c. split; [|exact Hb]. cbn [fresh b_valves]. apply (dict_get_in Z.eqb Z.eqb_eq). exact Hc. }
    constructor; cbn [ann].
    + rewrite R2. apply (fo_rib _ _ IH).
    + rewrite R1. cbn [fresh b_valves]. rewrite Hc. discriminate.
    + rewrite R1. cbn [fresh b_valves]. intros c0 Hc0. rewrite Hc in Hc0. injection Hc0 as <-.
      split; [exact Hb|]. split; [apply R5, Hex|].
      assert (Bef : before (fresh new kept s) k d =
                    match ann k d evs with
                    | Some g => if kept (fst k) (snd k) then Some g else rget d (static_rib (bc_static c (snd k)))
                    | None => rget d (static_rib (bc_static c (snd k))) end).
      { unfold before. cbn [fresh b_rst]. rewrite Hc. destruct (kept (fst k) (snd k)) eqn:Ek.
        - destruct (Hkept _ _ Ek) as (c1 & c2 & E1 & E2 & E3). rewrite Hc in E2. injection E2 as <-.
          destruct (fo_route _ _ IH c1 E1) as (_ & _ & ->). rewrite E3. reflexivity.
        - destruct (ann k d evs); reflexivity. }
      destruct (in_dec key_dec k (map fst (b_speakers s))) as [Hsp|Hsp].
      * rewrite (R7 Hex Hsp). unfold merged. change (key_rib (fresh new kept s) k) with (key_rib s k).
        rewrite (fo_rib _ _ IH), Bef. destruct (ann k d evs); reflexivity.
      * destruct (iv_none _ _ I k Hsp) as [_ Hnone]. rewrite Hnone in *.
        destruct R6 as [->|[_ X]]; [exact Bef|contradiction].
  - pose proof (sub_tail _ _ _ Hs) as Hs'. pose proof (breach_inv evs s R Hs') as I. specialize (IH Hs').
    cbn [bgp_step] in E. destruct (handler_updates evs s k' d' g w s' I Hs E) as ((V & S & _ & X) & Y).
    assert (Hu : In (BUpdate k' d' g w) all) by (apply Hs; left; reflexivity).
    destruct (dict_get Z.eqb (fst k) (b_valves s)) as [c|] eqn:Hc.
    2:{ destruct (fo_start _ _ IH Hc) as [Hno _]. rewrite Hno in Hk. destruct Hk. }
    destruct (fo_route _ _ IH c Hc) as (Hb & Hsp & Hr).
    assert (Hval : forall c', dict_get Z.eqb (fst k) (b_valves s') = Some c' -> c' = c) by (rewrite V, Hc; intros; congruence).
    destruct (key_eqb k k') eqn:Ek.
    + apply key_eqb_eq in Ek. subst k'.
      assert (Hvv : valve_vlan s k = Some c).
      { unfold valve_vlan. rewrite Hc.
        destruct (iv_valves _ _ I (fst k) c Hc) as (new & kept & Hr1 & Hn).
        destruct (Hvalid new kept (fst k) c (Hs' _ Hr1) Hn) as (_ & _ & _ & Hcf). specialize (Hcf _ Hb).
        unfold configured in Hcf. apply (mem_spec _ Z.eqb Z.eqb_eq) in Hcf. rewrite Hcf. reflexivity. }
      destruct (Y c Hvv) as [Y1 Y2].
      constructor; cbn [ann]; try (rewrite key_eqb_refl; cbn [andb]).
      * rewrite Y1, key_eqb_refl. destruct w.
        -- rewrite (dict_get_del net_eqb net_eqb_eq). destruct (net_eqb d d'); [reflexivity|apply (fo_rib _ _ IH)].
        -- destruct g as [h|]; [|exfalso; exact (Hcomplete k d' Hu)].
           rewrite (dict_get_put net_eqb net_eqb_eq). destruct (net_eqb d d'); [reflexivity|apply (fo_rib _ _ IH)].
      * rewrite V, Hc. discriminate.
      * intros c' H. rewrite (Hval c' H), S. split; [exact Hb|]. split; [exact Hsp|].
        rewrite Y2. replace (fst k, snd k) with k by (destruct k; reflexivity). rewrite key_eqb_refl. cbn [andb].
        rewrite net_eqb_sym. destruct (net_eqb d d') eqn:Ed; [|exact Hr].
        apply net_eqb_eq in Ed as <-.
        assert (St : rget d (static_rib (bc_static c (snd k))) = None).
        { destruct (rget d (static_rib (bc_static c (snd k)))) as [h|] eqn:Eh; [|reflexivity]. exfalso.
          destruct Hsep as [Hm|Hn]; [apply Hm; exists g, w; exact Hu|].
          destruct (iv_valves _ _ I (fst k) c Hc) as (new & kept & Hr1 & Hn1).
          apply (Hn new kept c h (Hs' _ Hr1) Hn1). apply (proj1 (proj2 (static_rib_spec (bc_static c (snd k))))). exact Eh. }
        rewrite St. destruct w; [reflexivity|]. destruct g; reflexivity.
    + assert (Ek' : key_eqb k' k = false).
      { destruct (key_eqb k' k) eqn:Z; [|reflexivity]. apply key_eqb_eq in Z as ->. rewrite key_eqb_refl in Ek. discriminate. }
      constructor; cbn [ann]; try (rewrite Ek; cbn [andb]).
      * destruct X as [->|(X1 & _ & _)]; [apply (fo_rib _ _ IH)|]. rewrite X1, Ek. apply (fo_rib _ _ IH).
      * rewrite V, Hc. discriminate.
      * intros c' H. rewrite (Hval c' H), S. split; [exact Hb|]. split; [exact Hsp|].
        destruct X as [->|(_ & _ & X3)]; [exact Hr|]. rewrite X3.
        replace (fst k, snd k) with k by (destruct k; reflexivity). rewrite Ek. exact Hr.
  - cbn [bgp_step] in E. injection E as <-. destruct (IH (sub_tail _ _ _ Hs)) as [F1 F2 F3]. constructor; assumption.
Qed.
End Evs.

(** No event fails. *)
Lemma never_fails evs s ev : breach evs s -> valid (ev :: evs) -> local (ev :: evs) -> complete (ev :: evs) -> bgp_step s ev <> None.
Proof.
  intros R Hv Hl Hc.
  assert (I : inv evs s).
  { apply (breach_inv (ev :: evs) Hv Hl Hc evs s R). intros x H. right. exact H. }
  destruct ev as [new kept|k d g w|k]; cbn [bgp_step]; [discriminate| |discriminate].
  unfold route_handler. destruct (valve_vlan s k) as [c|]; [|discriminate].
  destruct (match g with Some h => _ | None => false end); [discriminate|]. destruct w.
  - destruct (del_ok (bc_r c) (b_rst s (fst k)) (snd k) d (iv_ok _ _ I (fst k))) as (r & ms & E & _).
    cbn [set_rib b_rst]. rewrite E. discriminate.
  - destruct g; [discriminate|]. exfalso. apply (Hc k d). left. reflexivity.
Qed.
