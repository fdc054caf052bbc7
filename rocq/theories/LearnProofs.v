(** * Proofs about host learning *)

From Coq Require Import List Bool ZArith Lia.
From Verif Require Import PyBase PyBaseProofs HostCacheSpec HostCacheModel HostCacheProofs.
From Verif Require Import LearnModel LearnSpec.
Import ListNotations.
Open Scope Z_scope.

(** ** Counting *)

Definition on_port (c : hcache) (p m : Z) : Prop :=
  exists e, cached_host c m = Some e /\ e_port e = p.

Lemma hosts_count_le : forall c' ms,
  hinv c' -> (forall m, cached_host c' m <> None -> In m ms) ->
  hosts_count c' <= Z.of_nat (length ms).
Proof.
  intros c' ms [Hn _] H. unfold hosts_count. rewrite <- (map_length fst).
  apply inj_le. apply NoDup_incl_length; [exact Hn|]. intros m Hm. apply H.
  intros Hc. apply (dict_get_none Z.eqb zs) in Hc. auto.
Qed.

Lemma hosts_keys : forall c m, cached_host c m <> None -> In m (map fst (hc_hosts c)).
Proof.
  intros c m H. destruct (in_dec Z.eq_dec m (map fst (hc_hosts c))) as [I|I]; [exact I|].
  exfalso. apply H. apply (dict_get_none Z.eqb zs). exact I.
Qed.

Lemma hosts_count_sub : forall c c',
  hinv c' -> (forall m, cached_host c' m <> None -> cached_host c m <> None) ->
  hosts_count c' <= hosts_count c.
Proof.
  intros c c' H Hs. unfold hosts_count at 2. rewrite <- (map_length fst).
  apply hosts_count_le; [exact H|]. intros m Hm. apply hosts_keys. auto.
Qed.

Lemma hosts_count_add : forall c c' mac,
  hinv c' -> (forall m, cached_host c' m <> None -> m = mac \/ cached_host c m <> None) ->
  hosts_count c' <= hosts_count c + 1.
Proof.
  intros c c' mac H Hs.
  assert (L : hosts_count c' <= Z.of_nat (length (mac :: map fst (hc_hosts c)))).
  { apply hosts_count_le; [exact H|]. intros m Hm. simpl. destruct (Hs m Hm) as [->|Hc]; auto.
    right. apply hosts_keys. exact Hc. }
  simpl in L. unfold hosts_count at 2. rewrite map_length in L. lia.
Qed.

Lemma on_port_in : forall c p m, hinv c ->
  on_port c p m <-> In m (map e_mac (cached_hosts_on_port c p)).
Proof.
  intros c p m [_ [A B C]]. split.
  - intros (e & He & Hp). apply in_map_iff. exists e. rewrite (A _ _ He). split; [reflexivity|].
    apply B. rewrite (A _ _ He). auto.
  - intros Hin. apply in_map_iff in Hin as (e & <- & He). apply B in He as [H1 H2].
    exists e. auto.
Qed.

Lemma port_count_le : forall c p ms,
  hinv c -> (forall m, on_port c p m -> In m ms) ->
  cached_hosts_count_on_port c p <= Z.of_nat (length ms).
Proof.
  intros c p ms H Hs. rewrite count_on_port, <- (map_length e_mac).
  apply inj_le. apply NoDup_incl_length.
  - destruct H as [_ [_ _ C]]. apply C.
  - intros m Hm. apply Hs. apply on_port_in; auto.
Qed.

Lemma port_count_sub : forall c c' p,
  hinv c -> hinv c' -> (forall m, on_port c' p m -> on_port c p m) ->
  cached_hosts_count_on_port c' p <= cached_hosts_count_on_port c p.
Proof.
  intros c c' p H H' Hs. rewrite (count_on_port c p), <- (map_length e_mac).
  apply port_count_le; [exact H'|]. intros m Hm. apply on_port_in; auto.
Qed.

Lemma port_count_add : forall c c' p mac,
  hinv c -> hinv c' -> (forall m, on_port c' p m -> m = mac \/ on_port c p m) ->
  cached_hosts_count_on_port c' p <= cached_hosts_count_on_port c p + 1.
Proof.
  intros c c' p mac H H' Hs.
  assert (L : cached_hosts_count_on_port c' p <=
              Z.of_nat (length (mac :: map e_mac (cached_hosts_on_port c p)))).
  { apply port_count_le; [exact H'|]. intros m Hm. simpl. destruct (Hs m Hm) as [->|Ho]; auto.
    right. apply on_port_in; auto. }
  simpl in L. rewrite (count_on_port c p). rewrite map_length in L. lia.
Qed.

Section P.
  Variable cfg : lcfg.

  Definition linv (s : lstate) : Prop := forall vid, hinv (s_cache s vid).

  Lemma linv_init : linv lstate_init.
  Proof. intros vid. apply hinv_reset. Qed.

  Lemma linv_with_cache : forall s vid c, linv s -> hinv c -> linv (with_cache s vid c).
  Proof.
    intros s vid c H Hc v. unfold with_cache, upd. simpl. destruct (v =? vid); auto.
  Qed.

  Lemma upd_same : forall A k (v : A) f, upd k v f k = v.
  Proof. intros. unfold upd. rewrite Z.eqb_refl. reflexivity. Qed.

  Lemma upd_other : forall A k x (v : A) f, x <> k -> upd k v f x = f x.
  Proof. intros A k x v f H. unfold upd. apply Z.eqb_neq in H. rewrite H. reflexivity. Qed.

  (** What [learn_host] does to the caches. *)
  Lemma learn_host_ok : forall s now vid p mac,
    linv s ->
    exists s' ms, learn_host cfg s now vid p mac = Some (s', ms) /\ linv s' /\
      ms = ck_msgs (learn_host_on_vlan_ports cfg s now p vid mac) /\
      s_upd s' = s_upd s /\
      (forall v m, cached_host (s_cache s' v) m =
         if ck_update (learn_host_on_vlan_ports cfg s now p vid mac) && (v =? vid) && (m =? mac)
         then Some {| e_mac := mac; e_port := p; e_time := now |}
         else cached_host (s_cache s v) m).
  Proof.
    intros s now vid p mac H. unfold learn_host.
    set (k := learn_host_on_vlan_ports cfg s now p vid mac).
    set (s1 := match ck_ban k with Some t => _ | None => s end).
    assert (E1 : s_cache s1 = s_cache s) by (subst s1; destruct (ck_ban k); reflexivity).
    assert (E2 : s_upd s1 = s_upd s) by (subst s1; destruct (ck_ban k); reflexivity).
    destruct (ck_update k).
    - rewrite E1. destruct (add_cache_host_ok mac p now (s_cache s vid) (H vid)) as (c & -> & Hc & G & _).
      exists (with_cache s1 vid c), (ck_msgs k). split; [reflexivity|]. split; [|split; [reflexivity|]].
      + intros v. unfold with_cache, upd. simpl. rewrite E1. destruct (v =? vid); auto.
      + split; [exact E2|]. intros v m. unfold with_cache, upd. simpl. rewrite E1.
        destruct (v =? vid) eqn:Ev; [|reflexivity]. apply Z.eqb_eq in Ev. subst v.
        rewrite G. simpl. destruct (m =? mac); reflexivity.
    - exists s1, (ck_msgs k). split; [reflexivity|]. split; [|split; [reflexivity|]].
      + intros v. rewrite E1. apply H.
      + split; [exact E2|]. intros v m. rewrite E1. reflexivity.
  Qed.

  Lemma clear_vlans_ok : forall p vids s,
    linv s ->
    exists s', clear_vlans s p vids = Some s' /\ linv s' /\
      s_upd s' = s_upd s /\ s_ban s' = s_ban s /\
      (forall v m, cached_host (s_cache s' v) m =
         match cached_host (s_cache s v) m with
         | Some e => if (existsb (Z.eqb v) vids) && (e_port e =? p) then None else Some e
         | None => None
         end).
  Proof.
    induction vids as [|v0 r IH]; intros s H; simpl.
    - exists s. split; [reflexivity|]. split; [exact H|]. split; [reflexivity|]. split; [reflexivity|].
      intros v m. destruct (cached_host _ _); reflexivity.
    - destruct (clear_port_ok p (s_cache s v0) (H v0)) as (c & -> & Hc & G & _).
      destruct (IH (with_cache s v0 c) (linv_with_cache _ _ _ H Hc)) as (s' & -> & H' & U & B & G').
      exists s'. split; [reflexivity|]. split; [exact H'|]. split; [exact U|]. split; [exact B|].
      intros v m. rewrite G'. unfold with_cache, upd. simpl.
      destruct (v =? v0) eqn:Ev; simpl; [|reflexivity]. apply Z.eqb_eq in Ev. subst v0.
      rewrite G. destruct (cached_host (s_cache s v) m) as [e|]; [|reflexivity].
      destruct (e_port e =? p) eqn:Ep; [reflexivity|]. rewrite Ep, andb_false_r. reflexivity.
  Qed.

  Lemma expire_vlan_ok : forall s now vid,
    linv s ->
    exists s' ms, state_expire_vlan cfg s now vid = Some (s', ms) /\ linv s' /\
      s_upd s' = s_upd s /\ s_ban s' = s_ban s /\
      (forall v m e, cached_host (s_cache s' v) m = Some e -> cached_host (s_cache s v) m = Some e) /\
      (forall v m e, cached_host (s_cache s v) m = Some e -> c_perm cfg (e_port e) = true ->
                     cached_host (s_cache s' v) m = Some e) /\
      Forall (fun x => exists m, x = MDelHost vid m) ms.
  Proof.
    intros s now vid H. unfold state_expire_vlan, expire_hosts_from_vlan.
    assert (Hx : exists c ex, expire_cache_hosts (c_perm cfg) now (c_timeout cfg) (s_cache s vid) = Some (c, ex)
       /\ hinv c /\ (forall m e, cached_host c m = Some e -> cached_host (s_cache s vid) m = Some e)
       /\ (forall m e, cached_host (s_cache s vid) m = Some e -> c_perm cfg (e_port e) = true ->
                       cached_host c m = Some e)).
    { unfold expire_cache_hosts. set (mt := now - c_timeout cfg).
      destruct (match hc_oldest _ with None => true | Some o => o <? mt end).
      - destruct (expire_each_ok (stale_entries (c_perm cfg) mt (s_cache s vid)) _ (H vid))
          as (c1 & -> & H1 & G & _).
        eexists; eexists; split; [reflexivity|]. split; [|split].
        + destruct H1 as [P Q]. split; [exact P|exact Q].
        + intros m e Hm. change (cached_host c1 m = Some e) in Hm. rewrite G in Hm.
          destruct (existsb _ _); [discriminate|exact Hm].
        + intros m e Hm Hp. change (cached_host c1 m = Some e). rewrite G.
          destruct (existsb _ _) eqn:Ex; [|exact Hm].
          apply existsb_exists in Ex as (x & Hin & Em). apply Z.eqb_eq in Em. subst m.
          apply stale_in in Hin as (Hx & _ & Hpf); [|apply H]. congruence.
      - eexists; eexists; split; [reflexivity|]. split; [apply H|]. auto. }
    destruct Hx as (c & ex & -> & Hc & Hsub & Hperm).
    eexists; eexists; split; [reflexivity|]. split; [|split; [reflexivity|split; [reflexivity|split; [|split]]]].
    - intros v. simpl. unfold upd. destruct (v =? vid); auto.
    - intros v m e. simpl. unfold upd. destruct (v =? vid) eqn:Ev; [|auto].
      apply Z.eqb_eq in Ev. subst v. apply Hsub.
    - intros v m e. simpl. unfold upd. destruct (v =? vid) eqn:Ev; [|auto].
      apply Z.eqb_eq in Ev. subst v. apply Hperm.
    - destruct (c_idle_dst cfg); [constructor|]. apply Forall_forall. intros x Hin.
      apply in_map_iff in Hin as (e & <- & _). eauto.
  Qed.

  Lemma lstep_ok : forall s ev, linv s ->
    exists s' ms, lstep cfg s ev = Some (s', ms) /\ linv s'.
  Proof.
    intros s ev H. destruct ev as [now vid p mac|now vid|now p|now p|vid|now|now vid p mac]; cbn [lstep].
    - unfold vlan_rcv_packet. destruct (ban_rules cfg s vid p mac) as [|b bs].
      + destruct (learn_host_ok s now vid p mac H) as (s' & ms & E & H' & _). eauto.
      + eauto.
    - destruct (expire_vlan_ok s now vid H) as (s' & ms & E & H' & _). eauto.
    - eexists; eexists; split; [reflexivity|]. exact H.
    - assert (H1 : linv (with_upd s (upd p (Some now) (s_upd s)))) by exact H.
      destruct (clear_vlans_ok p (c_pvlans cfg p) _ H1) as (s' & -> & H' & _). eauto.
    - eexists; eexists; split; [reflexivity|]. apply linv_with_cache; [exact H|]. apply hinv_reset.
    - eexists; eexists; split; [reflexivity|]. intros v. apply hinv_reset.
    - destruct (learn_host_ok s now vid p mac H) as (s' & ms & E & H' & _). eauto.
  Qed.

  Lemma lrun_ok : forall evs s, linv s -> exists s', lrun cfg s evs = Some s' /\ linv s'.
  Proof.
    induction evs as [|ev r IH]; intros s H; cbn [lrun]; [eauto|].
    destruct (lstep_ok s ev H) as (s1 & ms & -> & H1). auto.
  Qed.

  (** A step either only removes entries, or writes one entry for the packet. *)
  Lemma lstep_caches : forall s ev s' ms,
    linv s -> lstep cfg s ev = Some (s', ms) ->
    (forall v m e, cached_host (s_cache s' v) m = Some e -> cached_host (s_cache s v) m = Some e) \/
    (exists now vid p mac,
       (ev = LPacket now vid p mac /\ ban_rules cfg s vid p mac = [] \/ ev = LStackLearn now vid p mac) /\
       forall v m, cached_host (s_cache s' v) m =
         if (v =? vid) && (m =? mac) then Some {| e_mac := mac; e_port := p; e_time := now |}
         else cached_host (s_cache s v) m).
  Proof.
    intros s ev s' ms H Hs.
    assert (L : forall now vid p mac, learn_host cfg s now vid p mac = Some (s', ms) ->
      (forall v m e, cached_host (s_cache s' v) m = Some e -> cached_host (s_cache s v) m = Some e) \/
      (forall v m, cached_host (s_cache s' v) m =
         if (v =? vid) && (m =? mac) then Some {| e_mac := mac; e_port := p; e_time := now |}
         else cached_host (s_cache s v) m)).
    { intros now vid p mac Hl.
      destruct (learn_host_ok s now vid p mac H) as (s1 & ms1 & E & _ & _ & _ & G).
      rewrite Hl in E. injection E as -> ->.
      destruct (ck_update _).
      - right. intros v m. rewrite G. reflexivity.
      - left. intros v m e. rewrite G. auto. }
    destruct ev as [now vid p mac|now vid|now p|now p|vid|now|now vid p mac]; cbn [lstep] in Hs.
    - unfold vlan_rcv_packet in Hs. destruct (ban_rules cfg s vid p mac) as [|b bs] eqn:Eb.
      + destruct (L _ _ _ _ Hs) as [A|A]; [left; exact A|].
        right. exists now, vid, p, mac. split; [left; auto|exact A].
      + injection Hs as <- _. left; auto.
    - destruct (expire_vlan_ok s now vid H) as (s1 & ms1 & E & _ & _ & _ & G & _).
      rewrite Hs in E. injection E as <- <-. left; exact G.
    - injection Hs as <- _. left; auto.
    - assert (H1 : linv (with_upd s (upd p (Some now) (s_upd s)))) by exact H.
      destruct (clear_vlans_ok p (c_pvlans cfg p) _ H1) as (s1 & E & _ & _ & _ & G).
      rewrite E in Hs. injection Hs as <- _. left. intros v m e. rewrite G.
      simpl. destruct (cached_host (s_cache s v) m) as [e'|]; [|discriminate].
      destruct (_ && _); congruence.
    - injection Hs as <- _. left. intros v m e. unfold with_cache, upd. simpl.
      destruct (v =? vid); [discriminate|auto].
    - injection Hs as <- _. left. intros v m e. discriminate.
    - destruct (L _ _ _ _ Hs) as [A|A]; [left; exact A|].
      right. exists now, vid, p, mac. split; [right; reflexivity|exact A].
  Qed.

  (** ** C13 *)

  Lemma vlan_limit_step : forall s ev s' ms vid,
    linv s -> local_event ev -> lstep cfg s ev = Some (s', ms) ->
    0 < c_vmax cfg vid ->
    hosts_count (s_cache s vid) <= c_vmax cfg vid ->
    hosts_count (s_cache s' vid) <= c_vmax cfg vid.
  Proof.
    intros s ev s' ms vid H Hl Hs Hm Hc.
    assert (H' : linv s'). { destruct (lstep_ok s ev H) as (s1 & m1 & E & H1). rewrite Hs in E. injection E as -> ->. exact H1. }
    destruct (lstep_caches s ev s' ms H Hs) as [Hsub|(now & vid' & p & mac & Hev & G)].
    - etransitivity; [|exact Hc]. apply hosts_count_sub; [apply H'|].
      intros m Hn. destruct (cached_host (s_cache s' vid) m) as [e|] eqn:E; [|congruence].
      rewrite (Hsub _ _ _ E). discriminate.
    - destruct Hev as [[-> Hb]| ->]; [|contradiction].
      destruct (Z.eq_dec vid vid') as [<-|Hne].
      + unfold ban_rules in Hb.
        destruct (cached_host (s_cache s vid) mac) as [e|] eqn:Ee.
        * etransitivity; [|exact Hc]. apply hosts_count_sub; [apply H'|].
          intros m. rewrite G, Z.eqb_refl. simpl. destruct (m =? mac) eqn:Em; [|auto].
          apply Z.eqb_eq in Em. subst m. congruence.
        * apply app_eq_nil in Hb as [_ Hb].
          destruct (negb (c_vmax cfg vid =? 0)) eqn:Ez.
          2: { apply negb_false_iff, Z.eqb_eq in Ez. lia. }
          simpl in Hb. destruct (hosts_count (s_cache s vid) =? c_vmax cfg vid) eqn:Eq; [discriminate|].
          apply Z.eqb_neq in Eq.
          assert (L : hosts_count (s_cache s' vid) <= hosts_count (s_cache s vid) + 1).
          { apply (hosts_count_add _ _ mac); [apply H'|]. intros m. rewrite G, Z.eqb_refl. simpl.
            destruct (m =? mac) eqn:Em; [|auto]. apply Z.eqb_eq in Em. auto. }
          lia.
      + etransitivity; [|exact Hc]. apply hosts_count_sub; [apply H'|].
        intros m. rewrite G. apply Z.eqb_neq in Hne. rewrite Hne. auto.
  Qed.

  Lemma vlan_limit_run : forall evs s s' vid,
    linv s -> Forall local_event evs -> lrun cfg s evs = Some s' ->
    0 < c_vmax cfg vid -> hosts_count (s_cache s vid) <= c_vmax cfg vid ->
    hosts_count (s_cache s' vid) <= c_vmax cfg vid.
  Proof.
    induction evs as [|ev r IH]; intros s s' vid H Hl Hr Hm Hc; cbn [lrun] in Hr.
    - injection Hr as <-. exact Hc.
    - inversion Hl; subst. destruct (lstep_ok s ev H) as (s1 & ms & E & H1). rewrite E in Hr.
      apply (IH s1 s' vid H1); auto. exact (vlan_limit_step s ev s1 ms vid H H2 E Hm Hc).
  Qed.

  (** ** C14 *)

  Lemma sum_le : forall f g (l : list Z), (forall v, In v l -> f v <= g v) ->
    fold_right Z.add 0 (map f l) <= fold_right Z.add 0 (map g l).
  Proof.
    induction l as [|a r IH]; intros H; simpl; [lia|].
    assert (f a <= g a) by (apply H; left; reflexivity).
    assert (fold_right Z.add 0 (map f r) <= fold_right Z.add 0 (map g r))
      by (apply IH; intros; apply H; right; auto).
    lia.
  Qed.

  Lemma sum_le1 : forall f g x (l : list Z), NoDup l ->
    (forall v, In v l -> v <> x -> f v <= g v) -> f x <= g x + 1 ->
    fold_right Z.add 0 (map f l) <= fold_right Z.add 0 (map g l) + 1.
  Proof.
    induction l as [|a r IH]; intros Hn H Hx; simpl; [lia|].
    inversion Hn; subst. destruct (Z.eq_dec a x) as [->|Hne].
    - assert (fold_right Z.add 0 (map f r) <= fold_right Z.add 0 (map g r)).
      { apply sum_le. intros v Hv. apply H; [right; exact Hv|]. intros ->. auto. }
      lia.
    - assert (f a <= g a) by (apply H; [left; reflexivity|exact Hne]).
      assert (fold_right Z.add 0 (map f r) <= fold_right Z.add 0 (map g r) + 1).
      { apply IH; auto. intros v Hv. apply H. right; exact Hv. }
      lia.
  Qed.

  Lemma port_limit_run : forall p evs s s',
    0 < c_pmax cfg p -> NoDup (c_pvlans cfg p) ->
    linv s -> no_moves_onto cfg p s evs -> lrun cfg s evs = Some s' ->
    port_hosts_count cfg s p <= c_pmax cfg p ->
    port_hosts_count cfg s' p <= c_pmax cfg p.
  Proof.
    intros p evs. induction evs as [|ev r IH]; intros s s' Hm Hn H Hq Hr Hc; cbn [lrun] in Hr.
    - injection Hr as <-. exact Hc.
    - destruct (lstep_ok s ev H) as (s1 & ms & E & H1). rewrite E in Hr.
      cbn [no_moves_onto] in Hq. rewrite E in Hq. destruct Hq as [Hev Hq].
      apply (IH s1 s'); auto.
      destruct (lstep_caches s ev s1 ms H E) as [Hsub|(now & vid & q & mac & Hk & G)].
      + etransitivity; [|exact Hc]. apply sum_le. intros v _.
        apply port_count_sub; [apply H|apply H1|]. intros m (e & He & Hp). exists e. auto.
      + destruct (Z.eq_dec q p) as [->|Hqp].
        * destruct Hk as [[-> Hb]| ->]; [|congruence].
          specialize (Hev eq_refl). unfold ban_rules in Hb.
          destruct (cached_host (s_cache s vid) mac) as [e|] eqn:Ee.
          -- specialize (Hev e eq_refl). etransitivity; [|exact Hc]. apply sum_le. intros v _.
             apply port_count_sub; [apply H|apply H1|]. intros m (e' & He & Hp). rewrite G in He.
             destruct ((v =? vid) && (m =? mac)) eqn:Evm; [|exists e'; auto].
             apply andb_true_iff in Evm as [Ev Em]. apply Z.eqb_eq in Ev, Em. subst v m.
             exists e. auto.
          -- apply app_eq_nil in Hb as [Hb _].
             destruct (c_pmax cfg p =? 0) eqn:Ez; [apply Z.eqb_eq in Ez; lia|].
             simpl in Hb. destruct (port_hosts_count cfg s p =? c_pmax cfg p) eqn:Eq; [discriminate|].
             apply Z.eqb_neq in Eq.
             assert (L : port_hosts_count cfg s1 p <= port_hosts_count cfg s p + 1).
             { apply (sum_le1 _ _ vid); [exact Hn| |].
               - intros v _ Hv. apply port_count_sub; [apply H|apply H1|].
                 intros m (e' & He & Hp). rewrite G in He. apply Z.eqb_neq in Hv. rewrite Hv in He.
                 simpl in He. exists e'. auto.
               - apply (port_count_add _ _ _ mac); [apply H|apply H1|].
                 intros m (e' & He & Hp). rewrite G, Z.eqb_refl in He. simpl in He.
                 destruct (m =? mac) eqn:Em; [left; apply Z.eqb_eq; exact Em|]. right. exists e'. auto. }
             lia.
        * etransitivity; [|exact Hc]. apply sum_le. intros v _.
          apply port_count_sub; [apply H|apply H1|]. intros m (e' & He & Hp). rewrite G in He.
          destruct ((v =? vid) && (m =? mac)); [|exists e'; auto].
          injection He as <-. simpl in Hp. congruence.
  Qed.

  (** ** C15 *)

  Lemma perm_step : forall s ev s' ms vid mac e,
    linv s -> lstep cfg s ev = Some (s', ms) ->
    cached_host (s_cache s vid) mac = Some e -> c_perm cfg (e_port e) = true ->
    ~ flushes (e_port e) vid ev ->
    cached_host (s_cache s' vid) mac = Some e.
  Proof.
    intros s ev s' ms vid mac e H Hs He Hp Hf.
    assert (L : forall now v p m, learn_host cfg s now v p m = Some (s', ms) ->
                cached_host (s_cache s' vid) mac = Some e).
    { intros now v p m Hl.
      destruct (learn_host_ok s now v p m H) as (s1 & ms1 & E & _ & _ & _ & G).
      rewrite Hl in E. injection E as -> ->. rewrite G.
      destruct ((vid =? v) && (mac =? m)) eqn:Evm.
      - apply andb_true_iff in Evm as [Ev Em]. apply Z.eqb_eq in Ev, Em. subst v m.
        assert (Ek : ck_update (learn_host_on_vlan_ports cfg s now p vid mac) = false).
        { unfold learn_host_on_vlan_ports. rewrite He. unfold perm_learn_check. rewrite Hp. reflexivity. }
        rewrite Ek. exact He.
      - rewrite <- andb_assoc, Evm, andb_false_r. exact He. }
    destruct ev as [now v p m|now v|now p|now p|v|now|now v p m]; cbn [lstep flushes] in Hs, Hf.
    - unfold vlan_rcv_packet in Hs. destruct (ban_rules cfg s v p m); [eauto|].
      injection Hs as <- _. exact He.
    - destruct (expire_vlan_ok s now v H) as (s1 & ms1 & E & _ & _ & _ & _ & G & _).
      rewrite Hs in E. injection E as <- <-. auto.
    - injection Hs as <- _. exact He.
    - assert (H1 : linv (with_upd s (upd p (Some now) (s_upd s)))) by exact H.
      destruct (clear_vlans_ok p (c_pvlans cfg p) _ H1) as (s1 & E & _ & _ & _ & G).
      rewrite E in Hs. injection Hs as <- _. rewrite G. simpl. rewrite He.
      destruct (e_port e =? p) eqn:Ep; [apply Z.eqb_eq in Ep; congruence|].
      rewrite andb_false_r. reflexivity.
    - injection Hs as <- _. unfold with_cache. simpl. rewrite upd_other; auto.
    - contradiction.
    - eauto.
  Qed.

  Lemma perm_run : forall evs s s' vid mac e,
    linv s -> lrun cfg s evs = Some s' ->
    cached_host (s_cache s vid) mac = Some e -> c_perm cfg (e_port e) = true ->
    Forall (fun ev => ~ flushes (e_port e) vid ev) evs ->
    cached_host (s_cache s' vid) mac = Some e.
  Proof.
    induction evs as [|ev r IH]; intros s s' vid mac e H Hr He Hp Hf; cbn [lrun] in Hr.
    - injection Hr as <-. exact He.
    - apply Forall_cons_iff in Hf as [Hf1 Hf2].
      destruct (lstep_ok s ev H) as (s1 & ms & E & H1). rewrite E in Hr.
      apply (IH s1 s' vid mac e H1); auto. exact (perm_step s ev s1 ms vid mac e H E He Hp Hf1).
  Qed.

  (** ** C17 *)

  Lemma jitter_bounds : forall base p mac,
    c_perm cfg p = false -> 0 < base -> c_jitter cfg <> 0 ->
    c_guard cfg <= jitter_learn_timeout cfg base p mac /\
    jitter_learn_timeout cfg base p mac <= Z.max (c_guard cfg) (base + Z.abs (c_jitter cfg)) /\
    base - Z.abs (c_jitter cfg) <= jitter_learn_timeout cfg base p mac.
  Proof.
    intros base p mac Hp Hb Hj. unfold jitter_learn_timeout. rewrite Hp.
    destruct (base =? 0) eqn:E; [apply Z.eqb_eq in E; lia|].
    set (h := c_hash cfg mac). set (j := c_jitter cfg) in *.
    assert (Hm : (0 < j /\ 0 <= h mod j < j) \/ (j < 0 /\ j < h mod j <= 0)).
    { destruct (Z_lt_le_dec 0 j) as [L|L].
      - left. split; [exact L|]. apply Z.mod_pos_bound; exact L.
      - right. assert (j < 0) by lia. split; [lia|]. apply Z.mod_neg_bound; lia. }
    destruct Hm as [[H1 H2]|[H1 H2]]; lia.
  Qed.
End P.

Section Q.
  Variable cfg : lcfg.

  (** A host seen recently survives an expiry pass, whatever the clock did. *)
  Lemma recent_kept : forall s now vid s' ms v m e,
    linv s -> state_expire_vlan cfg s now vid = Some (s', ms) ->
    cached_host (s_cache s v) m = Some e -> now - c_timeout cfg <= e_time e ->
    cached_host (s_cache s' v) m = Some e /\ s_upd s' = s_upd s.
  Proof.
    intros s now vid s' ms v m e H Hs He Ht.
    unfold state_expire_vlan, expire_hosts_from_vlan, expire_cache_hosts in Hs.
    destruct (match hc_oldest _ with None => true | Some o => o <? now - c_timeout cfg end).
    - destruct (expire_each_ok (stale_entries (c_perm cfg) (now - c_timeout cfg) (s_cache s vid)) _ (H vid))
          as (c1 & E & H1 & G & _). rewrite E in Hs. injection Hs as <- _. simpl. split; [|reflexivity].
      unfold upd. destruct (v =? vid) eqn:Ev; [|exact He]. apply Z.eqb_eq in Ev. subst v.
      change (cached_host c1 m = Some e). rewrite G.
      destruct (existsb _ _) eqn:Ex; [|exact He]. apply existsb_exists in Ex as (x & Hx & Em).
      apply Z.eqb_eq in Em. subst m. apply stale_in in Hx as (Hx & Hlt & _); [|apply H].
      rewrite He in Hx. injection Hx as ->. lia.
    - injection Hs as <- _. simpl. split; [|reflexivity]. unfold upd.
      destruct (v =? vid) eqn:Ev; [|exact He]. apply Z.eqb_eq in Ev. subst v. exact He.
  Qed.

  (** ** C18 *)

  Lemma ban_now : forall s now vid p mac q t,
    linv s -> learned s vid mac q t ->
    q <> p -> c_loop cfg p = true -> c_perm cfg q = false ->
    (c_lacp cfg p = 0 \/ c_lacp cfg p <> c_lacp cfg q) ->
    now - t < c_guard cfg ->
    exists s', lstep cfg s (LPacket now vid p mac) = Some (s', [MBanPort p]) /\
      s_ban s' p = Some now /\ learned s' vid mac p now.
  Proof.
    intros s now vid p mac q t H Hl Hne Hlp Hpq Hlag Hage. unfold learned in *.
    assert (Ek : learn_host_on_vlan_ports cfg s now p vid mac =
      {| ck_exit := true; ck_msgs := [MBanPort p]; ck_update := true;
         ck_delete := true; ck_refresh := false; ck_ban := Some now |}).
    { unfold learn_host_on_vlan_ports. rewrite Hl. unfold perm_learn_check. cbn [e_port].
      rewrite Hpq. cbn [ck_exit ck_delete ck_refresh delete_default]. unfold learn_cache_check. cbn [e_port e_time].
      assert (E1 : (q =? p) = false) by (apply Z.eqb_neq; exact Hne).
      assert (E2 : negb (c_lacp cfg p =? 0) && (c_lacp cfg p =? c_lacp cfg q) = false).
      { destruct Hlag as [->|Hn]; [reflexivity|]. apply Z.eqb_neq in Hn. rewrite Hn. apply andb_false_r. }
      rewrite E1, E2. cbn [orb ck_exit ck_delete ck_refresh]. unfold loop_protect_check. cbn [e_port e_time].
      assert (E3 : (p =? q) = false) by (apply Z.eqb_neq; congruence).
      assert (E4 : (now - t <? c_guard cfg) = true) by (apply Z.ltb_lt; exact Hage).
      rewrite Hlp, E3, E4. cbn [negb andb]. rewrite orb_true_r. reflexivity. }
    cbn [lstep]. unfold vlan_rcv_packet, ban_rules. rewrite Hl.
    unfold learn_host. rewrite Ek. cbn [ck_ban ck_update ck_msgs with_ban s_cache].
    destruct (add_cache_host_ok mac p now (s_cache s vid) (H vid)) as (c & -> & Hc & G & _).
    eexists; split; [reflexivity|]. cbn [with_cache with_ban s_ban s_cache].
    rewrite !upd_same. split; [reflexivity|]. rewrite G, Z.eqb_refl. reflexivity.
  Qed.

  (** While the last ban on a loop-protected port is recent, learning on it
      installs nothing, and the ban is only ever prolonged. *)
  Lemma learn_banned : forall s now vid p mac b,
    c_loop cfg p = true -> s_ban s p = Some b -> b <> 0 -> now - b < c_guard cfg ->
    let k := learn_host_on_vlan_ports cfg s now p vid mac in
    existsb (installs_on p) (ck_msgs k) = false /\ (ck_ban k = None \/ ck_ban k = Some now).
  Proof.
    intros s now vid p mac b Hlp Hb Hz Hw. cbn zeta. unfold learn_host_on_vlan_ports.
    set (e := cached_host (s_cache s vid) mac).
    set (k1 := perm_learn_check cfg e mac p (delete_default s vid e) false).
    assert (K1 : existsb (installs_on p) (ck_msgs k1) = false /\ ck_ban k1 = None).
    { subst k1. unfold perm_learn_check. destruct e as [x|]; [|split; reflexivity].
      destruct (c_perm cfg (e_port x)); [|split; reflexivity].
      destruct (e_port x =? p); split; reflexivity. }
    destruct (ck_exit k1); [destruct K1; auto|].
    set (k2 := learn_cache_check cfg s now e p (ck_delete k1) (ck_refresh k1)).
    assert (K2 : ck_msgs k2 = [] /\ ck_ban k2 = None).
    { subst k2. unfold learn_cache_check. destruct e as [x|]; [|split; reflexivity].
      destruct (_ || _); [|split; reflexivity]. destruct (_ && _); split; reflexivity. }
    destruct (ck_exit k2); [destruct K2 as [-> ->]; auto|].
    assert (E : (now - b <? c_guard cfg) = true) by (apply Z.ltb_lt; exact Hw).
    assert (Z0 : (b =? 0) = false) by (apply Z.eqb_neq; exact Hz).
    unfold loop_protect_check at 1. rewrite Hlp, Hb, Z0, E. cbn [negb andb orb ck_exit].
    unfold loop_protect_check. rewrite Hlp, Hb, Z0, E. cbn. auto.
  Qed.

  Lemma learn_host_ban : forall s now vid p mac s' ms q,
    learn_host cfg s now vid p mac = Some (s', ms) ->
    s_ban s' q = match ck_ban (learn_host_on_vlan_ports cfg s now p vid mac) with
                 | Some t => if q =? p then Some t else s_ban s q
                 | None => s_ban s q
                 end.
  Proof.
    intros s now vid p mac s' ms q Hl. unfold learn_host in Hl.
    set (k := learn_host_on_vlan_ports cfg s now p vid mac) in *.
    destruct (ck_ban k); destruct (ck_update k); cbn [with_ban s_cache s_ban with_cache] in Hl;
      try (destruct (add_cache_host _ _ _ _); [|discriminate]);
      injection Hl as <- _; cbn; unfold upd; try destruct (q =? p); reflexivity.
  Qed.

  (** The ban time changes only by a learn on that port, to the packet's time. *)
  Lemma learn_ban_now : forall s now vid p mac t,
    ck_ban (learn_host_on_vlan_ports cfg s now p vid mac) = Some t -> t = now.
  Proof.
    intros s now vid p mac t. unfold learn_host_on_vlan_ports.
    set (e := cached_host (s_cache s vid) mac).
    set (k1 := perm_learn_check cfg e mac p (delete_default s vid e) false).
    assert (K1 : ck_ban k1 = None).
    { subst k1. unfold perm_learn_check. destruct e as [x|]; [|reflexivity].
      destruct (c_perm cfg (e_port x)); reflexivity. }
    destruct (ck_exit k1); [congruence|].
    set (k2 := learn_cache_check cfg s now e p (ck_delete k1) (ck_refresh k1)).
    assert (K2 : ck_ban k2 = None).
    { subst k2. unfold learn_cache_check. destruct e as [x|]; [|reflexivity].
      destruct (_ || _); [|reflexivity]. destruct (_ && _); reflexivity. }
    destruct (ck_exit k2); [congruence|].
    destruct (ck_exit (loop_protect_check _ _ _ _ _ _ _)); [|discriminate].
    unfold loop_protect_check. destruct (_ && _); cbn; congruence.
  Qed.

  Lemma learn_msgs_other : forall s now vid p q mac,
    q <> p -> existsb (installs_on p) (ck_msgs (learn_host_on_vlan_ports cfg s now q vid mac)) = false.
  Proof.
    intros s now vid p q mac Hne. unfold learn_host_on_vlan_ports.
    set (e := cached_host (s_cache s vid) mac).
    set (k1 := perm_learn_check cfg e mac q (delete_default s vid e) false).
    assert (K1 : existsb (installs_on p) (ck_msgs k1) = false).
    { subst k1. unfold perm_learn_check. destruct e as [x|]; [|reflexivity].
      destruct (c_perm cfg (e_port x)); [|reflexivity]. destruct (e_port x =? q); reflexivity. }
    destruct (ck_exit k1); [exact K1|].
    set (k2 := learn_cache_check cfg s now e q (ck_delete k1) (ck_refresh k1)).
    assert (K2 : ck_msgs k2 = []).
    { subst k2. unfold learn_cache_check. destruct e as [x|]; [|reflexivity].
      destruct (_ || _); [|reflexivity]. destruct (_ && _); reflexivity. }
    destruct (ck_exit k2); [rewrite K2; reflexivity|].
    set (k3 := loop_protect_check cfg s now e q (ck_delete k2) (ck_refresh k2)).
    assert (K3 : existsb (installs_on p) (ck_msgs k3) = false).
    { subst k3. unfold loop_protect_check. destruct (_ && _); reflexivity. }
    destruct (ck_exit k3); [exact K3|].
    cbn [learn_check ck_msgs]. unfold learn_flows, learn_host_timeouts.
    assert (E : (q =? p) = false) by (apply Z.eqb_neq; exact Hne).
    rewrite !existsb_app. destruct (ck_delete k3); cbn [existsb installs_on orb];
      rewrite E; cbn [orb];
      (destruct (_ && _); [reflexivity|]);
      rewrite !existsb_app; cbn [existsb installs_on]; rewrite E; cbn [orb];
      destruct (c_externals cfg && _); destruct (c_hairpin cfg q); cbn; rewrite ?E; reflexivity.
  Qed.

  Lemma ban_rules_no_install : forall s vid q mac p,
    existsb (installs_on p) (ban_rules cfg s vid q mac) = false.
  Proof.
    intros. unfold ban_rules. destruct (cached_host _ _); [reflexivity|].
    destruct (_ && _); destruct (_ && _); reflexivity.
  Qed.

  Lemma banned_run : forall p t evs s b,
    linv s -> c_loop cfg p = true -> 0 < t -> s_ban s p = Some b -> t <= b ->
    Forall (within p t (c_guard cfg)) evs ->
    existsb (installs_on p) (lmessages cfg s evs) = false.
  Proof.
    intros p t evs. induction evs as [|ev r IH]; intros s b H Hlp Ht Hb Htb Hw; cbn [lmessages]; [reflexivity|].
    apply Forall_cons_iff in Hw as [Hw1 Hw2].
    destruct (lstep_ok cfg s ev H) as (s1 & ms & E & H1). rewrite E, existsb_app.
    assert (L : forall now vid q mac, (q = p -> t <= now < t + c_guard cfg) ->
       learn_host cfg s now vid q mac = Some (s1, ms) ->
       existsb (installs_on p) ms = false /\ exists b', s_ban s1 p = Some b' /\ t <= b').
    { intros now vid q mac Hq Hl.
      destruct (learn_host_ok cfg s now vid q mac H) as (s2 & ms2 & E2 & _ & M & _).
      rewrite Hl in E2. injection E2 as <- <-.
      pose proof (learn_host_ban s now vid q mac s1 ms p Hl) as B.
      destruct (Z.eq_dec q p) as [->|Hne].
      - specialize (Hq eq_refl).
        destruct (learn_banned s now vid p mac b Hlp Hb) as [A1 A2]; [lia|lia|].
        rewrite M. split; [exact A1|]. rewrite Z.eqb_refl in B.
        destruct A2 as [A2|A2]; rewrite A2 in B; eexists; (split; [eassumption || (rewrite B; eassumption)|lia]).
      - rewrite M. split; [apply learn_msgs_other; exact Hne|].
        assert (Ep : (p =? q) = false) by (apply Z.eqb_neq; congruence). rewrite Ep in B.
        exists b. split; [|exact Htb]. rewrite B. destruct (ck_ban _); exact Hb. }
    assert (G : existsb (installs_on p) ms = false /\ exists b', s_ban s1 p = Some b' /\ t <= b').
    { destruct ev as [now vid q mac|now vid|now q|now q|vid|now|now vid q mac]; cbn [lstep within] in E, Hw1.
      - unfold vlan_rcv_packet in E. pose proof (ban_rules_no_install s vid q mac p) as Bn.
        destruct (ban_rules cfg s vid q mac) as [|x xs].
        + exact (L _ _ _ _ Hw1 E).
        + injection E as <- <-. split; [exact Bn|]. eauto.
      - destruct (expire_vlan_ok cfg s now vid H) as (s2 & ms2 & E2 & _ & _ & B & _ & _ & F).
        rewrite E in E2. injection E2 as <- <-. split; [|exists b; rewrite B; auto].
        apply not_true_iff_false. intros Hx. apply existsb_exists in Hx as (x & Hx & Hi).
        rewrite Forall_forall in F. destruct (F x Hx) as [m ->]. discriminate.
      - injection E as <- <-. split; [reflexivity|]. exists b. auto.
      - assert (H2 : linv (with_upd s (upd q (Some now) (s_upd s)))) by exact H.
        destruct (clear_vlans_ok q (c_pvlans cfg q) _ H2) as (s2 & E2 & _ & _ & B & _).
        rewrite E2 in E. injection E as <- <-. split; [reflexivity|]. exists b. rewrite B. auto.
      - injection E as <- <-. split; [reflexivity|]. exists b. auto.
      - injection E as <- <-. split; [reflexivity|]. exists b. auto.
      - exact (L _ _ _ _ Hw1 E). }
    destruct G as [-> (b' & B1 & B2)]. cbn. exact (IH s1 b' H1 Hlp Ht B1 B2 Hw2).
  Qed.

  (** ** A talking host: only its source rule is ever refreshed *)

  Lemma talk_refresh : forall vid p mac d,
    c_perm cfg p = false -> c_loop cfg p = false -> c_lacp cfg p = 0 -> c_hairpin cfg p = false ->
    c_guard cfg <= d <= c_timeout cfg -> 0 <= d ->
    forall n s t u, linv s -> learned s vid mac p t -> s_upd s p = Some u -> u <= t ->
    existsb installs_dst (lmessages cfg s (talk vid p mac t d n)) = false /\
    exists s', lrun cfg s (talk vid p mac t d n) = Some s' /\ learned s' vid mac p (t + Z.of_nat n * d).
  Proof.
    intros vid p mac d Hp Hl Hg Hh Hd Hd0. induction n as [|n IH]; intros s t u H Hc Hu Hut.
    - cbn. split; [reflexivity|]. exists s. split; [reflexivity|]. rewrite Z.add_0_r. exact Hc.
    - cbn [talk lmessages lrun]. cbn [lstep].
      destruct (expire_vlan_ok cfg s (t + d) vid H) as (s1 & ms1 & E1 & H1 & U1 & _ & _ & _ & F1).
      rewrite E1. destruct (recent_kept s (t + d) vid s1 ms1 vid mac _ H E1 Hc) as [Hc1 _].
      { cbn [e_time]. lia. }
      assert (Ek : learn_host_on_vlan_ports cfg s1 (t + d) p vid mac =
        learn_check cfg vid mac p false true).
      { unfold learn_host_on_vlan_ports. rewrite Hc1. unfold perm_learn_check. cbn [e_port].
        rewrite Hp. cbn [ck_exit ck_delete ck_refresh]. unfold learn_cache_check. cbn [e_port e_time].
        rewrite Z.eqb_refl, Hg, U1, Hu. cbn [Z.eqb negb andb orb].
        assert (Ev : (u <=? t) = true) by (apply Z.leb_le; exact Hut).
        assert (Ea : (t + d - t <? c_guard cfg) = false) by (apply Z.ltb_ge; lia).
        rewrite Ev, Ea. cbn [andb ck_exit ck_delete ck_refresh].
        unfold loop_protect_check. rewrite Hl. reflexivity. }
      unfold vlan_rcv_packet, ban_rules. rewrite Hc1.
      destruct (learn_host_ok cfg s1 (t + d) vid p mac H1) as (s2 & ms2 & E2 & H2 & M & U2 & G).
      rewrite E2. rewrite Ek in M, G. cbn [learn_check ck_msgs ck_update] in M, G.
      assert (Hc2 : learned s2 vid mac p (t + d)).
      { unfold learned. rewrite G, !Z.eqb_refl. reflexivity. }
      destruct (IH s2 (t + d) u H2 Hc2) as [I1 (s3 & I2 & I3)]; [congruence|lia|].
      split.
      + rewrite !existsb_app. rewrite I1. rewrite orb_false_r.
        apply orb_false_iff. split.
        * apply not_true_iff_false. intros Hx. apply existsb_exists in Hx as (x & Hx & Hi).
          rewrite Forall_forall in F1. destruct (F1 x Hx) as [m ->]. discriminate.
        * rewrite M. unfold learn_flows, learn_host_timeouts. rewrite Hh. reflexivity.
      + exists s3. split; [exact I2|]. replace (t + Z.of_nat (S n) * d) with (t + d + Z.of_nat n * d) by lia.
        exact I3.
  Qed.
End Q.
