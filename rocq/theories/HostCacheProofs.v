(** * Proofs about the host cache *)

From Coq Require Import List Bool ZArith Lia.
From Verif Require Import PyBase PyBaseProofs HostCacheSpec HostCacheModel.
Import ListNotations.
Open Scope Z_scope.

Definition zs := Z.eqb_eq.

Definition onp (d : list (Z * list entry)) (p : Z) : list entry :=
  match dict_get Z.eqb p d with Some l => l | None => [] end.

(** The per-port index [d] agrees with the host map [g]. *)
Record pinv (g : Z -> option entry) (d : list (Z * list entry)) : Prop := {
  pi_key : forall m e, g m = Some e -> e_mac e = m;
  pi_in : forall p x, In x (onp d p) <-> g (e_mac x) = Some x /\ e_port x = p;
  pi_nodup : forall p, NoDup (map e_mac (onp d p));
}.

Lemma pinv_ext : forall g g' d, (forall m, g m = g' m) -> pinv g d -> pinv g' d.
Proof.
  intros g g' d E [A B C]. split; auto.
  - intros m e. rewrite <- E. apply A.
  - intros p x. rewrite <- E. apply B.
Qed.

Lemma set_remove_ok : forall e l,
  In e l -> NoDup (map e_mac l) ->
  exists l', set_remove e l = Some l' /\ NoDup (map e_mac l') /\
    forall x, In x l' <-> In x l /\ e_mac x <> e_mac e.
Proof.
  induction l as [|a r IH]; simpl; intros Hin Hn; [contradiction|].
  inversion Hn as [|? ? Hni Hn']; subst.
  destruct (entry_eq e a) eqn:E.
  - exists r. split; [reflexivity|]. split; [exact Hn'|].
    apply andb_true_iff in E as [E _]. apply Z.eqb_eq in E.
    intros x. split.
    + intros Hx. split; [right; exact Hx|]. rewrite E. intros Hc. apply Hni. rewrite <- Hc.
      apply in_map; exact Hx.
    + intros [[->|Hx] Hne]; [congruence|exact Hx].
  - destruct Hin as [->|Hin].
    { unfold entry_eq in E. rewrite !Z.eqb_refl in E. discriminate. }
    destruct (IH Hin Hn') as (l' & El & Hl & Hx). rewrite El. simpl. exists (a :: l').
    split; [reflexivity|]. split.
    + simpl. constructor; [|exact Hl]. intros Hc. apply Hni.
      apply in_map_iff in Hc as (y & Ey & Hy). apply Hx in Hy as [Hy _]. rewrite <- Ey.
      apply in_map; exact Hy.
    + intros x. simpl. rewrite Hx. split.
      * intros [->|[A B]]; [|auto]. split; [auto|]. intros Hc. apply Hni. rewrite Hc.
        apply in_map; exact Hin.
      * intros [[->|A] B]; auto.
Qed.

Lemma onp_put : forall d p q l,
  onp (dict_put Z.eqb p l d) q = if q =? p then l else onp d q.
Proof.
  intros. unfold onp. rewrite (dict_get_put _ zs). destruct (q =? p); reflexivity.
Qed.

Definition g_del (m : Z) (g : Z -> option entry) : Z -> option entry :=
  fun x => if x =? m then None else g x.
Definition g_put (m : Z) (e : entry) (g : Z -> option entry) : Z -> option entry :=
  fun x => if x =? m then Some e else g x.

Lemma by_port_remove_ok : forall g d m e,
  pinv g d -> g m = Some e ->
  exists d', by_port_remove e d = Some d' /\ pinv (g_del m g) d'.
Proof.
  intros g d m e [A B C] Hg. assert (Em := A _ _ Hg).
  assert (Hin : In e (onp d (e_port e))). { apply B. rewrite Em. auto. }
  unfold by_port_remove. pose proof (C (e_port e)) as Cn. unfold onp in Hin, Cn.
  destruct (dict_get Z.eqb (e_port e) d) as [l|] eqn:El; [|contradiction].
  destruct (set_remove_ok e l Hin Cn) as (l' & -> & Hn' & Hx).
  eexists; split; [reflexivity|]. unfold g_del. split.
  - intros m0 e0. destruct (m0 =? m); [discriminate|]. apply A.
  - intros p x. rewrite onp_put. destruct (p =? e_port e) eqn:Ep.
    + apply Z.eqb_eq in Ep. subst p. rewrite Hx. specialize (B (e_port e) x).
      unfold onp in B. rewrite El in B. rewrite B, Em. destruct (e_mac x =? m) eqn:Ex.
      * apply Z.eqb_eq in Ex. intuition congruence.
      * apply Z.eqb_neq in Ex. tauto.
    + rewrite B. destruct (e_mac x =? m) eqn:Ex.
      * apply Z.eqb_eq in Ex. apply Z.eqb_neq in Ep. rewrite Ex.
        split; [|intuition discriminate]. intros [H1 H2]. rewrite Hg in H1.
        injection H1 as ->. congruence.
      * tauto.
  - intros p. rewrite onp_put. destruct (p =? e_port e); [exact Hn'|apply C].
Qed.

Lemma by_port_add_ok : forall g d e,
  pinv g d -> g (e_mac e) = None -> pinv (g_put (e_mac e) e g) (by_port_add e d).
Proof.
  intros g d e [A B C] Hg.
  assert (Hno : forall x p, In x (onp d p) -> e_mac x <> e_mac e).
  { intros x p Hx Hc. apply B in Hx as [Hx _]. congruence. }
  assert (Hadd : set_add e (onp d (e_port e)) = onp d (e_port e) ++ [e]).
  { unfold set_add. destruct (existsb _ _) eqn:E; [|reflexivity].
    apply existsb_exists in E as (x & Hx & Ex). apply andb_true_iff in Ex as [Ex _].
    apply Z.eqb_eq in Ex. exfalso. apply (Hno x _ Hx). auto. }
  unfold by_port_add. fold (onp d (e_port e)). rewrite Hadd. unfold g_put. split.
  - intros m x. destruct (m =? e_mac e) eqn:E; [|apply A]. apply Z.eqb_eq in E. congruence.
  - intros p x. rewrite onp_put. destruct (p =? e_port e) eqn:Ep.
    + apply Z.eqb_eq in Ep. subst p. rewrite in_app_iff. simpl. rewrite B.
      destruct (e_mac x =? e_mac e) eqn:Ex.
      * apply Z.eqb_eq in Ex. split.
        -- intros [[H1 _]|[->|[]]]; [congruence|auto].
        -- intros [H1 _]. injection H1 as ->. auto.
      * apply Z.eqb_neq in Ex. split; [|tauto]. intros [H|[->|[]]]; [exact H|congruence].
    + rewrite B. apply Z.eqb_neq in Ep. destruct (e_mac x =? e_mac e) eqn:Ex; [|tauto].
      apply Z.eqb_eq in Ex. split; intros [H1 H2]; [congruence|].
      injection H1 as ->. congruence.
  - intros p. rewrite onp_put. destruct (p =? e_port e); [|apply C].
    rewrite map_app. apply NoDup_app_iff_. split; [apply C|]. split.
    + simpl. constructor; [auto|constructor].
    + intros m Hm [<-|[]]. apply in_map_iff in Hm as (x & Ex & Hx). exact (Hno x _ Hx Ex).
Qed.

(** The invariant of a cache. *)
Record hinv (c : hcache) : Prop := {
  hi_nodup : NoDup (map fst (hc_hosts c));
  hi_pinv : pinv (cached_host c) (hc_ports c);
}.

Lemma hinv_reset : forall o s, hinv {| hc_hosts := []; hc_ports := []; hc_stale := s; hc_oldest := o |}.
Proof.
  intros. split; [constructor|]. split; simpl; try discriminate.
  - intros p x. cbn. split; [contradiction|]. intros [H _]. discriminate.
  - intros. constructor.
Qed.

Lemma add_cache_host_ok : forall mac p t c,
  hinv c ->
  exists c', add_cache_host mac p t c = Some c' /\ hinv c' /\
    (forall m, cached_host c' m =
       if m =? mac then Some {| e_mac := mac; e_port := p; e_time := t |} else cached_host c m) /\
    hc_oldest c' = hc_oldest c.
Proof.
  intros mac p t c [Hn Hp]. set (e := {| e_mac := mac; e_port := p; e_time := t |}).
  unfold add_cache_host. fold e. destruct (cached_host c mac) as [old|] eqn:Ho.
  - destruct (by_port_remove_ok _ _ _ _ Hp Ho) as (d' & -> & Hp').
    eexists; split; [reflexivity|]. split; [|split; [|reflexivity]].
    + split; cbn [hc_hosts hc_ports].
      * apply dict_put_nodup; [exact zs|exact Hn].
      * apply by_port_add_ok with (e := e) in Hp'.
        -- revert Hp'. apply pinv_ext. intros m. unfold cached_host, g_put, g_del. cbn [hc_hosts].
           rewrite (dict_get_put _ zs). cbn [e_mac e]. destruct (m =? mac); reflexivity.
        -- unfold g_del. cbn. rewrite Z.eqb_refl. reflexivity.
    + intros m. unfold cached_host. cbn [hc_hosts]. rewrite (dict_get_put _ zs). reflexivity.
  - eexists; split; [reflexivity|]. split; [|split; [|reflexivity]].
    + split; cbn [hc_hosts hc_ports].
      * apply dict_put_nodup; [exact zs|exact Hn].
      * apply by_port_add_ok with (e := e) in Hp; [|exact Ho].
        revert Hp. apply pinv_ext. intros m. unfold cached_host, g_put. cbn [hc_hosts].
        rewrite (dict_get_put _ zs). reflexivity.
    + intros m. unfold cached_host. cbn [hc_hosts]. rewrite (dict_get_put _ zs). reflexivity.
Qed.

Lemma expire_cache_host_ok : forall mac c,
  hinv c ->
  exists c', expire_cache_host mac c = Some c' /\ hinv c' /\
    (forall m, cached_host c' m = if m =? mac then None else cached_host c m) /\
    hc_oldest c' = hc_oldest c.
Proof.
  intros mac c [Hn Hp]. unfold expire_cache_host.
  destruct (cached_host c mac) as [e|] eqn:Ho.
  - destruct (by_port_remove_ok _ _ _ _ Hp Ho) as (d' & -> & Hp').
    eexists; split; [reflexivity|].
    assert (Hc : forall m, dict_get Z.eqb m (dict_del Z.eqb mac (hc_hosts c)) =
                           if m =? mac then None else cached_host c m).
    { intros m. rewrite (dict_get_del _ zs). reflexivity. }
    split; [|split; [exact Hc|reflexivity]].
    split; cbn [hc_hosts hc_ports].
    + apply dict_del_nodup. exact Hn.
    + revert Hp'. apply pinv_ext. intros m. unfold cached_host at 2. cbn [hc_hosts].
      rewrite Hc. reflexivity.
  - exists c. split; [reflexivity|]. split; [split; auto|]. split; [|reflexivity].
    intros m. destruct (m =? mac) eqn:E; [|reflexivity]. apply Z.eqb_eq in E. congruence.
Qed.

Lemma expire_each_ok : forall l c,
  hinv c ->
  exists c', expire_each l c = Some c' /\ hinv c' /\
    (forall m, cached_host c' m = if existsb (fun e => m =? e_mac e) l then None else cached_host c m) /\
    hc_oldest c' = hc_oldest c.
Proof.
  induction l as [|e r IH]; intros c H; simpl.
  - exists c; auto.
  - destruct (expire_cache_host_ok (e_mac e) c H) as (c1 & -> & H1 & G1 & O1).
    destruct (IH c1 H1) as (c2 & -> & H2 & G2 & O2).
    exists c2. split; [reflexivity|]. split; [exact H2|]. split; [|congruence].
    intros m. rewrite G2, G1. destruct (m =? e_mac e); simpl; [|reflexivity].
    destruct (existsb _ r); reflexivity.
Qed.

Lemma clear_port_ok : forall p c,
  hinv c ->
  exists c', clear_cache_hosts_on_port p c = Some c' /\ hinv c' /\
    (forall m, cached_host c' m =
       match cached_host c m with
       | Some e => if e_port e =? p then None else Some e
       | None => None
       end) /\
    hc_oldest c' = hc_oldest c.
Proof.
  intros p c H. unfold clear_cache_hosts_on_port.
  destruct (expire_each_ok (cached_hosts_on_port c p) c H) as (c' & E & H' & G & O).
  exists c'. split; [exact E|]. split; [exact H'|]. split; [|exact O].
  intros m. rewrite G. destruct H as [_ [A B C]].
  destruct (existsb _ _) eqn:Ex.
  - apply existsb_exists in Ex as (e & He & Em). apply Z.eqb_eq in Em. subst m.
    apply B in He as [-> <-]. rewrite Z.eqb_refl. reflexivity.
  - destruct (cached_host c m) as [e|] eqn:Eg; [|reflexivity].
    destruct (e_port e =? p) eqn:Ep; [|reflexivity]. apply Z.eqb_eq in Ep.
    assert (Hin : In e (cached_hosts_on_port c p)).
    { apply B. rewrite (A _ _ Eg). auto. }
    exfalso. apply not_true_iff_false in Ex. apply Ex. apply existsb_exists.
    exists e. split; [exact Hin|]. rewrite (A _ _ Eg). apply Z.eqb_refl.
Qed.

Section Perm.
  Variable perm : Z -> bool.

  Lemma stale_in : forall c mt e, hinv c ->
    In e (stale_entries perm mt c) <->
    cached_host c (e_mac e) = Some e /\ e_time e < mt /\ perm (e_port e) = false.
  Proof.
    intros c mt e [Hn [A _ _]]. unfold stale_entries. rewrite filter_In, in_map_iff.
    rewrite andb_true_iff, Z.ltb_lt, negb_true_iff. split.
    - intros [([k v] & Ev & Hin) [H1 H2]]. simpl in Ev. subst v.
      apply (dict_in_get _ zs) in Hin; [|exact Hn]. pose proof (A _ _ Hin) as Ek.
      rewrite Ek. auto.
    - intros (Hg & H1 & H2). split; [|auto]. exists (e_mac e, e). split; [reflexivity|].
      apply (dict_get_in _ zs) in Hg. exact Hg.
  Qed.

  Lemma min_list_le : forall l x, min_list x l <= x /\ forall y, In y l -> min_list x l <= y.
  Proof.
    unfold min_list. induction l as [|a r IH]; intros x; simpl.
    - split; [lia|intros y []].
    - destruct (IH (Z.min x a)) as [H1 H2]. split; [lia|].
      intros y [->|Hy]; [lia|auto].
  Qed.

  Lemma oldest_after_le : forall now c m e,
    cached_host c m = Some e -> oldest_after now c <= e_time e.
  Proof.
    intros now c m e H. apply (dict_get_in _ zs) in H. unfold oldest_after.
    assert (Hin : In (e_time e) (map (fun ke => e_time (snd ke)) (hc_hosts c))).
    { apply in_map_iff. exists (m, e). auto. }
    destruct (map _ _) as [|t r]; [contradiction|].
    destruct (min_list_le r t) as [H1 H2]. destruct Hin as [->|Hin]; auto.
  Qed.

  Lemma oldest_after_now : forall now c,
    (forall m e, cached_host c m = Some e -> e_time e <= now) -> hinv c -> oldest_after now c <= now.
  Proof.
    intros now c H [Hn _]. unfold oldest_after.
    destruct (hc_hosts c) as [|[k v] r] eqn:E; simpl; [lia|].
    destruct (min_list_le (map (fun ke => e_time (snd ke)) r) (e_time v)) as [H1 _].
    specialize (H k v). unfold cached_host in H. rewrite E in H. simpl in H.
    rewrite Z.eqb_refl in H. specialize (H eq_refl). lia.
  Qed.

  (** The skip in [expire_cache_hosts] is sound: nothing is older than
      [dyn_oldest_host_time]. *)
  Definition oldest_ok (c : hcache) : Prop :=
    forall o, hc_oldest c = Some o -> forall m e, cached_host c m = Some e -> o <= e_time e.

  Lemma expire_hosts_ok : forall now timeout c,
    hinv c ->
    exists c' ex, expire_cache_hosts perm now timeout c = Some (c', ex) /\ hinv c' /\
      (forall m e, cached_host c' m = Some e -> cached_host c m = Some e) /\
      (oldest_ok c ->
         (forall m, cached_host c' m =
            match cached_host c m with
            | Some e => if (e_time e <? now - timeout) && negb (perm (e_port e)) then None else Some e
            | None => None
            end) /\
         (forall e, In e ex <-> cached_host c (e_mac e) = Some e /\ e_time e < now - timeout
                                /\ perm (e_port e) = false)) /\
      (hc_oldest c' = hc_oldest c \/ (hc_oldest c' = Some (oldest_after now c'))).
  Proof.
    intros now timeout c H. unfold expire_cache_hosts.
    set (mt := now - timeout).
    destruct (match hc_oldest c with None => true | Some o => o <? mt end) eqn:Due.
    - destruct (expire_each_ok (stale_entries perm mt c) c H) as (c1 & -> & H1 & G & O).
      eexists; exists (stale_entries perm mt c). split; [reflexivity|].
      assert (H2 : forall o, hinv {| hc_hosts := hc_hosts c1; hc_ports := hc_ports c1;
                      hc_stale := hc_stale c1; hc_oldest := o |}).
      { intros o. destruct H1 as [P Q]. split; [exact P|exact Q]. }
      split; [apply H2|].
      assert (Hg : forall m, cached_host c1 m =
            match cached_host c m with
            | Some e => if (e_time e <? mt) && negb (perm (e_port e)) then None else Some e
            | None => None
            end).
      { intros m. rewrite G. destruct (existsb _ _) eqn:Ex.
        - apply existsb_exists in Ex as (e & He & Em). apply Z.eqb_eq in Em. subst m.
          apply stale_in in He as (-> & H3 & H4); [|exact H].
          apply Z.ltb_lt in H3. rewrite H3, H4. reflexivity.
        - destruct (cached_host c m) as [e|] eqn:Eg; [|reflexivity].
          destruct (_ && _) eqn:Es; [|reflexivity].
          exfalso. apply not_true_iff_false in Ex. apply Ex. apply existsb_exists.
          destruct H as [Hn [A B C]] eqn:EH. pose proof (A _ _ Eg) as Em. exists e. split.
          + apply stale_in; [exact (Build_hinv _ Hn (Build_pinv _ _ A B C))|].
            apply andb_true_iff in Es as [S1 S2].
            apply Z.ltb_lt in S1. apply negb_true_iff in S2. rewrite Em. auto.
          + rewrite Em. apply Z.eqb_refl. }
      split; [|split].
      + intros m e Hm. change (cached_host c1 m = Some e) in Hm. rewrite Hg in Hm.
        destruct (cached_host c m) as [e'|]; [|discriminate]. destruct (_ && _); congruence.
      + intros _. split; [exact Hg|]. intros e. apply stale_in. exact H.
      + right. reflexivity.
    - exists c, []. split; [reflexivity|]. split; [exact H|].
      destruct (hc_oldest c) as [o|] eqn:Eo; [|discriminate]. apply Z.ltb_ge in Due.
      split; [auto|]. split; [|left; reflexivity].
      intros Ho. specialize (Ho o Eo). split.
      + intros m. destruct (cached_host c m) as [e|] eqn:Eg; [|reflexivity].
        specialize (Ho _ _ Eg). destruct (e_time e <? mt) eqn:El; [|reflexivity].
        apply Z.ltb_lt in El. lia.
      + intros e. split; [intros []|]. intros (Hg & Hl & _). specialize (Ho _ _ Hg). lia.
  Qed.

  Lemma step_ok : forall o c, hinv c -> exists c', hc_step perm c o = Some c' /\ hinv c'.
  Proof.
    intros o c H. destruct o as [mac p t|mac|p|now timeout|]; cbn [hc_step].
    - destruct (add_cache_host_ok mac p t c H) as (c' & E & H' & _). eauto.
    - destruct (expire_cache_host_ok mac c H) as (c' & E & H' & _). eauto.
    - destruct (clear_port_ok p c H) as (c' & E & H' & _). eauto.
    - destruct (expire_hosts_ok now timeout c H) as (c' & ex & -> & H' & _).
      exists c'. auto.
    - exists (reset_caches c). split; [reflexivity|]. apply hinv_reset.
  Qed.

  Lemma run_ok : forall ops c, hinv c -> exists c', hc_run perm ops c = Some c' /\ hinv c'.
  Proof.
    induction ops as [|o r IH]; intros c H; cbn [hc_run]; [eauto|].
    destruct (step_ok o c H) as (c1 & -> & H1). auto.
  Qed.

  Lemma run_hinv : forall ops c, hc_run perm ops hc_init = Some c -> hinv c.
  Proof.
    intros ops c H. destruct (run_ok ops hc_init (hinv_reset _ _)) as (c' & E & H').
    congruence.
  Qed.

  (** ** Refinement to the abstract table *)

  Definition refines (c : hcache) (h : table) : Prop :=
    forall m, cached_host c m =
      match h m with
      | Some (p, t) => Some {| e_mac := m; e_port := p; e_time := t |}
      | None => None
      end.

  Definition clock_inv (t0 : Z) (c : hcache) : Prop :=
    oldest_ok c /\ (forall o, hc_oldest c = Some o -> o <= t0) /\
    (forall m e, cached_host c m = Some e -> e_time e <= t0).

  Lemma step_refines : forall o r c h t0,
    hinv c -> refines c h -> clock_inv t0 c -> clock_from t0 (o :: r) ->
    exists c' t1, hc_step perm c o = Some c' /\ hinv c' /\
      refines c' (table_step perm h o) /\ clock_inv t1 c' /\ clock_from t1 r.
  Proof.
    intros o r c h t0 Hi Hr (Ho & Hb & Ht) Hc.
    destruct o as [mac p t|mac|p|now timeout|]; cbn [hc_step clock_from table_step] in *.
    - destruct Hc as [Hle Hc].
      destruct (add_cache_host_ok mac p t c Hi) as (c' & E & H' & G & O).
      exists c', t. split; [exact E|]. split; [exact H'|]. split; [|split; [|exact Hc]].
      + intros m. rewrite G. destruct (m =? mac) eqn:Em; [|apply Hr].
        apply Z.eqb_eq in Em. subst. reflexivity.
      + split; [|split].
        * intros o Eo m e. rewrite G. rewrite O in Eo. destruct (m =? mac).
          -- intros [= <-]. cbn. specialize (Hb o Eo). lia.
          -- apply (Ho o Eo).
        * intros o Eo. rewrite O in Eo. specialize (Hb o Eo). lia.
        * intros m e. rewrite G. destruct (m =? mac); [intros [= <-]; cbn; lia|].
          intros Hm. specialize (Ht _ _ Hm). lia.
    - destruct (expire_cache_host_ok mac c Hi) as (c' & E & H' & G & O).
      exists c', t0. split; [exact E|]. split; [exact H'|]. split; [|split; [|exact Hc]].
      + intros m. rewrite G. destruct (m =? mac); [reflexivity|apply Hr].
      + assert (Hsub : forall m e, cached_host c' m = Some e -> cached_host c m = Some e).
        { intros m e. rewrite G. destruct (m =? mac); [discriminate|auto]. }
        split; [|split].
        * intros o Eo m e Hm. rewrite O in Eo. exact (Ho o Eo m e (Hsub _ _ Hm)).
        * intros o Eo. rewrite O in Eo. auto.
        * intros m e Hm. exact (Ht m e (Hsub _ _ Hm)).
    - destruct (clear_port_ok p c Hi) as (c' & E & H' & G & O).
      exists c', t0. split; [exact E|]. split; [exact H'|]. split; [|split; [|exact Hc]].
      + intros m. rewrite G, Hr. destruct (h m) as [[q t]|]; [|reflexivity]. cbn [e_port].
        destruct (q =? p); reflexivity.
      + assert (Hsub : forall m e, cached_host c' m = Some e -> cached_host c m = Some e).
        { intros m e. rewrite G. destruct (cached_host c m) as [e'|]; [|discriminate].
          destruct (e_port e' =? p); congruence. }
        split; [|split].
        * intros o Eo m e Hm. rewrite O in Eo. exact (Ho o Eo m e (Hsub _ _ Hm)).
        * intros o Eo. rewrite O in Eo. auto.
        * intros m e Hm. exact (Ht m e (Hsub _ _ Hm)).
    - destruct Hc as (Hle & Htm & Hc).
      destruct (expire_hosts_ok now timeout c Hi) as (c' & ex & E & H' & Hsub & G & O).
      rewrite E. exists c', now. split; [reflexivity|]. split; [exact H'|].
      destruct (G Ho) as [G1 _].
      assert (Ht' : forall m e, cached_host c' m = Some e -> e_time e <= now).
      { intros m e Hm. specialize (Ht m e (Hsub _ _ Hm)). lia. }
      split; [|split; [|exact Hc]].
      + intros m. rewrite G1, Hr. destruct (h m) as [[q t]|]; [|reflexivity].
        unfold stale_at. cbn [e_port e_time fst snd]. destruct (_ && _); reflexivity.
      + split; [|split].
        * intros o Eo m e Hm. destruct O as [O|O]; rewrite O in Eo.
          -- exact (Ho o Eo m e (Hsub _ _ Hm)).
          -- injection Eo as <-. exact (oldest_after_le now c' m e Hm).
        * intros o Eo. destruct O as [O|O]; rewrite O in Eo.
          -- specialize (Hb o Eo). lia.
          -- injection Eo as <-. apply oldest_after_now; auto.
        * exact Ht'.
    - exists (reset_caches c), t0. split; [reflexivity|]. split; [apply hinv_reset|].
      split; [intros m; reflexivity|]. split; [|exact Hc]. split; [|split].
      + intros o Eo m e Hm. discriminate.
      + exact Hb.
      + intros m e Hm. discriminate.
  Qed.

  Lemma run_refines : forall ops c h t0,
    hinv c -> refines c h -> clock_inv t0 c -> clock_from t0 ops ->
    exists c' t1, hc_run perm ops c = Some c' /\ hinv c' /\
      refines c' (fold_left (table_step perm) ops h) /\ clock_inv t1 c'.
  Proof.
    induction ops as [|o r IH]; intros c h t0 Hi Hr Hk Hc.
    - exists c, t0. cbn. auto.
    - destruct (step_refines o r c h t0 Hi Hr Hk Hc) as (c1 & t1 & E & Hi1 & Hr1 & Hk1 & Hc1).
      cbn [hc_run fold_left]. rewrite E. exact (IH c1 _ t1 Hi1 Hr1 Hk1 Hc1).
  Qed.

  Lemma init_refines : forall t0, hinv hc_init /\ refines hc_init no_hosts /\ clock_inv t0 hc_init.
  Proof.
    intros t0. split; [apply hinv_reset|]. split; [intros m; reflexivity|].
    repeat split; intros; discriminate.
  Qed.

  Lemma run_init_refines : forall ops, clock_ok ops ->
    exists c, hc_run perm ops hc_init = Some c /\ hinv c /\ oldest_ok c /\
      refines c (table_after perm ops).
  Proof.
    intros ops [t0 Hc]. destruct (init_refines t0) as (A & B & C).
    destruct (run_refines ops _ _ _ A B C Hc) as (c & t1 & E & Hi & Hr & [Ho _]).
    exists c. auto.
  Qed.
End Perm.

Lemma count_on_port : forall c p,
  cached_hosts_count_on_port c p = Z.of_nat (length (cached_hosts_on_port c p)).
Proof.
  intros. unfold cached_hosts_count_on_port, cached_hosts_on_port.
  destruct (dict_get _ _ _); reflexivity.
Qed.
