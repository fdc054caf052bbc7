(** * Resolution cycles *)
From Coq Require Import ZArith List Bool Lia Permutation Sorting.Sorted.
From Verif Require Import PyBase PyBaseProofs OpenFlow TableModel ReorderModel IpModel IpSpec IpProofs RouteModel RouteSpec RouteFib RouteRib RouteMicro RouteShape RouteInv RouteCalm.
Import ListNotations.
Open Scope Z_scope.

(** ** Queues *)

Lemma note_unknown_get now gws : forall r g,
  dict_get ip_eqb g (r_neigh (note_unknown now gws r)) =
  match dict_get ip_eqb g (r_neigh r) with
  | Some n => Some n
  | None => if mem ip_eqb g gws then Some (new_nexthop None None now) else None
  end.
Proof.
  unfold note_unknown. induction gws as [|x gws IH]; intros r g; cbn [fold_left mem existsb].
  - now destruct (dict_get _ _ _).
  - rewrite IH. destruct (dict_get ip_eqb x (r_neigh r)) as [n|] eqn:G.
    + destruct (dict_get ip_eqb g (r_neigh r)) as [m|] eqn:E; [reflexivity|].
      destruct (ip_eqb g x) eqn:X; [|reflexivity]. apply ip_eqb_eq in X as ->. congruence.
    + cbn. rewrite ip_get_put. destruct (ip_eqb x g) eqn:X.
      * apply ip_eqb_eq in X as ->. now rewrite G, ip_eqb_refl.
      * destruct (dict_get ip_eqb g (r_neigh r)); [reflexivity|].
        assert (ip_eqb g x = false) as -> by (apply ip_eqb_ne; apply ip_eqb_ne in X; auto). reflexivity.
Qed.
Lemma note_unknown_retries now gws r g : retries_of (note_unknown now gws r) g = retries_of r g.
Proof.
  unfold retries_of. rewrite note_unknown_get. destruct (dict_get _ _ _); [reflexivity|]. now destruct (mem _ _ _).
Qed.

Definition grouped (r : rib) (d : list (Z * list ip)) : Prop :=
  NoDup (map fst d) /\ forall k l, In (k, l) d -> forall g, In g l -> retries_of r g = k.

Lemma dict_put_flat (d : list (Z * list ip)) k g : NoDup (map fst d) ->
  Permutation (flat_map snd (dict_put Z.eqb k (match dict_get Z.eqb k d with Some l => l | None => [] end ++ [g]) d)) (flat_map snd d ++ [g]).
Proof.
  induction d as [|[k' l'] d IH]; intros N; cbn [dict_put dict_get map fst] in *.
  - reflexivity.
  - inversion N; subst. destruct (k =? k') eqn:E.
    + cbn [flat_map snd]. rewrite <- !app_assoc. apply Permutation_app_head. apply Permutation_app_comm.
    + cbn [flat_map snd]. rewrite <- app_assoc. apply Permutation_app_head. now apply IH.
Qed.

Lemma by_retries_spec r gws : grouped r (by_retries r gws) /\ Permutation (flat_map snd (by_retries r gws)) gws.
Proof.
  unfold by_retries. induction gws as [|g gws [[N G] P]] using rev_ind.
  - cbn. split; [split; [constructor|intros k l []]|constructor].
  - rewrite fold_left_app. cbn [fold_left]. set (d := fold_left _ gws []) in *. split; [split|].
    + now apply (dict_put_nodup Z.eqb Z.eqb_eq).
    + intros k l I h Ih.
      assert (dict_get Z.eqb k (dict_put Z.eqb (retries_of r g) (match dict_get Z.eqb (retries_of r g) d with Some l => l | None => [] end ++ [g]) d) = Some l) as E.
      { apply (dict_in_get Z.eqb Z.eqb_eq); [now apply (dict_put_nodup Z.eqb Z.eqb_eq)|exact I]. }
      rewrite (dict_get_put Z.eqb Z.eqb_eq) in E. destruct (k =? retries_of r g) eqn:X.
      * apply Z.eqb_eq in X as ->. injection E as <-. apply in_app_iff in Ih as [Ih|[<-|[]]]; [|reflexivity].
        destruct (dict_get Z.eqb (retries_of r g) d) as [l0|] eqn:D; [|destruct Ih]. apply (dict_get_in Z.eqb Z.eqb_eq) in D. eapply G; eauto.
      * apply (dict_get_in Z.eqb Z.eqb_eq) in E. eapply G; eauto.
    + rewrite dict_put_flat by exact N. now apply Permutation_app_tail.
Qed.

Lemma sorted_app {A} (R : A -> A -> Prop) l1 l2 : StronglySorted R l1 -> StronglySorted R l2 -> (forall x y, In x l1 -> In y l2 -> R x y) -> StronglySorted R (l1 ++ l2).
Proof.
  induction l1 as [|x l1 IH]; intros S1 S2 H; cbn [app]; [exact S2|]. inversion S1; subst. constructor.
  - apply IH; auto. intros; apply H; auto. now right.
  - apply Forall_app. split; [assumption|]. apply Forall_forall. intros y Hy. apply H; [now left|exact Hy].
Qed.

Lemma queue_spec c e now gws r r' l : env_ok e -> NoDup gws -> unresolved_nexthops c e now gws r = (r', l) ->
  NoDup l /\ (forall g, In g l <-> In g gws /\ due c now r g = true) /\
  StronglySorted (fun a b => retries_of r a <= retries_of r b) l /\
  (forall g, dict_get ip_eqb g (r_neigh r') =
     match dict_get ip_eqb g (r_neigh r) with
     | Some n => Some n
     | None => if mem ip_eqb g (filter (due c now r) gws) then Some (new_nexthop None None now) else None
     end).
Proof.
  intros Eo N E. unfold unresolved_nexthops in E. set (nf := filter _ gws) in *. injection E as <- <-.
  destruct (by_retries_spec (note_unknown now nf r) nf) as [[G1 G2] P].
  set (d := by_retries _ nf) in *. set (sd := py_sorted _ d).
  assert (Permutation (flat_map snd sd) nf) as P2.
  { rewrite <- P. apply Permutation_flat_map. symmetry. apply py_sorted_perm. }
  assert (Permutation (flat_map (fun kv => re_shuffle e (snd kv)) sd) nf) as P3.
  { rewrite <- P2. clear -Eo. induction sd as [|x sd IH]; cbn [flat_map]; [constructor|]. apply Permutation_app; [|exact IH]. apply (eo_shuffle e Eo). }
  split; [|split; [|split]].
  - eapply Permutation_NoDup; [symmetry; exact P3|]. now apply NoDup_filter.
  - intros g. rewrite <- (filter_In (due c now r)). fold nf. split; apply Permutation_in; [exact P3|symmetry; exact P3].
  - pose proof (py_sorted_sorted (fun a b : Z * list ip => fst a <=? fst b)) as So.
    assert (forall k l, In (k, l) sd -> forall g, In g l -> retries_of r g = k) as G3.
    { intros k l I g Ig. rewrite <- (note_unknown_retries now nf r g). eapply G2; eauto. apply py_sorted_in in I. exact I. }
    assert (StronglySorted (fun a b => fst a <= fst b) sd) as S2.
    { assert (StronglySorted (fun a b : Z * list ip => (fst a <=? fst b) = true) sd) as S1.
      { apply So; intros; rewrite ?Z.leb_le in *; lia. }
      clear -S1. induction S1; constructor; auto. eapply Forall_impl; [|eassumption]. intros b Hb. now apply Z.leb_le. }
    clear P2 P3. induction sd as [|[k l] sd IH]; cbn [flat_map snd]; [constructor|]. inversion S2; subst. apply sorted_app.
    + assert (forall g, In g (re_shuffle e l) -> retries_of r g = k) as X.
      { intros g Ig. eapply G3; [now left|]. eapply Permutation_in; [apply (eo_shuffle e Eo)|exact Ig]. }
      induction (re_shuffle e l) as [|y m IHm]; constructor.
      * apply IHm. intros; apply X; now right.
      * apply Forall_forall. intros z Hz. rewrite (X y (or_introl eq_refl)), (X z (or_intror Hz)). lia.
    + apply IH; [|assumption]. intros; eapply G3; eauto. now right.
    + intros x y Hx Hy. apply in_flat_map in Hy as ([k2 l2] & I2 & Hy).
      rewrite (G3 k l (or_introl eq_refl) x), (G3 k2 l2 (or_intror I2) y).
      * rewrite Forall_forall in H2. apply (H2 _ I2).
      * eapply Permutation_in; [apply (eo_shuffle e Eo)|exact Hy].
      * eapply Permutation_in; [apply (eo_shuffle e Eo)|exact Hx].
  - intros g. apply note_unknown_get.
Qed.

(** ** The loop *)

Inductive subseq {A} : list A -> list A -> Prop :=
| ss_nil : subseq [] []
| ss_skip : forall x l m, subseq l m -> subseq l (x :: m)
| ss_take : forall x l m, subseq l m -> subseq (x :: l) (x :: m).
Lemma subseq_nil {A} (l : list A) : subseq [] l.
Proof. induction l; constructor; auto. Qed.
Lemma subseq_in {A} (l m : list A) x : subseq l m -> In x l -> In x m.
Proof. intros S. induction S; intros I; [destruct I|right; auto|]. destruct I as [->|I]; [now left|right; auto]. Qed.
Lemma subseq_nodup {A} (l m : list A) : subseq l m -> NoDup m -> NoDup l.
Proof.
  intros S. induction S; intros N; [constructor|inversion N; auto|]. inversion N; subst. constructor; auto.
  intros I. apply H1. eapply subseq_in; eauto.
Qed.
Lemma subseq_sorted {A} (R : A -> A -> Prop) (l m : list A) : subseq l m -> StronglySorted R m -> StronglySorted R l.
Proof.
  intros S. induction S; intros N; [constructor|inversion N; auto|]. inversion N; subst. constructor; auto.
  rewrite Forall_forall in *. intros y Hy. apply H2. eapply subseq_in; eauto.
Qed.

Section Loop.
  Variables (c : rconf) (now v : Z).
  Variable h : rst -> Z -> ip -> nexthop -> option (rst * list ofmsg).
  (** Handling a gateway only touches its own cache entry. *)
  Hypothesis Hh : forall s g n s1 ms, h s v g n = Some (s1, ms) -> forall g', g' <> g -> dict_get ip_eqb g' (r_neigh (s1 v)) = dict_get ip_eqb g' (r_neigh (s v)).
  Variable msg : ip -> ofmsg -> Prop.
  Hypothesis Hmsg : forall s g n s1 ms, h s v g n = Some (s1, ms) -> forall m, In m ms -> msg g m.
  Variable silent : ip -> nexthop -> Prop.
  Hypothesis Hsil : forall s g n s1, h s v g n = Some (s1, []) -> silent g n.

  Let get (s : rst) g := dict_get ip_eqb g (r_neigh (s v)).
  Definition ready (s : rst) (g : ip) (n : nexthop) : Prop := get s g = Some n /\ resolution_due now (rc_timeout c) n = true.

  Lemma loop_spec gws : forall k s s' ms tr, NoDup gws -> resolve_loop c now h v gws k s = Some (s', ms, tr) ->
    (0 <= k -> Z.of_nat (length tr) <= k) /\ subseq tr gws /\
    (forall g, In g tr -> exists s0 n s1 m1, ready s g n /\ h s0 v g n = Some (s1, m1) /\ m1 <> [] /\ get s' g = get s1 g) /\
    (forall g, ~ In g gws -> get s' g = get s g) /\
    (forall g n, get s g = Some n -> resolution_due now (rc_timeout c) n = false -> get s' g = Some n) /\
    (forall m, In m ms -> exists g, In g tr /\ msg g m) /\
    (forall g, In g tr -> exists m, In m ms /\ msg g m) /\
    (forall g, get s' g = get s g \/ exists s0 n s1 m1, ready s g n /\ get s0 g = Some n /\ h s0 v g n = Some (s1, m1) /\ get s' g = get s1 g) /\
    (forall pre x post, gws = pre ++ x :: post -> In x tr -> forall y n, In y pre -> ready s y n -> In y tr \/ silent y n).
  Proof.
    induction gws as [|gw rest IH]; intros k s s' ms tr N; cbn [resolve_loop].
    { intros E; injection E as <- <- <-. cbn. split; [lia|]. split; [constructor|]. split; [tauto|]. split; [auto|]. split; [auto|]. split; [tauto|]. split; [tauto|]. split; [auto|]. intros pre x post X. destruct pre; discriminate. }
    inversion N as [|? ? Ng N']; subst.
    destruct (k =? 0) eqn:Ek.
    { apply Z.eqb_eq in Ek. intros E; injection E as <- <- <-. cbn. split; [lia|]. split; [apply subseq_nil|]. split; [tauto|]. split; [auto|]. split; [auto|]. split; [tauto|]. split; [tauto|]. split; [auto|]. tauto. }
    assert (skip : resolve_loop c now h v rest k s = Some (s', ms, tr) -> (forall n, ~ ready s gw n) ->
      (0 <= k -> Z.of_nat (length tr) <= k) /\ subseq tr (gw :: rest) /\
      (forall g, In g tr -> exists s0 n s1 m1, ready s g n /\ h s0 v g n = Some (s1, m1) /\ m1 <> [] /\ get s' g = get s1 g) /\
      (forall g, ~ In g (gw :: rest) -> get s' g = get s g) /\
      (forall g n, get s g = Some n -> resolution_due now (rc_timeout c) n = false -> get s' g = Some n) /\
      (forall m, In m ms -> exists g, In g tr /\ msg g m) /\
      (forall g, In g tr -> exists m, In m ms /\ msg g m) /\
      (forall g, get s' g = get s g \/ exists s0 n s1 m1, ready s g n /\ get s0 g = Some n /\ h s0 v g n = Some (s1, m1) /\ get s' g = get s1 g) /\
      (forall pre x post, gw :: rest = pre ++ x :: post -> In x tr -> forall y n, In y pre -> ready s y n -> In y tr \/ silent y n)).
    { intros E Nr. destruct (IH k s s' ms tr N' E) as (A & B & C & D & D2 & F & F2 & Ch & G). split; [exact A|]. split; [now constructor|]. split; [exact C|].
      split; [intros g Hg; apply D; cbn in Hg; tauto|]. split; [exact D2|]. split; [exact F|]. split; [exact F2|]. split; [exact Ch|].
      intros pre x post X Ix y n Iy R. destruct pre as [|y0 pre]; [destruct Iy|]. injection X as <- X.
      destruct Iy as [<-|Iy]; [exfalso; eapply Nr; eauto|]. eapply G; eauto. }
    destruct (dict_get ip_eqb gw (r_neigh (s v))) as [n|] eqn:G.
    2:{ intros E. apply skip; [exact E|]. intros n [R _]. unfold get in R. congruence. }
    destruct (resolution_due now (rc_timeout c) n) eqn:Du.
    2:{ intros E. apply skip; [exact E|]. intros n0 [R X]. unfold get in R. congruence. }
    destruct (h s v gw n) as [[s1 m1]|] eqn:H1; [|discriminate].
    set (k' := match m1 with [] => k | _ => k - 1 end).
    destruct (resolve_loop c now h v rest k' s1) as [[[s2 m2] t2]|] eqn:H2; [|discriminate].
    intros E; injection E as <- <- <-.
    destruct (IH k' s1 s2 m2 t2 N' H2) as (A & B & C & D & D2 & F & F2 & Ch & P).
    assert (forall g, g <> gw -> get s1 g = get s g) as Sm by (intros g Ng'; exact (Hh _ _ _ _ _ H1 g Ng')).
    assert (forall g, In g rest -> forall n0, ready s1 g n0 <-> ready s g n0) as Sr.
    { intros g Ig n0. unfold ready. rewrite Sm; [tauto|]. intros ->. contradiction. }
    split; [|split; [|split; [|split; [|split; [|split; [|split; [|split]]]]]]].
    - intros Hk. subst k'. destruct m1; [now apply A|]. apply Z.eqb_neq in Ek. cbn [length]. specialize (A ltac:(lia)). lia.
    - destruct m1; constructor; exact B.
    - assert (forall g, In g t2 -> exists s3 n0 s4 m4, ready s g n0 /\ h s3 v g n0 = Some (s4, m4) /\ m4 <> [] /\ get s2 g = get s4 g) as C'.
      { intros g Ig. destruct (C g Ig) as (s3 & n0 & s4 & m4 & R & H4 & G4). exists s3, n0, s4, m4. split; [|auto]. apply Sr; [eapply subseq_in; eauto|exact R]. }
      destruct m1 as [|m0 m1]; [exact C'|]. intros g [<-|Ig]; [|now apply C']. exists s, n, s1, (m0 :: m1).
      split; [now split|]. split; [exact H1|]. split; [discriminate|]. now apply D.
    - intros g Hg. cbn in Hg. rewrite D by tauto. apply Sm. intros ->. tauto.
    - intros g n0 Gn Dn. apply D2; [|exact Dn]. rewrite Sm; [exact Gn|]. intros ->. unfold get in Gn. congruence.
    - intros m Hm. apply in_app_iff in Hm as [Hm|Hm].
      + exists gw. split; [destruct m1; [destruct Hm|now left]|]. eapply Hmsg; eauto.
      + destruct (F m Hm) as (g & Ig & Mg). exists g. split; [destruct m1; [exact Ig|now right]|exact Mg].
    - assert (forall g, In g t2 -> exists m, In m (m1 ++ m2) /\ msg g m) as F2'.
      { intros g Ig. destruct (F2 g Ig) as (m & Im & Mg). exists m. split; [apply in_or_app; now right|exact Mg]. }
      destruct m1 as [|m0 m1]; [exact F2'|]. intros g [<-|Ig]; [|now apply F2']. exists m0. split; [now left|]. eapply Hmsg; [exact H1|now left].
    - intros g. destruct (ip_eq_dec g gw) as [->|Ne].
      + right. exists s, n, s1, m1. split; [now split|]. split; [exact G|]. split; [exact H1|]. now apply D.
      + destruct (Ch g) as [Q|(s3 & n0 & s4 & m4 & [R1 R2] & G3 & H4 & G4)]; [left; now rewrite Q, Sm|].
        right. exists s3, n0, s4, m4. split; [|auto]. split; [now rewrite <- Sm|exact R2].
    - intros pre x post X Ix y n0 Iy R. destruct pre as [|y0 pre]; [destruct Iy|]. injection X as <- X.
      destruct Iy as [<-|Iy].
      + destruct m1 as [|m0 m1]; [|left; now left]. right. destruct R as [R _]. unfold get in R.
        assert (n0 = n) as -> by congruence. eapply Hsil; eauto.
      + assert (In y rest) as Iyr by (rewrite X; apply in_or_app; now left).
        assert (In x t2) as Ix2. { destruct m1; [exact Ix|]. destruct Ix as [<-|Ix]; [|exact Ix]. exfalso. apply Ng. rewrite X. apply in_or_app. right. now left. }
        destruct (P pre x post X Ix2 y n0 Iy) as [Q|Q]; [now apply Sr| |right; exact Q]. left. destruct m1; [exact Q|now right].
  Qed.
End Loop.

(** A list sorted by retries: whoever has fewer comes first. *)
Lemma sorted_before {A} (f : A -> Z) (l : list A) x y : StronglySorted (fun a b => f a <= f b) l -> In x l -> In y l -> f y < f x ->
  exists pre post, l = pre ++ x :: post /\ In y pre.
Proof.
  intros S Ix Iy Lt. apply in_split in Ix as (pre & post & ->). exists pre, post. split; [reflexivity|].
  apply in_app_iff in Iy as [Iy|[->|Iy]]; [exact Iy|lia|]. exfalso.
  assert (f x <= f y); [|lia]. clear -S Iy. induction pre as [|z pre IH]; cbn [app] in S; inversion S; subst; auto.
  rewrite Forall_forall in H2. now apply H2.
Qed.

Lemma next_due now t g r n : NoDup (map fst (r_neigh r)) -> dict_get ip_eqb g (r_neigh r) = Some n ->
  (resolution_due now t n = true <-> ~ (exists e, nh_eth n = Some e /\ now - nh_cache n < t) /\ ~ (exists x, nh_next n = Some x /\ now <= x)).
Proof.
  intros _ _. unfold resolution_due. split.
  - intros H. destruct (match nh_eth n with Some _ => now - nh_cache n <? t | None => false end) eqn:E; [discriminate|]. split.
    + intros (e & Ee & Lt). rewrite Ee in E. apply Z.ltb_ge in E. lia.
    + intros (x & Ex & Le). rewrite Ex in H. apply Z.ltb_lt in H. lia.
  - intros [H1 H2]. destruct (match nh_eth n with Some _ => now - nh_cache n <? t | None => false end) eqn:E.
    + destruct (nh_eth n) as [e|]; [|discriminate]. apply Z.ltb_lt in E. exfalso. apply H1. eauto.
    + destruct (nh_next n) as [x|]; [|reflexivity]. destruct (Z.ltb_spec x now); [reflexivity|]. exfalso. apply H2. eauto.
Qed.

Lemma ready_spec c now r g n : NoDup (map fst (r_neigh r)) -> dict_get ip_eqb g (r_neigh r) = Some n ->
  (resolution_due now (rc_timeout c) n = true <-> ~ known_lately c now r g /\ ~ must_wait now r g).
Proof.
  intros N G. rewrite (next_due now (rc_timeout c) g r n N G).
  assert (forall m, In (g, m) (r_neigh r) -> m = n) as U.
  { intros m I. apply (dict_in_get ip_eqb ip_eqb_eq) in I; [congruence|exact N]. }
  pose proof (dict_get_in ip_eqb ip_eqb_eq _ _ _ G) as I. split; intros [H1 H2]; split.
  - intros (m & e & Im & Em & Lt). rewrite (U m Im) in *. eauto.
  - intros (m & t & Im & Em & Lt). rewrite (U m Im) in *. eauto.
  - intros (e & Ee & Lt). apply H1. exists n, e. auto.
  - intros (t & Et & Lt). apply H2. exists n, t. auto.
Qed.
Lemma tries_spec r g k n : NoDup (map fst (r_neigh r)) -> dict_get ip_eqb g (r_neigh r) = Some n -> tries r g k -> nh_retries n = k.
Proof. intros N G (m & I & <-). apply (dict_in_get ip_eqb ip_eqb_eq) in I; [congruence|exact N]. Qed.

Section Cycle.
  Variable c : rconf.
  Hypothesis K : route_cfg c.

  Lemma resolve_only_own e now s v g n s1 ms : resolve_only c e now s v g n = Some (s1, ms) ->
    forall g', g' <> g -> dict_get ip_eqb g' (r_neigh (s1 v)) = dict_get ip_eqb g' (r_neigh (s v)).
  Proof.
    unfold resolve_only, resolve_gateway. intros E g' Ng.
    destruct (vlan_vip_map _ g); injection E as <- _; rewrite upd_at; [|reflexivity]. cbn. rewrite ip_get_put.
    destruct (ip_eqb g g') eqn:X; [|reflexivity]. apply ip_eqb_eq in X. congruence.
  Qed.
  Lemma resolve_expire_own e now s v g n s1 ms : resolve_expire c e now s v g n = Some (s1, ms) ->
    forall g', g' <> g -> dict_get ip_eqb g' (r_neigh (s1 v)) = dict_get ip_eqb g' (r_neigh (s v)).
  Proof.
    unfold resolve_expire. intros E g' Ng. destruct (nh_dead _ n).
    - unfold expire_gateway, del_route in E. rewrite no_vip_net in E.
      set (s0 := upd s v _) in E.
      assert (dict_get ip_eqb g' (r_neigh (s0 v)) = dict_get ip_eqb g' (r_neigh (s v))) as X.
      { unfold s0. rewrite upd_at. cbn. rewrite ip_get_del. destruct (ip_eqb g g') eqn:Q; [|reflexivity]. apply ip_eqb_eq in Q. congruence. }
      destruct (dict_get net_eqb (host_net g) (r_routes (s0 v))) as [g0|]; [|injection E as <- _; exact X].
      destruct (rib_del (host_net g) (s0 v)) as [r|] eqn:R; [|discriminate]. injection E as <- _. rewrite upd_at, <- X. f_equal.
      unfold rib_del in R. destruct (dict_get net_eqb _ _); [|discriminate]. destruct (dict_get ip_eqb _ _); [|discriminate].
      destruct (mem _ _ _); [|discriminate]. injection R as <-. now rewrite update_gw_types_neigh.
    - eapply (resolve_only_own e now s v g n s1 ms); eauto.
  Qed.

  Lemma resolve_only_msg e now s v g n s1 ms : resolve_only c e now s v g n = Some (s1, ms) -> forall m, In m ms -> request e v g m.
  Proof.
    unfold resolve_only, resolve_gateway. intros E m Hm.
    assert (forall l, In m (map (fun q : list Z * Z => PacketOut (fst q) (snd q)) l) -> l = re_flood e v g -> request e v g m) as F.
    { intros l I ->. right. apply in_map_iff in I as (q & <- & I). eauto. }
    destruct (vlan_vip_map _ g); injection E as _ <-; [|destruct Hm].
    destruct (_ && _); [destruct (nh_port n)|]; try (eapply F; [exact Hm|reflexivity]).
    destruct Hm as [<-|[]]. left. eauto.
  Qed.
  Lemma resolve_only_silent e now s v g n s1 : my_ip c g -> resolve_only c e now s v g n = Some (s1, []) -> nowhere c e v g.
  Proof.
    unfold resolve_only, resolve_gateway. intros A E. destruct (vlan_vip_map (get_vlan c v) g) eqn:M.
    - injection E as _ E. left. destruct (re_flood e v g); [reflexivity|]. destruct (_ && _); [destruct (nh_port n)|]; discriminate.
    - right. intros O. destruct (linked_vip_map c K v g) as [p Hp]; [|congruence]. constructor; auto.
      destruct O as (x & p & I & <- & _). apply in_map_iff. eauto.
  Qed.

  Lemma resolve_expire_msg e now s v g n s1 ms : my_ip c g -> configured c v -> resolve_expire c e now s v g n = Some (s1, ms) ->
    forall m, In m ms -> request e v g m \/ forget_host c g m.
  Proof.
    unfold resolve_expire. intros A C E m Hm. destruct (nh_dead _ n).
    - right. unfold expire_gateway, del_route in E. rewrite no_vip_net in E. destruct (dict_get net_eqb _ _) as [g0|].
      + destruct (rib_del _ _) as [r|]; [|discriminate]. injection E as _ <-. destruct (nh_port n); [|destruct Hm].
        apply in_map_iff in Hm as (u & <- & Hu). eexists. split; [reflexivity|]. split; [reflexivity|]. exists u.
        pose proof (entry_serves c u (host_net g) [] 0 (routed_vid c v u K C Hu)) as S.
        destruct S as [_ S]; [split; [apply host_net_good, A|apply A]|]. split; [reflexivity|exact S].
      + injection E as _ <-. destruct (nh_port n); destruct Hm.
    - left. eapply (resolve_only_msg e now s v g n s1 ms); eauto.
  Qed.
  Lemma resolve_expire_silent e now s v g n s1 : my_ip c g -> resolve_expire c e now s v g n = Some (s1, []) ->
    rc_max_retries c <= nh_retries n \/ nowhere c e v g.
  Proof.
    unfold resolve_expire. intros A E. destruct (nh_dead (rc_max_retries c) n) eqn:D.
    - left. unfold nh_dead in D. now apply Z.leb_le.
    - right. eapply (resolve_only_silent e now s v g n s1); eauto.
  Qed.

  Lemma cycle_of e now v W s r l s1 s' ms tr h (msg : ip -> ofmsg -> Prop) (silent : ip -> nexthop -> Prop) (excused : ip -> Z -> Prop) (after : Z -> rib -> ip -> Z -> rib -> Prop) :
    env_ok e -> rib_ok (s v) -> NoDup W ->
    unresolved_nexthops c e now W (s v) = (r, l) -> r_neigh (s1 v) = r_neigh r ->
    (forall s g n s1 ms, h s v g n = Some (s1, ms) -> forall g', g' <> g -> dict_get ip_eqb g' (r_neigh (s1 v)) = dict_get ip_eqb g' (r_neigh (s v))) ->
    (forall s g n s1 ms, h s v g n = Some (s1, ms) -> In g W -> forall m, In m ms -> msg g m) ->
    (forall s g n s1, h s v g n = Some (s1, []) -> silent g n) ->
    (forall g n, In g W -> silent g n -> excused g (nh_retries n)) ->
    (forall s0 g n s1 ms r', h s0 v g n = Some (s1, ms) -> ms <> [] -> In (g, n) (r_neigh (s v)) -> NoDup (map fst (r_neigh r')) ->
       dict_get ip_eqb g (r_neigh r') = dict_get ip_eqb g (r_neigh (s1 v)) -> after now (s v) g (nh_retries n) r') ->
    (forall s0 g n s1 ms r', dict_get ip_eqb g (r_neigh (s0 v)) = Some n -> h s0 v g n = Some (s1, ms) -> In (g, n) (r_neigh (s v)) ->
       dict_get ip_eqb g (r_neigh r') = dict_get ip_eqb g (r_neigh (s1 v)) ->
       dict_get ip_eqb g (r_neigh r') = None \/ dict_get ip_eqb g (r_neigh r') = Some n \/ backs_off c now (s v) g (nh_retries n) r') ->
    resolve_loop c now h v l (rc_max_hosts c) s1 = Some (s', ms, tr) -> NoDup (map fst (r_neigh (s' v))) ->
    cycle c e now v W (s v) (s' v) ms tr msg excused after.
  Proof.
    intros Eo O Nw U E1 Hown Hmsg Hsil Hexc Haft Hchg Lp Nk'.
    destruct (queue_spec c e now W (s v) r l Eo Nw U) as (Nl & Inl & Sl & Gn).
    pose proof (ro_nkeys (s v) O) as Nk.
    assert (forall s g n s1 ms, h s v g n = Some (s1, ms) -> forall m, In m ms -> (fun g m => In g W -> msg g m) g m) as Hmsg' by (intros; eauto).
    destruct (loop_spec c now v h Hown _ Hmsg' silent Hsil l _ s1 s' ms tr Nl Lp) as (A & B & C & D & D2 & F & F2 & Ch & P).
    assert (forall g n, ready c now v s1 g n <-> (dict_get ip_eqb g (r_neigh (s v)) = Some n /\ resolution_due now (rc_timeout c) n = true)) as Rd.
    { intros g n. unfold ready. rewrite E1, Gn. destruct (dict_get ip_eqb g (r_neigh (s v))) as [n0|]; [tauto|]. destruct (mem _ _ _); [|split; intros [? _]; discriminate].
      split; intros [X Y]; [|discriminate]. injection X as <-. cbn in Y. rewrite Z.ltb_irrefl in Y. discriminate. }
    assert (forall g, In g tr -> In g W) as TW. { intros g Hg. apply Inl. eapply subseq_in; eauto. }
    constructor.
    - exact A.
    - eapply subseq_nodup; eauto.
    - intros g Hg. split; [now apply TW|]. destruct (C g Hg) as (_ & n & _ & _ & R & _). apply Rd in R as [R1 R2]. now apply (ready_spec c now (s v) g n Nk R1).
    - intros pre g post E g' k k' I T T'.
      pose proof (subseq_sorted _ _ _ B Sl) as St. rewrite E in St.
      assert (retries_of (s v) g' <= retries_of (s v) g) as Le.
      { clear -St I. induction pre as [|x pre IH]; [destruct I|]. cbn [app] in St. inversion St; subst. destruct I as [->|I]; [|now apply IH].
        rewrite Forall_forall in H2. apply H2. apply in_or_app. right. now left. }
      destruct T as (n & In_ & <-). destruct T' as (n' & In' & <-). unfold retries_of in Le.
      apply (dict_in_get ip_eqb ip_eqb_eq) in In_; [|exact Nk]. apply (dict_in_get ip_eqb ip_eqb_eq) in In'; [|exact Nk].
      rewrite In_, In' in Le. exact Le.
    - intros g g' k k' Hg T Hw T' Lt Nl1 Nl2.
      destruct T as (n & In_ & <-). destruct T' as (n' & In' & <-).
      apply (dict_in_get ip_eqb ip_eqb_eq) in In_; [|exact Nk]. apply (dict_in_get ip_eqb ip_eqb_eq) in In'; [|exact Nk].
      assert (resolution_due now (rc_timeout c) n' = true) as Du by (now apply (ready_spec c now (s v) g' n' Nk In')).
      assert (In g' l) as Il. { apply Inl. split; [exact Hw|]. unfold due. now rewrite In'. }
      destruct (sorted_before (retries_of (s v)) l g g' Sl) as (pre & post & El & Ip).
      { eapply subseq_in; eauto. } { exact Il. } { unfold retries_of. now rewrite In_, In'. }
      destruct (P pre g post El Hg g' n' Ip) as [Q|Q]; [apply Rd; auto|now left|right; now apply Hexc].
    - intros m Hm. destruct (F m Hm) as (g & Ig & Mg). exists g. split; [exact Ig|]. apply Mg. now apply TW.
    - intros g Hg. destruct (F2 g Hg) as (m & Im & Mg). exists m. split; [exact Im|]. apply Mg. now apply TW.
    - intros g k Hg T. destruct (C g Hg) as (s0 & n & s2 & m2 & R & H2 & Nm & G2). apply Rd in R as [R1 R2].
      rewrite <- (tries_spec (s v) g k n Nk R1 T). eapply Haft; [exact H2|exact Nm|now apply (dict_get_in ip_eqb ip_eqb_eq)|exact Nk'|exact G2].
    - intros g k k' T T'. destruct T as (n0 & I0 & <-). apply (dict_in_get ip_eqb ip_eqb_eq) in I0; [|exact Nk].
      destruct T' as (n' & I' & <-). apply (dict_in_get ip_eqb ip_eqb_eq) in I'; [|exact Nk'].
      destruct (Ch g) as [Q|(s0 & n & s2 & m2 & R & G0 & H2 & G2)].
      + rewrite E1, Gn, I0, I' in Q. injection Q as ->. now left.
      + apply Rd in R as [R1 R2]. rewrite R1 in I0. injection I0 as <-.
        destruct (Hchg s0 g n s2 m2 (s' v) G0 H2 (dict_get_in ip_eqb ip_eqb_eq _ _ _ R1) G2) as [Q|[Q|Q]]; [congruence| |now right].
        rewrite I' in Q. injection Q as ->. now left.
    - intros g H n0.
      assert (exists n, In (g, n) (r_neigh (s v))) as [n Hn]. { destruct H as [(n & e0 & I & _)|(n & t & I & _)]; eauto. }
      pose proof (dict_in_get ip_eqb ip_eqb_eq _ _ _ Nk Hn) as G.
      assert (resolution_due now (rc_timeout c) n = false) as Nd.
      { destruct (resolution_due now (rc_timeout c) n) eqn:Q; [|reflexivity]. apply (ready_spec c now (s v) g n Nk G) in Q. tauto. }
      assert (dict_get ip_eqb g (r_neigh (s' v)) = Some n) as G'. { apply D2; [|exact Nd]. rewrite E1, Gn, G. reflexivity. }
      split; intros I.
      + apply (dict_in_get ip_eqb ip_eqb_eq) in I; [|exact Nk]. rewrite G in I. injection I as <-. now apply (dict_get_in ip_eqb ip_eqb_eq).
      + apply (dict_in_get ip_eqb ip_eqb_eq) in I; [|exact Nk']. rewrite G' in I. injection I as <-. exact Hn.
  Qed.


  Lemma resolve_only_after e now s s0 v g n s1 ms r' : env_ok e -> 0 <= nh_retries n ->
    resolve_only c e now s0 v g n = Some (s1, ms) -> ms <> [] ->
    dict_get ip_eqb g (r_neigh r') = dict_get ip_eqb g (r_neigh (s1 v)) -> backs_off c now s g (nh_retries n) r'.
  Proof.
    unfold resolve_only, resolve_gateway. intros Eo Hr E Nm G. destruct (vlan_vip_map _ g); injection E as <- <-; [|congruence].
    rewrite upd_at in G. cbn [r_neigh put_neigh set_neigh] in G. rewrite ip_get_put, ip_eqb_refl in G.
    apply (dict_get_in ip_eqb ip_eqb_eq) in G. eexists _, _. split; [|split; [exact G|split; reflexivity]].
    exists (re_jitter e g (nh_retries n + 1)). split; [apply (eo_jitter e Eo); lia|reflexivity].
  Qed.
  Lemma resolve_expire_after e now s s0 v g n s1 ms r' : env_ok e -> 0 <= nh_retries n -> NoDup (map fst (r_neigh r')) ->
    resolve_expire c e now s0 v g n = Some (s1, ms) -> ms <> [] ->
    dict_get ip_eqb g (r_neigh r') = dict_get ip_eqb g (r_neigh (s1 v)) -> backs_off_or_gone c now s g (nh_retries n) r'.
  Proof.
    unfold resolve_expire, backs_off_or_gone, nh_dead. intros Eo Hr Nd E Nm G. destruct (rc_max_retries c <=? nh_retries n); [|eapply resolve_only_after; eauto].
    unfold expire_gateway, del_route in E. rewrite no_vip_net in E. set (s2 := upd s0 v _) in E.
    assert (dict_get ip_eqb g (r_neigh (s2 v)) = None) as X. { unfold s2. rewrite upd_at. cbn. now rewrite ip_get_del, ip_eqb_refl. }
    intros n' I. apply (dict_in_get ip_eqb ip_eqb_eq) in I; [|exact Nd]. rewrite G in I.
    destruct (dict_get net_eqb (host_net g) (r_routes (s2 v))) as [g0|]; [|injection E as <- _; congruence].
    destruct (rib_del (host_net g) (s2 v)) as [r|] eqn:R; [|discriminate]. injection E as <- _. rewrite upd_at in I.
    unfold rib_del in R. destruct (dict_get net_eqb _ _); [|discriminate]. destruct (dict_get ip_eqb _ (r_gws _)); [|discriminate].
    destruct (mem _ _ _); [|discriminate]. injection R as <-. rewrite update_gw_types_neigh in I. cbn [r_neigh] in I. congruence.
  Qed.

  Lemma resolve_only_change e now s s0 v g n s1 ms r' : env_ok e -> 0 <= nh_retries n -> dict_get ip_eqb g (r_neigh (s0 v)) = Some n ->
    resolve_only c e now s0 v g n = Some (s1, ms) -> dict_get ip_eqb g (r_neigh r') = dict_get ip_eqb g (r_neigh (s1 v)) ->
    dict_get ip_eqb g (r_neigh r') = Some n \/ backs_off c now s g (nh_retries n) r'.
  Proof.
    unfold resolve_only, resolve_gateway. intros Eo Hr G0 E G. destruct (vlan_vip_map _ g); injection E as <- <-; rewrite upd_at in G; [|left; congruence].
    right. cbn [r_neigh put_neigh set_neigh] in G. rewrite ip_get_put, ip_eqb_refl in G.
    apply (dict_get_in ip_eqb ip_eqb_eq) in G. eexists _, _. split; [|split; [exact G|split; reflexivity]].
    exists (re_jitter e g (nh_retries n + 1)). split; [apply (eo_jitter e Eo); lia|reflexivity].
  Qed.
  Lemma resolve_expire_change e now s s0 v g n s1 ms r' : env_ok e -> 0 <= nh_retries n -> dict_get ip_eqb g (r_neigh (s0 v)) = Some n ->
    resolve_expire c e now s0 v g n = Some (s1, ms) -> dict_get ip_eqb g (r_neigh r') = dict_get ip_eqb g (r_neigh (s1 v)) ->
    dict_get ip_eqb g (r_neigh r') = None \/ dict_get ip_eqb g (r_neigh r') = Some n \/ backs_off c now s g (nh_retries n) r'.
  Proof.
    unfold resolve_expire, nh_dead. intros Eo Hr G0 E G. destruct (rc_max_retries c <=? nh_retries n); [|right; eapply resolve_only_change; eauto].
    left. rewrite G. unfold expire_gateway, del_route in E. rewrite no_vip_net in E. set (s2 := upd s0 v _) in E.
    assert (dict_get ip_eqb g (r_neigh (s2 v)) = None) as X. { unfold s2. rewrite upd_at. cbn. now rewrite ip_get_del, ip_eqb_refl. }
    destruct (dict_get net_eqb (host_net g) (r_routes (s2 v))) as [g0|]; [|injection E as <- _; exact X].
    destruct (rib_del (host_net g) (s2 v)) as [r|] eqn:R; [|discriminate]. injection E as <- _. rewrite upd_at.
    unfold rib_del in R. destruct (dict_get net_eqb _ _); [|discriminate]. destruct (dict_get ip_eqb _ (r_gws _)); [|discriminate].
    destruct (mem _ _ _); [|discriminate]. injection R as <-. rewrite update_gw_types_neigh. exact X.
  Qed.

  Notation mine := (fun (_ : Z) (a : ip) => my_ip c a).
  Lemma mine_linked : forall v a, linked c v a -> mine v a.
  Proof. intros v a H. apply H. Qed.

  Lemma resolve_gateways_cycle e now v s s' ms tr : env_ok e -> base c mine s ->
    resolve_gateways c e now true v s = Some (s', ms, tr) ->
    cycle c e now v (r_route_gws (s v)) (s v) (s' v) ms tr (request e v) (fun g _ => nowhere c e v g) (backs_off c).
  Proof.
    intros Eo B E.
    assert (base c mine s') as B'.
    { eapply (micros_base c mine (fun _ _ _ => True) mine_linked); [eapply (resolve_gateways_micros c mine _ mine_linked); [exact B|exact E]|exact B]. }
    unfold resolve_gateways in E. destruct (unresolved_nexthops c e now (r_route_gws (s v)) (s v)) as [r l] eqn:U.
    assert (forall g, In g (r_route_gws (s v)) -> my_ip c g) as Wi. { intros g Hg. apply (ba_gws c _ s B v g). now left. }
    pose proof (ro_nkeys (s v) (ba_rib c _ s B v)) as Nk.
    eapply (cycle_of e now v _ s r l _ s' ms tr (resolve_only c e now) (request e v) (fun g n => my_ip c g -> nowhere c e v g)); eauto.
    - apply (ba_rib c _ s B v).
    - apply (ro_sets (s v) (ba_rib c _ s B v)).
    - rewrite upd_at. reflexivity.
    - intros s0 g n s1 m0 H. eapply resolve_only_own; eauto.
    - intros s0 g n s1 m0 H _. eapply resolve_only_msg; eauto.
    - intros s0 g n s1 H A. eapply resolve_only_silent; eauto.
    - intros s0 g n s1 m0 r' H Nm I Nr G. eapply resolve_only_after; eauto.
      apply (dict_in_get ip_eqb ip_eqb_eq) in I; [|exact Nk]. apply (ba_neigh c _ s B v g n I).
    - intros s0 g n s1 m0 r' G0 H I G. right. eapply resolve_only_change; eauto.
      apply (dict_in_get ip_eqb ip_eqb_eq) in I; [|exact Nk]. apply (ba_neigh c _ s B v g n I).
    - apply (ro_nkeys (s' v)), (ba_rib c _ s' B' v).
  Qed.
  Lemma resolve_hosts_cycle e now v s s' ms tr : env_ok e -> base c mine s -> configured c v ->
    resolve_expire_hosts c e now true v s = Some (s', ms, tr) ->
    cycle c e now v (r_host_gws (s v)) (s v) (s' v) ms tr (fun g m => request e v g m \/ forget_host c g m)
      (fun g k => rc_max_retries c <= k \/ nowhere c e v g) (backs_off_or_gone c).
  Proof.
    intros Eo B Cv E.
    assert (base c mine s') as B'.
    { eapply (micros_base c mine (fun _ _ _ => True) mine_linked); [eapply (resolve_expire_hosts_micros c mine _ mine_linked); [exact B|exact E]|exact B]. }
    unfold resolve_expire_hosts in E. destruct (unresolved_nexthops c e now (r_host_gws (s v)) (s v)) as [r l] eqn:U.
    assert (forall g, In g (r_host_gws (s v)) -> my_ip c g) as Wi. { intros g Hg. apply (ba_gws c _ s B v g). now right. }
    pose proof (ro_nkeys (s v) (ba_rib c _ s B v)) as Nk.
    eapply (cycle_of e now v _ s r l _ s' ms tr (resolve_expire c e now) _ (fun g n => my_ip c g -> rc_max_retries c <= nh_retries n \/ nowhere c e v g)); eauto.
    - apply (ba_rib c _ s B v).
    - apply (ro_sets (s v) (ba_rib c _ s B v)).
    - rewrite upd_at. reflexivity.
    - intros s0 g n s1 m0 H. eapply resolve_expire_own; eauto.
    - intros s0 g n s1 m0 H Hg. eapply resolve_expire_msg; eauto.
    - intros s0 g n s1 H A. eapply resolve_expire_silent; eauto.
    - intros s0 g n s1 m0 r' H Nm I Nr G. eapply resolve_expire_after; eauto.
      apply (dict_in_get ip_eqb ip_eqb_eq) in I; [|exact Nk]. apply (ba_neigh c _ s B v g n I).
    - intros s0 g n s1 m0 r' G0 H I G. eapply resolve_expire_change; eauto.
      apply (dict_in_get ip_eqb ip_eqb_eq) in I; [|exact Nk]. apply (ba_neigh c _ s B v g n I).
    - apply (ro_nkeys (s' v)), (ba_rib c _ s' B' v).
  Qed.

  (** ** All VLANs *)

  Definition vfun := Z -> rst -> option (rst * list ofmsg * list ip).
  Lemma each_vlan_split (f : vfun) :
    (forall v s s' ms tr, f v s = Some (s', ms, tr) -> forall u, u <> v -> s' u = s u) ->
    (forall v s s' ms tr, base c mine s -> f v s = Some (s', ms, tr) -> base c mine s') ->
    forall vs s m0 s' ms, NoDup (map vl_id vs) -> base c mine s ->
      fold_left (fun acc v => match acc with
                          | None => None
                          | Some (s, ms) => match f (vl_id v) s with
                                            | None => None
                                            | Some (s', ms', _) => Some (s', ms ++ ms')
                                            end
                          end) vs (Some (s, m0)) = Some (s', ms) ->
      (forall u, ~ In u (map vl_id vs) -> s' u = s u) /\
      exists (m : Z -> list ofmsg) (t : Z -> list ip), ms = m0 ++ flat_map m (map vl_id vs) /\
        forall v, In v (map vl_id vs) -> exists s1 s2, base c mine s1 /\ f v s1 = Some (s2, m v, t v) /\ s1 v = s v /\ s2 v = s' v.
  Proof.
    intros Fr Fb. induction vs as [|x vs IH]; intros s m0 s' ms N B; cbn [fold_left map].
    - intros E; injection E as <- <-. split; [reflexivity|]. exists (fun _ => []), (fun _ => []). split; [cbn; now rewrite app_nil_r|]. intros v [].
    - inversion N as [|? ? Nx N']; subst. destruct (f (vl_id x) s) as [[[s1 m1] t1]|] eqn:F.
      + intros E. destruct (IH s1 (m0 ++ m1) s' ms N' (Fb _ _ _ _ _ B F) E) as (Un & m & t & -> & H).
        split; [intros u Hu; cbn in Hu; rewrite Un by tauto; apply (Fr _ _ _ _ _ F); intros ->; tauto|].
        exists (fun v => if v =? vl_id x then m1 else m v), (fun v => if v =? vl_id x then t1 else t v). split.
        * cbn [flat_map]. rewrite Z.eqb_refl, <- app_assoc. do 2 f_equal. apply flat_map_ext_in || idtac.
          assert (forall l, ~ In (vl_id x) l -> flat_map m l = flat_map (fun v => if v =? vl_id x then m1 else m v) l) as X.
          { induction l as [|y l IHl]; intros Hl; [reflexivity|]. cbn [flat_map]. rewrite <- IHl by (intros ?; apply Hl; now right).
            destruct (Z.eqb_spec y (vl_id x)) as [->|]; [exfalso; apply Hl; now left|reflexivity]. }
          now apply X.
        * intros v [<-|Hv].
          -- rewrite Z.eqb_refl. exists s, s1. split; [exact B|]. split; [exact F|]. split; [reflexivity|]. symmetry. now apply Un.
          -- assert (v <> vl_id x) as Nv by (intros ->; contradiction). destruct (Z.eqb_spec v (vl_id x)) as [|_]; [contradiction|].
             destruct (H v Hv) as (s3 & s4 & B3 & F3 & E3 & E4). exists s3, s4. split; [exact B3|]. split; [exact F3|]. split; [|exact E4].
             rewrite E3. now apply (Fr _ _ _ _ _ F).
      + intros E. exfalso. revert E. clear. induction vs; cbn; [discriminate|auto].
  Qed.

  Lemma resolve_only_frame e now s v g n s1 ms : resolve_only c e now s v g n = Some (s1, ms) -> forall u, u <> v -> s1 u = s u.
  Proof.
    unfold resolve_only. destruct (resolve_gateway _ _ _ _ _ _ _) as [r m]. intros E; injection E as <- _. intros u Nu.
    destruct (upd_cases s v r u) as [[-> _]|[_ ->]]; [contradiction|reflexivity].
  Qed.
  Lemma del_route_frame s v d s1 ms : del_route c s v d = Some (s1, ms) -> forall u, u <> v -> s1 u = s u.
  Proof.
    unfold del_route. rewrite no_vip_net. destruct (dict_get _ _ _); [|intros E; injection E as <- _; reflexivity].
    destruct (rib_del _ _) as [r|]; [|discriminate]. intros E; injection E as <- _. intros u Nu.
    destruct (upd_cases s v r u) as [[-> _]|[_ ->]]; [contradiction|reflexivity].
  Qed.
  Lemma resolve_expire_frame e now s v g n s1 ms : resolve_expire c e now s v g n = Some (s1, ms) -> forall u, u <> v -> s1 u = s u.
  Proof.
    unfold resolve_expire. destruct (nh_dead _ _); [|apply resolve_only_frame].
    unfold expire_gateway. destruct (del_route _ _ _ _) as [[s2 m2]|] eqn:D; [|discriminate]. intros E; injection E as <- _. intros u Nu.
    rewrite (del_route_frame _ _ _ _ _ D u Nu). destruct (upd_cases s v (set_neigh (dict_del ip_eqb g (r_neigh (s v))) (s v)) u) as [[-> _]|[_ ->]]; [contradiction|reflexivity].
  Qed.
  Lemma loop_frame now h v : (forall s g n s1 ms, h s v g n = Some (s1, ms) -> forall u, u <> v -> s1 u = s u) ->
    forall gws k s s' ms tr, resolve_loop c now h v gws k s = Some (s', ms, tr) -> forall u, u <> v -> s' u = s u.
  Proof.
    intros Hf. induction gws as [|g gws IH]; intros k s s' ms tr; cbn [resolve_loop].
    - intros E; injection E as <- _ _. reflexivity.
    - destruct (k =? 0); [intros E; injection E as <- _ _; reflexivity|].
      destruct (dict_get _ _ _) as [n|]; [|apply IH]. destruct (resolution_due _ _ _); [|apply IH].
      destruct (h s v g n) as [[s1 m1]|] eqn:H; [|discriminate].
      destruct (resolve_loop _ _ _ _ _ _ s1) as [[[s2 m2] t2]|] eqn:L; [|discriminate]. intros E; injection E as <- _ _. intros u Nu.
      rewrite (IH _ _ _ _ _ L u Nu). now apply (Hf _ _ _ _ _ H).
  Qed.
  Lemma resolve_gateways_frame e now b v s s' ms tr : resolve_gateways c e now b v s = Some (s', ms, tr) -> forall u, u <> v -> s' u = s u.
  Proof.
    unfold resolve_gateways. intros E u Nu.
    match type of E with (let '(s1, gws) := ?x in _) = _ => destruct x as [s1 gws] eqn:X end.
    rewrite (loop_frame _ _ _ (fun s g n s1 ms => resolve_only_frame e now s v g n s1 ms) _ _ _ _ _ _ E u Nu).
    assert (forall r, upd s v r u = s u) as U. { intros r. destruct (upd_cases s v r u) as [[-> _]|[_ ->]]; [contradiction|reflexivity]. }
    destruct b; [destruct (unresolved_nexthops _ _ _ _ _)|destruct (r_todo_routes _)]; injection X as <- _; auto.
  Qed.
  Lemma resolve_hosts_frame e now b v s s' ms tr : resolve_expire_hosts c e now b v s = Some (s', ms, tr) -> forall u, u <> v -> s' u = s u.
  Proof.
    unfold resolve_expire_hosts. intros E u Nu.
    match type of E with (let '(s1, gws) := ?x in _) = _ => destruct x as [s1 gws] eqn:X end.
    rewrite (loop_frame _ _ _ (fun s g n s1 ms => resolve_expire_frame e now s v g n s1 ms) _ _ _ _ _ _ E u Nu).
    assert (forall r, upd s v r u = s u) as U. { intros r. destruct (upd_cases s v r u) as [[-> _]|[_ ->]]; [contradiction|reflexivity]. }
    destruct b; [destruct (unresolved_nexthops _ _ _ _ _)|destruct (r_todo_hosts _)]; injection X as <- _; auto.
  Qed.

  (** One resolution event is a cycle in each VLAN. *)
  Theorem resolve_event e now s s' ms : env_ok e -> base c mine s -> route_step c e (RResolve now) s = Some (s', ms) ->
    (forall u, ~ configured c u -> s' u = s u) /\
    exists m t, ms = flat_map m (map vl_id (rc_vlans c)) /\
      forall v, configured c v -> cycle c e now v (r_route_gws (s v)) (s v) (s' v) (m v) (t v) (request e v) (fun g _ => nowhere c e v g) (backs_off c).
  Proof.
    intros Eo B E. cbn [route_step] in E. unfold each_vlan in E.
    destruct (each_vlan_split (resolve_gateways c e now true)
      (fun v s s' ms tr H => resolve_gateways_frame e now true v s s' ms tr H)
      (fun v s s' ms tr B H => micros_base c mine (fun _ _ _ => True) mine_linked _ _ _ _ (resolve_gateways_micros c mine _ mine_linked e now true v s s' ms tr B H) B)
      _ _ _ _ _ (rk_ids c K) B E) as (Un & m & t & -> & H).
    split; [exact Un|]. exists m, t. split; [reflexivity|]. intros v Hv. destruct (H v Hv) as (s1 & s2 & B1 & F & E1 & E2).
    rewrite <- E1, <- E2. eapply resolve_gateways_cycle; eauto.
  Qed.
  Theorem expire_event e now s s' ms : env_ok e -> base c mine s -> route_step c e (RExpire now) s = Some (s', ms) ->
    (forall u, ~ configured c u -> s' u = s u) /\
    exists m t, ms = flat_map m (map vl_id (rc_vlans c)) /\
      forall v, configured c v -> cycle c e now v (r_host_gws (s v)) (s v) (s' v) (m v) (t v) (fun g m => request e v g m \/ forget_host c g m)
        (fun g k => rc_max_retries c <= k \/ nowhere c e v g) (backs_off_or_gone c).
  Proof.
    intros Eo B E. cbn [route_step] in E. unfold each_vlan in E.
    destruct (each_vlan_split (resolve_expire_hosts c e now true)
      (fun v s s' ms tr H => resolve_hosts_frame e now true v s s' ms tr H)
      (fun v s s' ms tr B H => micros_base c mine (fun _ _ _ => True) mine_linked _ _ _ _ (resolve_expire_hosts_micros c mine _ mine_linked e now true v s s' ms tr B H) B)
      _ _ _ _ _ (rk_ids c K) B E) as (Un & m & t & -> & H).
    split; [exact Un|]. exists m, t. split; [reflexivity|]. intros v Hv. destruct (H v Hv) as (s1 & s2 & B1 & F & E1 & E2).
    rewrite <- E1, <- E2. eapply resolve_hosts_cycle; eauto.
  Qed.
End Cycle.

(** ** Between attempts *)

Section Pace.
  Variable c : rconf.
  Hypothesis K : route_cfg c.
  Notation mine := (fun (_ : Z) (a : ip) => my_ip c a).
  Notation nget g r := (dict_get ip_eqb g (r_neigh r)).

  Lemma step_base e ev s s' ms : base c mine s -> event_ok c ev -> route_step c e ev s = Some (s', ms) -> base c mine s'.
  Proof.
    intros B Ok St. assert (ev = RConnect \/ ev <> RConnect) as [->|Ne] by (destruct ev; (now left) || (right; discriminate)).
    - cbn [route_step] in St. injection St as <- _. now apply reset_base.
    - destruct (step_staged c K mine (fun _ _ _ => True) (mine_linked c) e ev s s' ms B Ok) as (m1 & s1 & m2 & -> & M1 & M2); auto.
      { destruct ev; cbn; auto. }
      eapply (micros_base c mine (fun _ _ _ => True) (mine_linked c)); [exact M2|]. eapply (micros_base c mine (fun _ _ _ => True) (mine_linked c)); [exact M1|exact B].
  Qed.

  Theorem history_mine static P evs w : static_ok c static -> rreach c static P evs w -> base c mine (rw_st w).
  Proof.
    intros S R. induction R; cbn [rw_st]; auto.
    - apply start_base; auto. intros v d g I. apply (so_good c static S v d g I).
    - eapply step_base; eauto.
    - eapply (step_base e RConnect); eauto. exact Logic.I.
  Qed.

  (** *** Events that leave an entry alone *)

  Lemma add_route_neigh s v gw dst s' ms : add_route c s v gw dst = (s', ms) -> forall u, r_neigh (s' u) = r_neigh (s u).
  Proof.
    unfold add_route. destruct (router_vlan_for_gw c v gw) as [v'|]; [|intros E; injection E as <- _; reflexivity].
    rewrite no_vip_net.
    assert (forall u, r_neigh (upd s v' (rib_add dst gw (s v')) u) = r_neigh (s u)) as U.
    { intros u. destruct (upd_cases s v' (rib_add dst gw (s v')) u) as [[-> ->]|[_ ->]]; [apply rib_add_neigh|reflexivity]. }
    destruct (dict_get net_eqb dst _) as [g|]; [destruct (ip_eqb g gw)|]; intros E; injection E as <- _; auto.
  Qed.
  Lemma rib_del_neigh d r r' : rib_del d r = Some r' -> r_neigh r' = r_neigh r.
  Proof.
    unfold rib_del. destruct (dict_get net_eqb _ _); [|discriminate]. destruct (dict_get ip_eqb _ _); [|discriminate].
    destruct (mem _ _ _); [|discriminate]. intros E; injection E as <-. now rewrite update_gw_types_neigh.
  Qed.
  Lemma del_route_neigh s v dst s' ms : del_route c s v dst = Some (s', ms) -> forall u, r_neigh (s' u) = r_neigh (s u).
  Proof.
    unfold del_route. rewrite no_vip_net. destruct (dict_get _ _ _); [|intros E; injection E as <- _; reflexivity].
    destruct (rib_del _ _) as [r|] eqn:R; [|discriminate]. intros E; injection E as <- _. intros u.
    destruct (upd_cases s v r u) as [[-> ->]|[_ ->]]; [now apply rib_del_neigh in R|reflexivity].
  Qed.
  Lemma host_fib_neigh e s v h b s' ms : add_host_fib_route c e s v h b = (s', ms) -> forall u, r_neigh (s' u) = r_neigh (s u).
  Proof.
    unfold add_host_fib_route. destruct (add_route c s v h (host_net h)) as [s1 m1] eqn:A. intros E; injection E as <- _. eapply add_route_neigh; eauto.
  Qed.
  Lemma put_other s v x n u g : x <> g -> nget g (upd s v (put_neigh x n (s v)) u) = nget g (s u).
  Proof.
    intros N. destruct (upd_cases s v (put_neigh x n (s v)) u) as [[-> ->]|[_ ->]]; [|reflexivity]. cbn. rewrite ip_get_put.
    apply ip_eqb_ne in N. now rewrite N.
  Qed.
  Lemma update_other s now v port eth x s' ms g : update_nexthop c s now v port eth x = (s', ms) -> x <> g -> forall u, nget g (s' u) = nget g (s u).
  Proof. unfold update_nexthop. intros E N u. injection E as <- _. now apply put_other. Qed.

  Lemma learn_other e now p s s' ms g : learn_from_pkt c e now p s = (s', ms) -> rp_src p <> g -> forall u, nget g (s' u) = nget g (s u).
  Proof.
    unfold learn_from_pkt. destruct (_ && _ && _); [|intros E; injection E as <- _; reflexivity].
    destruct (add_host_fib_route _ _ _ _ _ _) as [s1 m1] eqn:A. destruct (update_nexthop _ _ _ _ _ _ _) as [s2 m2] eqn:U.
    intros E; injection E as <- _. intros N u. rewrite (update_other _ _ _ _ _ _ _ _ g U N u). now rewrite (host_fib_neigh _ _ _ _ _ _ _ A).
  Qed.
  Lemma vip_response_other e now p t s s' ms g : vip_response c e now p t s = (s', ms) -> rp_src p <> g -> forall u, nget g (s' u) = nget g (s u).
  Proof.
    unfold vip_response. destruct (_ && _); [|intros E; injection E as <- _; reflexivity].
    destruct (stateful_gw _ _); [|intros E; injection E as <- _; reflexivity].
    destruct (add_host_fib_route _ _ _ _ _ _) as [s1 m1] eqn:A. destruct (update_nexthop _ _ _ _ _ _ _) as [s2 m2] eqn:U.
    intros E; injection E as <- _. intros N u. rewrite (update_other _ _ _ _ _ _ _ _ g U N u). now rewrite (host_fib_neigh _ _ _ _ _ _ _ A).
  Qed.
  Lemma proactive_other e now p s s' ms g : proactive c e now p s = (s', ms) -> rp_src p <> g -> rp_dst p <> g -> forall u, nget g (s' u) = nget g (s u).
  Proof.
    unfold proactive. intros E N1 N2. revert E. destruct (rc_proactive c); [|intros E; injection E as <- _; reflexivity].
    match goal with |- match ?x with _ => _ end = _ -> _ => destruct x as [[v q]|] end; [|intros E; injection E as <- _; reflexivity].
    destruct (_ && _ && _ && _); [|intros E; injection E as <- _; reflexivity].
    destruct (learn_from_pkt _ _ _ _ _) as [s1 m1] eqn:L. destruct (add_host_fib_route _ _ s1 _ _ _) as [s2 m2] eqn:A.
    assert (forall u, nget g (s2 u) = nget g (s u)) as X.
    { intros u. rewrite (host_fib_neigh _ _ _ _ _ _ _ A u). now apply (learn_other _ _ _ _ _ _ g L). }
    set (n := new_nexthop None None now). set (s3 := upd s2 v (put_neigh (rp_dst p) n (s2 v))).
    assert (forall u, nget g (s3 u) = nget g (s u)) as Y. { intros u. unfold s3. rewrite put_other by exact N2. apply X. }
    destruct (mem _ _ _); [intros E; injection E as <- _; exact Y|].
    destruct (resolve_gateway _ _ _ _ _ _ (s3 v)) as [r m3] eqn:R. intros E; injection E as <- _. intros u.
    unfold resolve_gateway in R. destruct (vlan_vip_map _ _); injection R as <- _.
    - rewrite put_other by exact N2. apply Y.
    - destruct (upd_cases s3 v (s3 v) u) as [[-> ->]|[_ ->]]; apply Y.
  Qed.
  Lemma handler_other e now p s s' ms g : handler c e now p s = (s', ms) -> ~ about g (RPacket now p) -> forall u, nget g (s' u) = nget g (s u).
  Proof.
    unfold handler. cbn [about]. intros E N. destruct (rp_kind p) as [t|t| | |].
    - destruct (_ && _); [injection E as <- _; reflexivity|]. eapply vip_response_other; [exact E|tauto].
    - destruct (_ && _); [injection E as <- _; reflexivity|]. unfold gw_advert in E. destruct (_ && _); [|injection E as <- _; reflexivity].
      eapply update_other; [exact E|tauto].
    - unfold echo in E. destruct (_ && _ && _); [|injection E as <- _; reflexivity]. destruct (cached_eth _ _); [injection E as <- _; reflexivity|].
      destruct (learn_from_pkt _ _ _ _ _) as [s1 m1] eqn:L. injection E as <- _. eapply learn_other; [exact L|tauto].
    - injection E as <- _; reflexivity.
    - injection E as <- _; reflexivity.
  Qed.
  Lemma control_other e now p s s' ms g : control_plane c e now p s = (s', ms) -> ~ about g (RPacket now p) -> forall u, nget g (s' u) = nget g (s u).
  Proof.
    unfold control_plane. intros E N. destruct (rp_complete p); [|eapply proactive_other; [exact E|cbn in N; tauto|cbn in N; tauto]].
    match type of E with (let '(a, b) := ?x in _) = _ => destruct x as [s1 m1] eqn:X end.
    assert (forall u, nget g (s1 u) = nget g (s u)) as Y.
    { destruct (rp_ip p && rp_ttl p); [injection X as <- _; reflexivity|].
      match type of X with (if ?b then _ else _) = _ => destruct b end; [|injection X as <- _; reflexivity]. eapply handler_other; eauto. }
    destruct m1; [|injection E as <- _; exact Y]. destruct (rp_ip p && negb (rp_ttl p)); [|injection E as <- _; exact Y].
    intros u. rewrite <- Y. revert u. eapply proactive_other; [exact E|cbn in N; tauto|cbn in N; tauto].
  Qed.

  Lemma not_due now n t : nh_next n = Some t -> now <= t -> resolution_due now (rc_timeout c) n = false.
  Proof.
    intros E Le. unfold resolution_due. rewrite E. destruct (match nh_eth n with Some _ => _ | None => _ end); [reflexivity|]. apply Z.ltb_ge. lia.
  Qed.

  Lemma resolve_keeps e now b v s s' ms tr g n t : env_ok e -> base c mine s -> resolve_gateways c e now b v s = Some (s', ms, tr) ->
    nh_next n = Some t -> now <= t -> forall u, nget g (s u) = Some n -> nget g (s' u) = Some n.
  Proof.
    intros Eo B E Nx Le u G. destruct (Z.eq_dec u v) as [->|Nu]; [|rewrite (resolve_gateways_frame c e now b v s s' ms tr E u Nu); exact G].
    unfold resolve_gateways in E.
    match type of E with (let '(s1, gws) := ?x in _) = _ => destruct x as [s1 gws] eqn:X end.
    assert (NoDup gws /\ nget g (s1 v) = Some n) as [Nd G1].
    { destruct b.
      - destruct (unresolved_nexthops c e now (r_route_gws (s v)) (s v)) as [r l] eqn:U. injection X as <- <-.
        destruct (queue_spec c e now _ (s v) r l Eo (proj1 (ro_sets _ (ba_rib c _ s B v))) U) as (Nl & _ & _ & Gn).
        split; [exact Nl|]. rewrite upd_at. cbn [set_todo_routes r_neigh]. now rewrite Gn, G.
      - destruct (r_todo_routes (s v)); injection X as <- <-; [split; [constructor|exact G]|]. split; [constructor; [intros []|constructor]|].
        rewrite upd_at. exact G. }
    destruct (loop_spec c now v _ (fun s g n s1 ms H => resolve_only_own c e now s v g n s1 ms H) (fun _ _ => True) (fun _ _ _ _ _ _ _ _ => Logic.I)
      (fun _ _ => True) (fun _ _ _ _ _ => Logic.I) gws _ s1 s' ms tr Nd E) as (_ & _ & _ & _ & D & _ & _). apply D; [exact G1|]. eapply not_due; eauto.
  Qed.
  Lemma expire_keeps e now b v s s' ms tr g n t : env_ok e -> base c mine s -> resolve_expire_hosts c e now b v s = Some (s', ms, tr) ->
    nh_next n = Some t -> now <= t -> forall u, nget g (s u) = Some n -> nget g (s' u) = Some n.
  Proof.
    intros Eo B E Nx Le u G. destruct (Z.eq_dec u v) as [->|Nu]; [|rewrite (resolve_hosts_frame c e now b v s s' ms tr E u Nu); exact G].
    unfold resolve_expire_hosts in E.
    match type of E with (let '(s1, gws) := ?x in _) = _ => destruct x as [s1 gws] eqn:X end.
    assert (NoDup gws /\ nget g (s1 v) = Some n) as [Nd G1].
    { destruct b.
      - destruct (unresolved_nexthops c e now (r_host_gws (s v)) (s v)) as [r l] eqn:U. injection X as <- <-.
        destruct (queue_spec c e now _ (s v) r l Eo (proj2 (ro_sets _ (ba_rib c _ s B v))) U) as (Nl & _ & _ & Gn).
        split; [exact Nl|]. rewrite upd_at. cbn [set_todo_hosts r_neigh]. now rewrite Gn, G.
      - destruct (r_todo_hosts (s v)); injection X as <- <-; [split; [constructor|exact G]|]. split; [constructor; [intros []|constructor]|].
        rewrite upd_at. exact G. }
    destruct (loop_spec c now v _ (fun s g n s1 ms H => resolve_expire_own c e now s v g n s1 ms H) (fun _ _ => True) (fun _ _ _ _ _ _ _ _ => Logic.I)
      (fun _ _ => True) (fun _ _ _ _ _ => Logic.I) gws _ s1 s' ms tr Nd E) as (_ & _ & _ & _ & D & _ & _). apply D; [exact G1|]. eapply not_due; eauto.
  Qed.

  Lemma each_keeps (f : vfun) (I : rst -> Prop) : (forall v s s' ms tr, base c mine s -> f v s = Some (s', ms, tr) -> base c mine s' /\ (I s -> I s')) ->
    forall vs s m0 s' ms, base c mine s -> I s ->
      fold_left (fun acc v => match acc with
                          | None => None
                          | Some (s, ms) => match f (vl_id v) s with
                                            | None => None
                                            | Some (s', ms', _) => Some (s', ms ++ ms')
                                            end
                          end) vs (Some (s, m0)) = Some (s', ms) -> I s'.
  Proof.
    intros Hf. induction vs as [|x vs IH]; intros s m0 s' ms B Hi; cbn [fold_left].
    - intros E; injection E as <- _. exact Hi.
    - destruct (f (vl_id x) s) as [[[s1 m1] t1]|] eqn:F.
      + destruct (Hf _ _ _ _ _ B F) as [B1 H1]. apply IH; auto.
      + intros E. exfalso. revert E. clear. induction vs; cbn; [discriminate|auto].
  Qed.

  (** An entry whose time has not come is left alone by whatever is not about it. *)
  Lemma step_keeps e ev s s' ms v g n t : env_ok e -> event_ok c ev -> base c mine s -> route_step c e ev s = Some (s', ms) ->
    ~ about g ev -> nh_next n = Some t -> by_then t ev -> nget g (s v) = Some n -> nget g (s' v) = Some n.
  Proof.
    intros Eo Ok B St Na Nx Bt G.
    assert (MB : forall P a m b, micros c mine (fun _ _ _ => True) P a m b -> base c mine a -> base c mine b) by (intros; eapply (micros_base c mine (fun _ _ _ => True) (mine_linked c)); eauto).
    destruct ev as [u gw dst|u dst|now|now|port|now p|]; cbn [route_step about by_then] in *; try tauto.
    - injection St as St. now rewrite (add_route_neigh _ _ _ _ _ _ St v).
    - now rewrite (del_route_neigh _ _ _ _ _ St v).
    - unfold each_vlan in St. revert G. apply (each_keeps (resolve_gateways c e now true) (fun s0 => nget g (s v) = Some n -> nget g (s0 v) = Some n)) with (4 := St); auto.
      intros v0 s0 s1 m1 t1 B0 F. split; [eapply MB; [eapply (resolve_gateways_micros c mine _ (mine_linked c)); eauto|exact B0]|].
      intros H G. eapply (resolve_keeps e now true v0 s0 s1); eauto.
    - unfold each_vlan in St. revert G. apply (each_keeps (resolve_expire_hosts c e now true) (fun s0 => nget g (s v) = Some n -> nget g (s0 v) = Some n)) with (4 := St); auto.
      intros v0 s0 s1 m1 t1 B0 F. split; [eapply MB; [eapply (resolve_expire_hosts_micros c mine _ (mine_linked c)); eauto|exact B0]|].
      intros H G. eapply (expire_keeps e now true v0 s0 s1); eauto.
    - unfold router_rcv_packet in St. destruct (vl_vips _); [injection St as <- _; exact G|].
      match type of St with (let '(a, b) := ?x in _) = _ => destruct x as [s1 m1] eqn:X end.
      destruct Ok as (Os & Od & Ot).
      assert (nget g (s1 v) = Some n /\ base c mine s1) as [G1 B1].
      { destruct (_ || _ || _); [|injection X as <- _; auto]. split; [rewrite (control_other _ _ _ _ _ _ g X); auto|].
        eapply MB; [eapply (control_plane_micros c K mine _ (mine_linked c)); eauto|exact B]. }
      destruct m1; [|injection St as <- _; exact G1]. destruct (rp_ttl p); [injection St as <- _; exact G1|].
      destruct (learn_from_pkt _ _ _ _ _) as [s2 m2] eqn:L.
      assert (nget g (s2 v) = Some n /\ base c mine s2) as [G2 B2].
      { split; [rewrite (learn_other _ _ _ _ _ _ g L); [exact G1|tauto]|]. eapply MB; [eapply (learn_micros c K mine (fun _ _ _ => True)); eauto|exact B1]. }
      destruct (resolve_gateways _ _ _ _ _ _) as [[[s3 m3] t3]|] eqn:R; [|discriminate].
      assert (base c mine s3) as B3. { eapply MB; [eapply (resolve_gateways_micros c mine _ (mine_linked c)); [exact B2|exact R]|exact B2]. }
      pose proof (resolve_keeps e now false _ s2 s3 m3 t3 g n t Eo B2 R Nx Bt v G2) as G3.
      destruct (resolve_expire_hosts _ _ _ _ _ _) as [[[s4 m4] t4]|] eqn:X4; [|discriminate]. injection St as <- _.
      exact (expire_keeps e now false _ s3 s4 m4 t4 g n t Eo B3 X4 Nx Bt v G3).
  Qed.
  Lemma run_keeps evs : forall s s' v g n t, base c mine s -> rrun c s evs s' -> (forall ev, In ev evs -> ~ about g ev /\ by_then t ev) ->
    nh_next n = Some t -> nget g (s v) = Some n -> nget g (s' v) = Some n /\ base c mine s'.
  Proof.
    induction evs as [|ev evs IH]; intros s s' v g n t B R H Nx G; inversion R; subst; [auto|].
    destruct (H ev (or_introl eq_refl)) as [Na Bt]. eapply (IH s1); eauto.
    - eapply step_base; eauto.
    - intros x Hx. apply H. now right.
    - eapply step_keeps; eauto.
  Qed.
End Pace.
