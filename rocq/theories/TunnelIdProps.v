(** * VLANs of tunnels: properties C36 and C66 *)
From Coq Require Import ZArith List Bool Lia Permutation Sorted.
From Verif Require Import PyBase PyBaseProofs ConfProofs TunnelIdModel TunnelIdSpec.
Import ListNotations.
Open Scope Z_scope.

(** ** The search *)
Lemma dst_spec : forall a b, dst_eqb a b = true <-> a = b.
Proof.
  intros [a [p|]] [b [q|]]; unfold dst_eqb; cbn; rewrite andb_true_iff, ?Z.eqb_eq; split; intros H; try (inversion H; auto; fail);
    destruct H as [H1 H2]; try discriminate H2; subst; auto.
Qed.
Lemma search_spec : forall fuel used v, let w := first_unused_from fuel used v in
  v <= w <= v + Z.of_nat fuel /\ (forall x, v <= x < w -> In x used) /\ (w < v + Z.of_nat fuel -> ~ In w used).
Proof.
  induction fuel as [|k IH]; intros used v; cbn zeta; cbn [first_unused_from].
  - split; [lia|]. split; intros; lia.
  - destruct (mem Z.eqb v used) eqn:M.
    + destruct (IH used (v + 1)) as (A & B & C). apply memz in M. split; [lia|]. split.
      * intros x X. destruct (Z.eq_dec x v) as [->|]; auto. apply B. lia.
      * intros L. apply C. lia.
    + apply memz_false in M. split; [lia|]. split; intros; [lia|auto].
Qed.
Lemma seq_in_length : forall (used : list Z) n v, (forall x, v <= x < v + Z.of_nat n -> In x used) -> (n <= length used)%nat.
Proof.
  intros used n v H.
  assert (E : n = length (map (fun i => v + Z.of_nat i) (seq 0 n))) by (rewrite map_length, seq_length; auto).
  rewrite E. apply NoDup_incl_length.
  - apply FinFun.Injective_map_NoDup; [intros a b; lia|apply seq_NoDup].
  - intros x I. apply in_map_iff in I. destruct I as (i & <- & I). apply in_seq in I. apply H. lia.
Qed.
Lemma unused_least : forall vs v, least_free (map fst vs) v (first_unused_vlan_id vs v).
Proof.
  intros vs v. unfold first_unused_vlan_id. destruct (search_spec (S (length vs)) (map fst vs) v) as (A & B & C).
  set (w := first_unused_from _ _ _) in *. split; [lia|]. split; [|auto].
  apply C. destruct (Z.eq_dec w (v + Z.of_nat (S (length vs)))) as [E|]; [|lia].
  exfalso. assert (L := seq_in_length (map fst vs) (S (length vs)) v). rewrite map_length in L.
  assert (S (length vs) <= length vs)%nat; [|lia]. apply L. intros x X. apply B. lia.
Qed.
Lemma least_unique : forall used s v w, least_free used s v -> least_free used s w -> v = w.
Proof.
  intros used s v w (A & B & C) (A' & B' & C'). destruct (Z.lt_trichotomy v w) as [L|[L|L]]; auto; exfalso.
  - apply B. apply C'. lia.
  - apply B'. apply C. lia.
Qed.
Lemma least_same : forall u u' s v, (forall x, In x u <-> In x u') -> least_free u s v -> least_free u' s v.
Proof. intros u u' s v E (A & B & C). split; auto. split; [rewrite <- E; auto|]. intros w W. apply E. auto. Qed.

(** ** Where the search starts *)
Lemma max_list : forall l x, let m := fold_left Z.max l x in (m = x \/ In m l) /\ x <= m /\ forall y, In y l -> y <= m.
Proof.
  induction l as [|a l IH]; intros x; cbn [fold_left]; cbn zeta; [cbn; intuition lia|].
  destruct (IH (Z.max x a)) as (A & B & C). set (m := fold_left Z.max l (Z.max x a)) in *.
  split; [|split; [lia|]].
  - destruct A as [A|A]; [|right; right; auto]. destruct (Z.max_spec x a) as [[_ E]|[_ E]]; rewrite E in A; [right; left|left]; auto.
  - intros y [->|I]; [lia|auto].
Qed.
Lemma offset_highest : forall vs m, vlan_offset vs = Some m -> highest vs m.
Proof.
  intros vs m H. unfold vlan_offset in H.
  assert (E : forall v, In v (map fst (filter (fun v => negb (snd v)) vs)) <-> In (v, false) vs).
  { intros v. rewrite in_map_iff. split.
    - intros ([v' b] & <- & I). apply filter_In in I. destruct I as [I B]. destruct b; [discriminate B|auto].
    - intros I. exists (v, false). split; auto. apply filter_In. auto. }
  destruct (map fst _) as [|x r]; [discriminate H|]. injection H as <-. destruct (max_list r x) as (A & B & C).
  split.
  - apply E. destruct A as [A|A]; [rewrite A; left; auto|right; auto].
  - intros v I. apply E in I. destruct I as [<-|I]; auto.
Qed.
Lemma highest_unique : forall vs m m', highest vs m -> highest vs m' -> m = m'.
Proof. intros vs m m' [A B] [A' B']. apply B in A'. apply B' in A. lia. Qed.
Lemma highest_reserved : forall vs v m, highest (vs ++ [(v, true)]) m <-> highest vs m.
Proof.
  intros vs v m. unfold highest. assert (E : forall x, In (x, false) (vs ++ [(v, true)]) <-> In (x, false) vs).
  { intros x. rewrite in_app_iff. cbn. intuition congruence. }
  rewrite E. setoid_rewrite E. reflexivity.
Qed.

Lemma total_perm : forall a b, Permutation a b -> total a = total b.
Proof. intros a b P. induction P; cbn; try lia; repeat match goal with x : (Z * list tunnel)%type |- _ => destruct x end; lia. Qed.
Definition cell (c : config) (n : Z) : Z * list tunnel := (n, match dict_get Z.eqb n (cf_acls c) with Some ts => ts | None => [] end).
Lemma total_cons : forall c n l, total (cell c n :: l) = num_tunnels c n + total l.
Proof. intros c n l. unfold cell, num_tunnels. cbn. destruct (dict_get Z.eqb n (cf_acls c)); cbn; auto. Qed.
Lemma sum_sorted : forall c a l, StronglySorted Z.le l -> NoDup l -> In a l ->
  sum_upto c a l = total (filter (fun x => fst x <=? a) (map (cell c) l)).
Proof.
  intros c a l S. induction S as [|n l S IH F]; intros ND I; [destruct I|]. inversion ND as [|x y N1 N2]; subst x y.
  cbn [sum_upto map filter fst]. change (fst (cell c n)) with n. rewrite Forall_forall in F. destruct (Z.eqb_spec n a) as [->|NE].
  - rewrite Z.leb_refl, total_cons. replace (filter (fun x => fst x <=? a) (map (cell c) l)) with (@nil (Z * list tunnel)); [cbn; lia|].
    symmetry. assert (G : forall x, In x l -> ~ x <= a).
    { intros x X L. apply F in X as L2. assert (x = a) by lia. subst. auto. }
    clear - G. induction l as [|x l IH]; auto. cbn [map filter]. change (fst (cell c x)) with x.
    destruct (Z.leb_spec x a); [exfalso; apply (G x); [left; auto|lia]|]. apply IH. intros y Y. apply G. right; auto.
  - destruct I as [I|I]; [congruence|]. destruct (Z.leb_spec n a); [|exfalso; apply F in I; lia].
    rewrite total_cons, IH; auto.
Qed.
Lemma cells_id : forall c l, NoDup (map fst (cf_acls c)) -> incl l (cf_acls c) -> map (cell c) (map fst l) = l.
Proof.
  intros c l ND. induction l as [|[n ts] l IH]; intros I; auto. cbn [map fst]. rewrite IH by (intros x X; apply I; right; auto). f_equal.
  unfold cell. rewrite (dict_in_get Z.eqb zspec n ts); auto. apply I. left; auto.
Qed.
Lemma filter_perm : forall {A} (f : A -> bool) a b, Permutation a b -> Permutation (filter f a) (filter f b).
Proof.
  intros A f a b P. induction P as [|x a b P IH|x y a|a b d P1 IH1 P2 IH2]; cbn; auto.
  - destruct (f x); auto.
  - destruct (f x), (f y); auto. apply perm_swap.
  - eapply perm_trans; eauto.
Qed.
Lemma sorted_z : forall l, StronglySorted Z.le (py_sorted Z.leb l).
Proof.
  intros l. assert (G := py_sorted_sorted Z.leb). 
  assert (H : StronglySorted (fun a b => Z.leb a b = true) (py_sorted Z.leb l)).
  { apply G; intros; rewrite ?Z.leb_le in *; lia. }
  clear - H. induction H as [|a l' S IH F]; constructor; auto. eapply Forall_impl; [|exact F]. intros b B. apply Z.leb_le. exact B.
Qed.
Lemma offset_total : forall c name, NoDup (map fst (cf_acls c)) -> In name (map fst (cf_acls c)) ->
  tunnel_offset c name = total_upto (cf_acls c) name.
Proof.
  intros c name ND I. unfold tunnel_offset, total_upto.
  assert (P := py_sorted_perm Z.leb (map fst (cf_acls c))).
  rewrite sum_sorted.
  - apply total_perm. apply filter_perm. rewrite <- (cells_id c (cf_acls c)) at 2 by (auto; apply incl_refl).
    apply Permutation_map. symmetry. exact P.
  - apply sorted_z.
  - eapply Permutation_NoDup; eauto.
  - eapply Permutation_in; eauto.
Qed.

(** ** Resolution *)

Section Resolve.
Variables (c : config) (vs0 : vlans).
Hypothesis names : NoDup (map fst (cf_acls c)).

(** The VLANs of the datapath are those configured and those of the tunnels resolved. *)
Record inv (vs : vlans) (l : log) : Prop := {
  i_vids : forall x, In x (map fst vs) <-> In x (map fst vs0) \/ In x (map snd l);
  i_ordinary : forall x, In (x, false) vs <-> In (x, false) vs0;
  i_keys : NoDup (map fst vs)
}.
(** What is true of a tunnel resolved after the tunnels [l1]. *)
Definition entry_ok (l1 : log) (name : Z) (t : tunnel) (v : Z) : Prop :=
  match tn_id t with
  | NoId => (chosen l1 name t -> exists m, highest vs0 m /\ least_free (map fst vs0 ++ map snd l1) (m + total_upto (cf_acls c) name) v /\ 1 <= v <= 4095) /\
            (~ chosen l1 name t -> exists t', In (name, t', v) l1 /\ tn_dst t' = tn_dst t)
  | Vid w => v = w /\ (In w (map fst vs0) -> In (w, true) vs0)
  | Name s => dict_get Z.eqb s (cf_names c) = Some v /\ (In v (map fst vs0) -> In (v, true) vs0)
  end.
Definition trace_ok (l : log) : Prop := forall l1 name t v l2, l = l1 ++ (name, t, v) :: l2 -> entry_ok l1 name t v.
Definition dsts_ok (name : Z) (dsts : list (dst * Z)) (l : log) : Prop :=
  (forall d v, dict_get dst_eqb d dsts = Some v -> exists t', In (name, t', v) l /\ tn_dst t' = d) /\
  (forall t' v', In (name, t', v') l -> dict_get dst_eqb (tn_dst t') dsts <> None).

Lemma trace_snoc : forall l name t v, trace_ok l -> entry_ok l name t v -> trace_ok (l ++ [(name, t, v)]).
Proof.
  intros l name t v T E l1 n' t' v' l2 H.
  destruct l2 as [|z l2 _] using rev_ind.
  - apply app_inj_tail in H. destruct H as [-> H]. injection H as -> -> ->. auto.
  - rewrite app_comm_cons, app_assoc in H. apply app_inj_tail in H. destruct H as [H _]. eapply T; eauto.
Qed.
Lemma create_inv : forall vs l v vs' name t, inv vs l -> create_vlan vs v = Some vs' ->
  inv vs' (l ++ [(name, t, v)]) /\ ~ In v (map fst vs) /\ 1 <= v <= 4095.
Proof.
  intros vs l v vs' name t [I1 I2 I3] H. unfold create_vlan in H. destruct (mem Z.eqb v (map fst vs)) eqn:M; [discriminate H|]. apply memz_false in M.
  destruct (vid_valid v) eqn:W; [|discriminate H]. injection H as <-. split; [|split; auto].
  - constructor.
    + intros x. rewrite !map_app, !in_app_iff, I1. cbn. intuition.
    + intros x. rewrite in_app_iff, I2. cbn. intuition congruence.
    + rewrite map_app. apply NoDup_app_iff_. split; auto. split; [repeat constructor; auto|]. intros x X [<-|[]]. auto.
  - unfold vid_valid in W. apply andb_true_iff in W. rewrite !Z.leb_le in W. auto.
Qed.
Lemma inv_old : forall vs l v name t, inv vs l -> In v (map fst vs) -> inv vs (l ++ [(name, t, v)]).
Proof.
  intros vs l v name t [I1 I2 I3] H. constructor; auto. intros x. rewrite map_app, in_app_iff, I1. cbn. apply I1 in H. intuition; subst; auto.
Qed.
Lemma reserved_was : forall vs l w, inv vs l -> dict_get Z.eqb w vs = Some true -> In w (map fst vs) /\ (In w (map fst vs0) -> In (w, true) vs0).
Proof.
  intros vs l w [I1 I2 I3] G. apply (dict_get_in Z.eqb zspec) in G. split; [apply (in_map fst) in G; auto|].
  intros J. apply in_map_iff in J. destruct J as ([w' b] & E & J). cbn in E. subst w'. destruct b; auto.
  exfalso. apply I2 in J. assert (X := NoDup_map_inj_in _ _ fst vs (w, true) (w, false) I3 G J eq_refl). discriminate X.
Qed.
Lemma step_tunnel : forall name vs dsts t vs' v l, In name (map fst (cf_acls c)) -> inv vs l -> dsts_ok name dsts l ->
  get_tunnel_vlan c name vs dsts t = Some (vs', v) -> inv vs' (l ++ [(name, t, v)]) /\ entry_ok l name t v.
Proof.
  intros name vs dsts t vs' v l NM I [D1 D2] H. unfold get_tunnel_vlan in H. unfold entry_ok.
  destruct (tn_id t) as [|w|s] eqn:T.
  - destruct (dict_get dst_eqb (tn_dst t) dsts) as [w|] eqn:D.
    + injection H as <- <-. destruct (D1 _ _ D) as (t' & A & B). split.
      * apply inv_old; auto. apply (i_vids _ _ I). right. apply (in_map snd) in A. auto.
      * split; [|eauto]. intros [_ C]. exfalso. apply (C t' w); auto.
    + destruct (vlan_offset vs) as [m|] eqn:M; [|discriminate H]. cbv zeta in H.
      destruct (create_vlan vs _) as [vs1|] eqn:C; [|discriminate H]. cbn [option_map] in H. injection H as <- <-.
      apply offset_highest in M. rewrite offset_total in * by auto.
      destruct (create_inv _ l _ _ name t I C) as (A & _ & B). split; auto. split.
      * intros _. exists m. split; [|split; auto].
        -- destruct M as [M1 M2]. split; [apply (i_ordinary _ _ I); auto|]. intros v V. apply M2. apply (i_ordinary _ _ I); auto.
        -- eapply least_same; [|apply unused_least]. intros x. rewrite in_app_iff. apply (i_vids _ _ I).
      * intros N. exfalso. apply N. split; auto. intros t' v' J E. apply (D2 t' v' J). rewrite E. auto.
  - cbn [resolve_vlan] in H. destruct (dict_get Z.eqb w vs) as [[]|] eqn:G; cbn [option_map] in H; [|discriminate H|].
    + injection H as <- <-. destruct (reserved_was _ _ _ I G). split; [apply inv_old; auto|auto].
    + destruct (create_vlan vs w) as [vs1|] eqn:C; [|discriminate H]. cbn in H. injection H as <- <-.
      destruct (create_inv _ l _ _ name t I C) as (A & B & _). split; auto. split; auto. intros J. exfalso. apply B. apply (i_vids _ _ I). auto.
  - cbn [resolve_vlan] in H. destruct (dict_get Z.eqb s (cf_names c)) as [w|] eqn:G1; [|discriminate H].
    destruct (dict_get Z.eqb w vs) as [[]|] eqn:G; cbn [option_map] in H; [|discriminate H|discriminate H].
    injection H as <- <-. destruct (reserved_was _ _ _ I G). split; [apply inv_old; auto|auto].
Qed.
Lemma dsts_snoc : forall name dsts l t v, dsts_ok name dsts l -> dsts_ok name (dict_put dst_eqb (tn_dst t) v dsts) (l ++ [(name, t, v)]).
Proof.
  intros name dsts l t v [D1 D2]. split.
  - intros d w H. rewrite (dict_get_put dst_eqb dst_spec) in H. destruct (dst_eqb d (tn_dst t)) eqn:E.
    + injection H as <-. apply dst_spec in E. subst. exists t. split; auto. apply in_or_app. right. left. auto.
    + destruct (D1 _ _ H) as (t' & A & B). exists t'. split; auto. apply in_or_app; auto.
  - intros t' v' H. rewrite (dict_get_put dst_eqb dst_spec). destruct (dst_eqb (tn_dst t') (tn_dst t)) eqn:E; [discriminate|].
    apply in_app_or in H. destruct H as [H|[H|[]]]; [apply (D2 _ _ H)|]. injection H as <- <-.
    exfalso. assert (X : dst_eqb (tn_dst t) (tn_dst t) = true) by (apply dst_spec; auto). congruence.
Qed.
Lemma tunnels_ok : forall name ts vs dsts l vs' l', In name (map fst (cf_acls c)) -> inv vs l -> trace_ok l -> dsts_ok name dsts l ->
  resolve_tunnels c name ts vs dsts l = Some (vs', l') ->
  inv vs' l' /\ trace_ok l' /\ exists new, l' = l ++ new /\ map fst new = map (fun t => (name, t)) ts.
Proof.
  intros name ts. induction ts as [|t ts IH]; intros vs dsts l vs' l' NM I T D H; cbn [resolve_tunnels] in H.
  - injection H as <- <-. split; [auto|split; [auto|]]. exists []. rewrite app_nil_r. auto.
  - destruct (get_tunnel_vlan c name vs dsts t) as [[vs1 v]|] eqn:G; [|discriminate H].
    destruct (step_tunnel _ _ _ _ _ _ _ NM I D G) as [I1 E]. apply IH in H; auto; [|apply trace_snoc; auto|apply dsts_snoc; auto].
    destruct H as (A & B & new & -> & F). split; [auto|split; [auto|]]. exists ((name, t, v) :: new). rewrite <- app_assoc. split; auto. cbn. f_equal. auto.
Qed.
(** the ACLs in [order] that are not in [seen], each once *)
Fixpoint fresh (order seen : list Z) : list Z :=
  match order with
  | [] => []
  | n :: r => if mem Z.eqb n seen then fresh r seen else n :: fresh r (n :: seen)
  end.
Definition tunnels_of (n : Z) : list tunnel := match dict_get Z.eqb n (cf_acls c) with Some ts => ts | None => [] end.
Lemma acls_ok : forall order seen vs l vs' l', inv vs l -> trace_ok l -> (forall x, In x l -> In (fst (fst x)) seen) ->
  resolve_acls c order seen vs l = Some (vs', l') ->
  inv vs' l' /\ trace_ok l' /\ exists new, l' = l ++ new /\ map fst new = flat_map (fun n => map (fun t => (n, t)) (tunnels_of n)) (fresh order seen).
Proof.
  induction order as [|n order IH]; intros seen vs l vs' l' I T S H; cbn [resolve_acls fresh] in *.
  - injection H as <- <-. split; [auto|split; [auto|]]. exists []. rewrite app_nil_r. auto.
  - destruct (dict_get Z.eqb n (cf_acls c)) as [ts|] eqn:G; [|discriminate H]. destruct (mem Z.eqb n seen) eqn:M; [apply IH in H; auto|].
    apply memz_false in M. destruct (resolve_tunnels c n ts vs [] l) as [[vs1 l1]|] eqn:R; [|discriminate H].
    assert (NM : In n (map fst (cf_acls c))) by (apply (dict_get_in Z.eqb zspec) in G; apply (in_map fst) in G; auto).
    apply tunnels_ok in R; auto.
    + destruct R as (A & B & new & -> & F). apply IH in H; auto.
      * destruct H as (A' & B' & new' & -> & F'). split; [auto|split; [auto|]]. exists (new ++ new'). rewrite app_assoc. split; auto.
        rewrite map_app, F, F'. cbn [flat_map]. unfold tunnels_of at 2. rewrite G. auto.
      * intros x X. apply in_app_or in X. destruct X as [X|X]; [right; auto|]. left.
        apply (in_map fst) in X. rewrite F in X. apply in_map_iff in X. destruct X as (t & <- & _). auto.
    + split; [intros d v D; discriminate D|]. intros t' v' J. apply S in J. contradiction.
Qed.
End Resolve.

Lemma resolved : forall c vs0 order vs' l, NoDup (map fst (cf_acls c)) -> NoDup (map fst vs0) ->
  resolve_acls c order [] vs0 [] = Some (vs', l) ->
  inv vs0 vs' l /\ trace_ok c vs0 l /\ map fst l = flat_map (fun n => map (fun t => (n, t)) (tunnels_of c n)) (fresh order []).
Proof.
  intros c vs0 order vs' l N1 N2 H. destruct (acls_ok c vs0 N1 order [] vs0 [] vs' l) as (A & B & new & -> & F); auto.
  - constructor; auto; [|reflexivity]. intros x. cbn. intuition.
  - intros l1 name t v l2 E. destruct l1; discriminate E.
Qed.

(** ** C36: Automatically chosen VLAN IDs *)
Theorem C36_chosen : forall c vs0 order vs' l, NoDup (map fst (cf_acls c)) -> NoDup (map fst vs0) ->
  resolve_acls c order [] vs0 [] = Some (vs', l) ->
  forall l1 name t v l2, l = l1 ++ (name, t, v) :: l2 -> chosen l1 name t ->
  exists m, highest vs0 m /\ least_free (map fst vs0 ++ map snd l1) (m + total_upto (cf_acls c) name) v /\ 1 <= v <= 4095.
Proof.
  intros c vs0 order vs' l N1 N2 H l1 name t v l2 E C. destruct (resolved _ _ _ _ _ N1 N2 H) as (_ & T & _).
  apply T in E. unfold entry_ok in E. destruct C as [C1 C2]. rewrite C1 in E. destruct E as [E _]. apply E. split; auto.
Qed.
Print Assumptions C36_chosen.
(** two tunnels whose VLANs are chosen never share one *)
Theorem C36_distinct : forall c vs0 order vs' l, NoDup (map fst (cf_acls c)) -> NoDup (map fst vs0) ->
  resolve_acls c order [] vs0 [] = Some (vs', l) ->
  forall l1 n1 t1 v1 l2 n2 t2 v2 l3, l = l1 ++ (n1, t1, v1) :: l2 ++ (n2, t2, v2) :: l3 ->
  chosen (l1 ++ (n1, t1, v1) :: l2) n2 t2 -> v1 <> v2.
Proof.
  intros c vs0 order vs' l N1 N2 H l1 n1 t1 v1 l2 n2 t2 v2 l3 E C.
  replace (l1 ++ (n1, t1, v1) :: l2 ++ (n2, t2, v2) :: l3) with ((l1 ++ (n1, t1, v1) :: l2) ++ (n2, t2, v2) :: l3) in E by (rewrite <- app_assoc; auto).
  destruct (C36_chosen _ _ _ _ _ N1 N2 H _ _ _ _ _ E C) as (m & _ & (_ & F & _) & _). intros ->. apply F.
  apply in_or_app. right. rewrite map_app. apply in_or_app. right. left. auto.
Qed.
Print Assumptions C36_distinct.
(** tunnels with an ID have it, and it is reserved; others to a destination already
    seen in the ACL share its VLAN *)
Theorem C36_given : forall c vs0 order vs' l, NoDup (map fst (cf_acls c)) -> NoDup (map fst vs0) ->
  resolve_acls c order [] vs0 [] = Some (vs', l) ->
  forall l1 name t v l2, l = l1 ++ (name, t, v) :: l2 ->
  match tn_id t with
  | Vid w => v = w /\ ~ In (w, false) vs0
  | Name s => In (s, v) (cf_names c) /\ ~ In (v, false) vs0
  | NoId => ~ chosen l1 name t -> exists t', In (name, t', v) l1 /\ tn_dst t' = tn_dst t
  end.
Proof.
  intros c vs0 order vs' l N1 N2 H l1 name t v l2 E. destruct (resolved _ _ _ _ _ N1 N2 H) as (_ & T & _).
  apply T in E. unfold entry_ok in E.
  assert (O : forall w, (In w (map fst vs0) -> In (w, true) vs0) -> ~ In (w, false) vs0).
  { intros w A B. assert (B' := B). apply (in_map fst) in B'. apply A in B'.
    assert (X := NoDup_map_inj_in _ _ fst vs0 (w, true) (w, false) N2 B' B eq_refl). discriminate X. }
  destruct (tn_id t) as [|w|s].
  - apply E.
  - destruct E. auto.
  - destruct E as [E1 E2]. apply (dict_get_in Z.eqb zspec) in E1. auto.
Qed.
Print Assumptions C36_given.

Lemma ids_flat : forall c ns l name, map fst l = flat_map (fun n => map (fun t => (n, t)) (tunnels_of c n)) ns -> NoDup ns ->
  map fst (ids_of l name) = if mem Z.eqb name ns then tunnels_of c name else [].
Proof.
  intros c ns l name E ND. unfold ids_of. rewrite map_map. cbn.
  replace (map (fun x : Z * tunnel * Z => snd (fst x)) (filter (fun x => fst (fst x) =? name) l))
    with (map snd (filter (fun y => fst y =? name) (map fst l))).
  2:{ clear. induction l as [|x l IH]; auto. cbn. destruct (fst (fst x) =? name); cbn; rewrite IH; auto. }
  rewrite E. clear E. induction ns as [|n ns IH]; auto. inversion ND as [|x y M1 M2]; subst x y.
  cbn [flat_map]. rewrite filter_app, map_app, IH by auto. unfold mem. cbn [existsb]. rewrite (Z.eqb_sym name n).
  assert (F : map snd (filter (fun y => fst y =? name) (map (fun t => (n, t)) (tunnels_of c n))) = if n =? name then tunnels_of c n else []).
  { generalize (tunnels_of c n). intros ts. induction ts as [|t ts IHt]; [destruct (n =? name); auto|]. cbn. destruct (n =? name); cbn; auto. rewrite IHt. auto. }
  rewrite F. destruct (Z.eqb_spec n name) as [->|]; cbn; auto.
  fold (mem Z.eqb name ns). destruct (mem Z.eqb name ns) eqn:M; [apply memz in M; contradiction|]. apply app_nil_r.
Qed.
Lemma fresh_in : forall order seen n, In n (fresh order seen) <-> In n order /\ ~ In n seen.
Proof.
  induction order as [|a order IH]; intros seen n; cbn [fresh]; [cbn; tauto|]. destruct (mem Z.eqb a seen) eqn:M.
  - apply memz in M. rewrite IH. cbn. intuition. subst. contradiction.
  - apply memz_false in M. cbn. rewrite IH. cbn. destruct (Z.eq_dec a n) as [->|]; intuition.
Qed.
Lemma fresh_nodup : forall order seen, NoDup (fresh order seen).
Proof.
  induction order as [|a order IH]; intros seen; cbn [fresh]; [constructor|]. destruct (mem Z.eqb a seen); auto.
  constructor; auto. rewrite fresh_in. cbn. tauto.
Qed.
Theorem C36_complete : forall c vs0 order vs' l, NoDup (map fst (cf_acls c)) -> NoDup (map fst vs0) ->
  resolve_acls c order [] vs0 [] = Some (vs', l) ->
  forall name ts, In name order -> In (name, ts) (cf_acls c) -> map fst (ids_of l name) = ts.
Proof.
  intros c vs0 order vs' l N1 N2 H name ts I J. destruct (resolved _ _ _ _ _ N1 N2 H) as (_ & _ & F).
  rewrite (ids_flat _ _ _ _ F) by apply fresh_nodup. replace (mem Z.eqb name (fresh order [])) with true.
  - unfold tunnels_of. rewrite (dict_in_get Z.eqb zspec name ts); auto.
  - symmetry. apply memz. apply fresh_in. split; auto.
Qed.
Print Assumptions C36_complete.

(** ** C66: All datapaths agree *)
Lemma total_nonneg : forall l, 0 <= total l.
Proof. induction l as [|[n ts] l IH]; cbn; lia. Qed.
Lemma total_filter : forall f l, total (filter f l) <= total l.
Proof. induction l as [|[n ts] l IH]; cbn; [lia|]. destruct (f (n, ts)); cbn; lia. Qed.
Lemma upto_mono : forall l a b ts, a < b -> In (b, ts) l -> total_upto l a + Z.of_nat (length ts) <= total_upto l b.
Proof.
  unfold total_upto. induction l as [|[n us] l IH]; intros a b ts L I; [destruct I|]. cbn [filter fst].
  assert (M : total (filter (fun x => fst x <=? a) l) <= total (filter (fun x => fst x <=? b) l)).
  { clear - L. induction l as [|[n us] l IH]; [cbn; lia|]. cbn [filter fst]. destruct (Z.leb_spec n a), (Z.leb_spec n b); cbn [total]; try lia. }
  destruct I as [I|I].
  - injection I as -> ->. destruct (Z.leb_spec b a); [lia|]. rewrite Z.leb_refl. cbn [total]. lia.
  - specialize (IH a b ts L I). destruct (Z.leb_spec n a), (Z.leb_spec n b); cbn [total]; lia.
Qed.
Lemma upto_self : forall l a ts, In (a, ts) l -> Z.of_nat (length ts) <= total_upto l a.
Proof.
  unfold total_upto. induction l as [|[n us] l IH]; intros a ts I; [destruct I|]. cbn [filter fst]. destruct I as [I|I].
  - injection I as -> ->. rewrite Z.leb_refl. cbn [total]. assert (X := total_nonneg (filter (fun x => fst x <=? a) l)). lia.
  - specialize (IH a ts I). destruct (n <=? a); cbn [total]; lia.
Qed.

(** what each tunnel of an ACL gets *)
Fixpoint plan (c : config) (m : Z) (name : Z) (dsts : list (dst * Z)) (ts : list tunnel) : list (option Z) :=
  match ts with
  | [] => []
  | t :: r =>
      let v := match tn_id t with
               | Vid w => Some w
               | Name s => dict_get Z.eqb s (cf_names c)
               | NoId => match dict_get dst_eqb (tn_dst t) dsts with Some v => Some v | None => Some (m + total_upto (cf_acls c) name) end
               end in
      v :: plan c m name (match v with Some v => dict_put dst_eqb (tn_dst t) v dsts | None => dsts end) r
  end.
Section Agree.
Variables (c : config) (vs0 : vlans) (m : Z).
Hypothesis N1 : NoDup (map fst (cf_acls c)).
Hypothesis N2 : NoDup (map fst vs0).
Hypothesis one : forall name ts, In (name, ts) (cf_acls c) -> one_choice ts.
Hypothesis way : out_of_the_way c vs0.
Hypothesis top : highest vs0 m.

(** used VLANs: configured, given (not in the way) or chosen for an ACL in [done] *)
Definition known (vs : vlans) (done : list Z) : Prop :=
  highest vs m /\
  forall x, In x (map fst vs) -> ~ m < x <= m + total (cf_acls c) \/
    exists b ts, In b done /\ In (b, ts) (cf_acls c) /\ ts <> [] /\ x = m + total_upto (cf_acls c) b.
Lemma known_mono : forall vs d d', incl d d' -> known vs d -> known vs d'.
Proof. intros vs d d' I [A B]. split; auto. intros x X. destruct (B x X) as [|(b & ts & C & D)]; auto. right. exists b, ts. auto. Qed.
Lemma known_new : forall vs d v vs', known vs d -> create_vlan vs v = Some vs' ->
  (~ m < v <= m + total (cf_acls c) \/ exists b ts, In b d /\ In (b, ts) (cf_acls c) /\ ts <> [] /\ v = m + total_upto (cf_acls c) b) -> known vs' d.
Proof.
  intros vs d v vs' [A B] C D. unfold create_vlan in C. destruct (mem Z.eqb v (map fst vs)); [discriminate C|].
  destruct (vid_valid v); [|discriminate C]. injection C as <-. split; [apply highest_reserved; auto|].
  intros x X. rewrite map_app in X. apply in_app_or in X. destruct X as [X|[<-|[]]]; auto.
Qed.
Lemma plan_tunnels : forall name all ts done vs dsts l vs' l', In (name, all) (cf_acls c) -> incl ts all -> 
  (forall d w, dict_get dst_eqb d dsts = Some w -> True) ->
  known vs (name :: done) -> (known vs done \/ forall t, In t all -> tn_id t = NoId -> dict_get dst_eqb (tn_dst t) dsts <> None) -> ~ In name done ->
  resolve_tunnels c name ts vs dsts l = Some (vs', l') ->
  known vs' (name :: done) /\ exists new, l' = l ++ new /\ map (fun x => Some (snd x)) new = plan c m name dsts ts.
Proof.
  intros name all ts. induction ts as [|t ts IH]; intros done vs dsts l vs' l' J S _ K U ND H; cbn [resolve_tunnels] in H.
  - injection H as <- <-. split; auto. exists []. rewrite app_nil_r. auto.
  - destruct (get_tunnel_vlan c name vs dsts t) as [[vs1 v]|] eqn:G; [|discriminate H].
    assert (JT : In t all) by (apply S; left; auto).
    assert (NE : all <> []) by (intros ->; destruct JT).
    assert (X : (known vs1 (name :: done) /\ (known vs1 done \/ forall t', In t' all -> tn_id t' = NoId -> dict_get dst_eqb (tn_dst t') (dict_put dst_eqb (tn_dst t) v dsts) <> None)) /\
                Some v = match tn_id t with
                         | Vid w => Some w
                         | Name s => dict_get Z.eqb s (cf_names c)
                         | NoId => match dict_get dst_eqb (tn_dst t) dsts with Some v => Some v | None => Some (m + total_upto (cf_acls c) name) end
                         end).
    { assert (KEEP : forall w, (forall t', In t' all -> tn_id t' = NoId -> dict_get dst_eqb (tn_dst t') dsts <> None) ->
                (forall t', In t' all -> tn_id t' = NoId -> dict_get dst_eqb (tn_dst t') (dict_put dst_eqb (tn_dst t) w dsts) <> None)).
      { intros w A t' B C. rewrite (dict_get_put dst_eqb dst_spec). destruct (dst_eqb (tn_dst t') (tn_dst t)); [discriminate|auto]. }
      unfold get_tunnel_vlan in G. destruct (tn_id t) as [|w|s] eqn:T.
      - destruct (dict_get dst_eqb (tn_dst t) dsts) as [w|] eqn:D.
        + injection G as <- <-. split; auto. split; auto. destruct U as [U|U]; auto.
        + destruct U as [U|U]; [|exfalso; apply (U t); auto].
          destruct (vlan_offset vs) as [m'|] eqn:M; [|discriminate G]. cbv zeta in G.
          destruct (create_vlan vs _) as [vs2|] eqn:C; [|discriminate G]. cbn [option_map] in G. injection G as <- <-.
          apply offset_highest in M. assert (m' = m) by (apply (highest_unique vs); auto; apply U). subst m'.
          assert (JN : In name (map fst (cf_acls c))) by (apply (in_map fst) in J; auto).
          rewrite offset_total in * by auto.
          assert (E : first_unused_vlan_id vs (m + total_upto (cf_acls c) name) = m + total_upto (cf_acls c) name).
          { eapply least_unique; [apply unused_least|]. split; [lia|]. split; [|intros; lia].
            intros I. destruct U as [_ U]. apply U in I. destruct I as [I|(b & us & B1 & B2 & B3 & B4)].
            - apply I. assert (X1 := upto_self _ _ _ J). assert (X2 := total_filter (fun a => fst a <=? name) (cf_acls c)).
              fold (total_upto (cf_acls c) name) in X2. destruct all; [congruence|]. cbn [length] in X1. lia.
            - destruct (Z.lt_trichotomy name b) as [L|[->|L]]; [|contradiction|].
              + assert (X1 := upto_mono _ _ _ _ L B2). destruct us; [congruence|]. cbn [length] in X1. lia.
              + assert (X1 := upto_mono _ _ _ _ L J). destruct all; [congruence|]. cbn [length] in X1. lia. }
          rewrite E in *. split; auto. split.
          * eapply known_new; eauto. right. exists name, all. split; [left; auto|auto].
          * right. intros t' B B'. rewrite (one _ _ J t' t B JT B' T). rewrite (dict_get_put dst_eqb dst_spec).
            replace (dst_eqb (tn_dst t) (tn_dst t)) with true by (symmetry; apply dst_spec; auto). discriminate.
      - cbn [resolve_vlan] in G. destruct (dict_get Z.eqb w vs) as [[]|] eqn:D; cbn [option_map] in G; [|discriminate G|].
        + injection G as <- <-. split; auto. split; auto. destruct U as [U|U]; auto.
        + destruct (create_vlan vs w) as [vs2|] eqn:C; [|discriminate G]. cbn in G. injection G as <- <-. split; auto.
          assert (W : ~ m < w <= m + total (cf_acls c)) by (destruct (way m top) as [_ W]; eapply W; eauto).
          split; [eapply known_new; eauto|]. destruct U as [U|U]; [left; eapply known_new; eauto|right; auto].
      - cbn [resolve_vlan] in G. destruct (dict_get Z.eqb s (cf_names c)) as [w|] eqn:D1; [|discriminate G].
        destruct (dict_get Z.eqb w vs) as [[]|] eqn:D; cbn [option_map] in G; [|discriminate G|discriminate G].
        injection G as <- <-. split; auto. split; auto. destruct U as [U|U]; auto. }
    destruct X as [[K1 U1] V]. apply (IH done) in H; auto; [|intros x X; apply S; right; auto].
    destruct H as (A & new & -> & F). split; auto. exists ((name, t, v) :: new). rewrite <- app_assoc. split; auto.
    cbn [map plan snd]. rewrite <- V. f_equal. auto.
Qed.
Lemma plan_acls : forall order seen vs l vs' l', known vs seen ->
  (forall n ts, In n seen -> In (n, ts) (cf_acls c) -> map (fun x => Some (snd x)) (ids_of l n) = plan c m n [] ts) ->
  (forall x, In x l -> In (fst (fst x)) seen) ->
  resolve_acls c order seen vs l = Some (vs', l') ->
  forall n ts, In n seen \/ In n order -> In (n, ts) (cf_acls c) -> map (fun x => Some (snd x)) (ids_of l' n) = plan c m n [] ts.
Proof.
  induction order as [|a order IH]; intros seen vs l vs' l' K P S H n ts I J; cbn [resolve_acls] in H.
  - injection H as <- <-. destruct I as [I|[]]. auto.
  - destruct (dict_get Z.eqb a (cf_acls c)) as [us|] eqn:G; [|discriminate H]. destruct (mem Z.eqb a seen) eqn:M.
    + apply memz in M. eapply IH; eauto. destruct I as [I|[<-|I]]; auto.
    + apply memz_false in M. destruct (resolve_tunnels c a us vs [] l) as [[vs1 l1]|] eqn:R; [|discriminate H].
      assert (JA := G). apply (dict_get_in Z.eqb zspec) in JA.
      assert (R' := R). apply (plan_tunnels a us us seen) in R; auto; [|apply incl_refl|eapply known_mono; [|exact K]; intros y Y; right; auto].
      destruct R as (K1 & new & -> & F).
      assert (FN : map fst new = map (fun t => (a, t)) us).
      { clear - R'. revert vs l new vs1 R'. generalize (@nil (dst * Z)). induction us as [|t us IH]; intros dsts vs l new vs1 R; cbn [resolve_tunnels] in R.
        - injection R as <- E. rewrite <- (app_nil_r l) in E at 1. apply app_inv_head in E. subst. auto.
        - destruct (get_tunnel_vlan c a vs dsts t) as [[vs2 v]|]; [|discriminate R].
          assert (Q : exists new', new = (a, t, v) :: new').
          { assert (Y : forall us vs dsts l x, resolve_tunnels c a us vs dsts l = Some x -> exists e, snd x = l ++ e).
            { clear. induction us as [|t us IH]; intros vs dsts l x H; cbn [resolve_tunnels] in H; [injection H as <-; exists []; rewrite app_nil_r; auto|].
              destruct (get_tunnel_vlan c a vs dsts t) as [[vs2 v]|]; [|discriminate H]. apply IH in H. destruct H as (e & ->). rewrite <- app_assoc. eauto. }
            apply Y in R. destruct R as (e & R). cbn [snd] in R. rewrite <- app_assoc in R. apply app_inv_head in R. exists e. auto. }
          destruct Q as (new' & ->). cbn. f_equal. apply (IH (dict_put dst_eqb (tn_dst t) v dsts) vs2 (l ++ [(a, t, v)]) new' vs1). rewrite <- app_assoc. exact R. }
      assert (O : forall n', ids_of (l ++ new) n' = ids_of l n' ++ ids_of new n') by (intros; unfold ids_of; rewrite filter_app, map_app; auto).
      assert (Own : forall n' , ids_of new n' = if n' =? a then map (fun x => (snd (fst x), snd x)) new else []).
      { intros n'. clear - FN. revert us FN. induction new as [|[[a' t] v] new IH]; intros us FN; [destruct (n' =? a); auto|]. destruct us as [|u us]; [discriminate FN|].
        cbn in FN. injection FN as -> -> FN. specialize (IH us FN). unfold ids_of in *. cbn [filter fst snd]. rewrite (Z.eqb_sym a n').
        destruct (n' =? a); cbn [map fst snd]; [rewrite IH; auto|exact IH]. }
      eapply (IH (a :: seen)); eauto.
      * intros n' ts' I' J'. rewrite O, Own. destruct (Z.eqb_spec n' a) as [->|NE].
        -- assert (Z1 : ids_of l a = []).
           { unfold ids_of. replace (filter (fun x => fst (fst x) =? a) l) with (@nil (Z * tunnel * Z)); auto. symmetry. clear - S M.
             induction l as [|x l IHl]; auto. cbn. destruct (Z.eqb_spec (fst (fst x)) a) as [E|]; [exfalso; apply M; rewrite <- E; apply S; left; auto|].
             apply IHl. intros y Y. apply S. right; auto. }
           rewrite Z1. cbn [app]. rewrite map_map. cbn [snd]. rewrite F. f_equal.
           apply (dict_in_get Z.eqb zspec) in J'; auto. congruence.
        -- rewrite app_nil_r. apply P; auto. destruct I' as [I'|I']; [congruence|auto].
      * intros x X. apply in_app_or in X. destruct X as [X|X]; [right; auto|]. left. apply (in_map fst) in X. rewrite FN in X. apply in_map_iff in X.
        destruct X as (t & <- & _). auto.
      * cbn. destruct I as [I|[<-|I]]; auto.
Qed.
End Agree.

Lemma some_inj : forall (a b : list (tunnel * Z)), map fst a = map fst b -> map (fun x => Some (snd x)) a = map (fun x => Some (snd x)) b -> a = b.
Proof.
  induction a as [|[t v] a IH]; intros [|[t' v'] b] E F; cbn in *; try discriminate E; auto. injection E as -> E. injection F as -> F. f_equal. auto.
Qed.
(** Datapaths with the same ACLs and VLANs give every tunnel the same VLAN, whatever
    order they resolve ACLs in, if no ACL leaves more than one VLAN to be chosen and
    given VLANs are out of the way. *)
Theorem C66_agree : forall c vs1 vs2 order1 order2 e1 e2 l1 l2,
  NoDup (map fst (cf_acls c)) -> NoDup (map fst vs1) -> NoDup (map fst vs2) -> (forall x, In x vs1 <-> In x vs2) ->
  (exists m, highest vs1 m) -> (forall name ts, In (name, ts) (cf_acls c) -> one_choice ts) -> out_of_the_way c vs1 ->
  resolve_acls c order1 [] vs1 [] = Some (e1, l1) -> resolve_acls c order2 [] vs2 [] = Some (e2, l2) ->
  forall name, In name order1 -> In name order2 -> ids_of l1 name = ids_of l2 name.
Proof.
  intros c vs1 vs2 order1 order2 e1 e2 l1 l2 N1 M1 M2 SAME (m & HM) ONE WAY H1 H2 name I1 I2.
  assert (HM2 : highest vs2 m).
  { destruct HM as [A B]. split; [apply SAME; auto|]. intros v V. apply B. apply SAME. auto. }
  assert (WAY2 : out_of_the_way c vs2).
  { intros m' HM'. assert (m' = m) by (eapply highest_unique; eauto). subst m'. destruct (WAY m HM) as [W1 W2]. split; auto.
    intros x X. apply W1. apply SAME. auto. }
  assert (KN : forall vs, highest vs m -> out_of_the_way c vs -> known c m vs []).
  { intros vs HV WV. split; auto. intros x X. left. apply in_map_iff in X. destruct X as ([x' b] & <- & X). cbn [fst].
    destruct b; [apply WV; auto|]. destruct HV as [_ B]. apply B in X. lia. }
  assert (JN : exists ts, In (name, ts) (cf_acls c)).
  { clear - H1 I1. revert H1. generalize (@nil Z) vs1 (@nil (Z * tunnel * Z)). induction order1 as [|a order1 IH]; [destruct I1|]. intros seen vs l H. cbn [resolve_acls] in H.
    destruct (dict_get Z.eqb a (cf_acls c)) as [ts|] eqn:G; [|discriminate H]. destruct I1 as [->|I1]; [exists ts; apply (dict_get_in Z.eqb zspec); auto|].
    destruct (mem Z.eqb a seen); [eapply IH; eauto|]. destruct (resolve_tunnels c a ts vs [] l) as [[vs' l']|]; [|discriminate H]. eapply IH; eauto. }
  destruct JN as (ts & JN). apply some_inj.
  - rewrite (C36_complete _ _ _ _ _ N1 M1 H1 name ts I1 JN), (C36_complete _ _ _ _ _ N1 M2 H2 name ts I2 JN). auto.
  - rewrite (plan_acls c vs1 m N1 ONE WAY HM order1 [] vs1 [] e1 l1) with (ts := ts); auto; try (intros ? ? []; fail); try (intros ? []; fail).
    rewrite (plan_acls c vs2 m N1 ONE WAY2 HM2 order2 [] vs2 [] e2 l2) with (ts := ts); auto; try (intros ? ? []; fail); try (intros ? []; fail).
Qed.
Print Assumptions C66_agree.

(** ** Examples and findings *)
Definition ex_tunnel (d : Z) : tunnel := mkTunnel (d, Some 1) NoId.
Definition ex_vlans : vlans := [(100, false); (200, false)].
(** three ACLs, one tunnel each, resolved in different orders *)
Definition ex_config : config := mkConfig [(1, [ex_tunnel 1]); (2, [ex_tunnel 2; mkTunnel (3, None) (Vid 1000)]); (3, [ex_tunnel 1; ex_tunnel 1])] [].
Example C66_example :
  NoDup (map fst (cf_acls ex_config)) /\ NoDup (map fst ex_vlans) /\ highest ex_vlans 200 /\
  (forall name ts, In (name, ts) (cf_acls ex_config) -> one_choice ts) /\ out_of_the_way ex_config ex_vlans /\
  option_map (fun r => map snd (snd r)) (resolve_acls ex_config [1; 2; 3] [] ex_vlans []) = Some [201; 203; 1000; 205; 205] /\
  option_map (fun r => map snd (snd r)) (resolve_acls ex_config [3; 3; 2; 1] [] ex_vlans []) = Some [205; 205; 203; 1000; 201] /\
  (exists l1 l2, option_map snd (resolve_acls ex_config [1; 2; 3] [] ex_vlans []) = Some (l1 ++ (2, ex_tunnel 2, 203) :: l2) /\ chosen l1 2 (ex_tunnel 2)).
Proof.
  split; [repeat constructor; cbn; intuition lia|]. split; [repeat constructor; cbn; intuition lia|]. split.
  { split; [cbn; auto|]. intros v [H|[H|[]]]; injection H as <-; lia. }
  split.
  { intros name ts I t t' J J' E E'. cbn in I. repeat (destruct I as [I|I]; [injection I as <- <-; cbn in J, J'; 
      repeat (destruct J as [<-|J]; try discriminate E); repeat (destruct J' as [<-|J']; try discriminate E'); auto; try (destruct J); try (destruct J')|]). destruct I. }
  split.
  { intros m [M1 M2]. assert (m = 200). { assert (X := M2 200). cbn in X, M1. destruct M1 as [M1|[M1|[]]]; injection M1 as <-; auto. exfalso. assert (200 <= 100) by auto. lia. }
    subst m. split; [intros x [H|[H|[]]]; discriminate H|]. intros name ts t x I J E. cbn in I. vm_compute.
    repeat (destruct I as [I|I]; [injection I as <- <-; cbn in J; repeat (destruct J as [<-|J]; try discriminate E); try (injection E as <-; intros [_ A]; apply A; reflexivity); try (destruct J)|]). destruct I. }
  split; [vm_compute; reflexivity|]. split; [vm_compute; reflexivity|].
  exists [(1, ex_tunnel 1, 201)]. eexists. split; [vm_compute; reflexivity|]. split; [reflexivity|]. intros t' v' [H|[]]. discriminate H.
Qed.

(** Finding: an ACL with two tunnels and another with one; a datapath that resolves
    the second ACL first (it is on a port of its own) gives its tunnel and one of the
    others different VLANs, so that what one datapath sends into a tunnel the next
    takes for another tunnel. *)
Definition ex_two : config := mkConfig [(1, [ex_tunnel 1; ex_tunnel 2]); (2, [ex_tunnel 3])] [].
Theorem C66_disagree_refuted : exists c vs order1 order2 e1 e2 l1 l2 t t' v,
  NoDup (map fst (cf_acls c)) /\ NoDup (map fst vs) /\ (forall x, In x order1 <-> In x order2) /\
  resolve_acls c order1 [] vs [] = Some (e1, l1) /\ resolve_acls c order2 [] vs [] = Some (e2, l2) /\
  In (1, t, v) l1 /\ In (2, t', v) l2 /\ tn_dst t <> tn_dst t'.
Proof.
  exists ex_two, ex_vlans, [1; 2], [2; 1]. do 4 eexists. exists (ex_tunnel 2), (ex_tunnel 3), 203.
  split; [repeat constructor; cbn; intuition lia|]. split; [repeat constructor; cbn; intuition lia|]. split; [intros x; cbn; tauto|].
  split; [vm_compute; reflexivity|]. split; [vm_compute; reflexivity|]. split; [cbn; auto|]. split; [cbn; auto|]. discriminate.
Qed.
Print Assumptions C66_disagree_refuted.
(** Finding: a VLAN ID given for a tunnel may be the one chosen for another tunnel
    before. *)
Theorem C36_given_collides_refuted : exists c vs order e l n1 t1 n2 t2 v,
  resolve_acls c order [] vs [] = Some (e, l) /\ In (n1, t1, v) l /\ In (n2, t2, v) l /\ n1 <> n2 /\ tn_dst t1 <> tn_dst t2.
Proof.
  exists (mkConfig [(1, [ex_tunnel 1]); (2, [mkTunnel (2, None) (Vid 201)])] []), ex_vlans, [1; 2]. do 2 eexists.
  exists 1, (ex_tunnel 1), 2, (mkTunnel (2, None) (Vid 201)), 201. split; [vm_compute; reflexivity|]. split; [cbn; auto|]. split; [cbn; auto|]. split; discriminate.
Qed.
Print Assumptions C36_given_collides_refuted.
