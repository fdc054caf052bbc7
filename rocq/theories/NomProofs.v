(** * Lemmas on LAGs over several switches *)

From Coq Require Import ZArith List Bool Lia Permutation Sorted.
From Verif Require Import PyBase PyBaseProofs L2Model NomModel NomSpec.
Import ListNotations.
Open Scope Z_scope.

(** ** LAGs *)

Lemma lags_nodup_step : forall l d, NoDup (map fst d) ->
  NoDup (map fst (fold_left (fun d p => dict_put Z.eqb (np_lag p)
                    (match dict_get Z.eqb (np_lag p) d with Some l => l ++ [p] | None => [p] end) d) l d)).
Proof.
  induction l as [|p l IH]; intros d H; cbn [fold_left]; [exact H|].
  apply IH. apply dict_put_nodup; [apply Z.eqb_eq|exact H].
Qed.
Definition of_lag (lag : Z) (l : list nport) : list nport := filter (fun p => np_lag p =? lag) l.
Lemma lags_get_step : forall l d lag, 
  dict_get Z.eqb lag (fold_left (fun d p => dict_put Z.eqb (np_lag p)
                    (match dict_get Z.eqb (np_lag p) d with Some l => l ++ [p] | None => [p] end) d) l d)
  = match dict_get Z.eqb lag d with
    | Some l0 => Some (l0 ++ of_lag lag l)
    | None => match of_lag lag l with [] => None | l0 => Some l0 end
    end.
Proof.
  induction l as [|p l IH]; intros d lag; cbn [fold_left].
  - cbn. destruct (dict_get Z.eqb lag d); [rewrite app_nil_r|]; reflexivity.
  - rewrite IH. rewrite dict_get_put by apply Z.eqb_eq. cbn [of_lag filter].
    rewrite (Z.eqb_sym lag). destruct (np_lag p =? lag) eqn:E.
    + apply Z.eqb_eq in E. rewrite E. destruct (dict_get Z.eqb lag d) as [l0|]; cbn.
      * rewrite <- app_assoc. reflexivity.
      * reflexivity.
    + reflexivity.
Qed.
Lemma lags_get : forall l lag, dict_get Z.eqb lag (lags l) = match of_lag lag l with [] => None | l0 => Some l0 end.
Proof. intros. unfold lags. rewrite lags_get_step. reflexivity. Qed.

Lemma lags_up_count : forall st s lag, lag <> 0 ->
  match dict_get Z.eqb lag (lags_up st s) with Some l => length l = up_count st lag s /\ (0 < length l)%nat | None => up_count st lag s = 0%nat end.
Proof.
  intros st s lag Hl. unfold lags_up. rewrite lags_get.
  assert (E : of_lag lag (filter (is_actor_up st s) (lacp_ports s))
              = filter (fun p => (np_lag p =? lag) && is_actor_up st s p) (ns_ports s)).
  { unfold of_lag, lacp_ports. induction (ns_ports s) as [|p l IH]; cbn [filter]; [reflexivity|].
    destruct (np_lag p =? 0) eqn:E0; cbn [negb].
    - apply Z.eqb_eq in E0. rewrite E0. rewrite (proj2 (Z.eqb_neq 0 lag)) by congruence. exact IH.
    - cbn [filter]. destruct (is_actor_up st s p); cbn [filter]; destruct (np_lag p =? lag); cbn [andb]; rewrite IH; reflexivity. }
  rewrite E. unfold up_count. unfold is_actor_up.
  destruct (filter _ (ns_ports s)); cbn; [reflexivity|]. split; [reflexivity|lia].
Qed.

(** ** Counting *)

Definition has_nosync (st : nstate) (s : nswitch) : Prop := lags_nosync st s <> [].

Lemma setdefault_get : forall (l : list (Z * list nport)) k d x,
  dict_get Z.eqb x (fold_left (fun d' _ => match dict_get Z.eqb k d' with Some _ => d' | None => dict_put Z.eqb k 0 d' end) l d)
  = match dict_get Z.eqb x d with
    | Some n => Some n
    | None => if (x =? k) && negb (match l with [] => true | _ => false end) then Some 0 else None
    end.
Proof.
  induction l as [|a l IH]; intros k d x; cbn [fold_left].
  - destruct (dict_get Z.eqb x d); [reflexivity|]. rewrite andb_false_r. reflexivity.
  - rewrite IH. destruct (dict_get Z.eqb k d) as [n|] eqn:E.
    + destruct (dict_get Z.eqb x d) eqn:Ex; [reflexivity|]. destruct (x =? k) eqn:Exk; [|reflexivity].
      apply Z.eqb_eq in Exk. congruence.
    + rewrite dict_get_put by apply Z.eqb_eq. destruct (x =? k) eqn:Exk.
      * apply Z.eqb_eq in Exk. subst x. rewrite E. reflexivity.
      * destruct (dict_get Z.eqb x d); reflexivity.
Qed.
Lemma setdefault_nodup : forall (l : list (Z * list nport)) k d, NoDup (map fst d) ->
  NoDup (map fst (fold_left (fun d' _ => match dict_get Z.eqb k d' with Some _ => d' | None => dict_put Z.eqb k 0 d' end) l d)).
Proof.
  induction l as [|a l IH]; intros k d H; cbn [fold_left]; [exact H|]. apply IH.
  destruct (dict_get Z.eqb k d); [exact H|]. apply dict_put_nodup; [apply Z.eqb_eq|exact H].
Qed.

Lemma count_ports_nodup : forall st lag s d, NoDup (map fst d) -> NoDup (map fst (count_ports st lag d s)).
Proof.
  intros st lag s d H. unfold count_ports. apply setdefault_nodup.
  destruct (dict_get Z.eqb lag (lags_up st s)); [apply dict_put_nodup; [apply Z.eqb_eq|]|]; exact H.
Qed.
Lemma count_ports_get : forall st lag s d x, lag <> 0 -> dict_get Z.eqb (ns_dpid s) d = None ->
  dict_get Z.eqb x (count_ports st lag d s)
  = if x =? ns_dpid s then
      (if Nat.eqb (up_count st lag s) 0
       then (match lags_nosync st s with [] => None | _ => Some 0 end)
       else Some (Z.of_nat (up_count st lag s)))
    else dict_get Z.eqb x d.
Proof.
  intros st lag s d x Hl H. unfold count_ports. rewrite setdefault_get.
  pose proof (lags_up_count st s lag Hl) as L. destruct (dict_get Z.eqb lag (lags_up st s)) as [l|] eqn:E.
  - destruct L as [L1 L2]. rewrite dict_get_put by apply Z.eqb_eq. rewrite L1 in *.
    destruct (x =? ns_dpid s) eqn:Ex.
    + rewrite (proj2 (Nat.eqb_neq _ 0)) by lia. reflexivity.
    + destruct (dict_get Z.eqb x d); reflexivity.
  - rewrite L. cbn [Nat.eqb]. destruct (x =? ns_dpid s) eqn:Ex.
    + apply Z.eqb_eq in Ex. subst x. rewrite H. destruct (lags_nosync st s); reflexivity.
    + destruct (dict_get Z.eqb x d); reflexivity.
Qed.

Lemma count_all_nodup : forall st lag all d, NoDup (map fst d) -> NoDup (map fst (fold_left (count_ports st lag) all d)).
Proof. induction all as [|s all IH]; intros d H; cbn [fold_left]; [exact H|]. apply IH, count_ports_nodup, H. Qed.
Lemma count_all_other : forall st lag all d x, lag <> 0 -> NoDup (map ns_dpid all) ->
  (forall s, In s all -> dict_get Z.eqb (ns_dpid s) d = None) -> ~ In x (map ns_dpid all) ->
  dict_get Z.eqb x (fold_left (count_ports st lag) all d) = dict_get Z.eqb x d.
Proof.
  induction all as [|s all IH]; intros d x Hl Hn Hd Hx; cbn [fold_left]; [reflexivity|].
  cbn in Hn, Hx. inversion Hn as [|? ? Hs Hn']; subst.
  rewrite IH; auto.
  - rewrite count_ports_get by (auto; apply Hd; left; reflexivity).
    rewrite (proj2 (Z.eqb_neq x (ns_dpid s))); [reflexivity|]. intros E; apply Hx; left; congruence.
  - intros t Ht. rewrite count_ports_get by (auto; apply Hd; left; reflexivity).
    rewrite (proj2 (Z.eqb_neq (ns_dpid t) (ns_dpid s))); [apply Hd; right; exact Ht|].
    intros E; apply Hs. rewrite <- E. apply in_map, Ht.
Qed.
Lemma count_all_get : forall st lag all d s, lag <> 0 -> NoDup (map ns_dpid all) ->
  (forall s, In s all -> dict_get Z.eqb (ns_dpid s) d = None) -> In s all ->
  dict_get Z.eqb (ns_dpid s) (fold_left (count_ports st lag) all d)
  = (if Nat.eqb (up_count st lag s) 0
     then (match lags_nosync st s with [] => None | _ => Some 0 end)
     else Some (Z.of_nat (up_count st lag s))).
Proof.
  induction all as [|t all IH]; intros d s Hl Hn Hd Hs; cbn [fold_left]; [contradiction|].
  cbn in Hn. inversion Hn as [|? ? Ht Hn']; subst. destruct Hs as [->|Hs].
  - rewrite count_all_other; auto.
    + rewrite count_ports_get by (auto; apply Hd; left; reflexivity). rewrite Z.eqb_refl. reflexivity.
    + intros u Hu. rewrite count_ports_get by (auto; apply Hd; left; reflexivity).
      rewrite (proj2 (Z.eqb_neq (ns_dpid u) (ns_dpid s))); [apply Hd; right; exact Hu|].
      intros E; apply Ht. rewrite <- E. apply in_map, Hu.
  - apply IH; auto. intros u Hu. rewrite count_ports_get by (auto; apply Hd; left; reflexivity).
    rewrite (proj2 (Z.eqb_neq (ns_dpid u) (ns_dpid t))); [apply Hd; right; exact Hu|].
    intros E; apply Ht. rewrite <- E. apply in_map, Hu.
Qed.

Section Nominate.
  Variables (st : nstate) (lag : Z) (all : list nswitch).
  Hypothesis Hlag : lag <> 0.
  Hypothesis Hn : NoDup (map ns_dpid all).
  Let ports := fold_left (count_ports st lag) all [].

  Lemma ports_nodup : NoDup (map fst ports).
  Proof. apply count_all_nodup. constructor. Qed.
  Lemma ports_key : forall k, In k (map fst ports) -> exists s, In s all /\ ns_dpid s = k.
  Proof.
    intros k Hk. destruct (in_dec Z.eq_dec k (map ns_dpid all)) as [H|H].
    - apply in_map_iff in H. destruct H as [s [E Hs]]. exists s. auto.
    - exfalso. assert (E : dict_get Z.eqb k ports = None)
        by exact (count_all_other st lag all [] k Hlag Hn (fun _ _ => eq_refl) H).
      apply in_map_iff in Hk. destruct Hk as [[k' v] [Ek Hkv]]. cbn in Ek. subst k'.
      apply (dict_in_get Z.eqb Z.eqb_eq) in Hkv; [|apply ports_nodup]. congruence.
  Qed.
  Lemma ports_value : forall s n, In s all -> In (ns_dpid s, n) ports -> n = Z.of_nat (up_count st lag s).
  Proof.
    intros s n Hs H. apply (dict_in_get Z.eqb Z.eqb_eq) in H; [|apply ports_nodup].
    unfold ports in H. rewrite count_all_get in H; auto.
    destruct (Nat.eqb (up_count st lag s) 0) eqn:E.
    - apply Nat.eqb_eq in E. rewrite E. destruct (lags_nosync st s); [discriminate|]. inversion H. reflexivity.
    - congruence.
  Qed.
  Lemma ports_up : forall s, In s all -> (0 < up_count st lag s)%nat -> In (ns_dpid s, Z.of_nat (up_count st lag s)) ports.
  Proof.
    intros s Hs H. apply (dict_get_in Z.eqb Z.eqb_eq). unfold ports. rewrite count_all_get; auto.
    rewrite (proj2 (Nat.eqb_neq _ 0)) by lia. reflexivity.
  Qed.
  Lemma get0_ports : forall s, In s all -> get0 (ns_dpid s) ports = Z.of_nat (up_count st lag s).
  Proof.
    intros s Hs. unfold get0. destruct (dict_get Z.eqb (ns_dpid s) ports) as [n|] eqn:E.
    - apply (dict_get_in Z.eqb Z.eqb_eq) in E. apply ports_value; auto.
    - unfold ports in E. rewrite count_all_get in E; auto.
      destruct (Nat.eqb (up_count st lag s) 0) eqn:E0; [|discriminate]. apply Nat.eqb_eq in E0. rewrite E0. reflexivity.
  Qed.

  Lemma root_dpid_get_ : forall l r, (forall s, In s l -> True) ->
    fold_left (fun r s => if is_root st s then Some (ns_dpid s) else r) l r
    = match find (is_root st) (rev l) with Some s => Some (ns_dpid s) | None => r end.
  Proof.
    induction l as [|s l IH]; intros r H; cbn [fold_left]; [reflexivity|].
    rewrite IH by auto. cbn [rev].
    assert (F : forall (f : nswitch -> bool) a b, find f (a ++ b) = match find f a with Some x => Some x | None => find f b end).
    { intros f a b. induction a as [|x a IHa]; cbn; [reflexivity|]. destruct (f x); auto. }
    rewrite F. destruct (find (is_root st) (rev l)); [reflexivity|]. cbn. destruct (is_root st s); reflexivity.
  Qed.
  Lemma root_dpid_some : forall r, root_dpid st all = Some r -> st_root st = Some r /\ exists s, In s all /\ ns_dpid s = r.
  Proof.
    intros r H. unfold root_dpid in H. rewrite root_dpid_get_ in H by auto.
    destruct (find (is_root st) (rev all)) as [s|] eqn:E; [|discriminate]. inversion H; subst.
    apply find_some in E. destruct E as [E1 E2]. apply in_rev in E1. unfold is_root in E2.
    destruct (st_root st) as [r|]; [|discriminate]. apply Z.eqb_eq in E2. subst. split; [reflexivity|]. exists s; auto.
  Qed.
  Lemma root_dpid_of : forall s, In s all -> st_root st = Some (ns_dpid s) -> root_dpid st all = Some (ns_dpid s).
  Proof.
    intros s Hs H. unfold root_dpid. rewrite root_dpid_get_ by auto.
    destruct (find (is_root st) (rev all)) as [t|] eqn:E.
    - apply find_some in E. destruct E as [_ E]. unfold is_root in E. rewrite H in E. apply Z.eqb_eq in E. congruence.
    - pose proof (find_none _ _ E s (proj1 (in_rev _ _) Hs)) as X. unfold is_root in X. rewrite H, Z.eqb_refl in X. discriminate.
  Qed.

  (** the switch with the most ports up, or the root if none has more *)
  Definition chosen_of (s : nswitch) : Prop :=
    In s all /\ forall t, In t all -> t <> s ->
      (up_count st lag t < up_count st lag s)%nat
      \/ (up_count st lag t = up_count st lag s /\ st_root st = Some (ns_dpid s)).

  Lemma pair_le_total : forall a b, pair_le a b = true \/ pair_le b a = true.
  Proof. intros [a1 a2] [b1 b2]. unfold pair_le; cbn. lia. Qed.
  Lemma pair_le_trans : forall a b c, pair_le a b = true -> pair_le b c = true -> pair_le a c = true.
  Proof. intros [a1 a2] [b1 b2] [c1 c2]. unfold pair_le; cbn. lia. Qed.

  Lemma nominate_of_chosen : forall s0 s, In s0 all -> (0 < up_count st lag s0)%nat -> In s all ->
    (nominate_of st lag all = One (ns_dpid s) <-> (0 < up_count st lag s)%nat /\ chosen_of s).
  Proof.
    intros s0 s Hs0 Hup Hs. unfold nominate_of. fold ports.
    set (key := fun k => (get0 k ports, get0 k (fold_left (count_nosync st) all []))).
    cbv zeta. set (srt := py_sorted _ (map fst ports)).
    assert (Sorted_ : StronglySorted (fun a b => pair_le (key b) (key a) = true) srt)
      by exact (py_sorted_sorted (fun a b => pair_le (key b) (key a)) (fun a b => pair_le_total (key b) (key a))
                  (fun a b c X Y => pair_le_trans (key c) (key b) (key a) Y X) (map fst ports)).
    assert (In_ : forall x, In x srt <-> In x (map fst ports)) by (intros x; apply py_sorted_in).
    clearbody srt.
    destruct srt as [|m rest].
    - exfalso. apply (In_ (ns_dpid s0)). apply in_map_iff. exists (ns_dpid s0, Z.of_nat (up_count st lag s0)).
      split; [reflexivity|]. apply ports_up; auto.
    - assert (Hm : In m (map fst ports)) by (apply In_; left; reflexivity).
      destruct (ports_key m Hm) as [sm [Hsm Em]].
      assert (Max : forall t, In t all -> (up_count st lag t <= up_count st lag sm)%nat).
      { intros t Ht. destruct (Nat.eq_dec (up_count st lag t) 0) as [Z0|NZ]; [lia|].
        assert (Hk : In (ns_dpid t) (m :: rest)).
        { apply In_. apply in_map_iff. exists (ns_dpid t, Z.of_nat (up_count st lag t)). split; [reflexivity|].
          apply ports_up; auto. lia. }
        destruct Hk as [Hk|Hk].
        - assert (t = sm); [|subst; lia]. apply (NoDup_map_inj_in _ _ ns_dpid all); auto. congruence.
        - inversion Sorted_ as [|? ? _ F]; subst. rewrite Forall_forall in F. specialize (F _ Hk).
          unfold pair_le, key in F. cbn in F. rewrite !get0_ports in F by auto. lia. }
      assert (Pos : (0 < up_count st lag sm)%nat) by (specialize (Max s0 Hs0); lia).
      rewrite <- Em. rewrite get0_ports by auto.
      set (mosts := map fst (filter (fun kv => snd kv =? Z.of_nat (up_count st lag sm)) ports)).
      assert (Hmosts : forall k, In k mosts <-> exists t, In t all /\ ns_dpid t = k /\ up_count st lag t = up_count st lag sm).
      { intros k. unfold mosts. rewrite in_map_iff. split.
        - intros [[k' v] [Ek H]]. cbn in Ek. subst k'. apply filter_In in H. destruct H as [H E]. cbn in E.
          apply Z.eqb_eq in E. subst v. destruct (ports_key k) as [t [Ht Et]]; [apply in_map_iff; eexists; split; [|exact H]; reflexivity|].
          exists t. repeat split; auto. subst k. apply ports_value in H; auto. lia.
        - intros [t [Ht [Et Ec]]]. exists (k, Z.of_nat (up_count st lag sm)). split; [reflexivity|]. apply filter_In. split.
          + rewrite <- Ec, <- Et. apply ports_up; auto. lia.
          + cbn. apply Z.eqb_refl. }
      assert (Nmosts : NoDup mosts).
      { unfold mosts. pose proof ports_nodup as N. clear -N.
        induction ports as [|x l IH]; cbn; [constructor|]. cbn in N. inversion N; subst.
        destruct (snd x =? _); cbn; auto. constructor; auto. intros H. apply H1.
        apply in_map_iff in H. destruct H as [y [E H]]. apply filter_In in H. rewrite <- E. apply in_map, H. }
      assert (Msm : In (ns_dpid sm) mosts) by (apply Hmosts; exists sm; auto).
      assert (Same : forall t u, In t all -> In u all -> ns_dpid t = ns_dpid u -> t = u)
        by (intros; apply (NoDup_map_inj_in _ _ ns_dpid all); auto).
      destruct (Nat.ltb 1 (length mosts)) eqn:El.
      + apply Nat.ltb_lt in El.
        assert (Two : exists t, In t all /\ t <> sm /\ up_count st lag t = up_count st lag sm).
        { destruct mosts as [|a [|b r]]; cbn in El; try lia.
          assert (Hab : a <> b) by (inversion Nmosts as [|? ? Hx]; intros ->; apply Hx; left; reflexivity).
          destruct (Z.eq_dec a (ns_dpid sm)) as [Ea|Ea].
          - destruct (proj1 (Hmosts b)) as [t [Ht [Et Ec]]]; [right; left; reflexivity|]. exists t. repeat split; auto. congruence.
          - destruct (proj1 (Hmosts a)) as [t [Ht [Et Ec]]]; [left; reflexivity|]. exists t. repeat split; auto. congruence. }
        assert (R : forall r, root_dpid st all = Some r -> In r mosts -> (One r = One (ns_dpid s) <-> (0 < up_count st lag s)%nat /\ chosen_of s)).
        { intros r Hr Hin. destruct (root_dpid_some r Hr) as [Er [u [Hu Eu]]].
          apply Hmosts in Hin. destruct Hin as [t [Ht [Et Ec]]].
          split.
          - intros E. inversion E; subst. assert (t = s) by (apply Same; congruence). subst t.
            split; [lia|]. split; [exact Hs|]. intros v Hv Hne. specialize (Max v Hv).
            destruct (Nat.eq_dec (up_count st lag v) (up_count st lag s)); [right|left; lia]. split; [assumption|congruence].
          - intros [P [_ C]]. f_equal. destruct Two as [w [Hw [Hne Ew]]].
            assert (Hsame : up_count st lag s = up_count st lag sm).
            { destruct (Z.eq_dec (ns_dpid s) (ns_dpid sm)) as [E|E]; [f_equal; apply Same; auto|].
              specialize (Max s Hs). destruct (C sm Hsm) as [X|[X _]]; [intros X; subst; congruence| |]; lia. }
            assert (Hroot : st_root st = Some (ns_dpid s)).
            { destruct (Z.eq_dec (ns_dpid s) (ns_dpid sm)) as [E|E].
              - assert (s = sm) by (apply Same; auto). subst s. destruct (C w Hw Hne) as [X|[_ X]]; [lia|exact X].
              - destruct (C sm Hsm) as [X|[_ X]]; [intros X; subst; congruence|lia|exact X]. }
            congruence. }
        assert (NR : (forall u, In u all -> st_root st = Some (ns_dpid u) -> up_count st lag u <> up_count st lag sm) ->
                     (Several (py_sorted Z.leb mosts) = One (ns_dpid s) <-> (0 < up_count st lag s)%nat /\ chosen_of s)).
        { intros X. split; [discriminate|]. intros [P [_ C]]. exfalso. destruct Two as [w [Hw [Hne Ew]]].
          destruct (Z.eq_dec (ns_dpid s) (ns_dpid sm)) as [E|E].
          - assert (s = sm) by (apply Same; auto). subst s. destruct (C w Hw Hne) as [Y|[_ Y]]; [lia|]. apply (X sm); auto.
          - destruct (C sm Hsm) as [Y|[Y1 Y2]]; [intros Y; subst; congruence|specialize (Max s Hs); lia|]. apply (X s); auto. }
        destruct (root_dpid st all) as [r|] eqn:Er.
        * destruct (mem Z.eqb r mosts) eqn:Em'.
          -- apply R; [reflexivity|]. apply (mem_spec _ _ Z.eqb_eq). exact Em'.
          -- apply NR. intros u Hu Hroot Hc. rewrite (root_dpid_of u Hu Hroot) in Er. inversion Er; subst.
             assert (mem Z.eqb (ns_dpid u) mosts = true); [|congruence]. apply (mem_spec _ _ Z.eqb_eq). apply Hmosts. exists u; auto.
        * apply NR. intros u Hu Hroot. rewrite (root_dpid_of u Hu Hroot) in Er. discriminate.
      + apply Nat.ltb_ge in El.
        assert (Uniq : forall t, In t all -> up_count st lag t = up_count st lag sm -> t = sm).
        { intros t Ht Ec. assert (Hin : In (ns_dpid t) mosts) by (apply Hmosts; exists t; auto).
          destruct mosts as [|a [|b r]]; [contradiction| |cbn in El; lia].
          destruct Hin as [X|[]]. destruct Msm as [Y|[]]. apply Same; auto. congruence. }
        split.
        * intros E. inversion E as [E']. assert (sm = s) by (apply Same; auto). subst sm. split; [exact Pos|].
          split; [exact Hs|]. intros t Ht Hne. left. specialize (Max t Ht).
          destruct (Nat.eq_dec (up_count st lag t) (up_count st lag s)) as [X|X]; [|lia]. exfalso. apply Hne, Uniq; auto.
        * intros [P [_ C]]. f_equal. destruct (Z.eq_dec (ns_dpid s) (ns_dpid sm)) as [E|E]; [auto|].
          destruct (C sm Hsm) as [X|[X _]]; [intros X; subst; congruence|specialize (Max s Hs); lia|].
          exfalso. apply E. f_equal. apply Uniq; auto.
  Qed.
End Nominate.

(** ** Ports *)

Lemma put2_same : forall A (f : Z -> Z -> A) d p v, put2 f d p v d p = v.
Proof. intros. unfold put2. rewrite !Z.eqb_refl. reflexivity. Qed.
Lemma put2_other : forall A (f : Z -> Z -> A) d p v d' p', (d', p') <> (d, p) -> put2 f d p v d' p' = f d' p'.
Proof.
  intros. unfold put2. destruct (d' =? d) eqn:E1; cbn; [|reflexivity]. destruct (p' =? p) eqn:E2; [|reflexivity].
  apply Z.eqb_eq in E1, E2. congruence.
Qed.

(** No LACP comes up, and what stays up keeps its role. *)
Definition loses (st st' : nstate) : Prop :=
  st_root st' = st_root st
  /\ forall d n, (st_actor st' d n = st_actor st d n /\ st_role st' d n = st_role st d n) \/ st_actor st' d n <> AUp.
Lemma loses_refl : forall st, loses st st.
Proof. intros st. split; [reflexivity|]. intros; left; split; reflexivity. Qed.
Lemma loses_trans : forall a b c, loses a b -> loses b c -> loses a c.
Proof.
  intros a b c [R1 H1] [R2 H2]. split; [congruence|]. intros d n.
  destruct (H2 d n) as [[A2 B2]|N2]; [|right; exact N2]. destruct (H1 d n) as [[A1 B1]|N1].
  - left. split; congruence.
  - right. congruence.
Qed.
Lemma loses_fold : forall A (f : nstate -> A -> nstate), (forall st a, loses st (f st a)) ->
  forall l st, loses st (fold_left f l st).
Proof.
  intros A f H. induction l as [|a l IH]; intros st; cbn [fold_left]; [apply loses_refl|].
  eapply loses_trans; [apply H|apply IH].
Qed.
Lemma lacp_update_loses : forall st s p up now os, loses st (lacp_update st s p up false now os).
Proof.
  intros. split; [reflexivity|]. intros d n. unfold lacp_update. cbn.
  destruct (Z.eq_dec d (ns_dpid s)) as [->|Hd]; [destruct (Z.eq_dec n (np_num p)) as [->|Hp]|].
  - right. rewrite put2_same. unfold next_actor. destruct (port_running st s p); discriminate.
  - left. rewrite !put2_other by congruence. split; reflexivity.
  - left. rewrite !put2_other by congruence. split; reflexivity.
Qed.
Lemma set_phys_loses : forall st d p b, loses st (set_phys st d p b).
Proof. intros. split; [reflexivity|]. intros; left; split; reflexivity. Qed.
Lemma set_running_loses : forall st d b, loses st (set_running st d b).
Proof. intros. split; [reflexivity|]. intros; left; split; reflexivity. Qed.
Lemma port_add_loses : forall s st n, loses st (port_add s st n).
Proof.
  intros. unfold port_add. destruct (find _ _) as [p|]; [|apply loses_refl].
  destruct (_ && _); [|apply set_phys_loses]. eapply loses_trans; [apply set_phys_loses|apply lacp_update_loses].
Qed.
Lemma port_delete_loses : forall s os st n, loses st (port_delete s os st n).
Proof.
  intros. unfold port_delete. destruct (find _ _) as [p|]; [|apply loses_refl].
  destruct (negb _); [|apply set_phys_loses]. eapply loses_trans; [apply set_phys_loses|apply lacp_update_loses].
Qed.
Lemma expire_loses : forall s os now st, loses st (lacp_expire s os now st).
Proof.
  intros. apply loses_fold. intros st' p. unfold expire_port. destruct (st_time _ _ _); [|apply loses_refl].
  destruct (_ >? _); [apply lacp_update_loses|apply loses_refl].
Qed.

(** What is running is changed by connecting and disconnecting only. *)
Definition same_running (st st' : nstate) : Prop := st_running st' = st_running st.
Lemma fold_running : forall A (f : nstate -> A -> nstate), (forall st a, st_running (f st a) = st_running st) ->
  forall l st, st_running (fold_left f l st) = st_running st.
Proof. intros A f H. induction l as [|a l IH]; intros st; cbn [fold_left]; [reflexivity|]. rewrite IH. apply H. Qed.
Lemma port_add_running : forall s st n, st_running (port_add s st n) = st_running st.
Proof. intros. unfold port_add. destruct (find _ _); [|reflexivity]. destruct (_ && _); reflexivity. Qed.
Lemma port_delete_running : forall s os st n, st_running (port_delete s os st n) = st_running st.
Proof. intros. unfold port_delete. destruct (find _ _); [|reflexivity]. destruct (negb _); reflexivity. Qed.
Lemma expire_running : forall s os now st, st_running (lacp_expire s os now st) = st_running st.
Proof.
  intros. apply fold_running. intros st' p. unfold expire_port. destruct (st_time _ _ _); [|reflexivity].
  destruct (_ >? _); reflexivity.
Qed.

(** ** Steps *)

Lemma find_switch : forall cfg s, nwf cfg -> In s cfg -> find (fun t => ns_dpid t =? ns_dpid s) cfg = Some s.
Proof.
  intros cfg s [Hn _] Hs. destruct (find _ cfg) as [t|] eqn:E.
  - apply find_some in E. destruct E as [Ht E]. apply Z.eqb_eq in E. f_equal. apply (NoDup_map_inj_in _ _ ns_dpid cfg); auto.
  - pose proof (find_none _ _ E s Hs) as X. cbn in X. rewrite Z.eqb_refl in X. discriminate.
Qed.
Lemma find_port : forall cfg s p, nwf cfg -> In s cfg -> In p (ns_ports s) ->
  find (fun q => np_num q =? np_num p) (ns_ports s) = Some p.
Proof.
  intros cfg s p [_ Hf] Hs Hp. rewrite Forall_forall in Hf. specialize (Hf s Hs).
  destruct (find _ (ns_ports s)) as [t|] eqn:E.
  - apply find_some in E. destruct E as [Ht E]. apply Z.eqb_eq in E. f_equal. apply (NoDup_map_inj_in _ _ np_num (ns_ports s)); auto.
  - pose proof (find_none _ _ E p Hp) as X. cbn in X. rewrite Z.eqb_refl in X. discriminate.
Qed.
Lemma find_switch_dpid : forall (cfg : nconf) d s, find (fun t => ns_dpid t =? d) cfg = Some s -> In s cfg /\ ns_dpid s = d.
Proof. intros cfg d s H. apply find_some in H. destruct H as [H E]. apply Z.eqb_eq in E. auto. Qed.
Lemma find_port_num : forall (l : list nport) n p, find (fun t => np_num t =? n) l = Some p -> In p l /\ np_num p = n.
Proof. intros l n p H. apply find_some in H. destruct H as [H E]. apply Z.eqb_eq in E. auto. Qed.

(** A step loses, or is about a packet received. *)
Lemma step_cases : forall cfg st e,
  (exists r, e = NRoot r)
  \/ loses st (nstep cfg st e)
  \/ exists d n sync now s p, e = NLacp d n sync now /\ In s cfg /\ ns_dpid s = d /\ In p (ns_ports s) /\ np_num p = n
       /\ np_lag p <> 0 /\ st_running st d = true
       /\ nstep cfg st e = lacp_update st s p sync true (Some now) (others cfg st d).
Proof.
  intros cfg st e. destruct e as [d up|d|d n|d n|d n sync now|d now|r].
  - right; left. cbn. destruct (find _ cfg); [|apply loses_refl].
    eapply loses_trans; [|apply set_running_loses]. apply loses_fold. intros; apply port_add_loses.
  - right; left. cbn. destruct (find _ cfg); [|apply loses_refl].
    eapply loses_trans; [apply set_running_loses|]. apply loses_fold. intros; apply port_delete_loses.
  - right; left. cbn. destruct (find _ cfg); [|apply loses_refl]. destruct (_ && _); [apply port_add_loses|apply loses_refl].
  - right; left. cbn. destruct (find _ cfg); [|apply loses_refl]. destruct (_ && _); [apply port_delete_loses|apply loses_refl].
  - right. cbn. destruct (find _ cfg) as [s|] eqn:Es; [|left; apply loses_refl].
    destruct (st_running st d) eqn:Er; [|left; apply loses_refl].
    destruct (find _ (ns_ports s)) as [p|] eqn:Ep; [|left; apply loses_refl].
    destruct (np_lag p =? 0) eqn:El; [left; apply loses_refl|]. right.
    apply find_switch_dpid in Es. apply find_port_num in Ep. apply Z.eqb_neq in El.
    exists d, n, sync, now, s, p. intuition.
  - right; left. cbn. destruct (find _ cfg); [|apply loses_refl]. destruct (st_running _ _); [apply expire_loses|apply loses_refl].
  - left. exists r. reflexivity.
Qed.

(** ** LACP is up on ports of connected switches only *)

Definition up_running (cfg : nconf) (st : nstate) : Prop :=
  forall s p, In s cfg -> In p (ns_ports s) -> lacp_is_up st s p -> np_lag p <> 0 /\ st_running st (ns_dpid s) = true.

Lemma deleted_down : forall s os l st p, 
  find (fun q => np_num q =? np_num p) (ns_ports s) = Some p -> np_lag p <> 0 ->
  In (np_num p) l -> st_actor (fold_left (port_delete s os) l st) (ns_dpid s) (np_num p) <> AUp.
Proof.
  intros s os l st p Hf Hl. revert st. induction l as [|n l IH]; intros st Hin; [contradiction|].
  cbn [fold_left]. destruct (in_dec Z.eq_dec (np_num p) l) as [X|X]; [apply IH, X|].
  destruct Hin as [->|Hin]; [|contradiction].
  assert (D : st_actor (port_delete s os st (np_num p)) (ns_dpid s) (np_num p) <> AUp).
  { unfold port_delete. rewrite Hf. rewrite (proj2 (Z.eqb_neq _ 0) Hl). cbn [negb].
    unfold lacp_update. cbn. rewrite put2_same. unfold next_actor.
    destruct (port_running _ _ _); discriminate. }
  destruct (loses_fold _ (port_delete s os) (port_delete_loses s os) l (port_delete s os st (np_num p))) as [_ L].
  destruct (L (ns_dpid s) (np_num p)) as [[A _]|N]; [rewrite A; exact D|exact N].
Qed.

Lemma up_running_step : forall cfg st e, nwf cfg -> up_running cfg st -> up_running cfg (nstep cfg st e).
Proof.
  intros cfg st e Hwf H s p Hs Hp Hup.
  assert (NR : st_running (nstep cfg st e) (ns_dpid s) = st_running st (ns_dpid s) \/
               st_running (nstep cfg st e) (ns_dpid s) = true \/ e = NDisconnect (ns_dpid s)).
  { destruct e as [d up|d|d n|d n|d n sync now|d now|r]; cbn; try (left; reflexivity);
      destruct (find _ cfg) as [s'|] eqn:Es; try (left; reflexivity).
    - cbn [set_running st_running]. destruct (ns_dpid s =? d) eqn:E; [right; left; reflexivity|left].
      rewrite (fold_running _ (port_add s')); [reflexivity|]. intros; apply port_add_running.
    - rewrite (fold_running _ (port_delete s' [])) by (intros; apply port_delete_running). cbn.
      destruct (ns_dpid s =? d) eqn:E; [right; right; apply Z.eqb_eq in E; congruence|left; reflexivity].
    - left. destruct (_ && _); [apply (f_equal (fun f => f (ns_dpid s)) (port_add_running s' st n))|reflexivity].
    - left. destruct (_ && _); [apply (f_equal (fun f => f (ns_dpid s)) (port_delete_running s' (others cfg st d) st n))|reflexivity].
    - left. destruct (st_running st d); [|reflexivity]. destruct (find _ (ns_ports s')) as [p'|]; [|reflexivity].
      destruct (np_lag p' =? 0); reflexivity.
    - left. destruct (st_running st d); [|reflexivity]. apply (f_equal (fun f => f (ns_dpid s)) (expire_running s' (others cfg st d) now st)). }
  destruct (step_cases cfg st e) as [[r ->]|[L|L]].
  - apply H; auto.
  - destruct L as [_ L]. destruct (L (ns_dpid s) (np_num p)) as [[A _]|N]; [|contradiction].
    assert (U : lacp_is_up st s p) by (unfold lacp_is_up in *; congruence).
    destruct (H s p Hs Hp U) as [Hl Hr]. split; [exact Hl|].
    destruct NR as [NR|[NR| ->]]; [congruence|exact NR|].
    exfalso. unfold lacp_is_up in Hup. revert Hup. cbn. rewrite (find_switch cfg s Hwf Hs).
    apply deleted_down; [apply (find_port cfg); auto|exact Hl|apply in_map, Hp].
  - destruct L as [d [n [sync [now [s' [p' [He [Hs' [Ed [Hp' [En [Hl [Hr E]]]]]]]]]]]]].
    rewrite E. unfold lacp_update. cbn. unfold lacp_is_up in Hup. rewrite E in Hup. unfold lacp_update in Hup. cbn in Hup.
    destruct (Z.eq_dec (ns_dpid s) d) as [E1|E1]; [destruct (Z.eq_dec (np_num p) n) as [E2|E2]|].
    + assert (s = s'). { destruct Hwf as [Hn _]. apply (NoDup_map_inj_in _ _ ns_dpid cfg); auto. congruence. } subst s'.
      assert (p = p'). { destruct Hwf as [_ Hf]. rewrite Forall_forall in Hf. apply (NoDup_map_inj_in _ _ np_num (ns_ports s)); auto. congruence. } subst p'.
      split; [exact Hl|congruence].
    + rewrite put2_other in Hup by congruence. apply H; auto.
    + rewrite put2_other in Hup by congruence. apply H; auto.
Qed.
Lemma up_running_run : forall cfg r es, nwf cfg -> up_running cfg (nrun cfg (nstate_init r) es).
Proof.
  intros cfg r es Hwf. unfold nrun.
  assert (X : forall es st, up_running cfg st -> up_running cfg (fold_left (nstep cfg) es st)).
  { induction es0 as [|e es0 IH]; intros st H; cbn [fold_left]; [exact H|]. apply IH, up_running_step; auto. }
  apply X. intros s p _ _ H. unfold lacp_is_up in H. cbn in H. discriminate.
Qed.

(** ** LACP is up only if the partner was heard *)

Definition kept (d n : Z) (st st' : nstate) : Prop :=
  st_actor st' d n <> AUp
  \/ (st_actor st' d n = st_actor st d n /\ st_time st' d n = st_time st d n
      /\ (st_phys st d n = true -> st_phys st' d n = true)).
Lemma kept_refl : forall d n st, kept d n st st.
Proof. intros. right. auto. Qed.
Lemma kept_trans : forall d n a b c, loses b c -> kept d n a b -> kept d n b c -> kept d n a c.
Proof.
  intros d n a b c [_ L] [N|(A1 & A2 & A3)] [M|(B1 & B2 & B3)]; [left; exact M| |left; exact M|].
  - left. congruence.
  - right. repeat split; try congruence. auto.
Qed.
Lemma lacp_update_kept : forall d n st s p up now os, kept d n st (lacp_update st s p up false now os).
Proof.
  intros. destruct (Z.eq_dec d (ns_dpid s)) as [->|Hd]; [destruct (Z.eq_dec n (np_num p)) as [->|Hp]|].
  - left. unfold lacp_update. cbn. rewrite put2_same. unfold next_actor. destruct (port_running st s p); discriminate.
  - right. unfold lacp_update. cbn. rewrite !put2_other by congruence. auto.
  - right. unfold lacp_update. cbn. rewrite !put2_other by congruence. auto.
Qed.
Lemma set_phys_kept : forall d n st d' n' b, b = true \/ (d', n') <> (d, n) -> kept d n st (set_phys st d' n' b).
Proof.
  intros d n st d' n' b H. right. cbn. repeat split. unfold put2.
  destruct ((d =? d') && (n =? n')) eqn:E; [|auto]. destruct H as [->|H]; [auto|]. apply andb_prop in E. destruct E as [E1 E2].
  apply Z.eqb_eq in E1, E2. congruence.
Qed.
Lemma port_add_kept : forall d n s st m, kept d n st (port_add s st m).
Proof.
  intros. unfold port_add. destruct (find _ _) as [p|]; [|apply kept_refl].
  destruct (_ && _); [|apply set_phys_kept; auto]. eapply kept_trans; [apply lacp_update_loses|apply set_phys_kept; auto|apply lacp_update_kept].
Qed.
Lemma port_delete_kept : forall s p s' os st m, np_lag p <> 0 ->
  (ns_dpid s' = ns_dpid s -> find (fun q => np_num q =? np_num p) (ns_ports s') = Some p) ->
  kept (ns_dpid s) (np_num p) st (port_delete s' os st m).
Proof.
  intros s p s' os st m Hl Hf. unfold port_delete. destruct (find (fun q => np_num q =? m) (ns_ports s')) as [q|] eqn:E; [|apply kept_refl].
  pose proof (proj2 (find_port_num _ _ _ E)) as Nq.
  destruct (Z.eq_dec (ns_dpid s') (ns_dpid s)) as [Ed|Ed]; [destruct (Z.eq_dec m (np_num p)) as [->|Em]|].
  - rewrite (Hf Ed) in E. injection E as <-. rewrite (proj2 (Z.eqb_neq _ 0) Hl). cbn [negb]. left.
    unfold lacp_update. cbn. rewrite Ed, put2_same. unfold next_actor. destruct (port_running _ _ _); discriminate.
  - destruct (negb _); [|apply set_phys_kept; right; congruence].
    eapply kept_trans; [apply lacp_update_loses|apply set_phys_kept; right; congruence|apply lacp_update_kept].
  - destruct (negb _); [|apply set_phys_kept; right; congruence].
    eapply kept_trans; [apply lacp_update_loses|apply set_phys_kept; right; congruence|apply lacp_update_kept].
Qed.
Lemma kept_fold : forall A (f : nstate -> A -> nstate) d n, (forall st a, loses st (f st a)) -> (forall st a, kept d n st (f st a)) ->
  forall l st, kept d n st (fold_left f l st).
Proof.
  intros A f d n HL HK. induction l as [|a l IH]; intros st; cbn [fold_left]; [apply kept_refl|].
  eapply kept_trans; [apply loses_fold, HL|apply HK|apply IH].
Qed.
Lemma expire_port_loses : forall s os now st p, loses st (expire_port s os now st p).
Proof.
  intros. unfold expire_port. destruct (st_time _ _ _); [|apply loses_refl]. destruct (_ >? _); [apply lacp_update_loses|apply loses_refl].
Qed.
Lemma expire_port_kept : forall d n s os now st p, kept d n st (expire_port s os now st p).
Proof.
  intros. unfold expire_port. destruct (st_time _ _ _); [|apply kept_refl]. destruct (_ >? _); [apply lacp_update_kept|apply kept_refl].
Qed.

Lemma lags_all : forall l p, In p l -> In p (flat_map snd (lags l)).
Proof.
  intros l p H. apply in_flat_map.
  assert (G : dict_get Z.eqb (np_lag p) (lags l) = match of_lag (np_lag p) l with [] => None | l0 => Some l0 end) by apply lags_get.
  assert (I : In p (of_lag (np_lag p) l)) by (unfold of_lag; apply filter_In; split; [exact H|apply Z.eqb_refl]).
  destruct (of_lag (np_lag p) l) as [|q r] eqn:E; [contradiction|].
  exists (np_lag p, q :: r). split; [|exact I]. apply (dict_get_in Z.eqb Z.eqb_eq), G.
Qed.

Lemma expired_down : forall s os now l st p t, In p l -> st_time st (ns_dpid s) (np_num p) = Some t -> ns_timeout s < now - t ->
  st_actor (fold_left (expire_port s os now) l st) (ns_dpid s) (np_num p) <> AUp.
Proof.
  intros s os now l. induction l as [|q l IH]; intros st p t Hin Ht Hto; [contradiction|]. cbn [fold_left].
  assert (L : loses (expire_port s os now st q) (fold_left (expire_port s os now) l (expire_port s os now st q)))
    by (apply loses_fold; intros; apply expire_port_loses).
  destruct (Z.eq_dec (np_num q) (np_num p)) as [Eq|Nq].
  - assert (D : st_actor (expire_port s os now st q) (ns_dpid s) (np_num p) <> AUp).
    { unfold expire_port. rewrite Eq, Ht. rewrite Z.gtb_ltb, (proj2 (Z.ltb_lt _ _) Hto). unfold lacp_update. cbn. rewrite Eq, put2_same.
      unfold next_actor. destruct (port_running _ _ _); discriminate. }
    destruct L as [_ L]. destruct (L (ns_dpid s) (np_num p)) as [[A _]|N]; [rewrite A; exact D|exact N].
  - destruct Hin as [->|Hin]; [congruence|]. apply IH with (t := t); auto.
    unfold expire_port. destruct (st_time st (ns_dpid s) (np_num q)); [|exact Ht]. destruct (_ >? _); [|exact Ht].
    unfold lacp_update. cbn. rewrite put2_other by congruence. exact Ht.
Qed.

Definition heard_inv (s : nswitch) (p : nport) (st : nstate) (o : option Z) : Prop :=
  lacp_is_up st s p -> st_phys st (ns_dpid s) (np_num p) = true /\ np_enabled p = true /\ exists t, o = Some t /\ st_time st (ns_dpid s) (np_num p) = Some t.

Lemma heard_step : forall cfg st e s p o, nwf cfg -> In s cfg -> In p (ns_ports s) -> up_running cfg st ->
  heard_inv s p st o -> heard_inv s p (nstep cfg st e) (heard s p o e).
Proof.
  intros cfg st e s p o Hwf Hs Hp Hup H.
  assert (K : np_lag p <> 0 -> (forall sync now, e <> NLacp (ns_dpid s) (np_num p) sync now) -> kept (ns_dpid s) (np_num p) st (nstep cfg st e)).
  { intros Hl Hne.
    assert (F : forall d s', find (fun t => ns_dpid t =? d) cfg = Some s' -> ns_dpid s' = ns_dpid s ->
                find (fun q => np_num q =? np_num p) (ns_ports s') = Some p).
    { intros d s' E Ed. apply find_switch_dpid in E. destruct E as [Hs' _].
      assert (s' = s). { destruct Hwf as [Hn _]. apply (NoDup_map_inj_in _ _ ns_dpid cfg); auto. } subst s'. apply (find_port cfg); auto. }
    destruct e as [d up|d|d n|d n|d n sync now|d now|r]; cbn; [| | | | | |right; auto];
      destruct (find _ cfg) as [s'|] eqn:Es; try (right; auto; fail).
    - eapply kept_trans; [apply set_running_loses| |right; auto]. apply kept_fold; [apply port_add_loses|apply port_add_kept].
    - eapply kept_trans; [| |apply kept_fold; [apply port_delete_loses|]].
      + apply loses_fold. apply port_delete_loses.
      + right; auto.
      + intros st0 a. apply port_delete_kept; [exact Hl|apply (F d), Es].
    - destruct (_ && _); [apply port_add_kept|apply kept_refl].
    - destruct (_ && _); [apply port_delete_kept; [exact Hl|apply (F d), Es]|apply kept_refl].
    - destruct (st_running st d); [|apply kept_refl]. destruct (find _ (ns_ports s')) as [q|] eqn:Eq; [|apply kept_refl].
      destruct (np_lag q =? 0); [apply kept_refl|]. apply find_switch_dpid in Es. apply find_port_num in Eq.
      right. unfold lacp_update. cbn. destruct Es as [_ Es], Eq as [_ Eq].
      assert ((ns_dpid s, np_num p) <> (ns_dpid s', np_num q)). { intros X. injection X as X1 X2. apply (Hne sync now). congruence. }
      rewrite !put2_other by assumption. auto.
    - destruct (st_running st d); [|apply kept_refl]. apply kept_fold; [apply expire_port_loses|apply expire_port_kept]. }
  intros Up.
  assert (Hl : np_lag p <> 0) by (apply (up_running_step cfg st e Hwf Hup s p Hs Hp Up)).
  assert (Dec : (exists sync now, e = NLacp (ns_dpid s) (np_num p) sync now) \/ (forall sync now, e <> NLacp (ns_dpid s) (np_num p) sync now)).
  { destruct e as [d up|d|d n|d n|d n sync now|d now|r]; try (right; discriminate).
    destruct (Z.eq_dec d (ns_dpid s)) as [->|]; [destruct (Z.eq_dec n (np_num p)) as [->|]|]; [left; eauto|right; congruence|right; congruence]. }
  destruct Dec as [[sync [now ->]]|Hne].
  - cbn [heard]. rewrite !Z.eqb_refl. cbn [andb].
    destruct (st_running st (ns_dpid s)) eqn:Er.
    2:{ exfalso. cbn in Up. unfold lacp_is_up in Up. rewrite (find_switch cfg s Hwf Hs), Er in Up. 
        destruct (Hup s p Hs Hp Up) as [_ X]. congruence. }
    assert (E : nstep cfg st (NLacp (ns_dpid s) (np_num p) sync now) = lacp_update st s p sync true (Some now) (others cfg st (ns_dpid s))).
    { cbn. rewrite (find_switch cfg s Hwf Hs), Er, (find_port cfg s p Hwf Hs Hp), (proj2 (Z.eqb_neq _ 0) Hl). reflexivity. }
    unfold lacp_is_up in Up. rewrite E in *. unfold lacp_update in *. cbn in *. rewrite !put2_same in *. unfold next_actor in Up.
    destruct (port_running st s p) eqn:Pr; [|discriminate]. cbn in Up. destruct sync; [|discriminate].
    unfold port_running in Pr. apply andb_prop in Pr. destruct Pr as [P1 P2]. split; [exact P2|]. split; [exact P1|]. exists now. auto.
  - destruct (K Hl Hne) as [N|(A & B & C)]; [contradiction|].
    assert (Up0 : lacp_is_up st s p) by (unfold lacp_is_up in *; congruence).
    destruct (H Up0) as (H1 & H1' & t & H2 & H3). split; [auto|]. split; [exact H1'|]. exists t. split; [|congruence].
    destruct (Hup s p Hs Hp Up0) as [_ Hr].
    destruct e as [d up|d|d n|d n|d n sync now|d now|r]; cbn [heard]; auto.
    + destruct (Z.eqb_spec d (ns_dpid s)) as [->|]; [|exact H2]. exfalso. unfold lacp_is_up in Up. revert Up. cbn.
      rewrite (find_switch cfg s Hwf Hs). apply deleted_down; [apply (find_port cfg); auto|exact Hl|apply in_map, Hp].
    + destruct (Z.eqb_spec d (ns_dpid s)) as [->|]; [|exact H2]. destruct (Z.eqb_spec n (np_num p)) as [->|]; [|exact H2].
      exfalso. unfold lacp_is_up in Up. revert Up. cbn. rewrite (find_switch cfg s Hwf Hs), Hr, H1. cbn [andb].
      apply (deleted_down s _ [np_num p]); [apply (find_port cfg); auto|exact Hl|left; reflexivity].
    + destruct (Z.eqb_spec d (ns_dpid s)) as [->|]; [|exact H2]. destruct (Z.eqb_spec n (np_num p)) as [->|]; [|exact H2].
      exfalso. exact (Hne _ _ eq_refl).
    + destruct (Z.eqb_spec d (ns_dpid s)) as [->|]; [|exact H2]. rewrite H2. destruct (Z.ltb_spec (ns_timeout s) (now - t)); [|reflexivity].
      exfalso. unfold lacp_is_up in Up. revert Up. cbn. rewrite (find_switch cfg s Hwf Hs), Hr. unfold lacp_expire.
      apply expired_down with (t := t); auto. unfold lags_up. apply lags_all. apply filter_In. split.
      * unfold lacp_ports. apply filter_In. split; [exact Hp|]. rewrite (proj2 (Z.eqb_neq _ 0) Hl). reflexivity.
      * unfold is_actor_up. unfold lacp_is_up in Up0. rewrite Up0. reflexivity.
Qed.
Lemma heard_run : forall cfg r es s p, nwf cfg -> In s cfg -> In p (ns_ports s) ->
  heard_inv s p (nrun cfg (nstate_init r) es) (last_heard s p es).
Proof.
  intros cfg r es s p Hwf Hs Hp. unfold nrun, last_heard.
  assert (X : forall es st o, up_running cfg st -> heard_inv s p st o -> heard_inv s p (fold_left (nstep cfg) es st) (fold_left (heard s p) es o)).
  { induction es0 as [|e es0 IH]; intros st o A B; cbn [fold_left]; [exact B|]. apply IH; [apply up_running_step; auto|].
    apply (heard_step cfg); auto. }
  apply X.
  - intros s' p' _ _ H. unfold lacp_is_up in H. cbn in H. discriminate.
  - intros H. unfold lacp_is_up in H. cbn in H. discriminate.
Qed.

(** ** Which ports are up *)

Lemma expire_run_phys : forall s os now l st, st_phys (fold_left (expire_port s os now) l st) = st_phys st /\ st_running (fold_left (expire_port s os now) l st) = st_running st.
Proof.
  induction l as [|p l IH]; intros st; cbn [fold_left]; [auto|]. destruct (IH (expire_port s os now st p)) as [A B]. rewrite A, B.
  unfold expire_port. destruct (st_time st _ _); [|auto]. destruct (_ >? _); auto.
Qed.
Lemma port_add_phys : forall s st n d m, st_running (port_add s st n) = st_running st /\
  st_phys (port_add s st n) d m =
    if (d =? ns_dpid s) && (m =? n) && (match find (fun p => np_num p =? n) (ns_ports s) with Some _ => true | None => false end) then true else st_phys st d m.
Proof.
  intros s st n d m. unfold port_add. destruct (find (fun p => np_num p =? n) (ns_ports s)) as [p|]; [|rewrite andb_false_r; auto]. rewrite andb_true_r.
  destruct (_ && negb _); split; reflexivity.
Qed.
Lemma port_delete_phys : forall s os st n d m, st_running (port_delete s os st n) = st_running st /\
  st_phys (port_delete s os st n) d m =
    if (d =? ns_dpid s) && (m =? n) && (match find (fun p => np_num p =? n) (ns_ports s) with Some _ => true | None => false end) then false else st_phys st d m.
Proof.
  intros s os st n d m. unfold port_delete. destruct (find (fun p => np_num p =? n) (ns_ports s)) as [p|]; [|rewrite andb_false_r; auto]. rewrite andb_true_r.
  destruct (negb (np_lag p =? 0)); split; reflexivity.
Qed.
Lemma ports_add_phys : forall s p up st d, find (fun q => np_num q =? np_num p) (ns_ports s) = Some p ->
  st_running (fold_left (port_add s) up st) = st_running st /\
  st_phys (fold_left (port_add s) up st) d (np_num p) = (d =? ns_dpid s) && existsb (Z.eqb (np_num p)) up || st_phys st d (np_num p).
Proof.
  intros s p up. induction up as [|n up IH]; intros st d F; cbn [fold_left existsb].
  - rewrite andb_false_r. auto.
  - destruct (IH (port_add s st n) d F) as [A B]. destruct (port_add_phys s st n d (np_num p)) as [C D]. rewrite A, B, C, D. split; [reflexivity|].
    destruct (d =? ns_dpid s); cbn [andb orb]; [|reflexivity]. destruct (np_num p =? n) eqn:E; cbn [andb orb]; [|reflexivity].
    apply Z.eqb_eq in E. subst n. rewrite F. rewrite orb_true_r. reflexivity.
Qed.
Lemma ports_delete_phys : forall s os p l st d, find (fun q => np_num q =? np_num p) (ns_ports s) = Some p ->
  st_running (fold_left (port_delete s os) l st) = st_running st /\
  st_phys (fold_left (port_delete s os) l st) d (np_num p) = negb ((d =? ns_dpid s) && existsb (Z.eqb (np_num p)) l) && st_phys st d (np_num p).
Proof.
  intros s os p l. induction l as [|n l IH]; intros st d F; cbn [fold_left existsb].
  - rewrite andb_false_r. auto.
  - destruct (IH (port_delete s os st n) d F) as [A B]. destruct (port_delete_phys s os st n d (np_num p)) as [C D]. rewrite A, B, C, D. split; [reflexivity|].
    destruct (d =? ns_dpid s); cbn [andb orb]; [|reflexivity]. destruct (np_num p =? n) eqn:E; cbn [andb orb]; [|reflexivity].
    apply Z.eqb_eq in E. subst n. rewrite F. cbn [negb andb]. apply andb_false_r.
Qed.

Lemma link_step : forall cfg st e s p, nwf cfg -> In s cfg -> In p (ns_ports s) ->
  (st_running (nstep cfg st e) (ns_dpid s), st_phys (nstep cfg st e) (ns_dpid s) (np_num p)) =
  linked s p (st_running st (ns_dpid s), st_phys st (ns_dpid s) (np_num p)) e.
Proof.
  intros cfg st e s p Hwf Hs Hp. pose proof (find_port cfg s p Hwf Hs Hp) as Fp.
  assert (O : forall d s', find (fun t => ns_dpid t =? d) cfg = Some s' -> (d =? ns_dpid s) = false -> ns_dpid s =? ns_dpid s' = false).
  { intros d s' E N. apply find_switch_dpid in E as [_ E]. rewrite Z.eqb_sym, E. exact N. }
  assert (S : forall d s', find (fun t => ns_dpid t =? d) cfg = Some s' -> (d =? ns_dpid s) = true -> s' = s).
  { intros d s' E N. apply Z.eqb_eq in N. subst d. rewrite (find_switch cfg s Hwf Hs) in E. congruence. }
  assert (Sn : forall d, find (fun t => ns_dpid t =? d) cfg = None -> (d =? ns_dpid s) = true -> False).
  { intros d E N. apply Z.eqb_eq in N. subst d. rewrite (find_switch cfg s Hwf Hs) in E. congruence. }
  destruct e as [d up|d|d n|d n|d n sync now|d now|r]; cbn [linked nstep fst snd].
  - destruct (find (fun t => ns_dpid t =? d) cfg) as [s'|] eqn:F.
    + destruct (d =? ns_dpid s) eqn:E.
      * rewrite (S d s' F E) in *. destruct (ports_add_phys s p up st (ns_dpid s) Fp) as [A B]. cbn [set_running st_running st_phys].
        rewrite Z.eqb_sym, E, B, Z.eqb_refl. reflexivity.
      * cbn [set_running st_running st_phys]. rewrite Z.eqb_sym, E.
        assert (X : forall l st0, st_running (fold_left (port_add s') l st0) = st_running st0 /\ st_phys (fold_left (port_add s') l st0) (ns_dpid s) (np_num p) = st_phys st0 (ns_dpid s) (np_num p)).
        { induction l as [|x l IH]; intros st0; cbn [fold_left]; [auto|]. destruct (IH (port_add s' st0 x)) as [A B]. destruct (port_add_phys s' st0 x (ns_dpid s) (np_num p)) as [C D].
          rewrite A, B, C, D, (O d s' F E). auto. }
        destruct (X up st) as [A B]. rewrite A, B. reflexivity.
    + destruct (d =? ns_dpid s) eqn:E; [destruct (Sn d F E)|reflexivity].
  - destruct (find (fun t => ns_dpid t =? d) cfg) as [s'|] eqn:F.
    + destruct (d =? ns_dpid s) eqn:E.
      * rewrite (S d s' F E) in *. destruct (ports_delete_phys s [] p (map np_num (ns_ports s)) (set_running st d false) (ns_dpid s) Fp) as [A B]. rewrite A, B.
        cbn [set_running st_running st_phys]. rewrite Z.eqb_sym, E, Z.eqb_refl.
        replace (existsb (Z.eqb (np_num p)) (map np_num (ns_ports s))) with true; [reflexivity|]. symmetry. apply existsb_exists. exists (np_num p). split; [apply in_map, Hp|apply Z.eqb_refl].
      * assert (X : forall l st0, st_running (fold_left (port_delete s' []) l st0) = st_running st0 /\ st_phys (fold_left (port_delete s' []) l st0) (ns_dpid s) (np_num p) = st_phys st0 (ns_dpid s) (np_num p)).
        { induction l as [|x l IH]; intros st0; cbn [fold_left]; [auto|]. destruct (IH (port_delete s' [] st0 x)) as [A B]. destruct (port_delete_phys s' [] st0 x (ns_dpid s) (np_num p)) as [C D].
          rewrite A, B, C, D, (O d s' F E). auto. }
        destruct (X (map np_num (ns_ports s')) (set_running st d false)) as [A B]. rewrite A, B. cbn [set_running st_running st_phys]. rewrite Z.eqb_sym, E. reflexivity.
    + destruct (d =? ns_dpid s) eqn:E; [destruct (Sn d F E)|reflexivity].
  - destruct (find (fun t => ns_dpid t =? d) cfg) as [s'|] eqn:F.
    + destruct (d =? ns_dpid s) eqn:E.
      * rewrite (S d s' F E) in *. apply Z.eqb_eq in E. subst d. cbn [andb]. destruct (n =? np_num p) eqn:En; cbn [andb].
        -- apply Z.eqb_eq in En. subst n. destruct (st_running st (ns_dpid s)) eqn:R; cbn [andb]; [|rewrite R; reflexivity].
           destruct (st_phys st (ns_dpid s) (np_num p)) eqn:P; cbn [negb]; [rewrite R, P; reflexivity|].
           destruct (port_add_phys s st (np_num p) (ns_dpid s) (np_num p)) as [A B]. rewrite A, B, R, !Z.eqb_refl, Fp. reflexivity.
        -- destruct (_ && _); [|reflexivity]. destruct (port_add_phys s st n (ns_dpid s) (np_num p)) as [A B]. rewrite A, B, Z.eqb_refl, (Z.eqb_sym (np_num p)), En. reflexivity.
      * cbn [andb]. destruct (_ && _); [|reflexivity]. destruct (port_add_phys s' st n (ns_dpid s) (np_num p)) as [A B]. rewrite A, B, (O d s' F E). reflexivity.
    + destruct (d =? ns_dpid s) eqn:E; [destruct (Sn d F E)|reflexivity].
  - destruct (find (fun t => ns_dpid t =? d) cfg) as [s'|] eqn:F.
    + destruct (d =? ns_dpid s) eqn:E.
      * rewrite (S d s' F E) in *. apply Z.eqb_eq in E. subst d. cbn [andb]. destruct (n =? np_num p) eqn:En; cbn [andb].
        -- apply Z.eqb_eq in En. subst n. destruct (st_running st (ns_dpid s)) eqn:R; cbn [andb]; [|rewrite R; reflexivity].
           destruct (st_phys st (ns_dpid s) (np_num p)) eqn:P; [|rewrite R, P; reflexivity].
           destruct (port_delete_phys s (others cfg st (ns_dpid s)) st (np_num p) (ns_dpid s) (np_num p)) as [A B]. rewrite A, B, R, !Z.eqb_refl, Fp. reflexivity.
        -- destruct (_ && _); [|reflexivity]. destruct (port_delete_phys s (others cfg st (ns_dpid s)) st n (ns_dpid s) (np_num p)) as [A B]. rewrite A, B, Z.eqb_refl, (Z.eqb_sym (np_num p)), En. reflexivity.
      * cbn [andb]. destruct (_ && _); [|reflexivity]. destruct (port_delete_phys s' (others cfg st d) st n (ns_dpid s) (np_num p)) as [A B]. rewrite A, B, (O d s' F E). reflexivity.
    + destruct (d =? ns_dpid s) eqn:E; [destruct (Sn d F E)|reflexivity].
  - destruct (find (fun t => ns_dpid t =? d) cfg) as [s'|]; [|reflexivity]. destruct (st_running st d); [|reflexivity].
    destruct (find _ (ns_ports s')) as [q|]; [|reflexivity]. destruct (np_lag q =? 0); reflexivity.
  - destruct (find (fun t => ns_dpid t =? d) cfg) as [s'|]; [|reflexivity]. destruct (st_running st d); [|reflexivity].
    unfold lacp_expire. destruct (expire_run_phys s' (others cfg st d) now (flat_map snd (lags_up st s')) st) as [A B]. rewrite A, B. reflexivity.
  - reflexivity.
Qed.
Lemma link_run : forall cfg r es s p, nwf cfg -> In s cfg -> In p (ns_ports s) ->
  (st_running (nrun cfg (nstate_init r) es) (ns_dpid s), st_phys (nrun cfg (nstate_init r) es) (ns_dpid s) (np_num p)) = link s p es.
Proof.
  intros cfg r es s p Hwf Hs Hp. unfold nrun, link. change (false, false) with (st_running (nstate_init r) (ns_dpid s), st_phys (nstate_init r) (ns_dpid s) (np_num p)).
  generalize (nstate_init r). induction es as [|e es IH]; intros st; cbn [fold_left]; [reflexivity|]. rewrite IH, link_step by auto. reflexivity.
Qed.

(** ** Packets *)

Lemma others_in : forall cfg st d t, In t (others cfg st d) <-> In t cfg /\ ns_dpid t <> d /\ st_running st (ns_dpid t) = true.
Proof.
  intros. unfold others. rewrite filter_In, andb_true_iff, negb_true_iff, Z.eqb_neq. tauto.
Qed.
Lemma nodup_map_filter : forall A (f : A -> bool) (g : A -> Z) l, NoDup (map g l) -> NoDup (map g (filter f l)).
Proof.
  intros A f g. induction l as [|x l IH]; cbn; intros H; [constructor|]. inversion H; subst.
  destruct (f x); cbn; auto. constructor; auto. intros Y. apply H2. apply in_map_iff in Y. destruct Y as [y [E Y]].
  apply filter_In in Y. rewrite <- E. apply in_map, Y.
Qed.
Lemma others_nodup : forall cfg st s, nwf cfg -> In s cfg ->
  NoDup (map ns_dpid (s :: filter ns_stacked (others cfg st (ns_dpid s)))).
Proof.
  intros cfg st s [Hn _] Hs. cbn. constructor.
  - intros H. apply in_map_iff in H. destruct H as [t [E H]]. apply filter_In in H. destruct H as [H _].
    apply others_in in H. tauto.
  - apply nodup_map_filter. unfold others. apply nodup_map_filter, Hn.
Qed.

(** what a switch nominates when a port of its own is up *)
Lemma selected_chosen : forall cfg st0 st s p, nwf cfg -> In s cfg -> ns_stacked s = true ->
  st_running st = st_running st0 -> st_running st (ns_dpid s) = true -> in_company cfg st s ->
  In p (ns_ports s) -> np_lag p <> 0 -> lacp_is_up st s p ->
  (selected st s p (others cfg st0 (ns_dpid s)) = true <-> chosen cfg st (np_lag p) s).
Proof.
  intros cfg st0 st s p Hwf Hs Hst Hr0 Hr [t [Ht [Hne Htr]]] Hp Hl Hup.
  assert (Same : forall t, In t cfg -> t <> s -> ns_dpid t <> ns_dpid s).
  { intros u Hu Hx E. apply Hx. destruct Hwf as [Hn _]. apply (NoDup_map_inj_in _ _ ns_dpid cfg); auto. }
  unfold selected, nominate. rewrite Hst.
  assert (No : In t (others cfg st0 (ns_dpid s))) by (apply others_in; rewrite <- Hr0; auto).
  assert (Hpos : (0 < up_count st (np_lag p) s)%nat).
  { unfold up_count. destruct (filter _ (ns_ports s)) eqn:E; [|cbn; lia]. exfalso.
    assert (X : In p []); [|contradiction]. rewrite <- E. apply filter_In. split; [exact Hp|].
    rewrite Z.eqb_refl. unfold lacp_is_up in Hup. rewrite Hup. reflexivity. }
  assert (P := fun Hs' => nominate_of_chosen st (np_lag p) _ Hl (others_nodup cfg st0 s Hwf Hs) s s Hs' Hpos Hs').
  specialize (P (or_introl eq_refl)).
  assert (Q : chosen_of st (np_lag p) (s :: filter ns_stacked (others cfg st0 (ns_dpid s))) s <-> chosen cfg st (np_lag p) s).
  { unfold chosen_of, chosen, stack_member. split.
    - intros [_ C]. split; [auto|]. split; [exact Hpos|]. intros u [Hu [Hur Hus]] Hx. apply C; [|exact Hx].
      right. apply filter_In. split; [|exact Hus]. apply others_in. rewrite <- Hr0. auto.
    - intros [_ [_ C]]. split; [left; reflexivity|]. intros u Hu Hx. apply C; [|exact Hx].
      destruct Hu as [Hu|Hu]; [congruence|]. apply filter_In in Hu. destruct Hu as [Hu Hus]. apply others_in in Hu.
      rewrite Hr0. tauto. }
  destruct (others cfg st0 (ns_dpid s)) as [|o os] eqn:Eo; [contradiction|].
  destruct (nominate_of _ _ _) as [|d|l].
  - split; [discriminate|]. intros C. assert (X : NoOne = One (ns_dpid s)); [|discriminate]. apply P. split; [exact Hpos|apply Q, C].
  - rewrite Z.eqb_eq. split.
    + intros E. apply Q. apply P. congruence.
    + intros C. assert (X : One d = One (ns_dpid s)); [|congruence]. apply P. split; [exact Hpos|apply Q, C].
  - split; [discriminate|]. intros C. assert (X : Several l = One (ns_dpid s)); [|discriminate]. apply P. split; [exact Hpos|apply Q, C].
Qed.

Lemma packet_step : forall cfg st s p sync now, nwf cfg -> In s cfg -> In p (ns_ports s) -> np_lag p <> 0 ->
  st_running st (ns_dpid s) = true ->
  nstep cfg st (NLacp (ns_dpid s) (np_num p) sync now)
  = lacp_update st s p sync true (Some now) (others cfg st (ns_dpid s)).
Proof.
  intros cfg st s p sync now Hwf Hs Hp Hl Hr. cbn. rewrite (find_switch cfg s Hwf Hs), Hr, (find_port cfg s p Hwf Hs Hp).
  rewrite (proj2 (Z.eqb_neq _ 0) Hl). reflexivity.
Qed.

Lemma selected_set_role : forall st d n r s p os, selected (set_role st d n r) s p os = selected st s p os.
Proof. reflexivity. Qed.
Lemma chosen_set_role : forall cfg st d n r lag s, chosen cfg (set_role st d n r) lag s <-> chosen cfg st lag s.
Proof. intros. unfold chosen, stack_member, up_count. cbn. reflexivity. Qed.

Lemma packet_forwards : forall cfg st s p sync now, nwf cfg -> In s cfg -> ns_stacked s = true ->
  st_running st (ns_dpid s) = true -> in_company cfg st s ->
  In p (ns_ports s) -> np_lag p <> 0 -> unforced p ->
  let st' := nstep cfg st (NLacp (ns_dpid s) (np_num p) sync now) in
  forwards st' s p <-> lacp_is_up st' s p /\ chosen cfg st' (np_lag p) s.
Proof.
  intros cfg st s p sync now Hwf Hs Hst Hr Hc Hp Hl [U1 U2] st'. unfold st'. rewrite packet_step by auto.
  unfold lacp_update. set (st1 := set_actor st (ns_dpid s) (np_num p) (next_actor st s p sync true) (Some now)).
  rewrite chosen_set_role. unfold forwards. change (lacp_is_up (set_role st1 ?a ?b ?c) s p) with (lacp_is_up st1 s p).
  split.
  - intros [Hup R]. split; [exact Hup|]. cbn in R. rewrite put2_same in R. unfold next_role in R. rewrite U1, U2 in R.
    rewrite <- (selected_chosen cfg st st1 s p); auto.
    destruct (selected st1 s p _); [reflexivity|]. destruct (np_standby p); discriminate.
  - intros [Hup C]. split; [exact Hup|]. cbn. rewrite put2_same. unfold next_role. rewrite U1, U2.
    rewrite <- (selected_chosen cfg st st1 s p) in C; auto. rewrite C. reflexivity.
Qed.

(** ** Quiet times *)

Lemma same_lag_refl : forall cfg lag st, same_lag cfg lag st st.
Proof. intros. repeat split. Qed.
Lemma same_lag_sym : forall cfg lag a b, same_lag cfg lag a b -> same_lag cfg lag b a.
Proof. intros cfg lag a b [R [H1 H2]]. split; [congruence|]. split; intros; symmetry; auto. Qed.
Lemma same_lag_trans : forall cfg lag a b c, same_lag cfg lag a b -> same_lag cfg lag b c -> same_lag cfg lag a c.
Proof.
  intros cfg lag a b c [R [H1 H2]] [R' [H1' H2']]. split; [congruence|]. split; intros.
  - rewrite H1', H1; auto.
  - rewrite H2', H2; auto.
Qed.
Lemma up_count_same : forall cfg lag a b s, same_lag cfg lag a b -> In s cfg -> up_count b lag s = up_count a lag s.
Proof.
  intros cfg lag a b s [_ [_ H]] Hs. unfold up_count. f_equal. specialize (fun p => H s p Hs).
  induction (ns_ports s) as [|p l IH]; cbn [filter]; [reflexivity|].
  rewrite IH by (intros; apply H; auto; right; assumption).
  destruct (np_lag p =? lag) eqn:E; cbn [andb]; [|reflexivity]. apply Z.eqb_eq in E.
  rewrite (H p (or_introl eq_refl) E). reflexivity.
Qed.
Lemma chosen_same : forall cfg lag a b s, same_lag cfg lag a b -> chosen cfg a lag s -> chosen cfg b lag s.
Proof.
  intros cfg lag a b s H [[Hs [Hr Hst]] [P C]]. pose proof H as [R [H1 H2]]. split.
  - split; [exact Hs|]. split; [rewrite H1; auto|exact Hst].
  - rewrite (up_count_same cfg lag a b s H Hs). split; [exact P|]. intros t [Ht [Htr Hts]] Hne.
    rewrite (up_count_same cfg lag a b t H Ht). rewrite R. apply C; [|exact Hne]. split; [exact Ht|]. split; [rewrite <- H1; auto|exact Hts].
Qed.

Lemma quiet_same : forall cfg lag es st, quiet cfg lag st es -> same_lag cfg lag st (nrun cfg st es).
Proof.
  induction es as [|e es IH]; intros st H; [apply same_lag_refl|]. cbn in H. destruct H as [H1 H2].
  change (nrun cfg st (e :: es)) with (nrun cfg (nstep cfg st e) es). eapply same_lag_trans; [exact H1|apply IH, H2].
Qed.

(** A port that is up keeps its role unless it hears of its partner. *)
Lemma role_kept : forall cfg st e s p, nwf cfg -> In s cfg -> In p (ns_ports s) -> lacp_is_up (nstep cfg st e) s p ->
  (forall sync now, e <> NLacp (ns_dpid s) (np_num p) sync now) ->
  st_role (nstep cfg st e) (ns_dpid s) (np_num p) = st_role st (ns_dpid s) (np_num p).
Proof.
  intros cfg st e s p Hwf Hs Hp Hup Hne.
  destruct (step_cases cfg st e) as [[r ->]|[[_ L]|L]]; [reflexivity| |].
  - destruct (L (ns_dpid s) (np_num p)) as [[_ B]|N]; [exact B|contradiction].
  - destruct L as [d [n [sync [now [s' [p' [He [Hs' [Ed [Hp' [En [Hl [Hr E]]]]]]]]]]]]].
    rewrite E. unfold lacp_update. cbn. apply put2_other. intros X. inversion X. subst. eapply Hne. f_equal; congruence.
Qed.

Lemma is_packet : forall e (s : nswitch) (p : nport), (exists sync now, e = NLacp (ns_dpid s) (np_num p) sync now)
  \/ (forall sync now, e <> NLacp (ns_dpid s) (np_num p) sync now).
Proof.
  intros e s p. destruct e as [d up|d|d n|d n|d n sync now|d now|r]; try (right; intros; discriminate).
  destruct (Z.eq_dec d (ns_dpid s)) as [->|Hd]; [destruct (Z.eq_dec n (np_num p)) as [->|Hn]|].
  - left. exists sync, now. reflexivity.
  - right. intros a b X. inversion X. congruence.
  - right. intros a b X. inversion X. congruence.
Qed.

Lemma settles : forall cfg lag es st s p, nwf cfg -> quiet cfg lag st es ->
  In s cfg -> ns_stacked s = true -> st_running st (ns_dpid s) = true -> in_company cfg st s ->
  In p (ns_ports s) -> np_lag p = lag -> lag <> 0 -> unforced p -> lacp_is_up st s p ->
  (exists sync now, In (NLacp (ns_dpid s) (np_num p) sync now) es)
  \/ (st_role st (ns_dpid s) (np_num p) = RSelected <-> chosen cfg st lag s) ->
  (st_role (nrun cfg st es) (ns_dpid s) (np_num p) = RSelected <-> chosen cfg st lag s).
Proof.
  intros cfg lag es. induction es as [|e es IH]; intros st s p Hwf Q Hs Hst Hr Hc Hp El Hl U Hup Hyp.
  - destruct Hyp as [[sync [now []]]|H]. exact H.
  - cbn in Q. destruct Q as [Q1 Q2]. change (nrun cfg st (e :: es)) with (nrun cfg (nstep cfg st e) es).
    pose proof Q1 as [QR [QA QB]].
    assert (Hup' : lacp_is_up (nstep cfg st e) s p) by (unfold lacp_is_up; rewrite QB; auto).
    assert (Hch : chosen cfg (nstep cfg st e) lag s <-> chosen cfg st lag s).
    { split; apply chosen_same; [apply same_lag_sym|]; exact Q1. }
    rewrite <- Hch. apply IH; auto.
    + rewrite QA; auto.
    + destruct Hc as [t [Ht [Hne Htr]]]. exists t. rewrite QA; auto.
    + destruct (is_packet e s p) as [[sync [now E]]|E].
      * right. subst e. subst lag.
        pose proof (packet_forwards cfg st s p sync now Hwf Hs Hst Hr Hc Hp Hl U) as F. cbn zeta in F.
        unfold forwards in F. tauto.
      * destruct Hyp as [[sync [now [X|X]]]|X].
        -- exfalso. exact (E _ _ X).
        -- left. exists sync, now. exact X.
        -- right. rewrite (role_kept cfg st e s p) by auto. rewrite Hch. exact X.
Qed.
