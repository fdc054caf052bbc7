(** * Proofs about configuration comparison *)
From Coq Require Import ZArith List Bool Permutation String Lia Sorted.
From Verif Require Import PyBase PyBaseProofs PacketModel ConfModel ConfSpec.
Import ListNotations.
Open Scope Z_scope.

(** ** Induction on values *)
Section Ind.
  Variable P : cval -> Prop.
  Hypothesis HN : P CNone.
  Hypothesis HB : forall b, P (CBool b).
  Hypothesis HI : forall z, P (CInt z).
  Hypothesis HS : forall s, P (CStr s).
  Hypothesis HA : forall s, P (CAddr s).
  Hypothesis HF : forall s, P (CFloat s).
  Hypothesis HL : forall l, Forall P l -> P (CList l).
  Hypothesis HT : forall l, Forall P l -> P (CSet l).
  Hypothesis HD : forall l, Forall (fun kv => P (snd kv)) l -> P (CDict l).
  Hypothesis HC : forall s, P (CConf s).
  Fixpoint cval_nested (v : cval) : P v :=
    match v with
    | CNone => HN
    | CBool b => HB b
    | CInt z => HI z
    | CStr s => HS s
    | CAddr s => HA s
    | CFloat f => HF f
    | CList l => HL l ((fix go l : Forall P l := match l with [] => Forall_nil _ | x :: r => Forall_cons _ (cval_nested x) (go r) end) l)
    | CSet l => HT l ((fix go l : Forall P l := match l with [] => Forall_nil _ | x :: r => Forall_cons _ (cval_nested x) (go r) end) l)
    | CDict l => HD l ((fix go l : Forall (fun kv => P (snd kv)) l :=
                          match l with [] => Forall_nil _ | x :: r => Forall_cons _ (cval_nested (snd x)) (go r) end) l)
    | CConf n => HC n
    end.
End Ind.

Section SInd.
  Variable P : sval -> Prop.
  Hypothesis HN : P SNone.
  Hypothesis HB : forall b, P (SBool b).
  Hypothesis HI : forall z, P (SInt z).
  Hypothesis HS : forall s, P (SStr s).
  Hypothesis HL : forall l, Forall P l -> P (STuple l).
  Hypothesis HD : forall l, Forall (fun kv => P (snd kv)) l -> P (SDict l).
  Fixpoint sval_nested (v : sval) : P v :=
    match v with
    | SNone => HN
    | SBool b => HB b
    | SInt z => HI z
    | SStr s => HS s
    | STuple l => HL l ((fix go l : Forall P l := match l with [] => Forall_nil _ | x :: r => Forall_cons _ (sval_nested x) (go r) end) l)
    | SDict l => HD l ((fix go l : Forall (fun kv => P (snd kv)) l :=
                          match l with [] => Forall_nil _ | x :: r => Forall_cons _ (sval_nested (snd x)) (go r) end) l)
    end.
End SInd.

Lemma sval_eqb_eq : forall a b, sval_eqb a b = true <-> a = b.
Proof.
  induction a using sval_nested; intros c; destruct c; cbn [sval_eqb]; try (split; [discriminate|discriminate]).
  - split; reflexivity.
  - rewrite Bool.eqb_true_iff. split; [intros ->; reflexivity|intros E; injection E; auto].
  - rewrite Z.eqb_eq. split; [intros ->; reflexivity|intros E; injection E; auto].
  - rewrite Z.eqb_eq. split; [intros ->; reflexivity|intros E; injection E; auto].
  - revert l0. induction H as [|x l E F IH]; intros [|y m]; try (split; [discriminate|discriminate]); [split; reflexivity|].
    rewrite andb_true_iff, E. specialize (IH m). split.
    + intros [-> K]. apply IH in K. injection K as ->. reflexivity.
    + intros K. injection K as -> ->. split; [reflexivity|]. apply IH. reflexivity.
  - revert l0. induction H as [|[k x] l E F IH]; intros [|[k' y] m]; try (split; [discriminate|discriminate]); [split; reflexivity|].
    cbn [snd] in E. rewrite !andb_true_iff, E, Z.eqb_eq. specialize (IH m). split.
    + intros [[-> ->] K]. apply IH in K. injection K as ->. reflexivity.
    + intros K. injection K as -> -> ->. split; [split; reflexivity|]. apply IH. reflexivity.
Qed.

Lemma item_eqb_eq : forall a b, item_eqb a b = true <-> a = b.
Proof.
  intros [k x] [k' y]. unfold item_eqb. cbn [fst snd]. rewrite andb_true_iff, Z.eqb_eq, sval_eqb_eq. split.
  - intros [-> ->]. reflexivity.
  - intros E. injection E as -> ->. auto.
Qed.

Lemma same_keys_spec : forall a b, same_keys a b = true <-> (forall x, In x a <-> In x b).
Proof.
  intros a b. unfold same_keys. rewrite andb_true_iff, !forallb_forall. split.
  - intros [A B] x. split; intros I.
    + apply A, existsb_exists in I as (y & J & E). apply item_eqb_eq in E as ->. exact J.
    + apply B, existsb_exists in I as (y & J & E). apply item_eqb_eq in E as ->. exact J.
  - intros E. split; intros x I; apply existsb_exists; exists x; (split; [apply E, I|apply item_eqb_eq; reflexivity]).
Qed.

(** ** Sorting by key *)
Section Sort.
  Context {V : Type}.
  Definition klt (a b : Z * V) : Prop := by_key a b = true.

  Lemma sorted_keys : forall l : list (Z * V), StronglySorted klt (py_sorted by_key l).
  Proof.
    intros l. apply py_sorted_sorted; unfold by_key.
    - intros a b. destruct (Z.leb_spec (fst a) (fst b)); [auto|]. right. apply Z.leb_le. lia.
    - intros a b c A B. apply Z.leb_le in A, B. apply Z.leb_le. lia.
  Qed.

  Lemma sorted_unique : forall l m : list (Z * V), NoDup (map fst l) -> Permutation l m ->
    StronglySorted klt l -> StronglySorted klt m -> l = m.
  Proof.
    induction l as [|x l IH]; intros m N P A B.
    - apply Permutation_nil in P as ->. reflexivity.
    - destruct m as [|y m]; [apply Permutation_sym, Permutation_nil in P; discriminate|].
      assert (E : x = y).
      { assert (I : In y (x :: l)) by (apply (Permutation_in _ (Permutation_sym P)); left; reflexivity).
        destruct I as [I|I]; [exact I|].
        assert (J : In x (y :: m)) by (apply (Permutation_in _ P); left; reflexivity).
        destruct J as [J|J]; [symmetry; exact J|].
        apply StronglySorted_inv in A as [_ A]. apply StronglySorted_inv in B as [_ B].
        rewrite Forall_forall in A, B. specialize (A _ I). specialize (B _ J). unfold klt, by_key in A, B.
        apply Z.leb_le in A, B. assert (K : fst x = fst y) by lia.
        exfalso. inversion N as [|? ? N1 _]. apply N1. apply in_map_iff. exists y. auto. }
      subst y. f_equal. apply IH.
      + inversion N. assumption.
      + exact (Permutation_cons_inv P).
      + apply StronglySorted_inv in A as [A _]. exact A.
      + apply StronglySorted_inv in B as [B _]. exact B.
  Qed.
End Sort.

Lemma insert_map : forall {V W} (f : V -> W) x l,
  py_insert by_key (fst x, f (snd x)) (map (fun kv : Z * V => (fst kv, f (snd kv))) l)
  = map (fun kv => (fst kv, f (snd kv))) (py_insert by_key x l).
Proof.
  intros V W f x l. induction l as [|y l IH]; [reflexivity|]. cbn [map py_insert]. unfold by_key at 1 3. cbn [fst].
  destruct (fst x <=? fst y); [reflexivity|]. cbn [map]. rewrite IH. reflexivity.
Qed.
Lemma sorted_map : forall {V W} (f : V -> W) l,
  py_sorted by_key (map (fun kv : Z * V => (fst kv, f (snd kv))) l)
  = map (fun kv => (fst kv, f (snd kv))) (py_sorted by_key l).
Proof.
  intros V W f l. induction l as [|x l IH]; [reflexivity|].
  change (py_sorted by_key (map (fun kv : Z * V => (fst kv, f (snd kv))) (x :: l)))
    with (py_insert by_key (fst x, f (snd x)) (py_sorted by_key (map (fun kv : Z * V => (fst kv, f (snd kv))) l))).
  rewrite IH, insert_map. reflexivity.
Qed.

(** ** Canonical values *)
Definition canon (v : cval) : sval := str_conf (finalize_val v).

Lemma solid_not_none : forall v, solid v -> is_none (finalize_val v) = false.
Proof. intros v S. inversion S; reflexivity. Qed.

Lemma canon_list : forall l, Forall solid l -> canon (CList l) = STuple (map canon l).
Proof.
  intros l F. unfold canon. cbn [finalize_val str_conf]. f_equal.
  induction F as [|x l S F IH]; [reflexivity|]. cbn [map flat_map]. rewrite (solid_not_none _ S), IH. reflexivity.
Qed.

Lemma canon_dict : forall l, Forall (fun kv => solid (snd kv)) l ->
  canon (CDict l) = SDict (py_sorted by_key (map (fun kv => (fst kv, canon (snd kv))) l)).
Proof.
  intros l F. unfold canon. cbn [finalize_val str_conf]. f_equal.
  rewrite (sorted_map (fun v => str_conf (finalize_val v))), (sorted_map finalize_val).
  assert (F' : Forall (fun kv => solid (snd kv)) (py_sorted by_key l)).
  { rewrite Forall_forall in *. intros x I. apply F. apply (py_sorted_in by_key). exact I. }
  induction F' as [|x m S F' IH]; [reflexivity|]. cbn [map flat_map fst snd]. rewrite (solid_not_none _ S), IH. reflexivity.
Qed.

Lemma map_keys : forall {V W} (f : V -> W) (l : list (Z * V)), map fst (map (fun kv => (fst kv, f (snd kv))) l) = map fst l.
Proof. intros. rewrite map_map. reflexivity. Qed.

Lemma canon_alike : forall v w, solid v -> solid w -> (canon v = canon w <-> alike v w).
Proof.
  induction v using cval_nested; intros w S1 S2; try (inversion S1; fail).
  - destruct w; try (inversion S2; fail); unfold canon; cbn; (split; [try discriminate; intros E; inversion E; subst; try (constructor; fail); eapply alike_text; reflexivity|intros E; inversion E; subst; cbn in *; congruence]).
  - destruct w; try (inversion S2; fail); unfold canon; cbn; (split; [try discriminate; intros E; inversion E; subst; try (constructor; fail); eapply alike_text; reflexivity|intros E; inversion E; subst; cbn in *; congruence]).
  - destruct w; try (inversion S2; fail); unfold canon; cbn; (split; [try discriminate; intros E; inversion E; subst; try (constructor; fail); eapply alike_text; reflexivity|intros E; inversion E; subst; cbn in *; congruence]).
  - destruct w; try (inversion S2; fail); unfold canon; cbn; (split; [try discriminate; intros E; inversion E; subst; try (constructor; fail); eapply alike_text; reflexivity|intros E; inversion E; subst; cbn in *; congruence]).
  - assert (L : Forall solid l) by (inversion S1; assumption).
    destruct w; try (inversion S2; fail); try (split; [unfold canon; cbn; discriminate|intros E; inversion E; subst; cbn in *; discriminate]).
    assert (M : Forall solid l0) by (inversion S2; assumption).
    rewrite !canon_list by assumption. split.
    + intros E. injection E as E. constructor. clear S1 S2. revert l0 M E.
      induction H as [|x l IH F IHl]; intros [|y m] M E; try discriminate; [constructor|].
      injection E as E1 E2. inversion L; subst. inversion M; subst. constructor; [apply IH; assumption|]. apply IHl; assumption.
    + intros E. inversion E as [| | |? ? ? T|? ? F2|]; subst; [cbn in T; discriminate|]. f_equal. clear S1 S2 E. revert M.
      induction F2 as [|x y l m A F2 IH2]; intros M; [reflexivity|]. cbn [map].
      inversion L; subst. inversion M; subst. inversion H as [|? ? HX HXS]; subst. f_equal; [apply HX; assumption|]. apply IH2; assumption.
  - destruct w; try (inversion S2; fail); try (split; [unfold canon; cbn; discriminate|intros E; inversion E; subst; cbn in *; discriminate]).
    rename l0 into m.
    assert (L : Forall (fun kv => solid (snd kv)) l /\ NoDup (map fst l)) by (inversion S1; auto).
    assert (M : Forall (fun kv => solid (snd kv)) m /\ NoDup (map fst m)) by (inversion S2; auto).
    destruct L as [L NL]. destruct M as [M NM]. rewrite !canon_dict by assumption.
    set (f := fun kv : Z * cval => (fst kv, canon (snd kv))).
    assert (PW : forall m', Forall (fun kv => solid (snd kv)) m' ->
      (map f l = map f m' <-> Forall2 (fun x y => fst x = fst y /\ alike (snd x) (snd y)) l m')).
    { clear NL NM M S1 S2. intros m' M. split.
      - intros E. revert m' M E. induction H as [|x l IH F IHl]; intros [|y m'] M E; try discriminate; [constructor|].
        injection E as E0 E1 E2. inversion L; subst. inversion M; subst. constructor; [|apply IHl; assumption].
        split; [exact E0|]. apply IH; assumption.
      - intros E. induction E as [|x y l m' [A1 A2] E IHE]; [reflexivity|]. cbn [map].
        inversion L; subst. inversion M; subst. inversion H as [|? ? HX HXS]; subst. f_equal; [|apply IHE; assumption].
        unfold f. f_equal; [exact A1|]. apply HX; assumption. }
    split.
    + intros E. injection E as E.
      assert (P : Permutation (map f l) (map f m)).
      { rewrite (py_sorted_perm by_key (map f l)), E. apply Permutation_sym, py_sorted_perm. }
      destruct (Permutation_map_inv f m P) as (m' & E' & P').
      apply alike_dict with (m' := m'); [exact P'|]. apply PW; [|exact E'].
      rewrite Forall_forall in *. intros x I. apply M. apply (Permutation_in _ (Permutation_sym P')). exact I.
    + intros E. inversion E as [| | |? ? ? T| |? ? m' P F2]; subst; [cbn in T; discriminate|]. f_equal.
      assert (M' : Forall (fun kv => solid (snd kv)) m').
      { rewrite Forall_forall in *. intros x I. apply M. apply (Permutation_in _ (Permutation_sym P)). exact I. }
      rewrite (proj2 (PW m' M') F2). apply sorted_unique.
      * rewrite <- (Permutation_map fst (py_sorted_perm by_key (map f m'))). unfold f. rewrite map_keys.
        apply (Permutation_NoDup (Permutation_map fst P)), NM.
      * rewrite <- !py_sorted_perm. apply Permutation_map, Permutation_sym, P.
      * apply sorted_keys.
      * apply sorted_keys.
Qed.

Lemma canon_solid_not_none : forall v, solid v -> canon v <> SNone.
Proof. intros v S. inversion S; unfold canon; cbn; discriminate. Qed.
Lemma canon_top : forall v w, v = CNone \/ solid v -> w = CNone \/ solid w -> (canon v = canon w <-> alike v w).
Proof.
  intros v w [->|V] [->|W].
  - split; [intros _; constructor|reflexivity].
  - split; [intros E; exfalso; apply (canon_solid_not_none w W); symmetry; exact E|].
    intros E. inversion E; subst; [reflexivity|cbn in *; discriminate].
  - split; [intros E; exfalso; apply (canon_solid_not_none v V); exact E|].
    intros E. inversion E; subst; [reflexivity|cbn in *; discriminate].
  - apply canon_alike; assumption.
Qed.

Lemma zspec : forall a b : Z, (a =? b) = true <-> a = b.
Proof. exact Z.eqb_eq. Qed.
Lemma memz : forall x l, mem Z.eqb x l = true <-> In x l.
Proof. intros. apply mem_spec. apply zspec. Qed.
Lemma memz_false : forall x l, mem Z.eqb x l = false <-> ~ In x l.
Proof. intros. rewrite <- memz. destruct (mem Z.eqb x l); split; congruence. Qed.

Lemma plain_no_subconf : forall c k v, plain c -> In (k, v) (cf_conf c) -> is_subconf v = false.
Proof.
  intros c k v [N P] I. assert (S : v = CNone \/ solid v).
  { apply (P k). unfold option_of. apply dict_in_get; [apply zspec|exact N|exact I]. }
  destruct S as [->|S]; [reflexivity|]. inversion S; subst; try reflexivity. cbn. destruct l as [|x l]; [reflexivity|].
  inversion H; subst. inversion H2; reflexivity.
Qed.

Lemma conf_keys_in : forall b ign c k s, plain c ->
  (In (k, s) (conf_keys b ign c) <-> ~ In k ign /\ exists v, option_of c k = Some v /\ s = canon v).
Proof.
  intros b ign c k s P. unfold conf_keys. rewrite in_map_iff. split.
  - intros ([k' v] & E & I). injection E as -> <-. apply filter_In in I as [I C]. cbn [fst snd] in *.
    apply andb_true_iff in C as [C _]. apply negb_true_iff, memz_false in C. split; [exact C|].
    exists v. split; [|reflexivity]. apply dict_in_get; [apply zspec|apply P|exact I].
  - intros (C & v & G & ->). exists (k, v). split; [reflexivity|]. apply dict_get_in in G; [|apply zspec].
    apply filter_In. split; [exact G|]. cbn [fst snd]. rewrite (proj2 (memz_false _ _) C), (plain_no_subconf c k v P G).
    destruct b; reflexivity.
Qed.

Lemma plain_values : forall c k v, plain c -> option_of c k = Some v -> v = CNone \/ solid v.
Proof. intros c k v [_ P] G. exact (P k v G). Qed.

Lemma keys_alike : forall b ign x y, plain x -> plain y ->
  (same_keys (conf_keys b ign x) (conf_keys b ign y) = true <-> conf_alike ign x y).
Proof.
  intros b ign x y PX PY. rewrite same_keys_spec. split.
  - intros E k NI. destruct (option_of x k) as [v|] eqn:GX; destruct (option_of y k) as [w|] eqn:GY.
    + assert (I : In (k, canon v) (conf_keys b ign x)) by (apply conf_keys_in; eauto).
      apply E in I. apply conf_keys_in in I as (_ & w' & G & C); [|exact PY]. rewrite GY in G. injection G as <-.
      apply canon_top; [exact (plain_values x k v PX GX)|exact (plain_values y k w PY GY)|exact C].
    + assert (I : In (k, canon v) (conf_keys b ign x)) by (apply conf_keys_in; eauto).
      apply E in I. apply conf_keys_in in I as (_ & w' & G & C); [|exact PY]. rewrite GY in G. discriminate.
    + assert (I : In (k, canon w) (conf_keys b ign y)) by (apply conf_keys_in; eauto).
      apply E in I. apply conf_keys_in in I as (_ & w' & G & C); [|exact PX]. rewrite GX in G. discriminate.
    + exact I.
  - intros E [k s]. rewrite !conf_keys_in by assumption. split; intros (NI & v & G & ->); split; try exact NI;
      specialize (E k NI); rewrite G in E.
    + destruct (option_of y k) as [w|] eqn:GY; [|contradiction]. exists w. split; [reflexivity|].
      apply canon_top; [exact (plain_values x k v PX G)|exact (plain_values y k w PY GY)|exact E].
    + destruct (option_of x k) as [w|] eqn:GX; [|contradiction]. exists w. split; [reflexivity|].
      symmetry. apply canon_top; [exact (plain_values x k w PX GX)|exact (plain_values y k v PY G)|exact E].
Qed.

Lemma ignore_subconf_spec : forall ign a b, plain a -> plain b -> (ignore_subconf ign a b = true <-> conf_alike ign a b).
Proof. intros. apply keys_alike; assumption. Qed.
Lemma conf_eqb_spec : forall a b, plain a -> plain b -> (conf_eqb a b = true <-> conf_alike [] a b).
Proof. intros. apply keys_alike; assumption. Qed.

Lemma alike_weaken : forall ign ign' a b, (forall k, In k ign -> In k ign') -> conf_alike ign a b -> conf_alike ign' a b.
Proof. intros ign ign' a b S A k NI. apply A. intros I. exact (NI (S k I)). Qed.

(** ** Classes *)
Section Classes.
  Variables (ign : list Z) (old new : list (Z * conf)).
  Hypothesis PO : plain_all old.
  Hypothesis PN : plain_all new.

  Lemma get_of : forall l k c, plain_all l -> (dict_get Z.eqb k l = Some c <-> In (k, c) l).
  Proof.
    intros l k c [N _]. split; intros I.
    - apply dict_get_in in I; [exact I|apply zspec].
    - apply dict_in_get; [apply zspec|exact N|exact I].
  Qed.
  Lemma get_none : forall (l : list (Z * conf)) k, dict_get Z.eqb k l = None <-> ~ In k (map fst l).
  Proof. intros. apply dict_get_none. apply zspec. Qed.

  Lemma of_class_in : forall ok k, In k (of_class ok ign old new) <->
    exists n, In (k, n) new /\ ok (classify ign old (k, n)) = true.
  Proof.
    intros ok k. unfold of_class. rewrite in_map_iff. split.
    - intros ([k' n] & E & I). cbn [fst] in E. subst k'. apply filter_In in I as [I C]. exists n. auto.
    - intros (n & I & C). exists (k, n). split; [reflexivity|]. apply filter_In. auto.
  Qed.

  Let c := fst (get_conf_changes ign old new).

  Lemma deleted_in : forall k, In k (co_deleted c) <-> In k (map fst old) /\ ~ In k (map fst new).
  Proof.
    intros k. unfold c, get_conf_changes. cbn [fst co_deleted]. rewrite in_map_iff. split.
    - intros ([k' o] & E & I). cbn [fst] in E. subst k'. apply filter_In in I as [I C]. cbn [fst] in C.
      apply negb_true_iff, memz_false in C. split; [|exact C]. apply in_map_iff. exists (k, o). auto.
    - intros [I C]. apply in_map_iff in I as ([k' o] & E & I). cbn [fst] in E. subst k'. exists (k, o). split; [reflexivity|].
      apply filter_In. split; [exact I|]. cbn [fst]. apply negb_true_iff, memz_false. exact C.
  Qed.

  Lemma added_in : forall k, In k (co_added c) <-> In k (map fst new) /\ ~ In k (map fst old).
  Proof.
    intros k. unfold c, get_conf_changes. cbn [fst co_added]. rewrite of_class_in. unfold classify. cbn [fst snd]. split.
    - intros (n & I & C). split; [apply in_map_iff; exists (k, n); auto|]. apply get_none.
      destruct (dict_get Z.eqb k old); [|reflexivity]. destruct (ignore_subconf ign c0 n); [discriminate|].
      destruct (ignore_subconf (description :: ign) c0 n); discriminate.
    - intros [I C]. apply in_map_iff in I as ([k' n] & E & I). cbn [fst] in E. subst k'. exists n. split; [exact I|].
      apply get_none in C. rewrite C. reflexivity.
  Qed.

  Lemma changed_in : forall k, In k (co_changed c) <->
    exists o n, In (k, o) old /\ In (k, n) new /\ ~ conf_alike (description :: ign) o n.
  Proof.
    intros k. unfold c, get_conf_changes. cbn [fst co_changed]. rewrite of_class_in. unfold classify. cbn [fst snd]. split.
    - intros (n & I & C). destruct (dict_get Z.eqb k old) as [o|] eqn:G; [|discriminate]. apply get_of in G; [|exact PO].
      exists o, n. split; [exact G|]. split; [exact I|]. intros A.
      apply (ignore_subconf_spec _ o n (proj2 PO _ _ G) (proj2 PN _ _ I)) in A. rewrite A in C.
      destruct (ignore_subconf ign o n); discriminate.
    - intros (o & n & I & J & A). exists n. split; [exact J|]. rewrite (proj2 (get_of old k o PO) I).
      destruct (ignore_subconf ign o n) eqn:E1.
      + exfalso. apply A. apply alike_weaken with (ign := ign); [intros; right; assumption|].
        apply ignore_subconf_spec; [exact (proj2 PO _ _ I)|exact (proj2 PN _ _ J)|exact E1].
      + destruct (ignore_subconf (description :: ign) o n) eqn:E2; [|reflexivity].
        exfalso. apply A. apply ignore_subconf_spec; [exact (proj2 PO _ _ I)|exact (proj2 PN _ _ J)|exact E2].
  Qed.

  Lemma same_in : forall k, In k (co_same c) <->
    exists o n, In (k, o) old /\ In (k, n) new /\ conf_alike (description :: ign) o n.
  Proof.
    intros k. unfold c, get_conf_changes. cbn [fst co_same]. rewrite of_class_in. unfold classify. cbn [fst snd]. split.
    - intros (n & I & C). destruct (dict_get Z.eqb k old) as [o|] eqn:G; [|discriminate]. apply get_of in G; [|exact PO].
      exists o, n. split; [exact G|]. split; [exact I|].
      destruct (ignore_subconf ign o n) eqn:E1.
      + apply alike_weaken with (ign := ign); [intros; right; assumption|].
        apply ignore_subconf_spec; [exact (proj2 PO _ _ G)|exact (proj2 PN _ _ I)|exact E1].
      + destruct (ignore_subconf (description :: ign) o n) eqn:E2; [|discriminate].
        apply ignore_subconf_spec; [exact (proj2 PO _ _ G)|exact (proj2 PN _ _ I)|exact E2].
    - intros (o & n & I & J & A). exists n. split; [exact J|]. rewrite (proj2 (get_of old k o PO) I).
      destruct (ignore_subconf ign o n) eqn:E1; [reflexivity|].
      apply ignore_subconf_spec in A; [rewrite A; reflexivity|exact (proj2 PO _ _ I)|exact (proj2 PN _ _ J)].
  Qed.

  Lemma description_in : forall k, In k (co_description c) <->
    exists o n, In (k, o) old /\ In (k, n) new /\ conf_alike (description :: ign) o n /\ ~ conf_alike ign o n.
  Proof.
    intros k. unfold c, get_conf_changes. cbn [fst co_description]. rewrite of_class_in. unfold classify. cbn [fst snd]. split.
    - intros (n & I & C). destruct (dict_get Z.eqb k old) as [o|] eqn:G; [|discriminate]. apply get_of in G; [|exact PO].
      exists o, n. split; [exact G|]. split; [exact I|].
      destruct (ignore_subconf ign o n) eqn:E1; [discriminate|].
      destruct (ignore_subconf (description :: ign) o n) eqn:E2; [|discriminate]. split.
      + apply ignore_subconf_spec; [exact (proj2 PO _ _ G)|exact (proj2 PN _ _ I)|exact E2].
      + intros A. apply ignore_subconf_spec in A; [congruence|exact (proj2 PO _ _ G)|exact (proj2 PN _ _ I)].
    - intros (o & n & I & J & A & B). exists n. split; [exact J|]. rewrite (proj2 (get_of old k o PO) I).
      destruct (ignore_subconf ign o n) eqn:E1.
      + exfalso. apply B. apply ignore_subconf_spec; [exact (proj2 PO _ _ I)|exact (proj2 PN _ _ J)|exact E1].
      + apply ignore_subconf_spec in A; [rewrite A; reflexivity|exact (proj2 PO _ _ I)|exact (proj2 PN _ _ J)].
  Qed.

  (** Nothing but the unchanged. *)
  Lemma no_changes : all_alike (description :: ign) old new -> co_deleted c = [] /\ co_added c = [] /\ co_changed c = [] /\
    forall k, In k (co_same c) <-> In k (map fst new).
  Proof.
    intros [K A].
    assert (E : forall l : list Z, (forall k, ~ In k l) -> l = []).
    { intros [|x l] H; [reflexivity|]. exfalso. apply (H x). left. reflexivity. }
    split; [|split; [|split]].
    - apply E. intros k I. apply deleted_in in I as [I J]. apply J, K, I.
    - apply E. intros k I. apply added_in in I as [I J]. apply J, K, I.
    - apply E. intros k I. apply changed_in in I as (o & n & I & J & B). apply B. exact (A k o n I J).
    - intros k. rewrite same_in. split.
      + intros (o & n & I & J & _). apply in_map_iff. exists (k, n). auto.
      + intros J. assert (I := proj2 (K k) J). apply in_map_iff in I as ([k1 o] & E1 & I). apply in_map_iff in J as ([k2 n] & E2 & J).
        cbn [fst] in E1, E2. subst k1 k2. exists o, n. split; [exact I|]. split; [exact J|]. exact (A k o n I J).
  Qed.
End Classes.

(** ** A port comparison that does not ask for a cold start *)
Lemma diff_in : forall a b x, In x (diff a b) <-> In x a /\ ~ In x b.
Proof. intros. unfold diff. rewrite filter_In, negb_true_iff, memz_false. tauto. Qed.

Section Ports.
  Variables (old new : dp_conf) (dv cv acls : list Z).
  Variables (del ch add ap cv' : list Z).
  Let c := fst (get_conf_changes [acls_in] (plain_ports (df_ports old)) (plain_ports (df_ports new))).

  Lemma port_changes_always : forall all, port_changes old new dv cv acls = PyVal (all, del, ch, add, ap, cv') ->
    del = co_deleted c /\ add = co_added c /\ forall p, In p (co_changed c) -> In p ch.
  Proof.
    intros all. unfold port_changes. fold c. destruct (topology_ports old new (co_deleted c) (co_added c)) as [|topo]; [discriminate|].
    cbv zeta. match goal with |- (if ?b then _ else _) = _ -> _ => destruct b; [|discriminate] end.
    intros E. injection E. intros E5 E4 E3 E2 E1 E0. split; [exact (eq_sym E1)|]. split; [exact (eq_sym E3)|]. intros p I. rewrite <- E2.
    assert (K : forall (b : bool) X, In p (if b then (co_changed c ++ topo) ++ X else co_changed c ++ topo)).
    { intros b X. destruct b; rewrite ?in_app_iff; auto. }
    match goal with |- In _ (if ?b then _ else _) => destruct b end; [apply K|]. apply in_or_app. left. apply K.
  Qed.

  Hypothesis W : port_changes old new dv cv acls = PyVal (false, del, ch, add, ap, cv').

  Lemma port_changes_warm :
    (forall v n p, In v cv -> In (v, n) (df_vlans new) -> In p (vf_ports n) -> In p ch) /\
    (forall p o n, In p (co_same c) -> dict_get Z.eqb p (df_ports old) = Some o -> dict_get Z.eqb p (df_ports new) = Some n ->
       pf_mirror o <> pf_mirror n -> In p ch) /\
    (forall p o n, In p (co_same c) -> dict_get Z.eqb p (df_ports old) = Some o -> dict_get Z.eqb p (df_ports new) = Some n ->
       acl_ref_changes acls (pf_acls o) (pf_acls n) = true -> In p ch \/ In p ap) /\
    (forall v, In v cv -> ~ In v dv -> In v cv') /\
    (forall v, In v (port_vlan_changes old new (co_deleted c) (co_added c) (co_changed c)) -> ~ In v dv -> In v cv').
  Proof.
    revert W. unfold port_changes. fold c.
    destruct (topology_ports old new (co_deleted c) (co_added c)) as [|topo] eqn:T; [discriminate|]. cbv zeta.
    set (same := match topo with [] => co_same c | _ => diff (co_same c) (co_changed c ++ topo) end).
    match goal with |- (if ?b then _ else _) = _ -> _ => destruct b; [|discriminate] end.
    intros E. injection E. intros E5 E4 E3 E2 E1 E0. apply orb_false_iff in E0 as [E0 _]. rewrite E0 in *.
    assert (NE : nonempty same = true). { destruct (nonempty same); [reflexivity|discriminate]. }
    rewrite NE in *. cbn [andb] in *.
    assert (SM : forall p, In p (co_same c) -> In p same \/ In p (co_changed c ++ topo)).
    { intros p I. destruct (in_dec Z.eq_dec p (co_changed c ++ topo)) as [J|J]; [auto|]. left. unfold same.
      destruct topo; [exact I|]. apply diff_in. auto. }
    assert (C1 : forall p, In p (co_changed c ++ topo) -> In p ch).
    { intros p I. rewrite <- E2. destruct (nonempty cv); rewrite !in_app_iff in *; tauto. }
    split; [|split; [|split; [|split]]].
    - intros v n p I J K. rewrite <- E2. assert (NC : nonempty cv = true) by (destruct cv; [contradiction|reflexivity]).
      rewrite NC. rewrite !in_app_iff. left. right. apply in_flat_map. exists (v, n). split; [exact J|]. cbn [fst snd].
      rewrite (proj2 (memz v cv) I). exact K.
    - intros p o n I GO GN M. destruct (SM p I) as [S|S]; [|exact (C1 p S)]. rewrite <- E2. apply in_or_app. right.
      apply filter_In. split; [exact S|]. rewrite GO, GN. apply negb_true_iff. destruct (mirror_eqb (pf_mirror o) (pf_mirror n)) eqn:B; [|reflexivity].
      exfalso. apply M. unfold mirror_eqb in B. destruct (pf_mirror o), (pf_mirror n); try discriminate; [|reflexivity].
      destruct (list_eq_dec Z.eq_dec l l0); [congruence|discriminate].
    - intros p o n I GO GN M. destruct (SM p I) as [S|S]; [|left; exact (C1 p S)]. right. rewrite <- E4.
      apply filter_In. split; [exact S|]. rewrite GO, GN. exact M.
    - intros v I J. rewrite <- E5. apply diff_in. split; [|exact J]. apply in_or_app. auto.
    - intros v I J. rewrite <- E5. apply diff_in. split; [|exact J]. apply in_or_app. right.
      unfold port_vlan_changes in *. rewrite !in_app_iff in *. destruct I as [I|I]; [left|right; exact I].
      apply in_flat_map in I as (p & P1 & P2). apply in_flat_map. exists p. split; [|exact P2].
      destruct (nonempty cv); rewrite !in_app_iff; auto.
  Qed.
End Ports.

(** ** The whole comparison *)
Definition warm_start (old new : dp_conf) (d : dp_changes) : Prop :=
  exists all del ch add ap cv',
    port_changes old new (fst (vlan_changes old new (acl_changes old new))) (snd (vlan_changes old new (acl_changes old new)))
      (acl_changes old new) = PyVal (all, del, ch, add, ap, cv') /\
    let m := fst (get_conf_changes [] (df_meters old) (df_meters new)) in
    d = mkDpChanges del ch add ap (fst (vlan_changes old new (acl_changes old new))) cv' all
          (nonempty (co_deleted m ++ co_added m ++ co_changed m)) (co_deleted m) (co_added m) (co_changed m).

Lemma cold_or_warm : forall old new d, get_config_changes old new = PyVal d -> d = cold_changes \/ warm_start old new d.
Proof.
  intros old new d. unfold get_config_changes.
  match goal with |- (if ?b then _ else _) = _ -> _ => destruct b end; [intros E; injection E; auto|].
  destruct (negb (same_routers (df_routers new) (df_routers old))); [intros E; injection E; auto|].
  destruct (negb (ignore_subconf _ _ _)); [intros E; injection E; auto|]. cbv zeta.
  destruct (vlan_changes old new (acl_changes old new)) as [dv cv] eqn:V.
  destruct (port_changes old new dv cv (acl_changes old new)) as [|[[[[[all del] ch] add] ap] cv']] eqn:P; [discriminate|].
  intros E. injection E as <-. right. exists all, del, ch, add, ap, cv'. rewrite V. cbn [fst snd]. split; [exact P|reflexivity].
Qed.

Lemma reload_cases : forall pc d, reload pc d = Cold \/
  (dc_all_ports d = false /\ (reload pc d = Warm d \/
    (reload pc d = Nothing /\ dc_deleted_ports d = [] /\ dc_changed_ports d = [] /\ dc_added_ports d = [] /\ dc_acl_ports d = []
     /\ dc_deleted_vlans d = [] /\ dc_changed_vlans d = [] /\ dc_deleted_meters d = [] /\ dc_added_meters d = [] /\ dc_changed_meters d = []))).
Proof.
  intros pc d. unfold reload. destruct pc; [auto|]. destruct (dc_all_ports d); [auto|]. right. split; [reflexivity|].
  match goal with |- context [if ?b then _ else _] => destruct b eqn:B end; [auto|]. right.
  repeat (apply orb_false_iff in B as [B ?]).
  repeat match goal with H : nonempty ?l = false |- _ => destruct l eqn:?; [clear H|discriminate] end.
  repeat split; reflexivity.
Qed.

Lemma noticed_port : forall pc d p, In p (dc_deleted_ports d) \/ In p (dc_changed_ports d) \/ In p (dc_added_ports d) \/ dc_all_ports d = true ->
  restarts_port (reload pc d) p.
Proof.
  intros pc d p H. destruct (reload_cases pc d) as [R|[A [R|(R & D1 & D2 & D3 & _)]]]; rewrite R; cbn; [exact I| |].
  - destruct H as [H|[H|[H|H]]]; auto. congruence.
  - rewrite D1, D2, D3 in H. cbn in H. destruct H as [H|[H|[H|H]]]; auto. congruence.
Qed.
Lemma noticed_acl : forall pc d p, In p (dc_changed_ports d) \/ In p (dc_acl_ports d) \/ dc_all_ports d = true ->
  restarts_acls (reload pc d) p.
Proof.
  intros pc d p H. destruct (reload_cases pc d) as [R|[A [R|(R & D1 & D2 & D3 & D4 & _)]]]; unfold restarts_acls; rewrite R; cbn; [auto| |].
  - destruct H as [H|[H|H]]; auto. congruence.
  - rewrite D2, D4 in H. cbn in H. destruct H as [H|[H|H]]; auto. congruence.
Qed.
Lemma noticed_vlan : forall pc d v, In v (dc_deleted_vlans d) \/ In v (dc_changed_vlans d) \/ dc_all_ports d = true ->
  restarts_vlan (reload pc d) v.
Proof.
  intros pc d v H. destruct (reload_cases pc d) as [R|[A [R|(R & _ & _ & _ & _ & D1 & D2 & _)]]]; rewrite R; cbn; [exact I| |].
  - destruct H as [H|[H|H]]; auto. congruence.
  - rewrite D1, D2 in H. cbn in H. destruct H as [H|[H|H]]; auto. congruence.
Qed.
Lemma cold_reload : forall pc, reload pc cold_changes = Cold.
Proof. intros []; reflexivity. Qed.

Lemma plain_keys : forall {A} (f : A -> conf) (l : list (Z * A)), map fst (map (fun kv => (fst kv, f (snd kv))) l) = map fst l.
Proof. intros. rewrite map_map. reflexivity. Qed.
Lemma plain_in : forall {A} (f : A -> conf) (l : list (Z * A)) k a, In (k, a) l -> In (k, f a) (map (fun kv => (fst kv, f (snd kv))) l).
Proof. intros A f l k a I. apply in_map_iff. exists (k, a). auto. Qed.
Lemma plain_in_inv : forall {A} (f : A -> conf) (l : list (Z * A)) k x, In (k, x) (map (fun kv => (fst kv, f (snd kv))) l) ->
  exists a, In (k, a) l /\ x = f a.
Proof. intros A f l k x I. apply in_map_iff in I as ([k' a] & E & I). injection E as -> <-. exists a. auto. Qed.
Lemma get_plain : forall {A} (f : A -> conf) (l : list (Z * A)) k a,
  plain_all (map (fun kv => (fst kv, f (snd kv))) l) -> In (k, a) l -> dict_get Z.eqb k l = Some a.
Proof.
  intros A f l k a [N _] I. apply dict_in_get; [apply zspec| |exact I]. rewrite plain_keys in N. exact N.
Qed.

Section Noticed.
  Variables (old new : dp_conf).
  Hypothesis PO : plain_dp old.
  Hypothesis PN : plain_dp new.
  Variable d : dp_changes.
  Hypothesis G : get_config_changes old new = PyVal d.
  Variable pc : bool.

  Lemma acl_changes_in : forall a, In a (acl_changes old new) <-> acl_differs old new a.
  Proof.
    intros a. unfold acl_changes. cbv zeta. rewrite in_app_iff, added_in.
    rewrite (changed_in _ _ _ (pd_acls _ PO) (pd_acls _ PN)). split.
    - intros [[I J]|(o & n & I & J & K)].
      + apply in_map_iff in I as ([k n] & E & I). cbn [fst] in E. subst k. exists n. split; [exact I|].
        intros o IO. exfalso. apply J. apply in_map_iff. exists (a, o). auto.
      + exists n. split; [exact J|]. intros o' I'.
        assert (o' = o) as ->; [|exact K].
        assert (E1 := proj2 (get_of _ a o (pd_acls _ PO)) I). assert (E2 := proj2 (get_of _ a o' (pd_acls _ PO)) I'). congruence.
    - intros (n & I & K). destruct (dict_get Z.eqb a (df_acls old)) as [o|] eqn:GO.
      + right. apply get_of in GO; [|apply (pd_acls _ PO)]. exists o, n. auto.
      + left. split; [apply in_map_iff; exists (a, n); auto|]. apply get_none. exact GO.
  Qed.

  Lemma acl_ref_true : forall acls o n, acl_ref_changes acls o n = true <-> o <> n \/ exists a, In a n /\ In a acls.
  Proof.
    intros acls o n. unfold acl_ref_changes. rewrite orb_true_iff, negb_true_iff, existsb_exists.
    destruct (list_eq_dec Z.eq_dec o n) as [E|E]; split.
    - intros [(a & I & M)|?]; [|discriminate]. right. exists a. split; [exact I|]. apply memz. exact M.
    - intros [?|(a & I & M)]; [contradiction|]. left. exists a. split; [exact I|]. apply memz. exact M.
    - auto.
    - auto.
  Qed.

  Lemma port_added : forall p, In p (map fst (df_ports new)) -> ~ In p (map fst (df_ports old)) -> restarts_port (reload pc d) p.
  Proof.
    intros p I J. apply noticed_port. destruct (cold_or_warm _ _ _ G) as [->|(all & del & ch & add & ap & cv' & P & ->)]; [auto|].
    right. right. left. cbn [dc_added_ports]. destruct (port_changes_always _ _ _ _ _ _ _ _ _ _ _ P) as (_ & -> & _).
    apply added_in. unfold plain_ports. rewrite !plain_keys. auto.
  Qed.
  Lemma port_deleted : forall p, In p (map fst (df_ports old)) -> ~ In p (map fst (df_ports new)) -> restarts_port (reload pc d) p.
  Proof.
    intros p I J. apply noticed_port. destruct (cold_or_warm _ _ _ G) as [->|(all & del & ch & add & ap & cv' & P & ->)]; [auto|].
    left. cbn [dc_deleted_ports]. destruct (port_changes_always _ _ _ _ _ _ _ _ _ _ _ P) as (-> & _ & _).
    apply deleted_in. unfold plain_ports. rewrite !plain_keys. auto.
  Qed.

  Lemma port_option : forall p o n, In (p, o) (df_ports old) -> In (p, n) (df_ports new) ->
    ~ conf_alike [description; acls_in] (pf_conf o) (pf_conf n) -> restarts_port (reload pc d) p.
  Proof.
    intros p o n I J A. apply noticed_port. destruct (cold_or_warm _ _ _ G) as [->|(all & del & ch & add & ap & cv' & P & ->)]; [auto|].
    right. left. cbn [dc_changed_ports]. destruct (port_changes_always _ _ _ _ _ _ _ _ _ _ _ P) as (_ & _ & C). apply C.
    apply (changed_in _ _ _ (pd_ports _ PO) (pd_ports _ PN)). exists (pf_conf o), (pf_conf n).
    split; [apply (plain_in pf_conf); exact I|]. split; [apply (plain_in pf_conf); exact J|exact A].
  Qed.

  (** A port whose options are the same is among the unchanged. *)
  Lemma port_same : forall p o n, In (p, o) (df_ports old) -> In (p, n) (df_ports new) ->
    In p (co_same (fst (get_conf_changes [acls_in] (plain_ports (df_ports old)) (plain_ports (df_ports new))))) \/
    ~ conf_alike [description; acls_in] (pf_conf o) (pf_conf n).
  Proof.
    intros p o n I J. destruct (ignore_subconf [description; acls_in] (pf_conf o) (pf_conf n)) eqn:E.
    - left. apply (same_in _ _ _ (pd_ports _ PO) (pd_ports _ PN)). exists (pf_conf o), (pf_conf n).
      assert (I' := plain_in pf_conf _ _ _ I). assert (J' := plain_in pf_conf _ _ _ J).
      split; [exact I'|]. split; [exact J'|]. apply ignore_subconf_spec in E; [exact E| |].
      + apply (proj2 (pd_ports _ PO) _ _ I').
      + apply (proj2 (pd_ports _ PN) _ _ J').
    - right. intros A. apply ignore_subconf_spec in A; [congruence| |].
      + apply (proj2 (pd_ports _ PO) _ _ (plain_in pf_conf _ _ _ I)).
      + apply (proj2 (pd_ports _ PN) _ _ (plain_in pf_conf _ _ _ J)).
  Qed.

  Lemma port_mirror : forall p o n, In (p, o) (df_ports old) -> In (p, n) (df_ports new) ->
    pf_mirror o <> pf_mirror n -> restarts_port (reload pc d) p.
  Proof.
    intros p o n I J M. destruct (port_same p o n I J) as [S|A]; [|exact (port_option p o n I J A)].
    apply noticed_port. destruct (cold_or_warm _ _ _ G) as [->|(all & del & ch & add & ap & cv' & P & ->)]; [auto|].
    destruct all; [auto|]. right. left. cbn [dc_changed_ports]. destruct (port_changes_warm _ _ _ _ _ _ _ _ _ _ P) as (_ & C & _).
    apply (C p o n S); [|  |exact M]; eapply (get_plain pf_conf); eauto; [apply (pd_ports _ PO)|apply (pd_ports _ PN)].
  Qed.

  Lemma port_acls : forall p o n, In (p, o) (df_ports old) -> In (p, n) (df_ports new) ->
    pf_acls o <> pf_acls n \/ (exists a, In a (pf_acls n) /\ acl_differs old new a) -> restarts_acls (reload pc d) p.
  Proof.
    intros p o n I J M. destruct (port_same p o n I J) as [S|A]; [|left; exact (port_option p o n I J A)].
    apply noticed_acl. destruct (cold_or_warm _ _ _ G) as [->|(all & del & ch & add & ap & cv' & P & ->)]; [auto|].
    destruct all; [auto|]. cbn [dc_changed_ports dc_acl_ports]. destruct (port_changes_warm _ _ _ _ _ _ _ _ _ _ P) as (_ & _ & C & _).
    destruct (C p o n S) as [K|K]; auto.
    - eapply (get_plain pf_conf); eauto. apply (pd_ports _ PO).
    - eapply (get_plain pf_conf); eauto. apply (pd_ports _ PN).
    - apply acl_ref_true. destruct M as [M|(a & M1 & M2)]; [auto|]. right. exists a. split; [exact M1|]. apply acl_changes_in. exact M2.
  Qed.

  (** VLANs *)
  Lemma vlan_changed_in : forall v o n, In (v, o) (df_vlans old) -> In (v, n) (df_vlans new) ->
    ~ conf_alike [description; acls_in] (vf_conf o) (vf_conf n) \/ vf_acls o <> vf_acls n \/
    (exists a, In a (vf_acls n) /\ acl_differs old new a) ->
    In v (snd (vlan_changes old new (acl_changes old new))).
  Proof.
    intros v o n I J H. unfold vlan_changes. cbn [snd]. rewrite !in_app_iff.
    assert (I' := plain_in vf_conf _ _ _ I). assert (J' := plain_in vf_conf _ _ _ J).
    destruct (ignore_subconf [description; acls_in] (vf_conf o) (vf_conf n)) eqn:E.
    - apply ignore_subconf_spec in E; [|apply (proj2 (pd_vlans _ PO) _ _ I')|apply (proj2 (pd_vlans _ PN) _ _ J')].
      right. right. apply filter_In. split.
      + apply (same_in _ _ _ (pd_vlans _ PO) (pd_vlans _ PN)). exists (vf_conf o), (vf_conf n). auto.
      + rewrite (get_plain vf_conf _ _ _ (pd_vlans _ PO) I), (get_plain vf_conf _ _ _ (pd_vlans _ PN) J). apply acl_ref_true.
        destruct H as [H|[H|(a & M1 & M2)]]; [contradiction|auto|]. right. exists a. split; [exact M1|]. apply acl_changes_in. exact M2.
    - right. left. apply (changed_in _ _ _ (pd_vlans _ PO) (pd_vlans _ PN)). exists (vf_conf o), (vf_conf n).
      split; [exact I'|]. split; [exact J'|]. intros A. apply ignore_subconf_spec in A; [congruence| |].
      + apply (proj2 (pd_vlans _ PO) _ _ I').
      + apply (proj2 (pd_vlans _ PN) _ _ J').
  Qed.
  Lemma vlan_added_in : forall v, In v (map fst (df_vlans new)) -> ~ In v (map fst (df_vlans old)) ->
    In v (snd (vlan_changes old new (acl_changes old new))).
  Proof.
    intros v I J. unfold vlan_changes. cbn [snd]. rewrite !in_app_iff. left. apply added_in. unfold plain_vlans. rewrite !plain_keys. auto.
  Qed.
  Lemma vlan_deleted_in : forall v, In v (fst (vlan_changes old new (acl_changes old new))) <->
    In v (map fst (df_vlans old)) /\ ~ In v (map fst (df_vlans new)).
  Proof. intros v. unfold vlan_changes. cbn [fst]. rewrite deleted_in. unfold plain_vlans. rewrite !plain_keys. tauto. Qed.

  Lemma vlan_restarts : forall v n, In (v, n) (df_vlans new) -> In v (snd (vlan_changes old new (acl_changes old new))) ->
    restarts_vlan (reload pc d) v /\ forall p, In p (vf_ports n) -> restarts_port (reload pc d) p.
  Proof.
    intros v n J V. destruct (cold_or_warm _ _ _ G) as [->|(all & del & ch & add & ap & cv' & P & ->)].
    { rewrite cold_reload. cbn. auto. }
    destruct all. { split; [apply noticed_vlan|intros p _; apply noticed_port]; cbn; auto. }
    destruct (port_changes_warm _ _ _ _ _ _ _ _ _ _ P) as (C1 & _ & _ & C4 & _). split.
    - apply noticed_vlan. right. left. cbn [dc_changed_vlans]. apply C4; [exact V|]. intros D. apply vlan_deleted_in in D as [_ D].
      apply D. apply in_map_iff. exists (v, n). auto.
    - intros p I. apply noticed_port. right. left. cbn [dc_changed_ports]. exact (C1 v n p V J I).
  Qed.
  Lemma vlan_deleted : forall v, In v (map fst (df_vlans old)) -> ~ In v (map fst (df_vlans new)) -> restarts_vlan (reload pc d) v.
  Proof.
    intros v I J. apply noticed_vlan. destruct (cold_or_warm _ _ _ G) as [->|(all & del & ch & add & ap & cv' & P & ->)]; [auto|].
    left. cbn [dc_deleted_vlans]. apply vlan_deleted_in. auto.
  Qed.

  (** The VLANs a port leaves, joins, appears in or disappears from. *)
  Lemma port_vlans : forall v,
    In v (port_vlan_changes old new
            (co_deleted (fst (get_conf_changes [acls_in] (plain_ports (df_ports old)) (plain_ports (df_ports new)))))
            (co_added (fst (get_conf_changes [acls_in] (plain_ports (df_ports old)) (plain_ports (df_ports new)))))
            (co_changed (fst (get_conf_changes [acls_in] (plain_ports (df_ports old)) (plain_ports (df_ports new)))))) ->
    restarts_vlan (reload pc d) v.
  Proof.
    intros v I. apply noticed_vlan. destruct (cold_or_warm _ _ _ G) as [->|(all & del & ch & add & ap & cv' & P & ->)]; [auto|].
    destruct all; [auto|]. cbn [dc_deleted_vlans dc_changed_vlans].
    destruct (port_changes_warm _ _ _ _ _ _ _ _ _ _ P) as (_ & _ & _ & _ & C5).
    destruct (in_dec Z.eq_dec v (fst (vlan_changes old new (acl_changes old new)))) as [D|D]; [auto|]. right. left. apply C5; assumption.
  Qed.
End Noticed.

(** ** Nothing changed *)
Lemma all_alike_sym_keys : forall ign a b, all_alike ign a b -> forall k, In k (map fst a) <-> In k (map fst b).
Proof. intros ign a b [K _]. exact K. Qed.

Lemma alike_sym : forall v w, (v = CNone \/ solid v) -> (w = CNone \/ solid w) -> alike v w -> alike w v.
Proof. intros v w V W A. apply canon_top; [assumption|assumption|]. symmetry. apply canon_top; assumption. Qed.

Lemma routers_eqb_true : forall a b, plain_all b -> (forall k c, In (k, c) a -> plain c) ->
  (forall k, In k (map fst a) -> In k (map fst b)) ->
  (forall k x y, In (k, x) a -> In (k, y) b -> conf_alike [] x y) -> routers_eqb a b = true.
Proof.
  intros a b PB. induction a as [|[k c] a IH]; intros PA K A; [reflexivity|]. cbn [routers_eqb]. apply andb_true_iff. split.
  - assert (I : In k (map fst b)) by (apply K; left; reflexivity). apply in_map_iff in I as ([k' c'] & E & I). cbn [fst] in E. subst k'.
    rewrite (proj2 (get_of b k c' PB) I). apply conf_eqb_spec.
    + apply (PA k). left. reflexivity.
    + apply (proj2 PB k _ I).
    + apply (A k); [left; reflexivity|exact I].
  - apply IH.
    + intros k' c' I. apply (PA k'). right. exact I.
    + intros k' I. apply K. right. exact I.
    + intros k' x y I J. apply (A k'); [right; exact I|exact J].
Qed.

Lemma routers_eqb_spec : forall a b, plain_all b -> (forall k c, In (k, c) a -> plain c) -> routers_eqb a b = true ->
  (forall k, In k (map fst a) -> In k (map fst b)) /\ (forall k x y, In (k, x) a -> In (k, y) b -> conf_alike [] x y).
Proof.
  intros a b PB. induction a as [|[k c] a IH]; intros PA H; [split; [intros k []|intros k x y []]|]. cbn [routers_eqb] in H.
  apply andb_true_iff in H as [H1 H2]. destruct IH as [K A]; [intros k' c' I; apply (PA k'); right; exact I|exact H2|].
  destruct (dict_get Z.eqb k b) as [c'|] eqn:G; [|discriminate]. apply get_of in G; [|exact PB].
  apply conf_eqb_spec in H1; [|apply (PA k); left; reflexivity|apply (proj2 PB k _ G)]. split.
  - intros k' [<-|I]; [apply in_map_iff; exists (k, c'); auto|exact (K k' I)].
  - intros k' x y [E|I] J; [|exact (A k' x y I J)]. injection E as <- <-.
    assert (E1 := proj2 (get_of b k c' PB) G). assert (E2 := proj2 (get_of b k y PB) J). assert (y = c') as -> by congruence. exact H1.
Qed.

Lemma conf_alike_sym : forall ign a b, plain a -> plain b -> conf_alike ign a b -> conf_alike ign b a.
Proof.
  intros ign a b PA PB A k NI. specialize (A k NI). destruct (option_of a k) eqn:GA, (option_of b k) eqn:GB; auto.
  apply alike_sym; [eapply plain_values; [exact PA|eassumption]|eapply plain_values; [exact PB|eassumption]|exact A].
Qed.

Lemma same_routers_spec : forall a b, plain_all a -> plain_all b -> (same_routers a b = true <-> all_alike [] a b).
Proof.
  intros a b PA PB. unfold same_routers. rewrite andb_true_iff, Z.eqb_eq. split.
  - intros [L R]. destruct (routers_eqb_spec a b PB (proj2 PA) R) as [K A]. split; [|exact A].
    intros k. split; [apply K|]. apply (NoDup_length_incl (proj1 PA)); [rewrite !map_length; lia|exact K].
  - intros [K A]. split.
    + f_equal. rewrite <- (map_length fst a), <- (map_length fst b). apply Permutation_length.
      apply NoDup_Permutation; [apply PA|apply PB|exact K].
    + apply routers_eqb_true; [exact PB|exact (proj2 PA)|apply K|exact A].
Qed.

Lemma pairs_eqb_eq : forall a b, pairs_eqb a b = true <-> a = b.
Proof.
  induction a as [|[k v] a IH]; intros [|[k' v'] b]; cbn [pairs_eqb fst snd]; try (split; [discriminate|discriminate]); [split; reflexivity|].
  rewrite !andb_true_iff, !Z.eqb_eq, IH. split.
  - intros [[-> ->] ->]. reflexivity.
  - intros E. injection E as -> -> ->. auto.
Qed.
Lemma degrees_eqb_spec : forall a b, NoDup (map fst a) -> (degrees_eqb a b = true <-> Permutation a b).
Proof.
  intros a b N. unfold degrees_eqb. rewrite pairs_eqb_eq. split.
  - intros E. rewrite (py_sorted_perm by_key a), E. apply Permutation_sym, py_sorted_perm.
  - intros P. apply sorted_unique; [| |apply sorted_keys|apply sorted_keys].
    + rewrite <- (Permutation_map fst (py_sorted_perm by_key a)). exact N.
    + rewrite <- !py_sorted_perm. exact P.
Qed.

Lemma nil_of_none : forall l : list Z, (forall k, ~ In k l) -> l = [].
Proof. intros [|x l] H; [reflexivity|]. exfalso. apply (H x). left. reflexivity. Qed.

Section Quiet.
  Variables (old new : dp_conf).
  Hypothesis PO : plain_dp old.
  Hypothesis PN : plain_dp new.
  Hypothesis U : unchanged old new.
  Hypothesis P1 : df_ports new <> [].

  Lemma quiet_acls : acl_changes old new = [].
  Proof.
    apply nil_of_none. intros a I. apply (acl_changes_in _ _ PO PN) in I as (n & I & J).
    assert (K : In a (map fst (df_acls old))). { apply (proj1 (un_acls _ _ U)). apply in_map_iff. exists (a, n). auto. }
    apply in_map_iff in K as ([k o] & E & K). cbn [fst] in E. subst k. exact (J o K (proj2 (un_acls _ _ U) a o n K I)).
  Qed.
  Lemma quiet_vlans : vlan_changes old new [] = ([], []).
  Proof.
    unfold vlan_changes. cbv zeta.
    destruct (no_changes _ _ _ (pd_vlans _ PO) (pd_vlans _ PN) (un_vlans _ _ U)) as (-> & -> & -> & S). cbn [app]. f_equal.
    apply nil_of_none. intros v I. apply filter_In in I as [I B].
    destruct (dict_get Z.eqb v (df_vlans old)) as [o|] eqn:GO; [|discriminate].
    destruct (dict_get Z.eqb v (df_vlans new)) as [n|] eqn:GN; [|discriminate].
    apply dict_get_in in GO; [|apply zspec]. apply dict_get_in in GN; [|apply zspec].
    apply acl_ref_true in B. rewrite (un_vlan_acls _ _ U v o n GO GN) in B. destruct B as [B|(a & _ & [])]. contradiction.
  Qed.

  Lemma quiet_topology : forall del add, topology_ports old new del add = PyVal [].
  Proof.
    intros del add. unfold topology_ports. assert (S := un_stack _ _ U).
    destruct (df_stack old) as [a|] eqn:SO; [|reflexivity]. destruct (df_stack new) as [b|]; [|contradiction].
    destruct S as [_ S]. apply degrees_eqb_spec in S; [rewrite S; reflexivity|]. exact (pd_degrees _ PO a SO).
  Qed.

  Lemma quiet_ports : port_changes old new [] [] [] = PyVal (false, [], [], [], [], []).
  Proof.
    unfold port_changes. cbv zeta. rewrite quiet_topology.
    destruct (no_changes _ _ _ (pd_ports _ PO) (pd_ports _ PN) (un_ports _ _ U)) as (-> & -> & -> & S).
    assert (NE : nonempty (co_same (fst (get_conf_changes [acls_in] (plain_ports (df_ports old)) (plain_ports (df_ports new))))) = true).
    { destruct (co_same _) eqn:E; [|reflexivity]. exfalso. destruct (df_ports new) as [|[p c] r] eqn:DP; [exact (P1 eq_refl)|].
      apply (S p). cbn. auto. }
    rewrite NE. cbn [nonempty andb app port_vlan_changes flat_map diff filter forallb existsb orb].
    assert (M : forall l f, (forall p, In p l -> f p = false) -> filter f l = @nil Z).
    { intros l f H. apply nil_of_none. intros k I. apply filter_In in I as [I B]. rewrite (H k I) in B. discriminate. }
    rewrite M, M; [reflexivity| |].
    - intros p _. destruct (dict_get Z.eqb p (df_ports old)) as [o|] eqn:GO; [|reflexivity].
      destruct (dict_get Z.eqb p (df_ports new)) as [n|] eqn:GN; [|reflexivity].
      apply dict_get_in in GO; [|apply zspec]. apply dict_get_in in GN; [|apply zspec].
      destruct (un_port_refs _ _ U p o n GO GN) as [-> _]. destruct (acl_ref_changes [] (pf_acls n) (pf_acls n)) eqn:B; [|reflexivity].
      apply acl_ref_true in B as [B|(a & _ & [])]. contradiction.
    - intros p _. destruct (dict_get Z.eqb p (df_ports old)) as [o|] eqn:GO; [|reflexivity].
      destruct (dict_get Z.eqb p (df_ports new)) as [n|] eqn:GN; [|reflexivity].
      apply dict_get_in in GO; [|apply zspec]. apply dict_get_in in GN; [|apply zspec].
      destruct (un_port_refs _ _ U p o n GO GN) as [_ ->]. unfold mirror_eqb. destruct (pf_mirror n); [|reflexivity].
      destruct (list_eq_dec Z.eq_dec l l); [reflexivity|contradiction].
  Qed.

  Lemma quiet : exists d, get_config_changes old new = PyVal d /\ reload false d = Nothing.
  Proof.
    unfold get_config_changes.
    assert (R : match df_stack new with Some n => match df_stack old with Some o => negb (sf_root n =? sf_root o) | None => false end | None => false end = false).
    { assert (S := un_stack _ _ U). destruct (df_stack new), (df_stack old); try reflexivity. destruct S as [-> _]. rewrite Z.eqb_refl. reflexivity. }
    rewrite R.
    assert (RT : same_routers (df_routers new) (df_routers old) = true).
    { apply (same_routers_spec _ _ (pd_routers _ PN) (pd_routers _ PO)). destruct (un_routers _ _ U) as [K A]. split.
      - intros k. symmetry. apply K.
      - intros k x y I J. apply conf_alike_sym; [apply (proj2 (pd_routers _ PO) k _ J)|apply (proj2 (pd_routers _ PN) k _ I)|]. exact (A k y x J I). }
    rewrite RT. cbn [negb].
    rewrite (proj2 (ignore_subconf_spec _ _ _ (pd_conf _ PO) (pd_conf _ PN)) (un_conf _ _ U)). cbn [negb].
    rewrite quiet_acls, quiet_vlans, quiet_ports.
    destruct (no_changes _ _ _ (pd_meters _ PO) (pd_meters _ PN) (un_meters _ _ U)) as (-> & -> & -> & _).
    eexists. split; [reflexivity|reflexivity].
  Qed.
End Quiet.

(** ** The comparison comes to an end *)
Lemma vlan_changes_new : forall old new acls v, In v (snd (vlan_changes old new acls)) -> In v (map fst (df_vlans new)).
Proof.
  intros old new acls v. unfold vlan_changes. cbn [snd]. rewrite !in_app_iff. intros [I|[I|I]].
  - apply added_in in I as [I _]. unfold plain_vlans in I. rewrite plain_keys in I. exact I.
  - unfold get_conf_changes in I. cbn [fst co_changed] in I. apply of_class_in in I as (n & I & _).
    unfold plain_vlans in I. apply plain_in_inv in I as (a & I & _). apply in_map_iff. exists (v, a). auto.
  - apply filter_In in I as [I _]. unfold get_conf_changes in I. cbn [fst co_same] in I. apply of_class_in in I as (n & I & _).
    unfold plain_vlans in I. apply plain_in_inv in I as (a & I & _). apply in_map_iff. exists (v, a). auto.
Qed.

Lemma port_vlan_changes_known : forall old new del add ch v, consistent old -> consistent new ->
  In v (port_vlan_changes old new del add ch) -> In v (map fst (df_vlans old)) \/ In v (map fst (df_vlans new)).
Proof.
  intros old new del add ch v CO CN I. unfold port_vlan_changes in I. rewrite !in_app_iff in I.
  assert (VO : forall p o, dict_get Z.eqb p (df_ports old) = Some o -> In v (pf_vids o) -> In v (map fst (df_vlans old))).
  { intros p o G. apply dict_get_in in G; [|apply zspec]. exact (cs_port_vids _ CO p o G v). }
  assert (VN : forall p o, dict_get Z.eqb p (df_ports new) = Some o -> In v (pf_vids o) -> In v (map fst (df_vlans new))).
  { intros p o G. apply dict_get_in in G; [|apply zspec]. exact (cs_port_vids _ CN p o G v). }
  destruct I as [I|[I|I]]; apply in_flat_map in I as (p & _ & I).
  - destruct (dict_get Z.eqb p (df_ports old)) as [o|] eqn:GO; [|contradiction].
    destruct (dict_get Z.eqb p (df_ports new)) as [n|] eqn:GN; [|contradiction].
    rewrite !in_app_iff, !diff_in in I. destruct I as [[I _]|[[I _]|I]]; [left; eauto|right; eauto|].
    destruct (Bool.eqb (pf_stack o) (pf_stack n)); [contradiction|]. right. exact I.
  - destruct (dict_get Z.eqb p (df_ports old)) as [o|] eqn:GO; [|contradiction]. rewrite in_app_iff in I.
    destruct I as [I|I]; [left; eauto|]. destruct (pf_stack o); [left; exact I|contradiction].
  - destruct (dict_get Z.eqb p (df_ports new)) as [o|] eqn:GO; [|contradiction]. rewrite in_app_iff in I.
    destruct I as [I|I]; [right; eauto|]. destruct (pf_stack o); [right; exact I|contradiction].
Qed.

Lemma no_raise : forall old new, plain_dp old -> plain_dp new -> consistent old -> consistent new ->
  (df_stack old <> None -> df_stack new <> None) -> exists d, get_config_changes old new = PyVal d.
Proof.
  intros old new PO PN CO CN S. unfold get_config_changes.
  match goal with |- context [if ?b then _ else _] => destruct b end; [eauto|].
  destruct (negb (same_routers (df_routers new) (df_routers old))); [eauto|].
  destruct (negb (ignore_subconf _ _ _)); [eauto|]. cbv zeta.
  destruct (vlan_changes old new (acl_changes old new)) as [dv cv] eqn:V.
  match goal with |- context [match ?x with PyRaise => _ | PyVal _ => _ end] => destruct x as [|[[[[[all del] ch] add] ap] cv']] eqn:P end; [|eauto].
  exfalso. revert P. unfold port_changes. cbv zeta.
  set (c := fst (get_conf_changes [acls_in] (plain_ports (df_ports old)) (plain_ports (df_ports new)))).
  destruct (topology_ports old new (co_deleted c) (co_added c)) as [|topo] eqn:T.
  - unfold topology_ports in T. destruct (df_stack old); [|discriminate]. destruct (df_stack new); [discriminate|]. 
    intros _. apply S; [discriminate|reflexivity].
  - match goal with |- (if ?b then _ else _) = _ -> _ => destruct b eqn:B; [discriminate|] end. intros _.
    assert (BT : forall l, (forall v, In v l -> In v (map fst (df_vlans new))) -> forallb (fun v => mem Z.eqb v (all_vids new)) l = true).
    { intros l H. apply forallb_forall. intros v I. apply memz. exact (H v I). }
    rewrite BT in B; [discriminate|]. intros v I. apply diff_in in I as [I ND].
    assert (K : In v (map fst (df_vlans old)) \/ In v (map fst (df_vlans new)) -> In v (map fst (df_vlans new))).
    { intros [K|K]; [|exact K]. destruct (in_dec Z.eq_dec v (map fst (df_vlans new))) as [J|J]; [exact J|]. exfalso. apply ND.
      change dv with (fst (dv, cv)). rewrite <- V. apply vlan_deleted_in. auto. }
    assert (C : In v cv -> In v (map fst (df_vlans new))).
    { intros J. change cv with (snd (dv, cv)) in J. rewrite <- V in J. exact (vlan_changes_new _ _ _ _ J). }
    match type of I with In _ (if ?b then _ else _) => destruct b end; [exact (C I)|].
    apply in_app_or in I as [I|I]; [exact (C I)|]. apply K. eapply port_vlan_changes_known; eauto.
Qed.

(** ** Partition, for any objects *)
Lemma partition_any : forall ign old new, NoDup (map fst new) ->
  let c := fst (get_conf_changes ign old new) in
  forall k, In k (map fst old) \/ In k (map fst new) ->
    (In k (co_deleted c) /\ ~ In k (co_added c) /\ ~ In k (co_changed c) /\ ~ In k (co_same c)) \/
    (~ In k (co_deleted c) /\ In k (co_added c) /\ ~ In k (co_changed c) /\ ~ In k (co_same c)) \/
    (~ In k (co_deleted c) /\ ~ In k (co_added c) /\ In k (co_changed c) /\ ~ In k (co_same c)) \/
    (~ In k (co_deleted c) /\ ~ In k (co_added c) /\ ~ In k (co_changed c) /\ In k (co_same c)).
Proof.
  intros ign old new N c k K.
  assert (D : In k (co_deleted c) <-> In k (map fst old) /\ ~ In k (map fst new)) by apply deleted_in.
  assert (X : forall ok, In k (of_class ok ign old new) -> In k (map fst new)).
  { intros ok I. apply of_class_in in I as (n & I & _). apply in_map_iff. exists (k, n). auto. }
  destruct (in_dec Z.eq_dec k (map fst new)) as [J|J].
  - assert (ND : ~ In k (co_deleted c)) by (rewrite D; tauto).
    apply in_map_iff in J as ([k' n] & E & J). cbn [fst] in E. subst k'.
    assert (Y : forall ok, In k (of_class ok ign old new) <-> ok (classify ign old (k, n)) = true).
    { intros ok. rewrite of_class_in. split; [|intros B; exists n; auto]. intros (n' & I & B).
      assert (E1 := dict_in_get Z.eqb zspec k n new N J). assert (E2 := dict_in_get Z.eqb zspec k n' new N I).
      assert (n' = n) as <- by congruence. exact B. }
    unfold c, get_conf_changes. cbn [fst co_added co_changed co_same]. rewrite !Y.
    destruct (classify ign old (k, n)); cbn; fold (get_conf_changes ign old new);
      change (map fst (filter (fun kv : Z * conf => negb (mem Z.eqb (fst kv) (map fst new))) old)) with (co_deleted c); intuition discriminate.
  - left. split; [apply D; tauto|]. unfold c, get_conf_changes. cbn [fst co_added co_changed co_same].
    repeat split; intros I; apply X in I; contradiction.
Qed.

Lemma merge_state : forall c o k, NoDup (map fst (cf_dyn o)) ->
  state_of (merge_dyn c o) k = match state_of o k with Some v => Some v | None => state_of c k end.
Proof.
  intros c o k N. unfold state_of, merge_dyn. cbn [cf_dyn]. generalize (cf_dyn c) as d.
  induction (cf_dyn o) as [|[k' v] r IH]; intros d; [reflexivity|]. cbn [fold_left fst snd map] in *. inversion N; subst.
  rewrite IH by assumption. cbn [dict_get]. destruct (k =? k') eqn:E.
  - apply Z.eqb_eq in E. subst k'. rewrite (proj2 (dict_get_none Z.eqb zspec k r)) by assumption.
    rewrite dict_get_put by apply zspec. rewrite Z.eqb_refl. reflexivity.
  - destruct (dict_get Z.eqb k r); [reflexivity|]. rewrite dict_get_put by apply zspec. rewrite E. reflexivity.
Qed.

(** ** Attributes *)
Lemma sspec : forall a b, String.eqb a b = true <-> a = b.
Proof. exact String.eqb_eq. Qed.

Lemma sorted_id : forall {V} (l : list (Z * V)), StronglySorted klt l -> py_sorted by_key l = l.
Proof.
  intros V l S. induction S as [|x l S IH F]; [reflexivity|]. change (py_insert by_key x (py_sorted by_key l) = x :: l). rewrite IH.
  destruct F as [|y l B F]; [reflexivity|]. cbn [py_insert]. unfold klt in B. rewrite B. reflexivity.
Qed.

Lemma finalize_val_idem : forall v, finalize_val (finalize_val v) = finalize_val v.
Proof.
  induction v using cval_nested; cbn [finalize_val]; try reflexivity.
  - f_equal. rewrite map_map. apply map_ext_in. rewrite Forall_forall in H. exact H.
  - f_equal. rewrite map_map. apply map_ext_in. rewrite Forall_forall in H. exact H.
  - f_equal. rewrite (sorted_map finalize_val l), map_map. cbn [fst snd].
    assert (E : map (fun x : Z * cval => (fst x, finalize_val (finalize_val (snd x)))) (py_sorted by_key l)
                = map (fun x => (fst x, finalize_val (snd x))) (py_sorted by_key l)).
    { apply map_ext_in. intros x I. apply py_sorted_in in I. rewrite Forall_forall in H. rewrite (H x I). reflexivity. }
    rewrite E, (sorted_map finalize_val), (sorted_id (py_sorted by_key l)) by apply sorted_keys. reflexivity.
Qed.

Lemma finalize_attr : forall a n, n <> dyn_finalized ->
  attr (finalize a) n = match attr a n with Some v => Some (if is_dyn n then v else finalize_val v) | None => None end.
Proof.
  intros a n NE. unfold attr, finalize. rewrite dict_get_put by apply sspec.
  destruct (String.eqb n dyn_finalized) eqn:E; [apply sspec in E; contradiction|].
  induction a as [|[m v] a IH]; [reflexivity|]. cbn [map dict_get fst snd]. destruct (String.eqb n m) eqn:EM; [|exact IH].
  apply sspec in EM. subst m. reflexivity.
Qed.

Lemma update_get : forall new a n, NoDup (map fst new) ->
  attr (update_attrs a new) n = match attr new n with Some v => Some v | None => attr a n end.
Proof.
  unfold update_attrs, attr. induction new as [|[k v] r IH]; intros a n N; [reflexivity|]. cbn [fold_left fst snd map] in *. inversion N; subst.
  rewrite IH by assumption. cbn [dict_get]. destruct (String.eqb n k) eqn:E.
  - apply sspec in E. subst k. rewrite (proj2 (dict_get_none String.eqb sspec n r)) by assumption.
    rewrite dict_get_put by apply sspec. rewrite String.eqb_refl. reflexivity.
  - destruct (dict_get String.eqb n r); [reflexivity|]. rewrite dict_get_put by apply sspec. rewrite E. reflexivity.
Qed.

Lemma prefix_spec : forall p n, String.prefix p n = true <-> exists rest, n = (p ++ rest)%string.
Proof.
  induction p as [|a p IH]; intros n.
  - split; [exists n; reflexivity|destruct n; reflexivity].
  - destruct n as [|b n]; [split; [discriminate|intros (r & E); discriminate E]|].
    change (String.prefix (String a p) (String b n)) with (if Ascii.ascii_dec a b then String.prefix p n else false).
    destruct (Ascii.ascii_dec a b) as [<-|NE].
    + rewrite IH. split; intros (r & E); exists r; [rewrite E; reflexivity|injection E as E; exact E].
    + split; [discriminate|]. intros (r & E). injection E as E _. congruence.
Qed.
Lemma is_dyn_spec : forall n, is_dyn n = true <-> runtime_attr n.
Proof. intros n. apply prefix_spec. Qed.
Lemma is_dyn_not : forall n, ~ runtime_attr n -> is_dyn n = false.
Proof. intros n H. destruct (is_dyn n) eqn:E; [|reflexivity]. exfalso. apply H. apply is_dyn_spec. exact E. Qed.

Lemma filter_get : forall (o : attrs) n, attr (filter (fun nv => is_dyn (fst nv)) o) n = if is_dyn n then attr o n else None.
Proof.
  unfold attr. induction o as [|[m v] o IH]; intros n; [destruct (is_dyn n); reflexivity|]. cbn [filter fst dict_get].
  destruct (is_dyn m) eqn:D; cbn [dict_get]; rewrite IH; destruct (String.eqb n m) eqn:E; try reflexivity; apply sspec in E; subst m; rewrite D; reflexivity.
Qed.
Lemma filter_keys_nodup : forall (o : attrs) f, NoDup (map fst o) -> NoDup (map fst (filter f o)).
Proof.
  induction o as [|x o IH]; intros f N; [constructor|]. cbn [filter map] in *. inversion N; subst. destruct (f x); [|apply IH; assumption].
  cbn [map]. constructor; [|apply IH; assumption]. intros I. apply H1. apply in_map_iff in I as (y & E & I). apply filter_In in I as [I _].
  apply in_map_iff. exists y. auto.
Qed.
Lemma merge_get : forall a o n, NoDup (map fst o) ->
  attr (merge_dyn_attrs a o) n = if is_dyn n then match attr o n with Some v => Some v | None => attr a n end else attr a n.
Proof.
  intros a o n N. unfold merge_dyn_attrs. rewrite update_get by (apply filter_keys_nodup; exact N). rewrite filter_get.
  destruct (is_dyn n); reflexivity.
Qed.

Lemma finalized_finalize : forall a, finalized (finalize a) = true.
Proof. intros a. unfold finalized, finalize, attr. rewrite dict_get_put by apply sspec. reflexivity. Qed.

Lemma frozen : forall mut ops a, frozen_ops ops -> finalized a = true ->
  (forall n v, is_dyn n = false -> attr a n = Some v -> finalize_val v = v) ->
  finalized (fold_left (aop_step mut) ops a) = true /\
  forall n, is_dyn n = false -> ~ In n mut -> attr (fold_left (aop_step mut) ops a) n = attr a n.
Proof.
  intros mut ops. induction ops as [|o ops IH] using rev_ind; intros a [S M] F V; [auto|].
  rewrite !fold_left_app. cbn [fold_left].
  destruct (IH a) as [F1 A1]; [split|exact F|exact V|].
  { intros v I. apply (S v). apply in_or_app. auto. } { intros x I. apply M. apply in_or_app. auto. }
  set (b := fold_left (aop_step mut) ops a) in *.
  destruct o as [n0 v0| |other]; cbn [aop_step].
  - assert (NF : n0 <> dyn_finalized). { intros ->. apply (S v0). apply in_or_app. right. left. reflexivity. }
    unfold set_attr. rewrite F1. cbn [negb orb]. destruct (is_dyn n0 || existsb (String.eqb n0) mut) eqn:B; [|auto]. split.
    + unfold finalized, attr. rewrite dict_get_put by apply sspec. destruct (String.eqb dyn_finalized n0) eqn:E; [|exact F1].
      apply sspec in E. congruence.
    + intros n D NM. rewrite <- (A1 n D NM). unfold attr. rewrite dict_get_put by apply sspec. destruct (String.eqb n n0) eqn:E; [|reflexivity].
      apply sspec in E. subst n0. rewrite D in B. cbn [orb] in B. apply existsb_exists in B as (x & I & E). apply sspec in E. subst x. contradiction.
  - split; [apply finalized_finalize|]. intros n D NM. rewrite finalize_attr; [|intros ->; discriminate D].
    rewrite (A1 n D NM), D. destruct (attr a n) eqn:G; [|reflexivity]. rewrite (V n c D G). reflexivity.
  - destruct (M other) as [N FO]; [apply in_or_app; right; left; reflexivity|]. split.
    + unfold finalized. rewrite merge_get by exact N. cbn. unfold finalized in FO. destruct (attr other dyn_finalized); [exact FO|discriminate].
    + intros n D NM. rewrite merge_get by exact N. rewrite D. exact (A1 n D NM).
Qed.
