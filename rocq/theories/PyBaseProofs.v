(** * Facts about the Python building blocks *)

From Coq Require Import List Bool ZArith Permutation Lia Sorted.
From Verif Require Import PyBase.
Import ListNotations.

(** ** Dictionaries *)
Section Dict.
  Context {K V : Type} (eqb : K -> K -> bool).
  Hypothesis eqb_spec : forall a b, eqb a b = true <-> a = b.

  Lemma eqb_refl_ : forall a, eqb a a = true.
  Proof. intros; apply eqb_spec; reflexivity. Qed.
  Lemma eqb_neq_ : forall a b, a <> b -> eqb a b = false.
  Proof. intros a b H; destruct (eqb a b) eqn:E; auto; apply eqb_spec in E; congruence. Qed.

  Lemma dict_get_put : forall k k' (v : V) d,
    dict_get eqb k (dict_put eqb k' v d) = if eqb k k' then Some v else dict_get eqb k d.
  Proof.
    induction d as [|[k1 v1] r IH]; simpl; [reflexivity|].
    destruct (eqb k' k1) eqn:E1; simpl.
    - apply eqb_spec in E1; subst k1. destruct (eqb k k'); reflexivity.
    - rewrite IH. destruct (eqb k k1) eqn:E2; auto.
      destruct (eqb k k') eqn:E3; auto.
      apply eqb_spec in E2; apply eqb_spec in E3; subst. rewrite eqb_refl_ in E1; discriminate.
  Qed.

  Lemma dict_put_keys : forall k (v : V) d x,
    In x (map fst (dict_put eqb k v d)) <-> x = k \/ In x (map fst d).
  Proof.
    induction d as [|[k1 v1] r IH]; simpl; intros x; [intuition|].
    destruct (eqb k k1) eqn:E; simpl.
    - apply eqb_spec in E; subst. intuition.
    - rewrite IH. intuition.
  Qed.

  Lemma dict_put_nodup : forall k (v : V) d,
    NoDup (map fst d) -> NoDup (map fst (dict_put eqb k v d)).
  Proof.
    induction d as [|[k1 v1] r IH]; simpl; intros H.
    - constructor; [auto|constructor].
    - inversion H; subst. destruct (eqb k k1) eqn:E; simpl; [constructor; auto|].
      constructor; auto. rewrite dict_put_keys. intros [->|Hin]; [|auto].
      rewrite eqb_refl_ in E; discriminate.
  Qed.

  Lemma dict_get_del : forall k k' (d : list (K * V)),
    dict_get eqb k (dict_del eqb k' d) = if eqb k k' then None else dict_get eqb k d.
  Proof.
    induction d as [|[k1 v1] r IH]; simpl; [destruct (eqb k k'); reflexivity|].
    unfold dict_del in *; simpl. destruct (eqb k' k1) eqn:E1; simpl.
    - rewrite IH. apply eqb_spec in E1; subst k1.
      destruct (eqb k k') eqn:E2; auto.
    - rewrite IH. destruct (eqb k k') eqn:E2; auto.
      destruct (eqb k k1) eqn:E3; auto.
      apply eqb_spec in E2; apply eqb_spec in E3; subst. rewrite eqb_refl_ in E1; discriminate.
  Qed.

  Lemma dict_del_keys : forall k (d : list (K * V)) x,
    In x (map fst (dict_del eqb k d)) <-> x <> k /\ In x (map fst d).
  Proof.
    intros k d x. unfold dict_del. rewrite !in_map_iff. split.
    - intros [[k1 v1] [<- Hin]]. apply filter_In in Hin as [Hin Hne]. simpl in *.
      split; [|exists (k1, v1); auto]. intros ->. rewrite eqb_refl_ in Hne; discriminate.
    - intros [Hne [[k1 v1] [<- Hin]]]. exists (k1, v1). split; auto.
      apply filter_In; split; auto. simpl in *. rewrite eqb_neq_; auto.
  Qed.

  Lemma dict_del_nodup : forall k (d : list (K * V)),
    NoDup (map fst d) -> NoDup (map fst (dict_del eqb k d)).
  Proof.
    unfold dict_del. induction d as [|[k1 v1] r IH]; simpl; intros H; auto.
    inversion H; subst. destruct (eqb k k1); simpl; auto.
    constructor; auto. intros Hin. apply H2. apply in_map_iff in Hin as [[a b] [<- Hf]].
    apply filter_In in Hf as [Hf _]. apply in_map_iff. exists (a, b); auto.
  Qed.

  Lemma dict_get_in : forall k (v : V) d, dict_get eqb k d = Some v -> In (k, v) d.
  Proof.
    induction d as [|[k1 v1] r IH]; simpl; intros H; [discriminate|].
    destruct (eqb k k1) eqn:E; auto. apply eqb_spec in E; inversion H; subst; auto.
  Qed.

  Lemma dict_in_get : forall k (v : V) d,
    NoDup (map fst d) -> In (k, v) d -> dict_get eqb k d = Some v.
  Proof.
    induction d as [|[k1 v1] r IH]; simpl; intros Hn Hin; [contradiction|].
    inversion Hn; subst. destruct Hin as [E|Hin].
    - inversion E; subst. rewrite eqb_refl_; reflexivity.
    - destruct (eqb k k1) eqn:E; auto. apply eqb_spec in E; subst.
      exfalso; apply H1. apply in_map_iff. exists (k1, v); auto.
  Qed.

  Lemma dict_get_none : forall k (d : list (K * V)),
    dict_get eqb k d = None <-> ~ In k (map fst d).
  Proof.
    induction d as [|[k1 v1] r IH]; simpl; [intuition|].
    destruct (eqb k k1) eqn:E.
    - apply eqb_spec in E; subst. split; [discriminate|]. intros H; exfalso; apply H; auto.
    - rewrite IH. split; intros H; [|tauto]. intros [->|Hin]; [|auto].
      rewrite eqb_refl_ in E; discriminate.
  Qed.

  Variable key : V -> K.

  Lemma dict_of_snoc : forall l x,
    dict_of eqb key (l ++ [x]) = dict_put eqb (key x) x (dict_of eqb key l).
  Proof. intros. unfold dict_of. rewrite fold_left_app. reflexivity. Qed.

  Lemma dict_of_nodup : forall l, NoDup (map fst (dict_of eqb key l)).
  Proof.
    induction l using rev_ind; [constructor|].
    rewrite dict_of_snoc. apply dict_put_nodup; auto.
  Qed.

  Lemma dict_of_get : forall l k,
    dict_get eqb k (dict_of eqb key l) = find (fun x => eqb k (key x)) (rev l).
  Proof.
    induction l as [|x l IH] using rev_ind; intros k; [reflexivity|].
    rewrite dict_of_snoc, dict_get_put, rev_app_distr. simpl.
    destruct (eqb k (key x)); auto.
  Qed.

  Lemma dict_of_key : forall l k v, In (k, v) (dict_of eqb key l) -> k = key v.
  Proof.
    intros l k v H. apply dict_in_get in H; [|apply dict_of_nodup].
    rewrite dict_of_get in H. apply find_some in H as [_ H]. apply eqb_spec in H; auto.
  Qed.

  (** the values of [{key(x): x for x in l}] are the last elements with their key *)
  Lemma dict_of_vals : forall l x,
    In x (map snd (dict_of eqb key l)) <->
    find (fun y => eqb (key x) (key y)) (rev l) = Some x.
  Proof.
    intros l x. rewrite <- dict_of_get. split.
    - intros H. apply in_map_iff in H as [[k v] [<- Hin]]. simpl.
      pose proof (dict_of_key _ _ _ Hin); subst k.
      apply dict_in_get; auto. apply dict_of_nodup.
    - intros H. apply in_map_iff. exists (key x, x). split; auto.
      apply dict_get_in; auto.
  Qed.

  Lemma dict_of_vals_in : forall l x, In x (map snd (dict_of eqb key l)) -> In x l.
  Proof.
    intros l x H. apply dict_of_vals in H. apply find_some in H as [H _].
    apply in_rev; auto.
  Qed.

  Lemma dict_of_vals_keys : forall l,
    NoDup (map key (map snd (dict_of eqb key l))).
  Proof.
    intros l. pose proof (dict_of_nodup l) as H.
    assert (E : map key (map snd (dict_of eqb key l)) = map fst (dict_of eqb key l)).
    { rewrite map_map. apply map_ext_in. intros [k v] Hin. simpl.
      symmetry; eapply dict_of_key; eauto. }
    rewrite E; auto.
  Qed.

  Lemma dict_of_covers : forall l x, In x l ->
    exists y, In y (map snd (dict_of eqb key l)) /\ key y = key x.
  Proof.
    intros l x H.
    destruct (find (fun y => eqb (key x) (key y)) (rev l)) as [y|] eqn:E.
    - pose proof (find_some _ _ E) as [Hin Hk]. apply eqb_spec in Hk.
      exists y; split; auto. apply dict_of_vals. rewrite <- Hk; auto.
    - exfalso. apply in_rev in H. pose proof (find_none _ _ E _ H) as Hn.
      simpl in Hn. rewrite eqb_refl_ in Hn; discriminate.
  Qed.
End Dict.

(** ** Sorting *)
Section Sorting.
  Context {A : Type} (le : A -> A -> bool).

  Lemma py_insert_perm : forall x l, Permutation (x :: l) (py_insert le x l).
  Proof.
    induction l as [|y r IH]; simpl; auto.
    destruct (le x y); auto. rewrite perm_swap. constructor; auto.
  Qed.

  Lemma py_sorted_perm : forall l, Permutation l (py_sorted le l).
  Proof.
    induction l as [|x r IH]; simpl; auto.
    rewrite <- py_insert_perm. constructor; auto.
  Qed.

  Lemma py_sorted_in : forall l x, In x (py_sorted le l) <-> In x l.
  Proof.
    intros; split; apply Permutation_in; [symmetry|]; apply py_sorted_perm.
  Qed.

  Lemma py_sorted_length : forall l, length (py_sorted le l) = length l.
  Proof. intros; symmetry; apply Permutation_length, py_sorted_perm. Qed.

  Hypothesis le_total : forall a b, le a b = true \/ le b a = true.
  Hypothesis le_trans : forall a b c, le a b = true -> le b c = true -> le a c = true.

  Lemma py_insert_sorted : forall x l,
    StronglySorted (fun a b => le a b = true) l ->
    StronglySorted (fun a b => le a b = true) (py_insert le x l).
  Proof.
    induction l as [|y r IH]; simpl; intros H; [repeat constructor|].
    inversion H; subst. destruct (le x y) eqn:E.
    - constructor; auto. constructor; auto.
      eapply Forall_impl; [|exact H3]. simpl; intros; eauto.
    - constructor; auto.
      assert (le y x = true) by (destruct (le_total x y); congruence).
      eapply Permutation_Forall; [apply py_insert_perm|]. constructor; auto.
  Qed.

  Lemma py_sorted_sorted : forall l,
    StronglySorted (fun a b => le a b = true) (py_sorted le l).
  Proof. induction l; simpl; [constructor|]. apply py_insert_sorted; auto. Qed.
End Sorting.

Lemma mem_spec : forall A (eqb : A -> A -> bool) (H : forall a b, eqb a b = true <-> a = b) x l,
  mem eqb x l = true <-> In x l.
Proof.
  intros A eqb H x l. unfold mem. rewrite existsb_exists. split.
  - intros [y [Hin E]]. apply H in E; subst; auto.
  - intros Hin. exists x; split; auto. apply H; auto.
Qed.

Lemma NoDup_app_iff_ : forall A (l1 l2 : list A),
  NoDup (l1 ++ l2) <-> NoDup l1 /\ NoDup l2 /\ (forall x, In x l1 -> ~ In x l2).
Proof.
  induction l1 as [|a l1 IH]; intros l2; simpl.
  - intuition. constructor.
  - rewrite !NoDup_cons_iff, IH, in_app_iff. intuition; subst; eauto.
Qed.

Lemma NoDup_map_inj_in : forall A B (f : A -> B) l x y,
  NoDup (map f l) -> In x l -> In y l -> f x = f y -> x = y.
Proof.
  induction l as [|a l IH]; simpl; intros x y Hn Hx Hy E; [contradiction|].
  inversion Hn; subst. destruct Hx as [->|Hx], Hy as [->|Hy]; auto.
  - exfalso; apply H1. rewrite E. apply in_map; auto.
  - exfalso; apply H1. rewrite <- E. apply in_map; auto.
Qed.
