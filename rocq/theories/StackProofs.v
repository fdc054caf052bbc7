(** * Proofs about stack paths *)
From Coq Require Import ZArith List Bool Permutation Lia Sorted Arith.
From Verif Require Import PyBase PyBaseProofs StackModel StackSpec.
Import ListNotations.
Open Scope Z_scope.

Lemma memz : forall x l, mem Z.eqb x l = true <-> In x l.
Proof. intros. apply mem_spec. exact Z.eqb_eq. Qed.
Lemma memz_false : forall x l, mem Z.eqb x l = false <-> ~ In x l.
Proof. intros. rewrite <- memz. destruct (mem Z.eqb x l); split; congruence. Qed.

Lemma adjacent_spec : forall g x y, adjacent g x y = true <-> linked g x y.
Proof.
  intros g x y. unfold adjacent, linked. rewrite existsb_exists. split.
  - intros ([[a pa] [b pb]] & I & E). cbn [fst snd] in E. apply orb_true_iff in E.
    rewrite !andb_true_iff, !Z.eqb_eq in E. destruct E as [[-> ->]|[-> ->]].
    + exists pa, pb. auto.
    + exists pb, pa. auto.
  - intros (a & b & [I|I]); eexists; (split; [exact I|]); cbn [fst snd]; rewrite !Z.eqb_refl; cbn; rewrite ?orb_true_r; reflexivity.
Qed.
Lemma linked_sym : forall g x y, linked g x y -> linked g y x.
Proof. intros g x y (a & b & I). exists b, a. tauto. Qed.

Section Graph.
  Variable g : graph.
  Hypothesis OK : graph_ok g.

  Lemma neighbours_spec : forall x y, In y (neighbours g x) <-> linked g x y.
  Proof.
    intros x y. unfold neighbours. rewrite filter_In, adjacent_spec. split; [tauto|]. intros L. split; [apply (gk_ends g OK x y L)|exact L].
  Qed.

  Lemma path_shape : forall x y p, is_path g x y p -> exists r, p = x :: r.
  Proof. intros x y p P. destruct P; eauto. Qed.
  Lemma path_nodes : forall x y p, is_path g x y p -> forall z, In z p -> In z (g_nodes g).
  Proof.
    intros x y p P. induction P as [x I|x y z p L P IH]; intros w J.
    - destruct J as [<-|[]]. exact I.
    - destruct J as [<-|J]; [apply (gk_ends g OK x z L)|exact (IH w J)].
  Qed.
  Lemma path_last : forall x y p, is_path g x y p -> In y p.
  Proof. intros x y p P. induction P; [left; reflexivity|right; assumption]. Qed.

  Lemma walks_spec : forall k x y p, In x (g_nodes g) -> (In p (walks g k x y) <-> is_path g x y p /\ length p = S k).
  Proof.
    induction k as [|k IH]; intros x y p NX; cbn [walks].
    - destruct (Z.eqb_spec x y) as [->|NE]; split.
      + intros [<-|[]]. split; [constructor; exact NX|reflexivity].
      + intros [P L]. destruct P as [x I|x y z p LK P]; [left; reflexivity|]. destruct (path_shape _ _ _ P) as (r & ->). discriminate.
      + intros [].
      + intros [P L]. destruct P as [x I|x y z p LK P]; [congruence|]. destruct (path_shape _ _ _ P) as (r & ->). discriminate.
    - rewrite in_flat_map. split.
      + intros (z & NZ & I). apply in_map_iff in I as (q & <- & I). apply neighbours_spec in NZ.
        apply IH in I; [|apply (gk_ends g OK x z NZ)]. destruct I as [P L]. split; [exact (path_step g x y z q NZ P)|cbn; congruence].
      + intros [P L]. destruct P as [x I|x y z p LK P]; [discriminate|]. exists z. split; [apply neighbours_spec; exact LK|].
        apply in_map. apply IH; [apply (gk_ends g OK x z LK)|]. split; [exact P|]. cbn in L. congruence.
  Qed.

  (** Cutting loops. *)
  Lemma path_suffix : forall x y p z, is_path g x y p -> In z p -> exists q, is_path g z y q /\ (length q <= length p)%nat.
  Proof.
    intros x y p z P. induction P as [x I|x y w p L P IH]; intros J.
    - destruct J as [<-|[]]. exists [x]. split; [constructor; exact I|auto].
    - destruct J as [<-|J]; [exists (x :: p); split; [exact (path_step g x y w p L P)|auto]|].
      destruct (IH J) as (q & Q & LQ). exists q. split; [exact Q|cbn; lia].
  Qed.
  Lemma path_simple : forall n x y p, (length p <= n)%nat -> is_path g x y p ->
    exists q, is_path g x y q /\ NoDup q /\ (length q <= length p)%nat.
  Proof.
    induction n as [|n IH]; intros x y p LN P; [destruct (path_shape _ _ _ P) as (r & ->); cbn in LN; lia|].
    destruct P as [x I|x y z p L P].
    - exists [x]. split; [constructor; exact I|]. split; [repeat constructor; auto|auto].
    - destruct (in_dec Z.eq_dec x p) as [I|NI].
      + destruct (path_suffix z y p x P I) as (q & Q & LQ). destruct (IH x y q) as (q' & Q' & N' & L'); [cbn in LN; lia|exact Q|].
        exists q'. split; [exact Q'|]. split; [exact N'|]. cbn. lia.
      + destruct (IH z y p) as (q & Q & NQ & LQ); [cbn in LN; lia|exact P|].
        destruct (in_dec Z.eq_dec x q) as [J|NJ].
        * destruct (path_suffix z y q x Q J) as (q' & Q' & L'). destruct (IH x y q') as (q'' & Q'' & N'' & L''); [cbn in LN; lia|exact Q'|].
          exists q''. split; [exact Q''|]. split; [exact N''|]. cbn. lia.
        * exists (x :: q). split; [exact (path_step g x y z q L Q)|]. split; [constructor; assumption|]. cbn. lia.
  Qed.
  Lemma path_short : forall x y p, is_path g x y p -> exists q, is_path g x y q /\ (length q <= length p)%nat /\ (length q <= length (g_nodes g))%nat.
  Proof.
    intros x y p P. destruct (path_simple (length p) x y p (le_n _) P) as (q & Q & N & L). exists q. split; [exact Q|]. split; [exact L|].
    apply (NoDup_incl_length N). intros z. exact (path_nodes x y q Q z).
  Qed.

  (** The shortest ones. *)
  Lemma first_walks_spec : forall fuel k x y, In x (g_nodes g) ->
    (forall q, is_path g x y q -> (k < length q)%nat) ->
    forall p, In p (first_walks g fuel k x y) <->
      is_path g x y p /\ (length p <= fuel + k)%nat /\ forall q, is_path g x y q -> (length p <= length q)%nat.
  Proof.
    induction fuel as [|fuel IH]; intros k x y NX LB p; cbn [first_walks].
    - split; [intros []|]. intros (P & L & _). specialize (LB p P). lia.
    - destruct (walks g k x y) as [|w ws] eqn:W.
      + rewrite IH; [|exact NX|].
        * split; intros (P & L & M); (split; [exact P|]); (split; [lia|exact M]).
        * intros q Q. assert (B := LB q Q). destruct (Nat.eq_dec (length q) (S k)) as [E|NE]; [|lia].
          assert (I : In q (walks g k x y)) by (apply walks_spec; auto). rewrite W in I. destruct I.
      + rewrite <- W. rewrite walks_spec by exact NX. split.
        * intros [P L]. split; [exact P|]. split; [lia|]. intros q Q. specialize (LB q Q). lia.
        * intros (P & L & M). split; [exact P|]. assert (B := LB p P).
          assert (I : In w (walks g k x y)) by (rewrite W; left; reflexivity). apply walks_spec in I as [PW LW]; [|exact NX].
          specialize (M w PW). lia.
  Qed.

  Lemma all_shortest_spec : forall x y p, In p (all_shortest_paths g x y) <->
    is_path g x y p /\ forall q, is_path g x y q -> (length p <= length q)%nat.
  Proof.
    intros x y p. unfold all_shortest_paths. destruct (mem Z.eqb x (g_nodes g)) eqn:M.
    - apply memz in M. rewrite first_walks_spec; [|exact M|].
      + split; [tauto|]. intros [P L]. split; [exact P|]. split; [|exact L].
        destruct (path_short x y p P) as (q & Q & _ & LQ). specialize (L q Q). lia.
      + intros q Q. destruct (path_shape _ _ _ Q) as (r & ->). cbn. lia.
    - apply memz_false in M. split; [intros []|]. intros [P _]. exfalso. apply M. apply (path_nodes x y p P).
      destruct (path_shape _ _ _ P) as (r & ->). left. reflexivity.
  Qed.
End Graph.

(** ** Order *)
Lemma path_le_total : forall a b, path_le a b = true \/ path_le b a = true.
Proof.
  induction a as [|x a IH]; intros [|y b]; cbn [path_le]; auto. destruct (Z.ltb_spec x y); [auto|].
  destruct (Z.ltb_spec y x); [auto|]. assert (x = y) by lia. subst y. rewrite Z.eqb_refl. cbn. exact (IH b).
Qed.
Lemma path_le_trans : forall a b c, path_le a b = true -> path_le b c = true -> path_le a c = true.
Proof.
  induction a as [|x a IH]; intros [|y b] [|z c]; cbn [path_le]; auto; try discriminate.
  intros A B. apply orb_true_iff in A, B. rewrite !andb_true_iff, !Z.eqb_eq, !Z.ltb_lt in A, B. apply orb_true_iff.
  rewrite andb_true_iff, Z.eqb_eq, Z.ltb_lt. destruct A as [A|[-> A]], B as [B|[-> B]]; try (left; lia). right. split; [reflexivity|]. exact (IH b c A B).
Qed.
Lemma path_le_earlier : forall a b, length a = length b -> (path_le a b = true <-> earlier a b).
Proof.
  induction a as [|x a IH]; intros [|y b] L; try discriminate; cbn [path_le].
  - split; [constructor|reflexivity].
  - injection L as L. rewrite orb_true_iff, andb_true_iff, Z.ltb_lt, Z.eqb_eq, (IH b L). split.
    + intros [H|[-> H]]; [apply earlier_less; assumption|apply earlier_same; assumption].
    + intros E. inversion E; subst; auto.
Qed.
Lemma earlier_len : forall a b, earlier a b -> length a = length b.
Proof. intros a b E. induction E; cbn; congruence. Qed.
Lemma earlier_antisym : forall a b, earlier a b -> earlier b a -> a = b.
Proof.
  intros a b E. induction E; intros F; inversion F; subst; try lia; try reflexivity. f_equal. auto.
Qed.
Lemma earlier_refl : forall a, earlier a a.
Proof. induction a; constructor; assumption. Qed.

Lemma hd_sorted_min : forall (l : list (list Z)) p r, py_sorted path_le l = p :: r -> In p l /\ forall q, In q l -> path_le p q = true.
Proof.
  intros l p r E. assert (S : StronglySorted (fun a b => path_le a b = true) (py_sorted path_le l)).
  { apply py_sorted_sorted; [exact path_le_total|exact path_le_trans]. }
  rewrite E in S. apply StronglySorted_inv in S as [_ F]. rewrite Forall_forall in F. split.
  - apply (py_sorted_in path_le). rewrite E. left. reflexivity.
  - intros q I. apply (py_sorted_in path_le) in I. rewrite E in I. destruct I as [<-|I]; [|exact (F q I)].
    destruct (path_le_total p p); assumption.
Qed.

(** ** The chosen path *)
Section Chosen.
  Variable g : graph.
  Hypothesis OK : graph_ok g.

  Lemma shortest_path_chosen : forall x y p, shortest_path g x y = p -> p <> [] -> chosen_path g x y p.
  Proof.
    intros x y p E NE. unfold shortest_path in E. destruct (py_sorted path_le (all_shortest_paths g x y)) as [|w r] eqn:S; [subst; contradiction|].
    cbn [hd] in E. subst w. destruct (hd_sorted_min _ _ _ S) as [I M]. apply (all_shortest_spec g OK) in I as [P L].
    split; [exact P|]. intros q Q. assert (B := L q Q). destruct (Nat.eq_dec (length p) (length q)) as [EQ|N]; [|left; lia].
    right. split; [exact EQ|]. apply path_le_earlier; [exact EQ|]. apply M. apply (all_shortest_spec g OK). split; [exact Q|].
    intros q' Q'. rewrite <- EQ. exact (L q' Q').
  Qed.
  Lemma shortest_path_none : forall x y, shortest_path g x y = [] -> ~ connected g x y.
  Proof.
    intros x y E (p & P). unfold shortest_path in E. destruct (py_sorted path_le (all_shortest_paths g x y)) as [|w r] eqn:SO.
    - assert (Z0 : all_shortest_paths g x y = []). { apply length_zero_iff_nil. rewrite <- (py_sorted_length path_le), SO. reflexivity. }
      assert (ND : forall n q, (length q <= n)%nat -> is_path g x y q -> exists q', is_path g x y q' /\ forall q'', is_path g x y q'' -> (length q' <= length q'')%nat).
      { clear p P. induction n as [|n IH]; intros q L Q; [destruct (path_shape g _ _ _ Q) as (r & ->); cbn in L; lia|].
        destruct (le_lt_dec (length q) n) as [B|B]; [exact (IH q B Q)|].
        assert (D : (exists q', is_path g x y q' /\ (length q' <= n)%nat) \/ ~ exists q', is_path g x y q' /\ (length q' <= n)%nat).
        { clear IH q L Q B. induction n as [|n IH].
          - right. intros (q' & Q' & L'). destruct (path_shape g _ _ _ Q') as (r & ->). cbn in L'. lia.
          - destruct IH as [(q' & Q' & L')|N]; [left; exists q'; auto|].
            destruct (walks g n x y) as [|w ws] eqn:W.
            + right. intros (q' & Q' & L'). destruct (Nat.eq_dec (length q') (S n)) as [EQ|NE].
              * assert (I : In q' (walks g n x y)).
                { apply (walks_spec g OK); [|auto]. apply (path_nodes g OK x y q' Q'). destruct (path_shape g _ _ _ Q') as (r & ->). left. reflexivity. }
                rewrite W in I. destruct I.
              * apply N. exists q'. split; [exact Q'|lia].
            + destruct (in_dec Z.eq_dec x (g_nodes g)) as [NX|NX].
              * left. exists w. assert (I : In w (walks g n x y)) by (rewrite W; left; reflexivity). apply (walks_spec g OK) in I as [PW LW]; [|exact NX].
                split; [exact PW|lia].
              * right. intros (q' & Q' & L'). apply NX. apply (path_nodes g OK x y q' Q'). destruct (path_shape g _ _ _ Q') as (r & ->). left. reflexivity. }
        destruct D as [(q' & Q' & L')|N]; [exact (IH q' L' Q')|]. exists q. split; [exact Q|]. intros q'' Q''.
        destruct (le_lt_dec (length q'') n) as [B'|B']; [exfalso; apply N; exists q''; auto|lia]. }
      destruct (ND (length p) p (le_n _) P) as (q & Q & M). assert (I : In q (all_shortest_paths g x y)) by (apply (all_shortest_spec g OK); auto).
      rewrite Z0 in I. destruct I.
    - cbn [hd] in E. subst w. assert (I : In [] (all_shortest_paths g x y)) by (apply (py_sorted_in path_le); rewrite SO; left; reflexivity).
      apply (all_shortest_spec g OK) in I as [Q _]. destruct (path_shape g _ _ _ Q) as (r' & E). discriminate.
  Qed.
  Lemma chosen_unique : forall x y p q, chosen_path g x y p -> chosen_path g x y q -> p = q.
  Proof.
    intros x y p q [P MP] [Q MQ]. destruct (MP q Q) as [A|[_ A]]; destruct (MQ p P) as [B|[_ B]]; try lia.
    - apply earlier_len in B. lia.
    - apply earlier_len in A. lia.
    - exact (earlier_antisym p q A B).
  Qed.
  Lemma chosen_shortest : forall x y p, chosen_path g x y p <-> shortest_path g x y = p /\ p <> [].
  Proof.
    intros x y p. split; [|intros [E N]; exact (shortest_path_chosen x y p E N)]. intros C.
    assert (NE : p <> []) by (destruct C as [P _]; destruct (path_shape g _ _ _ P) as (r & ->); discriminate). split; [|exact NE].
    destruct (shortest_path g x y) as [|w r] eqn:E.
    - exfalso. apply (shortest_path_none x y E). exists p. apply C.
    - apply (chosen_unique x y); [|exact C]. apply shortest_path_chosen; [exact E|discriminate].
  Qed.
  Lemma connected_path : forall x y, connected g x y -> exists r, shortest_path g x y = x :: r.
  Proof.
    intros x y C. destruct (shortest_path g x y) as [|w r] eqn:E; [exfalso; exact (shortest_path_none x y E C)|].
    assert (CP := shortest_path_chosen x y _ E ltac:(discriminate)). destruct CP as [P _]. destruct (path_shape g _ _ _ P) as (r' & EQ).
    injection EQ as -> ->. eauto.
  Qed.

  (** Going one step along the chosen path leads to the chosen path of the next. *)
  Lemma chosen_suffix : forall x y z r, chosen_path g x y (x :: z :: r) -> chosen_path g z y (z :: r).
  Proof.
    intros x y z r [P M]. inversion P as [|? ? w p L P' E1 E2]; subst. destruct (path_shape g _ _ _ P') as (r' & E). injection E as -> ->.
    split; [exact P'|]. intros q Q. destruct (M (x :: q) (path_step g x y w q L Q)) as [A|[A B]]; [left; cbn in *; lia|right].
    split; [cbn in *; lia|]. inversion B; subst; [lia|assumption].
  Qed.
  Lemma chosen_nodup : forall x y p, chosen_path g x y p -> NoDup p.
  Proof.
    intros x y p C. assert (P := proj1 C). destruct (path_simple g (length p) x y p (le_n _) P) as (q & Q & N & L).
    revert x y C P Q L. clear. intros x y C P Q L. (* a repeated node could be cut out *)
    assert (H : forall p x y, is_path g x y p -> ~ NoDup p -> exists q, is_path g x y q /\ (length q < length p)%nat).
    { clear. intros p x y P. induction P as [x I|x y z p L P IH]; intros ND.
      - exfalso. apply ND. repeat constructor. auto.
      - destruct (in_dec Z.eq_dec x p) as [I|NI].
        + destruct (path_suffix g z y p x P I) as (q & Q & LQ). exists q. split; [exact Q|cbn; lia].
        + destruct IH as (q & Q & LQ); [intros N; apply ND; constructor; assumption|]. exists (x :: q).
          split; [exact (path_step g x y z q L Q)|cbn; lia]. }
    destruct (ListDec.NoDup_dec Z.eq_dec p) as [N|N]; [exact N|]. exfalso. destruct (H p x y P N) as (q' & Q' & L').
    destruct (proj2 C q' Q') as [A|[A _]]; lia.
  Qed.
End Chosen.

Lemma path_inv : forall g x y p, is_path g x y p -> x <> y -> exists z r, p = x :: z :: r /\ linked g x z.
Proof.
  intros g x y p P NE. destruct P as [x I|x y z p L P]; [contradiction|]. destruct (path_shape g _ _ _ P) as (r & ->). eauto.
Qed.
Lemma path_inv2 : forall g x y z r, is_path g x y (x :: z :: r) -> linked g x z /\ is_path g z y (z :: r).
Proof.
  intros g x y z r P. inversion P as [|? ? w p L P' E1 E2]; subst. destruct (path_shape g _ _ _ P') as (r' & E). injection E as -> ->. auto.
Qed.
