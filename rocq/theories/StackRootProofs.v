(** * Lemmas about the choice of the root *)
From Coq Require Import ZArith QArith List Bool Lia Lqa Permutation Sorted.
From Verif Require Import PyBase PyBaseProofs StackRootModel StackRootSpec.
Import ListNotations.
Open Scope Z_scope.

Lemma zspec : forall x y, (x =? y) = true <-> x = y.
Proof. intros; apply Z.eqb_eq. Qed.

Lemma list_eq_dec_nil : forall A (l : list A), {l = []} + {l <> []}.
Proof. intros A [|a l]; [left|right]; congruence. Qed.
Arguments list_eq_dec_nil {A} l.

(** ** Health of ports *)

Lemma ups_downs : forall l, ups l + Z.of_nat (length (filter negb l)) = total l.
Proof.
  unfold ups, total. induction l as [|[] l IH]; cbn [count_occ filter negb length]; [reflexivity| |].
  - destruct (bool_dec true true) as [_|N]; [|congruence]. cbn [length]. lia.
  - destruct (bool_dec false true) as [E|_]; [discriminate E|]. cbn [length]. lia.
Qed.

Lemma port_healthy_part : forall l q, l <> [] ->
  (snd (port_healthy l q) * inject_Z (total l) == inject_Z (ups l))%Q.
Proof.
  intros l q H. unfold port_healthy.
  destruct l as [|b l]; [congruence|]. clear H.
  set (p := b :: l). change (length p =? 0)%nat with false. cbn [snd].
  pose proof (ups_downs p) as E. fold (total p).
  assert (P : (0 < inject_Z (total p))%Q).
  { change 0%Q with (inject_Z 0). rewrite <- Zlt_Qlt. unfold total, p. cbn [length]. lia. }
  rewrite <- E in P at 1. rewrite <- E. rewrite E.
  assert (U : (inject_Z (ups p) == inject_Z (total p) - inject_Z (Z.of_nat (length (filter negb p))))%Q).
  { rewrite <- E. rewrite inject_Z_plus. ring. }
  rewrite U. rewrite E in P. field. intros Z. rewrite Z in P. revert P. apply Qlt_irrefl.
Qed.

Lemma port_healthy_enough : forall l q, fst (port_healthy l q) = true <-> enough l q.
Proof.
  intros l q. unfold enough. destruct l as [|b l]; [cbn; intuition|].
  pose proof (port_healthy_part (b :: l) q ltac:(congruence)) as P.
  unfold port_healthy in *. change (length (b :: l) =? 0)%nat with false in *. cbn [fst snd] in *.
  set (s := (1 - _)%Q) in *. rewrite Qle_bool_iff.
  assert (T : (0 < inject_Z (total (b :: l)))%Q).
  { change 0%Q with (inject_Z 0). rewrite <- Zlt_Qlt. unfold total. cbn [length]. lia. }
  split.
  - intros H. right. rewrite <- P. apply Qmult_le_compat_r; [exact H|]. apply Qlt_le_weak, T.
  - intros [H|H]; [discriminate H|]. rewrite <- P in H. apply Qmult_le_r in H; auto.
Qed.

(** ** Health of a datapath *)

Lemma last_seen_get : forall live x t, NoDup (map fst live) ->
  (last_seen live x t <-> t = match dict_get Z.eqb x live with Some t => t | None => 0 end).
Proof.
  intros live x t N. unfold last_seen. destruct (dict_get Z.eqb x live) as [u|] eqn:G.
  - pose proof (dict_get_in _ zspec _ _ _ G) as I. split.
    + intros [H|[H _]].
      * apply (dict_in_get _ zspec _ _ _ N) in H. congruence.
      * exfalso. apply H. change x with (fst (x, u)). apply in_map; auto.
    + intros ->. left; auto.
  - apply (dict_get_none _ zspec) in G. split.
    + intros [H|[_ H]]; [|auto]. exfalso. apply G. change x with (fst (x, t)). apply in_map; auto.
    + auto.
Qed.

Definition seen_at (live : list (Z * Z)) (n : node) : Z :=
  match dict_get Z.eqb (nd_name n) live with Some t => t | None => 0 end.

Lemma contact_live : forall live now ut n, NoDup (map fst live) ->
  (live_timeout_healthy n (seen_at live n) now ut = true <-> in_contact live now ut n).
Proof.
  intros live now ut n N. unfold live_timeout_healthy, in_contact. rewrite Z.leb_le. split.
  - intros H t L. apply last_seen_get in L; auto. subst t. unfold seen_at in H. lia.
  - intros H. specialize (H (seen_at live n)). unfold seen_at in *. cbv zeta.
    assert (now - match dict_get Z.eqb (nd_name n) live with Some t => t | None => 0 end <= nd_multiple n * ut).
    { apply H. apply last_seen_get; auto. }
    lia.
Qed.

Section Updated.
Variables (live : list (Z * Z)) (now ut : Z).
Hypothesis ND : NoDup (map fst live).
Let upd n := update_health n now live ut.

Lemma upd_same : forall n, nd_id (upd n) = nd_id n /\ nd_name (upd n) = nd_name n /\
  nd_priority (upd n) = nd_priority n /\ nd_root (upd n) = nd_root n /\
  nd_running (upd n) = nd_running n /\ nd_stack (upd n) = nd_stack n /\ nd_lacp (upd n) = nd_lacp n.
Proof.
  intros n. unfold upd, update_health. destruct (negb _); [repeat split|].
  destruct (port_healthy (nd_stack n) _). destruct (nd_lacp n) eqn:L.
  - cbn. rewrite L. repeat split.
  - destruct (port_healthy (b0 :: l) _). cbn. rewrite L. repeat split.
Qed.

Lemma upd_conf : forall n, nd_name (upd n) = nd_name n /\ nd_multiple (upd n) = nd_multiple n /\
  nd_stack (upd n) = nd_stack n /\ nd_min_stack (upd n) = nd_min_stack n /\
  nd_lacp (upd n) = nd_lacp n /\ nd_min_lacp (upd n) = nd_min_lacp n.
Proof.
  intros n. unfold upd, update_health. destruct (negb _); [repeat split|].
  destruct (port_healthy (nd_stack n) _). destruct (nd_lacp n) eqn:L.
  - cbn. rewrite L. repeat split.
  - destruct (port_healthy (b0 :: l) _). cbn. rewrite L. repeat split.
Qed.

Lemma upd_contact : forall n, fst (fst (nd_info (upd n))) = true <-> in_contact live now ut n.
Proof.
  intros n. rewrite <- (contact_live live now ut n ND). unfold upd, update_health. fold (seen_at live n).
  destruct (live_timeout_healthy n (seen_at live n) now ut); cbn [negb].
  - destruct (port_healthy (nd_stack n) _). destruct (nd_lacp n) as [|b0 l]; [|destruct (port_healthy (b0 :: l) _)]; cbn; tauto.
  - cbn. intuition.
Qed.

Lemma upd_well : forall n, nd_healthy (upd n) = true <-> well live now ut n.
Proof.
  intros n. unfold well. rewrite <- (contact_live live now ut n ND).
  rewrite <- (port_healthy_enough (nd_stack n)), <- (port_healthy_enough (nd_lacp n)).
  unfold upd, update_health. fold (seen_at live n).
  destruct (live_timeout_healthy n (seen_at live n) now ut); cbn [negb].
  - destruct (port_healthy (nd_stack n) (nd_min_stack n)) as [a b]. cbn [fst].
    destruct (nd_lacp n) as [|b0 l].
    + cbn. rewrite andb_true_r. tauto.
    + destruct (port_healthy (b0 :: l) (nd_min_lacp n)) as [c d]. cbn [nd_healthy set_health fst].
      rewrite andb_true_iff. tauto.
  - cbn. intuition.
Qed.

Definition s_of (n : node) : Q := snd (fst (nd_info n)).
Definition l_of (n : node) : Q := snd (nd_info n).

Lemma upd_stack : forall n, in_contact live now ut n -> stack_part n (s_of (upd n)).
Proof.
  intros n C. apply (contact_live live now ut n ND) in C. unfold stack_part, s_of, upd, update_health.
  fold (seen_at live n). rewrite C. cbn [negb].
  pose proof (port_healthy_part (nd_stack n) (nd_min_stack n)) as P.
  assert (E : nd_stack n = [] -> snd (port_healthy (nd_stack n) (nd_min_stack n)) = 1%Q) by (intros ->; reflexivity).
  destruct (port_healthy (nd_stack n) (nd_min_stack n)) as [a b]. cbn [snd] in *.
  assert (G : (nd_stack n = [] /\ (b == 1)%Q) \/
    (nd_stack n <> [] /\ (b * inject_Z (total (nd_stack n)) == inject_Z (ups (nd_stack n)))%Q)).
  { destruct (nd_stack n); [left; rewrite E; auto; split; reflexivity|].
    right. split; [congruence|]. apply P. congruence. }
  destruct (nd_lacp n) as [|b0 l]; [|destruct (port_healthy (b0 :: l) _)]; exact G.
Qed.

Lemma upd_lacp : forall n, in_contact live now ut n -> lacp_part n (l_of (upd n)).
Proof.
  intros n C. apply (contact_live live now ut n ND) in C. unfold lacp_part, l_of, upd, update_health.
  fold (seen_at live n). rewrite C. cbn [negb].
  destruct (port_healthy (nd_stack n) (nd_min_stack n)) as [a b].
  pose proof (port_healthy_part (nd_lacp n) (nd_min_lacp n)) as P.
  destruct (nd_lacp n) as [|b0 l]; [left; split; reflexivity|].
  right. split; [congruence|]. specialize (P ltac:(congruence)).
  destruct (port_healthy (b0 :: l) (nd_min_lacp n)) as [c d]. exact P.
Qed.
End Updated.

(** ** The ranking *)

Definition hrank (a b : node) : Prop :=
  (s_of b < s_of a)%Q \/ ((s_of a == s_of b)%Q /\
    ((l_of b < l_of a)%Q \/ ((l_of a == l_of b)%Q /\
      (nd_priority a < nd_priority b \/ (nd_priority a = nd_priority b /\ nd_id a <= nd_id b))))).

Lemma health_le_spec : forall a b, health_le a b = true <->
  (nd_healthy a = true /\ nd_healthy b = false) \/ (nd_healthy a = nd_healthy b /\ hrank a b).
Proof.
  intros a b. unfold health_le, hrank, s_of, l_of.
  destruct (nd_info a) as [[u sa] la]. destruct (nd_info b) as [[v sb] lb]. cbn [fst snd].
  assert (Q1 : forall x y, (1 - x == 1 - y <-> x == y)%Q) by (intros; split; intros; lra).
  assert (Q2 : forall x y, (1 - x <= 1 - y <-> y <= x)%Q) by (intros; split; intros; lra).
  destruct (Bool.eqb (nd_healthy a) (nd_healthy b)) eqn:H.
  - apply eqb_prop in H. rewrite H.
    transitivity ((sb < sa)%Q \/ ((sa == sb)%Q /\
      ((lb < la)%Q \/ ((la == lb)%Q /\
      (nd_priority a < nd_priority b \/ (nd_priority a = nd_priority b /\ nd_id a <= nd_id b)))))).
    2: { destruct (nd_healthy b); intuition congruence. }
    destruct (Qeq_bool (1 - sa) (1 - sb)) eqn:S.
    + apply Qeq_bool_iff in S. rewrite Q1 in S.
      destruct (Qeq_bool (1 - la) (1 - lb)) eqn:L.
      * apply Qeq_bool_iff in L. rewrite Q1 in L.
        destruct (nd_priority a =? nd_priority b) eqn:P.
        -- apply Z.eqb_eq in P. rewrite Z.leb_le. split.
           ++ intros I. right; split; [exact S|]. right; split; [exact L|]. auto.
           ++ intros [I|[_ [I|[_ [I|[_ I]]]]]]; try lra; lia.
        -- apply Z.eqb_neq in P. rewrite Z.ltb_lt. split.
           ++ intros I. right; split; [exact S|]. right; split; [exact L|]. auto.
           ++ intros [I|[_ [I|[_ [I|[I _]]]]]]; try lra; try lia.
      * apply Qeq_bool_neq in L. rewrite Q1 in L. rewrite Qle_bool_iff, Q2. split.
        -- intros I. right; split; auto. left. apply Qle_lteq in I as [I|I]; auto. exfalso. apply L. symmetry; auto.
        -- intros [I|[_ [I|[I _]]]]; lra.
    + apply Qeq_bool_neq in S. rewrite Q1 in S. rewrite Qle_bool_iff, Q2. split.
      * intros I. left. apply Qle_lteq in I as [I|I]; auto. exfalso. apply S. symmetry; auto.
      * intros [I|[I _]]; lra.
  - apply eqb_false_iff in H. destruct (nd_healthy a), (nd_healthy b); intuition congruence.
Qed.

Lemma hrank_total : forall a b, hrank a b \/ hrank b a.
Proof.
  intros a b. unfold hrank.
  destruct (Q_dec (s_of a) (s_of b)) as [[S|S]|S]; [right; left; auto|left; left; auto|].
  destruct (Q_dec (l_of a) (l_of b)) as [[L|L]|L]; [right|left|].
  - right. split; [symmetry; auto|]. left; auto.
  - right. split; [auto|]. left; auto.
  - destruct (Z_lt_le_dec (nd_priority a) (nd_priority b)); [left; right; split; auto; right; split; auto|].
    destruct (Z_lt_le_dec (nd_priority b) (nd_priority a)).
    { right; right; split; [symmetry; auto|]. right. split; [symmetry; auto|]. auto. }
    destruct (Z_le_gt_dec (nd_id a) (nd_id b)).
    + left; right; split; auto. right; split; auto. right. lia.
    + right; right; split; [symmetry; auto|]. right. split; [symmetry; auto|]. right. lia.
Qed.

Lemma hrank_trans : forall a b c, hrank a b -> hrank b c -> hrank a c.
Proof.
  intros a b c H K. unfold hrank in *.
  destruct H as [H|[H1 H]]; destruct K as [K|[K1 K]]; try (left; lra).
  right. split; [lra|].
  destruct H as [H|[H2 H]]; destruct K as [K|[K2 K]]; try (left; lra).
  right. split; [lra|]. lia.
Qed.

Lemma health_le_total : forall a b, health_le a b = true \/ health_le b a = true.
Proof.
  intros a b. rewrite !health_le_spec. pose proof (hrank_total a b).
  destruct (nd_healthy a), (nd_healthy b); tauto.
Qed.

Lemma health_le_trans : forall a b c, health_le a b = true -> health_le b c = true -> health_le a c = true.
Proof.
  intros a b c. rewrite !health_le_spec. pose proof (hrank_trans a b c).
  destruct (nd_healthy a), (nd_healthy b), (nd_healthy c); intuition congruence.
Qed.

Lemma py_sorted_least : forall l, l <> [] ->
  exists n, hd_error (py_sorted health_le l) = Some n /\ In n l /\ forall o, In o l -> health_le n o = true.
Proof.
  intros l H. destruct (py_sorted health_le l) as [|n r] eqn:E.
  - exfalso. apply H. assert (length l = 0%nat) by (rewrite <- (py_sorted_length health_le l), E; reflexivity).
    destruct l; [auto|discriminate].
  - exists n. split; [reflexivity|].
    split; [apply (py_sorted_in health_le); rewrite E; left; auto|].
    pose proof (py_sorted_sorted health_le health_le_total health_le_trans l) as S. rewrite E in S.
    intros o O. apply (py_sorted_in health_le) in O. rewrite E in O.
    destruct O as [<-|O]; [destruct (health_le_total n n); auto|].
    apply StronglySorted_inv in S as [_ S]. rewrite Forall_forall in S. apply S; auto.
Qed.

(** ** The choice *)

Lemma part_unique : forall (l : list bool) (base x y : Q),
  (l = [] /\ (x == base)%Q) \/ (l <> [] /\ (x * inject_Z (total l) == inject_Z (ups l))%Q) ->
  (l = [] /\ (y == base)%Q) \/ (l <> [] /\ (y * inject_Z (total l) == inject_Z (ups l))%Q) -> (x == y)%Q.
Proof.
  intros l base x y [[E H]|[E H]] [[F K]|[F K]]; try contradiction; [lra|].
  assert (P : ~ (inject_Z (total l) == 0)%Q).
  { change 0%Q with (inject_Z 0). rewrite inject_Z_injective. unfold total. destruct l; [congruence|]. cbn [length]. lia. }
  apply (Qmult_inj_r x y (inject_Z (total l)) P). rewrite H, K. reflexivity.
Qed.

Lemma names_inj : forall l (a b : node), NoDup (map nd_name l) -> In a l -> In b l -> nd_name a = nd_name b -> a = b.
Proof.
  induction l as [|x l IH]; intros a b N A B E; [contradiction|].
  inversion N; subst. destruct A as [->|A], B as [->|B]; auto.
  - exfalso. apply H1. rewrite E. apply in_map; auto.
  - exfalso. apply H1. rewrite <- E. apply in_map; auto.
Qed.

Lemma ids_inj : forall l (a b : node), NoDup (map nd_id l) -> In a l -> In b l -> nd_id a = nd_id b -> a = b.
Proof.
  induction l as [|x l IH]; intros a b N A B E; [contradiction|].
  inversion N; subst. destruct A as [->|A], B as [->|B]; auto.
  - exfalso. apply H1. rewrite E. apply in_map; auto.
  - exfalso. apply H1. rewrite <- E. apply in_map; auto.
Qed.

Section Choice.
Variables (nodes : list node) (live : list (Z * Z)) (now ut : Z).
Hypothesis DI : distinct nodes.
Hypothesis ND : NoDup (map fst live).
Let upd n := update_health n now live ut.

Lemma candidate_spec : forall n, is_candidate n = true <-> can_be_root n.
Proof. intros n. unfold is_candidate, can_be_root. rewrite negb_true_iff, Z.eqb_neq. reflexivity. Qed.

Lemma candidates_in : forall n,
  In n (filter is_candidate (map (fun n => if is_candidate n then update_health n now live ut else n) nodes)) <->
  exists o, n = upd o /\ In o nodes /\ can_be_root o.
Proof.
  intros n. rewrite filter_In, in_map_iff. split.
  - intros [(o & E & I) C]. destruct (is_candidate o) eqn:D.
    + exists o. split; [auto|]. split; auto. apply candidate_spec; auto.
    + subst o. congruence.
  - intros (o & -> & I & C). apply candidate_spec in C. split.
    + exists o. rewrite C. auto.
    + unfold is_candidate in *. destruct (upd_same live now ut o) as (_ & _ & P & _). fold (upd o) in P.
      rewrite P. auto.
Qed.

(** The list the root is taken from: updated candidates satisfying [Q], which stands
    for [P] of the originals. *)
Lemma keep_or_first : forall (l : list node) (P : node -> Prop) current,
  (forall n, In n l <-> exists o, n = upd o /\ In o nodes /\ can_be_root o /\ P o) ->
  (forall o, P o -> in_contact live now ut o) ->
  (forall a b, In a l -> In b l -> nd_healthy a = nd_healthy b) ->
  l <> [] ->
  exists r, match current with
  | Some r => if existsb (named r) l then Some r else nominate l
  | None => nominate l
  end = Some r /\
  ((exists n, In n nodes /\ can_be_root n /\ P n /\ current = Some (nd_name n) /\ r = nd_name n) \/
   ((forall n, In n nodes -> can_be_root n -> P n -> current <> Some (nd_name n)) /\
    first_of nodes (fun n => can_be_root n /\ P n) r)).
Proof.
  intros l P current L C H NE. destruct DI as [DI1 DI2].
  assert (F : exists r, nominate l = Some r /\ first_of nodes (fun n => can_be_root n /\ P n) r).
  { destruct (py_sorted_least l NE) as (n & E & I & B).
    apply L in I as (o & -> & IO & CO & PO).
    exists (nd_name o). split.
    - unfold nominate. destruct (py_sorted health_le l) as [|x r]; [discriminate E|]. injection E as ->.
      cbn. destruct (upd_same live now ut o) as (_ & N & _). fold (upd o) in N. rewrite N. reflexivity.
    - exists o. split; auto. split; auto. split; auto.
      intros o2 I2 [C2 P2] N2.
      assert (IL2 : In (upd o2) l) by (apply L; exists o2; auto).
      assert (IL1 : In (upd o) l) by (apply L; exists o; auto).
      pose proof (B _ IL2) as HL. apply health_le_spec in HL.
      pose proof (H _ _ IL1 IL2) as HE.
      destruct HL as [[HL1 HL2]|[_ HL]]; [congruence|].
      exists (s_of (upd o)), (s_of (upd o2)), (l_of (upd o)), (l_of (upd o2)).
      split; [apply upd_stack; auto|]. split; [apply upd_stack; auto|].
      split; [apply upd_lacp; auto|]. split; [apply upd_lacp; auto|].
      unfold hrank in HL.
      destruct (upd_same live now ut o) as (X1 & _ & X2 & _). destruct (upd_same live now ut o2) as (Y1 & _ & Y2 & _).
      fold (upd o) in X1, X2. fold (upd o2) in Y1, Y2. rewrite X1, X2, Y1, Y2 in HL.
      destruct HL as [HL|[E1 [HL|[E2 [HL|[E3 HL]]]]]]; try tauto.
      right. split; auto. right. split; auto. right. split; auto.
      assert (nd_id o <> nd_id o2).
      { intros E4. apply N2. f_equal. symmetry. apply (ids_inj nodes); auto. }
      lia. }
  destruct F as (r0 & E0 & F0).
  destruct current as [c|].
  - destruct (existsb (named c) l) eqn:X.
    + exists c. split; auto. left. apply existsb_exists in X as (n & I & N).
      apply L in I as (o & -> & IO & CO & PO). unfold named in N. apply Z.eqb_eq in N.
      destruct (upd_same live now ut o) as (_ & N' & _). fold (upd o) in N'.
      exists o. rewrite N' in N. subst c. auto.
    + exists r0. split; [congruence|]. right. split; auto.
      intros n I CN PN E. injection E as ->.
      assert (existsb (named (nd_name n)) l = true); [|congruence].
      apply existsb_exists. exists (upd n). split; [apply L; exists n; auto|].
      unfold named. apply Z.eqb_eq. apply upd_same.
  - exists r0. split; [congruence|]. right. split; auto. intros; discriminate.
Qed.

Lemma nominate_root_right : forall current,
  right_choice nodes live now ut current (fst (nominate_root nodes current now live ut)).
Proof.
  intros current. unfold nominate_root.
  set (looked := map _ nodes). set (cands := filter is_candidate looked).
  set (healthy := filter nd_healthy cands).
  set (unhealthy := filter (fun n => negb (nd_healthy n) && fst (fst (nd_info n))) cands).
  cbn [fst].
  assert (LH : forall n, In n healthy <-> exists o, n = upd o /\ In o nodes /\ can_be_root o /\ well live now ut o).
  { intros n. unfold healthy, cands. rewrite filter_In. unfold looked. rewrite candidates_in. split.
    - intros [(o & -> & I & C) W]. exists o. repeat (split; auto). all: apply (upd_well live now ut ND o); auto.
    - intros (o & -> & I & C & W). split; [exists o; auto|]. apply upd_well; auto. }
  assert (LU : forall n, In n unhealthy <->
     exists o, n = upd o /\ In o nodes /\ can_be_root o /\ (in_contact live now ut o /\ ~ well live now ut o)).
  { intros n. unfold unhealthy, cands. rewrite filter_In, andb_true_iff, negb_true_iff. unfold looked. rewrite candidates_in. split.
    - intros [(o & -> & I & C) [W K]]. exists o. split; auto. split; auto. split; auto.
      split; [apply (upd_contact live now ut ND o); auto|].
      intros X. apply (upd_well live now ut ND o) in X. fold (upd o) in X. congruence.
    - intros (o & -> & I & C & K & W). split; [exists o; auto|]. split; [|apply upd_contact; auto].
      destruct (nd_healthy (upd o)) eqn:X; auto. apply (upd_well live now ut ND o) in X. contradiction. }
  destruct healthy as [|h hs] eqn:EH.
  - assert (NW : forall n, In n nodes -> can_be_root n -> ~ well live now ut n).
    { intros n I C W. assert (In (upd n) []) by (apply LH; exists n; auto). contradiction. }
    destruct unhealthy as [|u us] eqn:EU.
    + apply nobody. intros n I C K. assert (In (upd n) []); [|contradiction].
      apply LU. exists n. split; [reflexivity|]. split; [exact I|]. split; [exact C|]. split; [exact K|]. apply NW; auto.
    + destruct (keep_or_first (u :: us) (fun n => in_contact live now ut n /\ ~ well live now ut n) current LU)
        as (r & E & D).
      * tauto.
      * intros a b A B. apply LU in A as (o & -> & _ & _ & _ & WA). apply LU in B as (p & -> & _ & _ & _ & WB).
        transitivity false.
        -- destruct (nd_healthy (upd o)) eqn:X; auto. apply (upd_well live now ut ND o) in X. contradiction.
        -- destruct (nd_healthy (upd p)) eqn:X; auto. apply (upd_well live now ut ND p) in X. contradiction.
      * congruence.
      * rewrite E. destruct D as [(n & I & C & [K _] & EC & ->)|[N F]].
        -- apply keep_reachable; auto.
        -- apply pick_reachable; auto.
           destruct F as (n & I & E2 & [C [K W]] & B). exists n. repeat (split; auto).
           intros o IO [CO KO] NO. apply B; auto.
  - destruct (keep_or_first (h :: hs) (well live now ut) current LH) as (r & E & D).
    + intros o W. apply W.
    + intros a b A B. apply LH in A as (o & -> & _ & _ & WA). apply LH in B as (p & -> & _ & _ & WB).
      transitivity true; [|symmetry]; apply upd_well; auto.
    + congruence.
    + destruct unhealthy as [|u1 us1]; rewrite E; destruct D as [(n & I & C & W & EC & ->)|[N F]];
        try (apply keep_well; auto); apply pick_well; auto.
Qed.
End Choice.

(** ** There is one right choice *)

Lemma before_asym : forall a b, before a b -> before b a -> False.
Proof.
  intros a b (sa & sb & la & lb & A & B & C & D & H) (sb' & sa' & lb' & la' & B' & A' & D' & C' & K).
  assert (E1 := part_unique _ _ _ _ A A'). assert (E2 := part_unique _ _ _ _ B B').
  assert (E3 := part_unique _ _ _ _ C C'). assert (E4 := part_unique _ _ _ _ D D').
  destruct H as [H|[H1 [H|[H2 H]]]]; destruct K as [K|[K1 [K|[K2 K]]]]; try lra. lia.
Qed.

Lemma first_unique : forall nodes P r r', first_of nodes P r -> first_of nodes P r' -> r = r'.
Proof.
  intros nodes P r r' (n & I & E & PN & B) (n' & I' & E' & PN' & B').
  destruct (Z.eq_dec r r') as [->|N]; auto. exfalso.
  apply (before_asym n n').
  - apply B; auto. congruence.
  - apply B'; auto. congruence.
Qed.

Lemma first_some : forall nodes (P : node -> Prop) r,
  first_of nodes (fun n => can_be_root n /\ P n) r -> exists n, In n nodes /\ can_be_root n /\ P n.
Proof. intros nodes P r (n & I & _ & [C PN] & _). exists n; auto. Qed.

Lemma well_contact : forall live now ut n, well live now ut n -> in_contact live now ut n.
Proof. intros live now ut n W. apply W. Qed.

Lemma right_unique : forall nodes live now ut current a b,
  right_choice nodes live now ut current a -> right_choice nodes live now ut current b -> a = b.
Proof.
  intros nodes live now ut current a b A B.
  destruct A as [n I C W E|r N F|n NW I C K E|r NW N F|N];
  destruct B as [n' I' C' W' E'|r' N' F'|n' NW' I' C' K' E'|r' NW' N' F'|N'];
  try congruence;
  try (rewrite (first_unique _ _ _ _ F F'); reflexivity);
  try (apply first_some in F as (x & IX & CX & WX));
  try (apply first_some in F' as (y & IY & CY & WY));
  exfalso;
  first [exact (NW' _ IX CX WX)|exact (NW _ IY CY WY)|exact (N' _ I C W E)|exact (N' _ I C K E)|exact (NW' _ I C W)|exact (N _ I' C' W' E')|exact (N _ I' C' K' E')
        |exact (NW _ I' C' W')
        |solve [eapply NW'; eauto using well_contact] | solve [eapply NW; eauto using well_contact]
        |solve [eapply N'; eauto using well_contact] | solve [eapply N; eauto using well_contact]].
Qed.

Lemma right_perm : forall nodes nodes' live now ut current a,
  (forall n, In n nodes <-> In n nodes') ->
  right_choice nodes live now ut current a -> right_choice nodes' live now ut current a.
Proof.
  intros nodes nodes' live now ut current a E R.
  assert (F : forall P r, first_of nodes P r -> first_of nodes' P r).
  { intros P r (n & I & N & PN & B). exists n. split; [apply E; auto|]. split; auto. split; auto.
    intros o O. apply B. apply E; auto. }
  destruct R.
  - apply keep_well; auto. apply E; auto.
  - apply pick_well; auto. intros n I. apply H, E; auto.
  - apply keep_reachable; auto; [|apply E; auto]. intros o I. apply H, E; auto.
  - apply pick_reachable; auto; intros n I; [apply H|apply H0]; apply E; auto.
  - apply nobody. intros n I. apply H, E; auto.
Qed.

(** ** Histories *)

Lemma update_live_nodup : forall nodes now live, NoDup (map fst live) -> NoDup (map fst (update_live nodes now live)).
Proof.
  unfold update_live. induction nodes as [|n nodes IH]; intros now live H; [exact H|].
  cbn [fold_left]. apply IH. destruct (nd_running n); auto. apply dict_put_nodup; auto. exact zspec.
Qed.

Lemma update_live_get : forall nodes now live x,
  dict_get Z.eqb x (update_live nodes now live) =
  if existsb (fun n => named x n && nd_running n) nodes then Some now else dict_get Z.eqb x live.
Proof.
  unfold update_live, named. induction nodes as [|n nodes IH]; intros now live x; [reflexivity|].
  cbn [fold_left existsb]. rewrite IH.
  destruct (existsb _ nodes) eqn:E; [rewrite orb_true_r; reflexivity|].
  rewrite orb_false_r.
  destruct (nd_running n); [|rewrite andb_false_r; reflexivity]. rewrite andb_true_r.
  rewrite (dict_get_put _ zspec). rewrite (Z.eqb_sym x). reflexivity.
Qed.

Definition sound (m : manager) : Prop := NoDup (map fst (mg_live m)) /\ distinct (mg_nodes m).

Lemma distinct_map : forall f nodes, (forall n, nd_id (f n) = nd_id n /\ nd_name (f n) = nd_name n) ->
  distinct nodes -> distinct (map f nodes).
Proof.
  intros f nodes H [A B]. unfold distinct. rewrite !map_map.
  rewrite (map_ext _ nd_id), (map_ext (fun x => nd_name (f x)) nd_name); [split; auto| |]; intros; apply H.
Qed.

Lemma reload_distinct : forall nodes current, distinct nodes -> distinct (reload_root nodes current).
Proof.
  intros nodes current D. unfold reload_root. destruct (resolve_root nodes current); auto.
  apply distinct_map; [intros n; split; reflexivity|auto].
Qed.

Lemma set_stack_root_sound : forall m r, sound m -> sound (fst (set_stack_root m r)).
Proof.
  intros m r [A B]. unfold set_stack_root. destruct r as [r|]; [|split; auto].
  destruct (existsb _ _); [|split; auto].
  destruct (match mg_root m with Some p => p =? r | None => false end).
  - destruct (forallb _ _); [split; auto|]. split; [exact A|]. apply reload_distinct; auto.
  - split; [exact A|]. apply reload_distinct; auto.
Qed.

Lemma looked_distinct : forall nodes current now live ut, distinct nodes ->
  distinct (snd (nominate_root nodes current now live ut)).
Proof.
  intros nodes current now live ut D. unfold nominate_root. cbn [snd]. apply distinct_map; auto.
  intros n. destruct (is_candidate n); [|auto]. destruct (upd_same live now ut n) as (X & Y & _); auto.
Qed.

Lemma maintain_sound : forall m now ut, sound m -> sound (fst (maintain m now ut)).
Proof.
  intros m now ut [A B]. unfold maintain.
  destruct (mg_nodes m) as [|n0 ns] eqn:E.
  - split; [apply update_live_nodup; auto|]. split; constructor.
  - set (root := match mg_root m with Some r => _ | None => None end).
    destruct (nominate_root (n0 :: ns) root now _ ut) as [r nodes] eqn:F. apply set_stack_root_sound.
    split; [apply update_live_nodup; auto|]. cbn [mg_nodes].
    pose proof (looked_distinct (n0 :: ns) root now (update_live (n0 :: ns) now (mg_live m)) ut) as L.
    rewrite F in L. exact (L B).
Qed.

Lemma mstep_sound : forall m e, (forall nodes, e = MConfig nodes -> distinct nodes) -> sound m -> sound (mstep m e).
Proof.
  intros m e C [A B]. destruct e as [x r s l|x now|nodes|now ut].
  - split; [exact A|]. cbn [mg_nodes mstep]. apply distinct_map; auto. intros n. destruct (named x n); auto.
  - split; [|exact B]. cbn [mg_live mstep]. apply dict_put_nodup; auto. exact zspec.
  - split; [exact A|]. apply reload_distinct; auto.
  - apply maintain_sound. split; auto.
Qed.

Lemma mrun_sound : forall es, well_configured es -> sound (mrun es minit).
Proof.
  induction es as [|e es IH] using rev_ind; intros W.
  - split; [constructor|]. split; constructor.
  - unfold mrun. rewrite fold_left_app. cbn [fold_left]. apply mstep_sound.
    + intros nodes ->. apply W. apply in_or_app. right; left; auto.
    + apply IH. intros nodes I. apply W. apply in_or_app; auto.
Qed.

(** The root when the configuration is loaded. *)
Lemma resolve_keeps : forall nodes r n, In n nodes -> nd_name n = r -> can_be_root n -> resolve_root nodes (Some r) = Some r.
Proof.
  intros nodes r n I N C. unfold resolve_root.
  assert (E : existsb (named r) (py_sorted health_le (map fresh (filter is_candidate nodes))) = true); [|rewrite E; auto].
  apply existsb_exists. exists (fresh n). split.
  - apply (py_sorted_in health_le). apply in_map. apply filter_In. split; auto.
    unfold is_candidate. apply negb_true_iff, Z.eqb_neq. exact C.
  - unfold named. apply Z.eqb_eq. exact N.
Qed.

Lemma resolve_first : forall nodes, distinct nodes -> (exists n, In n nodes /\ can_be_root n) ->
  exists n, In n nodes /\ can_be_root n /\ resolve_root nodes None = Some (nd_name n) /\
    forall o, In o nodes -> can_be_root o -> o <> n -> configured_before n o.
Proof.
  intros nodes D (n0 & I0 & C0). unfold resolve_root.
  destruct (py_sorted_least (map fresh (filter is_candidate nodes))) as (n & E & I & B).
  - intros E. assert (I : In (fresh n0) []); [|contradiction]. rewrite <- E. apply in_map. apply filter_In. split; auto.
    unfold is_candidate. apply negb_true_iff, Z.eqb_neq. exact C0.
  - apply in_map_iff in I as (o & <- & I). apply filter_In in I as [I C].
    unfold is_candidate in C. apply negb_true_iff, Z.eqb_neq in C.
    exists o. split; auto. split; auto. split.
    + destruct (py_sorted health_le _); [discriminate E|]. injection E as ->. reflexivity.
    + intros o2 I2 C2 N2. specialize (B (fresh o2)).
      assert (L : health_le (fresh o) (fresh o2) = true).
      { apply B. apply in_map. apply filter_In. split; auto. unfold is_candidate. apply negb_true_iff, Z.eqb_neq. exact C2. }
      apply health_le_spec in L as [[L _]|[_ L]]; [discriminate L|].
      unfold hrank, s_of, l_of in L. cbn in L. unfold configured_before.
      assert (nd_id o <> nd_id o2) by (intros X; apply N2; symmetry; eapply ids_inj; eauto; apply D).
      destruct L as [L|[_ [L|[_ L]]]]; try (exfalso; revert L; apply Qlt_irrefl). lia.
Qed.

Lemma reload_told : forall nodes r n, In n nodes -> nd_name n = r -> can_be_root n ->
  forall o, In o (reload_root nodes (Some r)) -> nd_root o = r.
Proof.
  intros nodes r n I N C o O. unfold reload_root in O. rewrite (resolve_keeps nodes r n I N C) in O.
  apply in_map_iff in O as (p & <- & _). reflexivity.
Qed.

Lemma right_some : forall nodes live now ut current r,
  right_choice nodes live now ut current (Some r) -> exists n, In n nodes /\ nd_name n = r /\ can_be_root n.
Proof.
  intros nodes live now ut current r R. inversion R as [n I C W E|r0 N F|n NW I C K E|r0 NW N F|]; subst; eauto;
    destruct F as (n & I & E & [C _] & _); eauto.
Qed.

Lemma set_stack_root_spec : forall m r n, In n (mg_nodes m) -> nd_name n = r -> can_be_root n ->
  let m' := fst (set_stack_root m (Some r)) in
  mg_root m' = Some r /\ mg_live m' = mg_live m /\ (forall o, In o (mg_nodes m') -> nd_root o = r).
Proof.
  intros m r n I N C. unfold set_stack_root.
  assert (E : existsb (named r) (mg_nodes m) = true).
  { apply existsb_exists. exists n. split; auto. apply Z.eqb_eq; auto. }
  rewrite E.
  destruct (mg_root m) as [p|] eqn:P.
  - destruct (p =? r) eqn:Q.
    + apply Z.eqb_eq in Q. subst p. destruct (forallb _ _) eqn:F.
      * cbn. split; auto. split; auto. intros o O. rewrite forallb_forall in F. apply Z.eqb_eq, F; auto.
      * cbn [fst mg_root mg_live mg_nodes]. split; auto. split; auto. exact (reload_told (mg_nodes m) r n I N C).
    + cbn [fst mg_root mg_live mg_nodes]. split; auto. split; auto. exact (reload_told (mg_nodes m) r n I N C).
  - cbn [fst mg_root mg_live mg_nodes]. split; auto. split; auto. exact (reload_told (mg_nodes m) r n I N C).
Qed.

Lemma maintain_spec : forall m now ut, sound m ->
  let m' := fst (maintain m now ut) in
  exists current res, current_root m current /\
    right_choice (mg_nodes m) (mg_live m') now ut current res /\
    match res with
    | Some r => mg_root m' = Some r /\ forall o, In o (mg_nodes m') -> nd_root o = r
    | None => mg_root m' = mg_root m /\ map nd_root (mg_nodes m') = map nd_root (mg_nodes m)
    end.
Proof.
  intros m now ut [ND DI]. unfold maintain.
  set (live := update_live (mg_nodes m) now (mg_live m)).
  set (root := match mg_root m with Some r => if existsb (named r) (mg_nodes m) then Some r else None | None => None end).
  assert (CR : current_root m root).
  { intros r. unfold root. destruct (mg_root m) as [p|]; [|intuition congruence].
    destruct (existsb (named p) (mg_nodes m)) eqn:E.
    - apply existsb_exists in E as (n & I & E). apply Z.eqb_eq in E. split; [|tauto].
      intros X. split; auto. injection X as <-. rewrite <- E. apply in_map; auto.
    - split; [discriminate|]. intros [X Y]. injection X as ->. apply in_map_iff in Y as (n & Y & I).
      assert (existsb (named r) (mg_nodes m) = true); [|congruence].
      apply existsb_exists. exists n. split; auto. apply Z.eqb_eq; auto. }
  assert (NL : NoDup (map fst live)) by (apply update_live_nodup; auto).
  pose proof (nominate_root_right (mg_nodes m) live now ut DI NL root) as R.
  assert (LI : forall n, In n (mg_nodes m) -> exists n', In n' (snd (nominate_root (mg_nodes m) root now live ut)) /\
     nd_name n' = nd_name n /\ nd_priority n' = nd_priority n).
  { intros n I. unfold nominate_root. cbn [snd].
    exists (if is_candidate n then update_health n now live ut else n). split.
    - apply in_map_iff. exists n; auto.
    - destruct (is_candidate n); auto. destruct (upd_same live now ut n) as (_ & X & Y & _); auto. }
  assert (LR : map nd_root (snd (nominate_root (mg_nodes m) root now live ut)) = map nd_root (mg_nodes m)).
  { unfold nominate_root. cbn [snd]. rewrite map_map. apply map_ext. intros n.
    destruct (is_candidate n); auto. apply upd_same. }
  exists root, (fst (nominate_root (mg_nodes m) root now live ut)). split; [exact CR|].
  destruct (mg_nodes m) as [|n0 ns] eqn:E.
  - cbn [fst mg_live]. split; [exact R|]. cbn [nominate_root fst map filter]. split; auto.
  - destruct (nominate_root (n0 :: ns) root now live ut) as [r nodes] eqn:F. cbn [fst snd] in *.
    destruct r as [r|].
    + destruct (right_some _ _ _ _ _ _ R) as (n & I & N & C).
      destruct (LI n I) as (n' & I' & N' & C').
      destruct (set_stack_root_spec (mkManager (mg_root m) live nodes) r n') as (S1 & S2 & S3); auto.
      { congruence. } { unfold can_be_root in *. congruence. }
      rewrite S2. split; [exact R|]. split; auto.
    + cbn. split; [exact R|]. split; auto.
Qed.

(** ** When a switch was last seen *)

Lemma dict_some_in : forall (d : list (Z * Z)) x t, NoDup (map fst d) -> (In (x, t) d <-> dict_get Z.eqb x d = Some t).
Proof.
  intros d x t N. split; intros H.
  - apply (dict_in_get _ zspec); auto.
  - apply (dict_get_in _ zspec); auto.
Qed.

Lemma set_root_live : forall m r, mg_live (fst (set_stack_root m r)) = mg_live m.
Proof.
  intros m r. unfold set_stack_root. destruct r as [r|]; [|auto]. destruct (existsb _ _); auto.
  destruct (match mg_root m with Some p => p =? r | None => false end); [|auto]. destruct (forallb _ _); auto.
Qed.

Lemma maintain_live : forall m now ut, mg_live (fst (maintain m now ut)) = update_live (mg_nodes m) now (mg_live m).
Proof.
  intros m now ut. unfold maintain. destruct (mg_nodes m) eqn:E; [reflexivity|].
  destruct (nominate_root _ _ _ _ _). apply set_root_live.
Qed.

(** The live time noted after an event: that of a contact, else the one before. *)
Lemma mstep_live : forall m e x,
  (exists t, contact m e x t /\ dict_get Z.eqb x (mg_live (mstep m e)) = Some t) \/
  ((forall t, ~ contact m e x t) /\ dict_get Z.eqb x (mg_live (mstep m e)) = dict_get Z.eqb x (mg_live m)).
Proof.
  intros m e x. destruct e as [y r s l|y now|nodes|now ut]; cbn [mstep].
  - right. split; [|reflexivity]. intros t [H|(u & n & H & _)]; discriminate H.
  - cbn [mg_live]. rewrite (dict_get_put _ zspec). destruct (x =? y) eqn:E.
    + apply Z.eqb_eq in E. subst y. left. exists now. split; auto. left; auto.
    + apply Z.eqb_neq in E. right. split; auto. intros t [H|(u & n & H & _)]; [congruence|discriminate H].
  - right. split; [|reflexivity]. intros t [H|(u & n & H & _)]; discriminate H.
  - rewrite maintain_live, update_live_get. destruct (existsb _ _) eqn:E.
    + apply existsb_exists in E as (n & I & E). apply andb_prop in E as [E1 E2]. apply Z.eqb_eq in E1.
      left. exists now. split; auto. right. exists ut, n. auto.
    + right. split; auto. intros t [H|(u & n & H & I & N & R)]; [discriminate H|].
      assert (existsb (fun n => named x n && nd_running n) (mg_nodes m) = true); [|congruence].
      apply existsb_exists. exists n. split; auto. rewrite R, andb_true_r. apply Z.eqb_eq; auto.
Qed.

Lemma contact_same : forall m e x t t', contact m e x t -> contact m e x t' -> t = t'.
Proof. intros m e x t t' [->|(u & n & -> & _)] [E|(u' & n' & E & _)]; congruence. Qed.

Lemma mrun_snoc : forall es e m, mrun (es ++ [e]) m = mstep (mrun es m) e.
Proof. intros. unfold mrun. rewrite fold_left_app. reflexivity. Qed.

Lemma live_last : forall es x t, dict_get Z.eqb x (mg_live (mrun es minit)) = Some t <-> last_contact es x t.
Proof.
  induction es as [|e es IH] using rev_ind; intros x t.
  - split; [discriminate|]. intros (a & e & b & E & _). destruct a; discriminate E.
  - rewrite mrun_snoc. destruct (mstep_live (mrun es minit) e x) as [(u & C & E)|[N E]]; rewrite E; clear E.
    + split.
      * intros H. injection H as <-. exists es, e, []. split; auto. split; auto.
        intros es3 e' es4 t' X. destruct es3; discriminate X.
      * intros (es1 & e1 & es2 & X & C1 & L). f_equal.
        destruct (exists_last (l := e1 :: es2)) as (l & z & F); [discriminate|].
        destruct es2 as [|e2 es2].
        -- assert (Y : es ++ [e] = es1 ++ [e1]) by exact X. apply app_inj_tail in Y as [-> ->].
           eapply contact_same; eauto.
        -- exfalso. destruct (exists_last (l := e2 :: es2)) as (l2 & z2 & F2); [discriminate|].
           rewrite F2 in X. rewrite app_comm_cons, app_assoc in X. apply app_inj_tail in X as [-> ->].
           apply (L l2 z2 [] u); auto.
    + rewrite IH. split.
      * intros (es1 & e1 & es2 & -> & C1 & L). exists es1, e1, (es2 ++ [e]).
        split; [rewrite <- app_assoc; reflexivity|]. split; auto.
        intros es3 e' es4 t' X. destruct (list_eq_dec_nil es4) as [->|H].
        -- apply app_inj_tail in X as [<- <-]. apply N.
        -- destruct (exists_last H) as (l & z & ->).
           rewrite app_comm_cons, app_assoc in X. apply app_inj_tail in X as [-> _]. apply (L es3 e' l); auto.
      * intros (es1 & e1 & es2 & X & C1 & L).
        destruct (list_eq_dec_nil es2) as [->|H].
        -- assert (Y : es ++ [e] = es1 ++ [e1]) by exact X. apply app_inj_tail in Y as [-> ->].
           exfalso. apply (N t); auto.
        -- destruct (exists_last H) as (l & z & ->).
           rewrite app_comm_cons, app_assoc in X. apply app_inj_tail in X as [-> ->].
           exists es1, e1, l. split; auto. split; auto.
           intros es3 e' es4 t' ->. apply (L es3 e' (es4 ++ [z])). rewrite <- app_assoc. reflexivity.
Qed.

(** ** Health after the root was looked at *)

Lemma maintain_health : forall m now ut n, sound m -> In n (mg_nodes (fst (maintain m now ut))) -> can_be_root n ->
  (nd_healthy n = true <-> well (mg_live (fst (maintain m now ut))) now ut n).
Proof.
  intros m now ut n [ND DI] I C. rewrite maintain_live. revert I. unfold maintain.
  set (live := update_live (mg_nodes m) now (mg_live m)).
  assert (NL : NoDup (map fst live)) by (apply update_live_nodup; auto).
  destruct (mg_nodes m) as [|n0 ns] eqn:E; [intros []|]. rewrite <- E in *.
  set (root := match mg_root m with Some r => _ | None => None end).
  assert (L : forall o, In o (snd (nominate_root (mg_nodes m) root now live ut)) -> can_be_root o ->
    (nd_healthy o = true <-> well live now ut o)).
  { intros o I CO. unfold nominate_root in I. cbn [snd] in I. apply in_map_iff in I as (p & X & I).
    destruct (is_candidate p) eqn:K.
    - subst o. rewrite (upd_well live now ut NL p).
      destruct (upd_conf live now ut p) as (Y1 & Y2 & Y3 & Y4 & Y5 & Y6).
      unfold well, in_contact. rewrite Y1, Y2, Y3, Y4, Y5, Y6. reflexivity.
    - subst o. apply candidate_spec in CO. congruence. }
  destruct (nominate_root (mg_nodes m) root now live ut) as [r nodes]. cbn [snd] in L.
  assert (G : forall f : list node, (f = nodes \/ exists q, f = map (set_root q) nodes) -> In n f ->
    (nd_healthy n = true <-> well live now ut n)).
  { intros f [->|(q & ->)] J; [apply L; auto|].
    apply in_map_iff in J as (o & <- & J). apply (L o J C). }
  apply G. unfold set_stack_root. destruct r as [r|]; [|auto]. destruct (existsb _ _); auto.
  cbn [mg_root mg_nodes mg_live].
  assert (R : forall c, reload_root nodes c = nodes \/ exists q, reload_root nodes c = map (set_root q) nodes).
  { intros c. unfold reload_root. destruct (resolve_root nodes c); eauto. }
  destruct (match mg_root m with Some p => p =? r | None => false end); [|apply R]. destruct (forallb _ _); [auto|apply R].
Qed.
