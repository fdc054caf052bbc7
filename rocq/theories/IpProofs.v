(** * Proofs about IP networks *)

From Coq Require Import ZArith List Bool Lia.
From Verif Require Import PyBase PyBaseProofs IpModel IpSpec.
Import ListNotations.
Open Scope Z_scope.

Lemma width_bits v : width v = bits v.
Proof. reflexivity. Qed.

Lemma width_pos v : 32 <= width v <= 128.
Proof. unfold width. destruct (v =? 4); lia. Qed.

Lemma ip_eqb_eq a b : ip_eqb a b = true <-> a = b.
Proof. unfold ip_eqb. rewrite andb_true_iff, !Z.eqb_eq. destruct a, b; cbn. split; [intros [-> ->]; auto|intros H; inversion H; auto]. Qed.
Lemma net_eqb_eq a b : net_eqb a b = true <-> a = b.
Proof. unfold net_eqb. rewrite !andb_true_iff, !Z.eqb_eq. destruct a, b; cbn. split; [intros [[-> ->] ->]; auto|intros H; inversion H; auto]. Qed.
Lemma vip_eqb_eq a b : vip_eqb a b = true <-> a = b.
Proof. unfold vip_eqb. rewrite andb_true_iff, ip_eqb_eq, Z.eqb_eq. destruct a, b; cbn. split; [intros [-> ->]; auto|intros H; inversion H; auto]. Qed.
Lemma ip_eq_dec (a b : ip) : {a = b} + {a <> b}.
Proof. repeat decide equality. Qed.
Lemma net_eq_dec (a b : net) : {a = b} + {a <> b}.
Proof. repeat decide equality. Qed.

(** Masking with a prefix mask rounds down to the block. *)
Lemma land_mask x w k : 0 <= k <= w -> 0 <= x < 2 ^ w ->
  Z.land x (2 ^ w - 2 ^ k) = x / 2 ^ k * 2 ^ k.
Proof.
  intros K X.
  assert (2 ^ w - 2 ^ k = Z.ldiff (Z.ones w) (Z.ones k)) as ->.
  { rewrite <- Z.sub_nocarry_ldiff.
    - unfold Z.ones. rewrite !Z.shiftl_1_l. lia.
    - apply Z.bits_inj'. intros i Hi. rewrite Z.ldiff_spec, Z.bits_0.
      destruct (Z.lt_ge_cases i k).
      + rewrite (Z.ones_spec_low w) by lia. apply andb_false_r.
      + rewrite (Z.ones_spec_high k) by lia. reflexivity. }
  rewrite <- Z.shiftr_div_pow2, <- Z.shiftl_mul_pow2 by lia.
  apply Z.bits_inj'. intros i Hi. rewrite Z.land_spec, Z.ldiff_spec.
  destruct (Z.lt_ge_cases i k) as [L|L].
  - rewrite (Z.ones_spec_low k) by lia. rewrite Z.shiftl_spec_low by lia. cbn. rewrite andb_false_r. apply andb_false_r.
  - rewrite (Z.ones_spec_high k) by lia. rewrite Z.shiftl_spec_high, Z.shiftr_spec by lia.
    replace (i - k + k) with i by lia. cbn. rewrite andb_true_r.
    destruct (Z.lt_ge_cases i w).
    + rewrite Z.ones_spec_low by lia. apply andb_true_r.
    + rewrite (Z.ones_spec_high w) by lia. rewrite andb_false_r.
      destruct (Z.eq_dec x 0) as [->|]; [now rewrite Z.bits_0|].
      rewrite Z.bits_above_log2; [reflexivity|lia|]. apply Z.log2_lt_pow2; [lia|].
      apply Z.lt_le_trans with (2 ^ w); [lia|]. apply Z.pow_le_mono_r; lia.
Qed.

Lemma good_ip_range a : good_ip a -> 0 <= ip_val a < 2 ^ width (ip_ver a).
Proof. intros [[-> H]|[-> H]]; exact H. Qed.

Lemma ip_in_net_spec a n : good_ip a -> good_net n -> (ip_in_net a n = true <-> belongs a n).
Proof.
  intros A (V & L & P & U & (k & K)). unfold ip_in_net, belongs.
  rewrite andb_true_iff, !Z.eqb_eq. pose proof (good_ip_range a A) as R.
  assert (forall q, q = n_ver n -> 0 <= ip_val a < 2 ^ width q ->
    (Z.land (ip_val a) (netmask (n_ver n) (n_len n)) = n_addr n <->
     n_addr n <= ip_val a < n_addr n + 2 ^ (bits (n_ver n) - n_len n))) as Q.
  { intros q -> R'. unfold netmask. change width with bits in *. rewrite land_mask by lia.
    set (B := 2 ^ (bits (n_ver n) - n_len n)) in *.
    assert (0 < B) by (apply Z.pow_pos_nonneg; lia).
    pose proof (Z.div_mod (ip_val a) B ltac:(lia)) as D. pose proof (Z.mod_pos_bound (ip_val a) B ltac:(lia)) as M.
    rewrite K. split; intros H'.
    - assert (ip_val a / B = k) as Ek by nia. nia.
    - assert (ip_val a / B = k) as ->; [|reflexivity]. symmetry. apply Z.div_unique with (ip_val a - k * B); lia. }
  split.
  - intros [E H]. split; [exact E|]. apply (Q (ip_ver a)); auto.
  - intros [E H]. split; [exact E|]. apply (Q (ip_ver a)); auto.
Qed.

Lemma vip_net_good v : good_vip v -> good_net (vip_net v).
Proof.
  intros [A L]. unfold vip_net, good_net. cbn [n_ver n_len n_addr].
  pose proof (good_ip_range _ A) as R. unfold netmask. change width with bits in *.
  rewrite land_mask by lia. set (B := 2 ^ (bits (ip_ver (v_ip v)) - v_len v)).
  assert (0 < B) by (apply Z.pow_pos_nonneg; lia).
  split; [destruct A as [[-> _]|[-> _]]; auto|]. split; [lia|].
  assert (0 <= ip_val (v_ip v) / B) by (apply Z.div_pos; lia).
  split; [nia|]. split; [|eexists; reflexivity].
  assert (2 ^ bits (ip_ver (v_ip v)) = 2 ^ v_len v * B) as E.
  { unfold B. rewrite <- Z.pow_add_r by lia. f_equal. lia. }
  rewrite E in *. assert (ip_val (v_ip v) / B < 2 ^ v_len v).
  { apply Z.div_lt_upper_bound; lia. }
  nia.
Qed.

Lemma vip_belongs v : good_vip v -> belongs (v_ip v) (vip_net v).
Proof.
  intros G. pose proof (vip_net_good v G) as N. destruct G as [A L].
  apply ip_in_net_spec; [exact A|exact N|]. unfold ip_in_net, vip_net. cbn [n_ver n_addr n_len].
  now rewrite !Z.eqb_refl.
Qed.

Lemma host_net_good a : good_ip a -> good_net (host_net a).
Proof.
  intros A. unfold good_net, host_net. cbn. pose proof (good_ip_range a A) as R. change width with bits in *.
  rewrite Z.sub_diag. change (2 ^ 0) with 1. split; [destruct A as [[-> _]|[-> _]]; auto|].
  pose proof (width_pos (ip_ver a)) as W. change width with bits in W.
  split; [lia|]. split; [lia|]. split; [lia|]. exists (ip_val a). lia.
Qed.

(** Two aligned blocks that meet are nested. *)
Lemma nested m n a : good_net m -> good_net n -> belongs a m -> belongs a n -> n_len m <= n_len n ->
  forall b, belongs b n -> belongs b m.
Proof.
  intros (V & L & P & U & (k & K)) (V' & L' & P' & U' & (k' & K')) [E1 H1] [E2 H2] Le b [E3 H3].
  split; [congruence|]. assert (n_ver m = n_ver n) as E by congruence. rewrite E in *.
  set (w := bits (n_ver n)) in *.
  set (B := 2 ^ (w - n_len n)) in *. assert (2 ^ (w - n_len m) = 2 ^ (n_len n - n_len m) * B) as Q.
  { unfold B. rewrite <- Z.pow_add_r by lia. f_equal. lia. }
  rewrite Q in *. set (C := 2 ^ (n_len n - n_len m)) in *.
  assert (0 < B) by (apply Z.pow_pos_nonneg; lia). assert (0 < C) by (apply Z.pow_pos_nonneg; lia).
  rewrite K, K' in *.
  assert (k * C <= k') by nia. assert (k' < k * C + C) by nia. nia.
Qed.

(** ** Trie *)

Lemma trie_get_spec {V} (t : trie V) a :
  good_ip a -> (forall n v, In (n, v) t -> good_net n) ->
  match trie_get a t with
  | Some (n, v) => In (n, v) t /\ longest a n (map fst t)
  | None => forall n, In n (map fst t) -> ~ belongs a n
  end.
Proof.
  intros A. induction t as [|[n v] t IH]; intros G; cbn [trie_get map].
  - intros n [].
  - assert (good_net n) as Gn by (apply (G n v); now left).
    assert (forall n v, In (n, v) t -> good_net n) as Gt by (intros; eapply G; right; eauto).
    specialize (IH Gt). pose proof (ip_in_net_spec a n A Gn) as S. destruct (trie_get a t) as [[n' v']|].
    + destruct IH as (I & (I1 & I2 & I3)). destruct (ip_in_net a n) eqn:E; cbn [andb].
      * destruct (Z.ltb_spec (n_len n') (n_len n)).
        -- split; [now left|]. split; [now left|]. split; [apply S; reflexivity|].
           intros m [<-|Hm] Bm; cbn [fst] in *; [lia|]. specialize (I3 m Hm Bm). lia.
        -- split; [now right|]. split; [now right|]. split; [exact I2|].
           intros m [<-|Hm] Bm; cbn [fst] in *; [lia|auto].
      * split; [now right|]. split; [now right|]. split; [exact I2|].
        intros m [<-|Hm] Bm; cbn [fst] in *; [apply S in Bm; discriminate|auto].
    + destruct (ip_in_net a n) eqn:E.
      * split; [now left|]. split; [now left|]. split; [apply S; reflexivity|].
        intros m [<-|Hm] Bm; cbn [fst] in *; [lia|]. exfalso. eapply IH; eauto.
      * intros m [<-|Hm] Bm; cbn [fst] in *; [apply S in Bm; discriminate|]. eapply IH; eauto.
Qed.
