(** * Proofs about trimming and VIDs *)
From Coq Require Import ZArith List Bool Lia.
From Verif Require Import PyBase OpenFlow TrimModel.
Import ListNotations.
Open Scope Z_scope.

Lemma exec_acts_app : forall g live a b p,
  exec_acts g live (a ++ b) p =
  (fst (exec_acts g live a p) ++ fst (exec_acts g live b (snd (exec_acts g live a p))),
   snd (exec_acts g live b (snd (exec_acts g live a p)))).
Proof.
  induction a as [|x a IH]; intros b p; simpl.
  - destruct (exec_acts g live b p); reflexivity.
  - destruct x; simpl; rewrite IH; repeat (destruct (exec_acts g live _ _)); simpl;
      rewrite ?app_assoc; reflexivity.
Qed.

Lemma exec_no_out : forall g live a p, existsb is_out_or_group a = false -> fst (exec_acts g live a p) = [].
Proof.
  induction a as [|x a IH]; intros p H; simpl in *; auto.
  destruct x; simpl in H; try discriminate; apply IH; auto.
Qed.

(** the loop keeps everything up to the last output *)
Lemma trim_fold : forall acts n p,
  exists tail, n ++ p ++ acts = fst (fold_left trim_step acts (n, p)) ++ tail /\
     tail = snd (fold_left trim_step acts (n, p)) /\
     (existsb is_out_or_group p = false -> existsb is_out_or_group tail = false).
Proof.
  induction acts as [|a acts IH]; intros n p; simpl.
  - exists p. rewrite app_nil_r. auto.
  - destruct (is_out_or_group a) eqn:E; simpl.
    + destruct (IH (n ++ p ++ [a]) []) as [t [A [B C]]]. exists t. repeat split; auto.
      rewrite <- A. simpl. rewrite <- !app_assoc. reflexivity.
    + destruct (IH n (p ++ [a])) as [t [A [B C]]]. exists t. repeat split; auto.
      * rewrite <- A. rewrite <- app_assoc. reflexivity.
      * intros H. apply C. rewrite existsb_app, H. simpl. rewrite E. reflexivity.
Qed.

Lemma trim_loop_prefix : forall acts, exists tail,
  acts = trim_loop acts ++ tail /\ existsb is_out_or_group tail = false.
Proof.
  intros acts. destruct (trim_fold acts [] []) as [t [A [B C]]]. exists t. split; auto.
Qed.

Lemma trim_loop_ends : forall acts, trim_loop acts = [] \/
  exists l a, trim_loop acts = l ++ [a] /\ is_out_or_group a = true.
Proof.
  intros acts. unfold trim_loop.
  assert (H : forall acts n p, (n = [] \/ exists l a, n = l ++ [a] /\ is_out_or_group a = true) ->
     fst (fold_left trim_step acts (n, p)) = [] \/
     exists l a, fst (fold_left trim_step acts (n, p)) = l ++ [a] /\ is_out_or_group a = true).
  { clear. induction acts as [|a acts IH]; intros n p H; simpl; auto.
    destruct (is_out_or_group a) eqn:E; apply IH; auto.
    right. exists (n ++ p), a. rewrite app_assoc; auto. }
  apply H; auto.
Qed.

Lemma trim_loop_emits : forall g live acts p,
  fst (exec_acts g live (trim_loop acts) p) = fst (exec_acts g live acts p).
Proof.
  intros g live acts p. destruct (trim_loop_prefix acts) as [t [A B]].
  rewrite A at 2. rewrite exec_acts_app. simpl. rewrite (exec_no_out g live t); auto.
  rewrite app_nil_r. reflexivity.
Qed.

Definition applies (l : list instruction) : nat := length (filter is_apply l).

Lemma exec_insts_no_goto : forall g live l p, existsb is_goto l = false ->
  snd (exec_insts g live l p) = None.
Proof.
  induction l as [|i l IH]; intros p H; simpl in *; auto.
  apply orb_false_iff in H as [H1 H2]. destruct i; simpl in H1; try discriminate; simpl; auto.
  destruct (exec_acts g live acts p) as [es p1]. specialize (IH p1 H2).
  destruct (exec_insts g live l p1) as [[es2 p2] nx]. auto.
Qed.

(** with a goto, nothing but empty apply lists is dropped *)
Lemma trim_list_goto : forall g live al l l' p, trim_list al true l = Some l' ->
  exec_insts g live l' p = exec_insts g live l p.
Proof.
  induction l as [|i l IH]; intros l' p H; simpl in H.
  - inversion H; subst; auto.
  - destruct i as [acts|t|m|v m]; simpl in H.
    + destruct (trim_list al true l) as [r|] eqn:E.
      2:{ destruct acts; discriminate. }
      destruct acts as [|a acts]; injection H as <-.
      * simpl. rewrite (IH r p); auto. destruct (exec_insts g live l p) as [[? ?] ?]; auto.
      * change ([Apply (a :: acts)] ++ r) with (Apply (a :: acts) :: r).
        cbn [exec_insts]. destruct (exec_acts g live (a :: acts) p) as [es p1]. rewrite (IH r p1); auto.
    + destruct (trim_list al true l) as [r|] eqn:E; [|discriminate]; injection H as <-. simpl. rewrite (IH r p); auto.
    + destruct (trim_list al true l) as [r|] eqn:E; [|discriminate]; injection H as <-. simpl. rewrite (IH r p); auto.
    + destruct (trim_list al true l) as [r|] eqn:E; [|discriminate]; injection H as <-. simpl. rewrite (IH r p); auto.
Qed.

Lemma trim_list_no_apply : forall al b l, existsb is_apply l = false -> trim_list al b l = Some l.
Proof.
  induction l as [|i l IH]; simpl; auto. intros H. apply orb_false_iff in H as [A B].
  rewrite IH by auto. destruct i; simpl in *; try discriminate; auto.
Qed.

Lemma applies_zero : forall l, applies l = 0%nat -> existsb is_apply l = false.
Proof.
  unfold applies. induction l as [|i l IH]; simpl; auto. destruct (is_apply i); simpl; auto; lia.
Qed.

Lemma no_apply_emits : forall g live l p, existsb is_apply l = false -> fst (fst (exec_insts g live l p)) = [].
Proof.
  induction l as [|i l IH]; intros p H; simpl in *; auto. apply orb_false_iff in H as [A B].
  destruct i; simpl in *; try discriminate; auto.
  specialize (IH p B). destruct (exec_insts g live l p) as [[? ?] ?]; auto.
Qed.

Lemma trim_list_emits : forall g live al l l' p,
  (applies l <= 1)%nat -> trim_list al false l = Some l' ->
  fst (fst (exec_insts g live l' p)) = fst (fst (exec_insts g live l p)).
Proof.
  induction l as [|i l IH]; intros l' p Ha H; simpl in H.
  - inversion H; subst; auto.
  - destruct i as [acts|t|m|v m]; simpl in H.
    + assert (Hz : applies l = 0%nat) by (unfold applies in *; simpl in Ha; lia).
      apply applies_zero in Hz. rewrite (trim_list_no_apply _ _ _ Hz) in H.
      assert (Emit : forall acts' , fst (exec_acts g live acts' p) = fst (exec_acts g live acts p) ->
         fst (fst (exec_insts g live (match acts' with [] => [] | _ => [Apply acts'] end ++ l) p)) =
         fst (fst (exec_insts g live (Apply acts :: l) p))).
      { intros acts' E. cbn [exec_insts].
        assert (R : fst (fst (let '(es, p1) := exec_acts g live acts p in
                    let '(es2, p2, nx) := exec_insts g live l p1 in (es ++ es2, p2, nx))) = fst (exec_acts g live acts p)).
        { destruct (exec_acts g live acts p) as [es p1]. pose proof (no_apply_emits g live l p1 Hz) as N.
          destruct (exec_insts g live l p1) as [[x y] z]. simpl in *. rewrite N, app_nil_r. auto. }
        rewrite R, <- E. destruct acts' as [|a r].
        - simpl. apply no_apply_emits; auto.
        - change ([Apply (a :: r)] ++ l) with (Apply (a :: r) :: l). cbn [exec_insts].
          destruct (exec_acts g live (a :: r) p) as [es p1]. pose proof (no_apply_emits g live l p1 Hz) as N.
          destruct (exec_insts g live l p1) as [[x y] z]. simpl in *. rewrite N, app_nil_r. auto. }
      destruct (negb (has_recirc acts)).
      * unfold trim_actions in H.
        assert (E := trim_loop_emits g live acts p).
        specialize (Emit (trim_loop acts) E).
        destruct al as [fs|].
        -- destruct (forallb _ _); [|discriminate].
           destruct (trim_loop acts); injection H as <-; exact Emit.
        -- destruct (trim_loop acts); injection H as <-; exact Emit.
      * specialize (Emit acts eq_refl). destruct acts; injection H as <-; exact Emit.
    + destruct (trim_list al false l) as [r|] eqn:E; [|discriminate]; injection H as <-. simpl.
      assert (Hl : (applies l <= 1)%nat) by exact Ha. specialize (IH r p Hl eq_refl).
      destruct (exec_insts g live r p) as [[? ?] ?], (exec_insts g live l p) as [[? ?] ?]; auto.
    + destruct (trim_list al false l) as [r|] eqn:E; [|discriminate]; injection H as <-. simpl.
      assert (Hl : (applies l <= 1)%nat) by exact Ha. apply (IH r p Hl eq_refl).
    + destruct (trim_list al false l) as [r|] eqn:E; [|discriminate]; injection H as <-. simpl.
      assert (Hl : (applies l <= 1)%nat) by exact Ha. apply (IH r p Hl eq_refl).
Qed.

Lemma trim_list_goto_kept : forall al b l l', trim_list al b l = Some l' ->
  existsb is_goto l' = existsb is_goto l.
Proof.
  induction l as [|i l IH]; intros l' H; simpl in H; [inversion H; auto|].
  destruct (trim_one al b i) as [x|] eqn:E1; [|discriminate].
  destruct (trim_list al b l) as [r|] eqn:E2; [|discriminate]. inversion H; subst.
  rewrite existsb_app, (IH r eq_refl). simpl. f_equal.
  destruct i; simpl in E1.
  - destruct (if negb b && negb (has_recirc acts) then trim_actions al acts else Some acts) as [[|a0 r0]|];
      inversion E1; reflexivity.
  - inversion E1; reflexivity.
  - inversion E1; reflexivity.
  - inversion E1; reflexivity.
Qed.

(** what a switch does with a packet hitting a flow with these instructions *)
Lemma trim_inst_preserves_lemma : forall g live al inst inst' p,
  (applies inst <= 1)%nat -> trim_inst al inst = Some inst' ->
  let '(es, q, nx) := exec_insts g live inst p in
  let '(es', q', nx') := exec_insts g live inst' p in
  es' = es /\ nx' = nx /\ (nx <> None -> q' = q).
Proof.
  intros g live al inst inst' p Ha H. unfold trim_inst in H.
  destruct (existsb is_apply inst) eqn:EA.
  2:{ inversion H; subst. destruct (exec_insts g live inst' p) as [[? ?] ?]; auto. }
  destruct (existsb is_goto inst) eqn:EG.
  - rewrite (trim_list_goto g live al inst inst' p H).
    destruct (exec_insts g live inst p) as [[? ?] ?]; auto.
  - pose proof (trim_list_emits g live al inst inst' p Ha H) as E.
    pose proof (exec_insts_no_goto g live inst p EG) as N.
    assert (EG' : existsb is_goto inst' = false) by (rewrite (trim_list_goto_kept _ _ _ _ H); auto).
    pose proof (exec_insts_no_goto g live inst' p EG') as N'.
    destruct (exec_insts g live inst p) as [[? ?] ?], (exec_insts g live inst' p) as [[? ?] ?]; simpl in *.
    subst. repeat split; auto. congruence.
Qed.

Lemma trim_shape_lemma : forall al inst inst' acts,
  trim_inst al inst = Some inst' -> In (Apply acts) inst' ->
  acts <> [] /\
  (existsb is_goto inst = false -> has_recirc acts = false ->
     (forall acts0, In (Apply acts0) inst -> has_recirc acts0 = false) ->
     exists l a, acts = l ++ [a] /\ is_out_or_group a = true).
Proof.
  intros al inst inst' acts H Hin. unfold trim_inst in H.
  destruct (existsb is_apply inst) eqn:EA.
  2:{ exfalso. inversion H; subst. assert (existsb is_apply inst' = true) by (apply existsb_exists; exists (Apply acts); auto). congruence. }
  remember (existsb is_goto inst) as b eqn:Eb. clear Eb EA.
  revert inst' H Hin. induction inst as [|i l IH]; intros inst' H Hin; simpl in H.
  - inversion H; subst; contradiction.
  - destruct (trim_one al b i) as [x|] eqn:E1; [|discriminate].
    destruct (trim_list al b l) as [r|] eqn:E2; [|discriminate]. inversion H; subst.
    apply in_app_iff in Hin as [Hin|Hin].
    + destruct i as [acts0|?|?|? ?]; simpl in E1.
      2-4: inversion E1; subst; destruct Hin as [Hin|[]]; discriminate.
      split.
      * destruct (if negb b && negb (has_recirc acts0) then _ else _) as [[|a0 r0]|]; inversion E1; subst;
          simpl in Hin; try contradiction; destruct Hin as [Hin|[]]; inversion Hin; subst; discriminate.
      * intros Hb Hr Hall. subst b. rewrite (Hall acts0) in E1 by (left; auto). simpl in E1.
        assert (T : trim_actions al acts0 = Some (trim_loop acts0) \/ trim_actions al acts0 = None).
        { unfold trim_actions. destruct al; auto. destruct (forallb _ _); auto. }
        destruct T as [T|T]; rewrite T in E1; [|discriminate].
        destruct (trim_loop_ends acts0) as [Z|[l0 [a [Z Ho]]]].
        -- rewrite Z in E1. inversion E1; subst. contradiction.
        -- exists l0, a. destruct (trim_loop acts0) eqn:Q; [destruct l0; discriminate|].
           inversion E1; subst. destruct Hin as [Hin|[]]. inversion Hin; subst. auto.
    + destruct (IH r eq_refl Hin) as [A B]. split; auto. intros. apply B; auto.
      intros; apply H2; right; auto.
Qed.

(** ** VID encoding *)
Lemma vid_present_add : forall v, 0 <= v < 4096 -> vid_present v = v + 4096.
Proof.
  intros v H. unfold vid_present, OFPVID_PRESENT.
  rewrite <- Z.lxor_lor.
  - rewrite <- Z.add_nocarry_lxor; auto.
    apply Z.bits_inj'. intros n Hn. rewrite Z.land_spec, Z.bits_0.
    change 0x1000 with (2 ^ 12). rewrite Z.pow2_bits_eqb by lia.
    destruct (Z.eqb_spec 12 n); [|apply andb_false_r]. subst n.
    rewrite andb_true_r. destruct (Z.eq_dec v 0) as [->|]; [apply Z.bits_0|].
    apply Z.bits_above_log2; [lia|]. apply Z.log2_lt_pow2; lia.
  - apply Z.bits_inj'. intros n Hn. rewrite Z.land_spec, Z.bits_0.
    change 0x1000 with (2 ^ 12). rewrite Z.pow2_bits_eqb by lia.
    destruct (Z.eqb_spec 12 n); [|apply andb_false_r]. subst n.
    rewrite andb_true_r. destruct (Z.eq_dec v 0) as [->|]; [apply Z.bits_0|].
    apply Z.bits_above_log2; [lia|]. apply Z.log2_lt_pow2; lia.
Qed.

Lemma devid_present_sub : forall v, 0 <= v < 4096 -> devid_present (v + 4096) = v.
Proof.
  intros v H. rewrite <- vid_present_add by auto. unfold devid_present, vid_present, OFPVID_PRESENT.
  rewrite <- Z.lxor_lor.
  - rewrite Z.lxor_assoc, Z.lxor_nilpotent, Z.lxor_0_r. reflexivity.
  - apply Z.bits_inj'. intros n Hn. rewrite Z.land_spec, Z.bits_0.
    change 0x1000 with (2 ^ 12). rewrite Z.pow2_bits_eqb by lia.
    destruct (Z.eqb_spec 12 n); [|apply andb_false_r]. subst n.
    rewrite andb_true_r. destruct (Z.eq_dec v 0) as [->|]; [apply Z.bits_0|].
    apply Z.bits_above_log2; [lia|]. apply Z.log2_lt_pow2; lia.
Qed.

Lemma vid_round_trip_lemma : forall v, 0 <= v < 4096 -> devid_present (vid_present v) = v.
Proof. intros v H. rewrite vid_present_add by auto. apply devid_present_sub; auto. Qed.

Lemma vid_present_inj_lemma : forall v w, 0 <= v < 4096 -> 0 <= w < 4096 ->
  vid_present v = vid_present w -> v = w.
Proof. intros v w Hv Hw H. rewrite !vid_present_add in H by auto. lia. Qed.

Lemma vid_present_not_plain_lemma : forall v w, 0 <= v < 4096 -> 0 <= w < 4096 -> vid_present v <> w.
Proof. intros v w Hv Hw. rewrite vid_present_add by auto. lia. Qed.

Lemma vid_present_matches_lemma : forall v p, 0 <= v < 4096 ->
  (forall w pcp, In (w, pcp) (pk_tags p) -> 0 <= w < 4096) ->
  (matches p [exact VlanVid (vid_present v)] = true <-> exists pcp r, pk_tags p = (v, pcp) :: r).
Proof.
  intros v p Hv Hp. unfold matches, exact. simpl. rewrite andb_true_r, Z.eqb_eq, !Z.land_m1_r.
  destruct (pk_tags p) as [|[w pcp] r] eqn:E.
  - split; [|intros [? [? X]]; discriminate]. rewrite vid_present_add by auto. unfold OFPVID_NONE. lia.
  - fold (vid_present w). split.
    + intros H. apply vid_present_inj_lemma in H; auto. subst; eauto. apply (Hp w pcp); left; auto.
    + intros [? [? X]]. inversion X; subst. reflexivity.
Qed.
