(** * Shared instruction objects do no harm when the rules that share them agree *)
From Coq Require Import ZArith List Bool Lia.
From Verif Require Import PyBase PyBaseProofs OpenFlow TrimModel TrimProofs TableModel.
Import ListNotations.
Open Scope Z_scope.

Lemma acts_eqb_spec : forall a b, acts_eqb a b = true <-> a = b.
Proof. intros a b. unfold acts_eqb. destruct (list_eq_dec action_eq_dec a b); intuition congruence. Qed.

Definition final (g : bool) (k : list action) : list action :=
  if negb g && negb (has_recirc k) then trim_loop k else k.

Lemma trim_step_snoc : forall l a, trim_loop (l ++ [a]) = if is_out_or_group a then l ++ [a] else trim_loop l.
Proof.
  intros l a. unfold trim_loop. rewrite fold_left_app. cbn [fold_left].
  assert (I : forall l0, fst (fold_left trim_step l0 ([], [])) ++ snd (fold_left trim_step l0 ([], [])) = l0).
  { intros l0. induction l0 as [|x l0 IH] using rev_ind; auto. rewrite fold_left_app. cbn [fold_left].
    destruct (fold_left trim_step l0 ([], [])) as [n p] eqn:E. cbn [fst snd] in IH. unfold trim_step.
    destruct (is_out_or_group x); cbn [fst snd]; [rewrite app_nil_r|]; rewrite app_assoc, IH; auto. }
  specialize (I l). destruct (fold_left trim_step l ([], [])) as [n p]. cbn [fst snd] in I. unfold trim_step.
  destruct (is_out_or_group a); cbn [fst]; auto. rewrite app_assoc, I. auto.
Qed.
Lemma trim_loop_idem : forall k, trim_loop (trim_loop k) = trim_loop k.
Proof.
  induction k as [|a k IH] using rev_ind; auto. rewrite trim_step_snoc. destruct (is_out_or_group a) eqn:E; auto.
  rewrite trim_step_snoc, E. auto.
Qed.
Lemma trim_loop_recirc : forall k, has_recirc k = false -> has_recirc (trim_loop k) = false.
Proof.
  intros k H. destruct (trim_loop_prefix k) as [t [E _]]. rewrite E in H. unfold has_recirc in *.
  rewrite existsb_app in H. apply orb_false_iff in H. tauto.
Qed.
Lemma final_idem : forall g k, final g (final g k) = final g k.
Proof.
  intros g k. unfold final. destruct g; cbn [negb andb]; auto. destruct (has_recirc k) eqn:E; cbn [negb]; [rewrite E; auto|].
  rewrite trim_loop_recirc by auto. apply trim_loop_idem.
Qed.

(** one instruction list as trimmed on its own *)
Definition kept (F : list action -> list action) (l : list iref) : list iref :=
  filter (fun i => match i with RApply k => match F k with [] => false | _ => true end | _ => true end) l.

Lemma shared_list : forall F g l st, (forall k, In (RApply k) l -> F k = final g k) ->
  (forall k, current st k = k \/ current st k = F k) ->
  exists st', shared_trim_list g l st = (kept F l, st') /\
    (forall k, current st' k = k \/ current st' k = F k) /\
    (forall k, In (RApply k) l -> current st' k = F k) /\
    (forall k, current st k = F k -> current st' k = F k).
Proof.
  intros F g. induction l as [|i l IH]; intros st A I; [exists st; cbn; intuition|].
  destruct i as [k|j].
  - cbn [shared_trim_list kept filter].
    assert (E : (if negb g && negb (has_recirc (current st k)) then trim_loop (current st k) else current st k) = F k).
    { change (final g (current st k) = F k). rewrite (A k) by (left; auto). destruct (I k) as [-> | ->]; auto.
      rewrite (A k) by (left; auto). apply final_idem. }
    rewrite E. set (st1 := dict_put acts_eqb k (F k) st).
    assert (C : forall k', current st1 k' = if acts_eqb k' k then F k else current st k').
    { intros k'. unfold st1, current. rewrite (dict_get_put acts_eqb acts_eqb_spec). destruct (acts_eqb k' k); auto. }
    destruct (IH st1) as [st' [E1 [E2 [E3 E4]]]].
    + intros k' H. apply A. right; auto.
    + intros k'. rewrite C. destruct (acts_eqb k' k) eqn:Q; auto. apply acts_eqb_spec in Q. subst. auto.
    + exists st'. rewrite E1. split; [destruct (F k); reflexivity|]. split; [auto|]. split.
      * intros k' [H|H]; [|auto]. injection H as <-. apply E4. rewrite C.
        replace (acts_eqb k k) with true by (symmetry; apply acts_eqb_spec; auto). auto.
      * intros k' H. apply E4. rewrite C. destruct (acts_eqb k' k) eqn:Q; auto. apply acts_eqb_spec in Q. subst. auto.
  - cbn [shared_trim_list kept filter]. destruct (IH st) as [st' [E1 [E2 [E3 E4]]]]; auto.
    { intros k H. apply A. right; auto. }
    exists st'. rewrite E1. split; [reflexivity|]. split; [auto|]. split; [|auto].
    intros k [H|H]; [discriminate H|auto].
Qed.

Lemma build_flows_agree : forall F fl st,
  (forall i k, In i fl -> In (RApply k) i -> F k = final (existsb ref_is_goto i) k) ->
  (forall k, current st k = k \/ current st k = F k) ->
  exists st', build_flows fl st = (map (kept F) fl, st') /\
    (forall k, current st k = F k -> current st' k = F k) /\
    (forall i k, In i fl -> In (RApply k) i -> current st' k = F k).
Proof.
  intros F. induction fl as [|i fl IH]; intros st A I; [exists st; cbn; intuition|].
  cbn [build_flows map]. destruct (shared_list F (existsb ref_is_goto i) i st) as [st1 [E1 [E2 [E3 E4]]]]; auto.
  { intros k H. apply A; [left; auto|auto]. }
  destruct (IH st1) as [st2 [B1 [B2 B3]]]; auto.
  { intros j k H1 H2. apply A; [right; auto|auto]. }
  exists st2. rewrite E1, B1. split; [auto|]. split; [auto|]. intros j k [<-|H] K; eauto.
Qed.

Lemma ref_goto : forall l, existsb ref_is_goto l = existsb is_goto (deref [] l).
Proof. induction l as [|[k|[]] l IH]; cbn; auto. Qed.

(** (the instruction references of ROther are no Apply) *)
Definition plain (i : iref) : Prop := match i with ROther (Apply _) => False | _ => True end.

Lemma trim_kept : forall F g l, Forall plain l -> (forall k, In (RApply k) l -> F k = final g k) ->
  trim_list None g (deref [] l) = Some (map (fun i => match i with RApply k => Apply (F k) | ROther j => j end) (kept F l)).
Proof.
  intros F g. induction l as [|i l IH]; intros PL A; [reflexivity|]. inversion PL as [|x y P1 P2]; subst x y.
  cbn [deref map trim_list]. fold (deref [] l). rewrite IH; auto; [|intros k H; apply A; right; auto].
  destruct i as [k|j]; cbn [deref1 trim_one kept filter].
  - change (current [] k) with k.
    assert (E : (if negb g && negb (has_recirc k) then trim_actions None k else Some k) = Some (F k)).
    { rewrite (A k) by (left; auto). unfold final. destruct (negb g && negb (has_recirc k)); reflexivity. }
    rewrite E. destruct (F k) eqn:Q; cbn [map app]; rewrite ?Q; reflexivity.
  - destruct j; [destruct P1| | |]; reflexivity.
Qed.

Lemma trim_deref : forall l, trim (deref [] l) =
  match trim_list None (existsb is_goto (deref [] l)) (deref [] l) with Some x => x | None => deref [] l end.
Proof.
  intros l. unfold trim, trim_inst. destruct (existsb is_apply (deref [] l)) eqn:E; auto.
  assert (X : forall x g, existsb is_apply x = false -> trim_list None g x = Some x).
  { induction x as [|a x IH]; intros g H; auto. cbn in H. apply orb_false_iff in H as [H1 H2]. cbn. rewrite IH by auto.
    destruct a; [discriminate H1| | |]; reflexivity. }
  rewrite X; auto.
Qed.

Lemma shared_agree : forall fl, (forall i, In i fl -> Forall plain i) ->
  (forall i j k, In i fl -> In j fl -> In (RApply k) i -> In (RApply k) j -> existsb ref_is_goto i = existsb ref_is_goto j) ->
  sent_flows fl = map (fun i => trim (deref [] i)) fl.
Proof.
  intros fl PL AG.
  set (has k i := existsb (fun x => match x with RApply k' => acts_eqb k k' | _ => false end) i).
  set (F := fun k => final (existsb (fun i => has k i && existsb ref_is_goto i) fl) k).
  assert (HS : forall k i, has k i = true <-> In (RApply k) i).
  { intros k i. unfold has. rewrite existsb_exists. split.
    - intros [[k'|j] [H E]]; [|discriminate E]. apply acts_eqb_spec in E. subst. auto.
    - intros H. exists (RApply k). split; auto. apply acts_eqb_spec. auto. }
  assert (FE : forall i k, In i fl -> In (RApply k) i -> F k = final (existsb ref_is_goto i) k).
  { intros i k Hi Hk. unfold F. f_equal. destruct (existsb ref_is_goto i) eqn:E.
    - apply existsb_exists. exists i. split; auto. rewrite E, (proj2 (HS k i) Hk). auto.
    - apply not_true_is_false. intros H. apply existsb_exists in H as [j [Hj H]]. apply andb_true_iff in H as [H1 H2].
      apply HS in H1. rewrite (AG i j k Hi Hj Hk H1) in E. congruence. }
  unfold sent_flows. destruct (build_flows_agree F fl [] FE) as [st [E [_ C]]]; [intros k; left; reflexivity|].
  rewrite E, map_map. apply map_ext_in. intros i Hi. rewrite trim_deref, <- ref_goto, (trim_kept F) by eauto.
  unfold deref. apply map_ext_in. intros x Hx. apply filter_In in Hx as [Hx _]. destruct x as [k|j]; [|reflexivity].
  cbn [deref1]. rewrite (C i k Hi Hx). reflexivity.
Qed.
