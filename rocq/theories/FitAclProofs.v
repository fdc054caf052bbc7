(** * Proofs about what tables of ACLs accept *)

From Coq Require Import ZArith List Bool Lia Permutation.
From Verif Require Import PyBase PyBaseProofs PipelineModel OpenFlow TrimModel TrimProofs TableModel AclModel FitModel FitSpec FitProofs.
Import ListNotations.
Open Scope Z_scope.

(** ** Shapes of matches *)

Section Shape.
  Context {K V W : Type} (eqb : K -> K -> bool) (h : V -> W).
  Definition mapd (d : list (K * V)) : list (K * W) := map (fun x => (fst x, h (snd x))) d.
  Lemma mapd_put : forall k v d, mapd (dict_put eqb k v d) = dict_put eqb k (h v) (mapd d).
  Proof. induction d as [|[k' v'] d IH]; cbn; [reflexivity|]. destruct (eqb k k'); cbn; [reflexivity|]. f_equal. exact IH. Qed.
  Lemma mapd_insert : forall (le : K -> K -> bool) x l,
    mapd (py_insert (fun a b => le (fst a) (fst b)) x l) = py_insert (fun a b => le (fst a) (fst b)) (fst x, h (snd x)) (mapd l).
  Proof. induction l as [|y l IH]; cbn; [reflexivity|]. destruct (le (fst x) (fst y)); cbn; [reflexivity|]. f_equal. exact IH. Qed.
  Lemma mapd_sorted : forall (le : K -> K -> bool) l,
    mapd (py_sorted (fun a b => le (fst a) (fst b)) l) = py_sorted (fun a b => le (fst a) (fst b)) (mapd l).
  Proof. induction l as [|x l IH]; cbn [py_sorted fold_right mapd map]; [reflexivity|]. rewrite mapd_insert. f_equal. exact IH. Qed.
End Shape.

Definition masked_value (vm : Z * Z) : bool := negb (snd vm =? -1).
Definition shape (m : fmatch) : list (field * bool) := mapd masked_value m.

Definition putf {V} (k : list (field * V)) (a : attr * V) : list (field * V) := dict_put field_eqb (snd (fst a)) (snd a) k.
Lemma shape_from_dict : forall d, shape (match_from_dict d) =
  py_sorted (fun a b => oxm (fst a) <=? oxm (fst b))
    (fold_left putf (mapd masked_value d) []).
Proof.
  intros d. unfold shape, match_from_dict.
  rewrite (mapd_sorted masked_value (fun a b => oxm a <=? oxm b)). f_equal.
  assert (G : forall d k, mapd masked_value (fold_left putf d k) =
    fold_left putf (mapd masked_value d) (mapd masked_value k)).
  { clear d. induction d as [|a d IH]; intros k; [reflexivity|].
    change (mapd masked_value (a :: d)) with ((fst a, masked_value (snd a)) :: mapd masked_value d). cbn [fold_left]. rewrite IH.
    f_equal. apply (mapd_put field_eqb masked_value). }
  apply (G d []).
Qed.
Lemma shape_place : forall pl pl' r, kind (pl_port pl, pl_vid pl) = kind (pl_port pl', pl_vid pl') ->
  shape (rule_match pl r) = shape (rule_match pl' r).
Proof.
  intros pl pl' r H. unfold rule_match. rewrite !shape_from_dict. f_equal. f_equal.
  unfold kind in H. cbn in H. injection H as H1 H2. unfold place_match.
  destruct (pl_port pl), (pl_port pl'); try discriminate; destruct (pl_vid pl), (pl_vid pl'); try discriminate;
    rewrite ?(mapd_put attr_eqb masked_value); reflexivity.
Qed.
Lemma from_dict_once : forall d, NoDup (map fst (match_from_dict d)).
Proof.
  intros d. unfold match_from_dict. eapply Permutation_NoDup; [apply Permutation_map, py_sorted_perm|].
  assert (G : forall d k, NoDup (map fst k) -> NoDup (map fst (fold_left (fun (k : fmatch) (a : attr * (Z * Z)) => dict_put field_eqb (snd (fst a)) (snd a) k) d k))).
  { clear d. induction d as [|a d IH]; intros k N; cbn; [exact N|]. apply IH. apply dict_put_nodup; [apply field_eqb_eq|exact N]. }
  apply G. constructor.
Qed.

Lemma attr_eqb_eq : forall a b : attr, attr_eqb a b = true <-> a = b.
Proof.
  intros [a1 a2] [b1 b2]. unfold attr_eqb. cbn. rewrite andb_true_iff, eqb_true_iff, field_eqb_eq. split; [intros [-> ->]; reflexivity|].
  intros E. injection E as -> ->. auto.
Qed.
Lemma from_dict_key : forall d (a : attr) fd, In a (map fst d) -> snd a = fd -> In fd (map fst (match_from_dict d)).
Proof.
  intros d a fd H E. unfold match_from_dict. eapply Permutation_in; [apply Permutation_map, py_sorted_perm|].
  change (In fd (map fst (fold_left putf d []))).
  assert (K : forall d k, In fd (map fst k) -> In fd (map fst (fold_left (@putf (Z * Z)) d k))).
  { clear. induction d as [|x d IH]; intros k H; cbn [fold_left]; [exact H|]. apply IH. unfold putf.
    apply (dict_put_keys field_eqb field_eqb_eq). auto. }
  generalize (@nil (field * (Z * Z))) as k. revert H. induction d as [|x d IH]; intros H k; [destruct H|]. cbn [fold_left].
  destruct H as [H|H]; [|apply IH; exact H]. apply K. unfold putf. apply (dict_put_keys field_eqb field_eqb_eq). left. rewrite H. symmetry. exact E.
Qed.

(** ** Noting fields *)

Definition covers (ts : list (field * bool)) (x : field * bool) : Prop :=
  exists b, dict_get field_eqb (fst x) ts = Some b /\ (snd x = true -> b = true).

Lemma note_keeps : forall ts x y, covers ts x -> covers (note ts y) x.
Proof.
  intros ts x y (b & H & M). unfold note.
  assert (P : snd y = true \/ dict_get field_eqb (fst y) ts = None -> covers (dict_put field_eqb (fst y) (snd y) ts) x).
  { intros C. unfold covers. rewrite dict_get_put; [|apply field_eqb_eq].
    destruct (field_eqb (fst x) (fst y)) eqn:E; [|eauto]. apply field_eqb_eq in E. exists (snd y). split; [reflexivity|].
    destruct C as [->|C]; [auto|]. rewrite <- E in C. congruence. }
  destruct (dict_get field_eqb (fst y) ts) eqn:G; [|apply P; auto]. destruct (snd y) eqn:S; [|exists b; auto]. apply P. auto.
Qed.
Lemma note_adds : forall ts x, covers (note ts x) x.
Proof.
  intros ts x. unfold note, covers.
  destruct (dict_get field_eqb (fst x) ts) as [b|] eqn:G.
  - destruct (snd x) eqn:S; [|exists b; split; [exact G|discriminate]].
    exists true. rewrite dict_get_put; [|apply field_eqb_eq]. rewrite (proj2 (field_eqb_eq _ _) eq_refl). auto.
  - exists (snd x). rewrite dict_get_put; [|apply field_eqb_eq]. rewrite (proj2 (field_eqb_eq _ _) eq_refl). auto.
Qed.
Lemma note_nodup : forall ts x, NoDup (map fst ts) -> NoDup (map fst (note ts x)).
Proof.
  intros ts x N. unfold note. destruct (dict_get field_eqb (fst x) ts); [destruct (snd x)|]; auto;
    apply dict_put_nodup; auto; apply field_eqb_eq.
Qed.
Lemma notes_keep : forall l ts x, covers ts x -> covers (fold_left note l ts) x.
Proof. induction l as [|y l IH]; intros ts x H; cbn; [exact H|]. apply IH, note_keeps, H. Qed.
Lemma notes_nodup : forall l ts, NoDup (map fst ts) -> NoDup (map fst (fold_left note l ts)).
Proof. induction l as [|y l IH]; intros ts H; cbn; [exact H|]. apply IH, note_nodup, H. Qed.
Lemma notes_add : forall l ts x, In x l -> covers (fold_left note l ts) x.
Proof.
  induction l as [|y l IH]; intros ts x H; [destruct H|]. cbn. destruct H as [->|H]; [apply notes_keep, note_adds|apply IH, H].
Qed.
Lemma note_items_shape : forall m ts, note_items ts m = fold_left note (shape m) ts.
Proof. induction m as [|i m IH]; intros ts; cbn; [reflexivity|]. apply IH. Qed.
Lemma covers_through : forall ts ts' x, covers ts x -> covers (fold_left note ts ts') x.
Proof.
  intros ts ts' x (b & H & M).
  assert (Hin : In (fst x, b) ts) by (apply dict_get_in in H; [exact H|apply field_eqb_eq]).
  destruct (notes_add ts ts' _ Hin) as (b' & H' & M'). exists b'. split; [exact H'|]. intros S. apply M', M, S.
Qed.

(** ** Building an ACL *)

Lemma rules_msgs : forall (pl : place) rs prio m, In m (build_rules None false pl rs prio) ->
  (exists i r, nth_error rs i = Some r /\
     m = FlowMod (tb_add_cookie (pl_table pl) (ru_cookie r) (if pl_exact pl then pl_high pl else prio - Z.of_nat i)
                                (rule_match pl r) (fst (rule_inst None pl r)))) \/
  (forall fm, m <> FlowMod fm).
Proof.
  intros pl. induction rs as [|r rs IH]; intros prio m H; cbn [build_rules] in H; [destruct H|].
  apply in_app_iff in H as [H|H].
  - unfold build_rule_ofmsgs in H. destruct (rule_inst None pl r) as [insts msgs] eqn:E. cbv zeta in H.
    apply in_app_iff in H as [H|H].
    + right. intros fm ->.
      assert (GM : forall g ns, In (FlowMod fm) (groupadd_ff g ns) -> False).
      { intros g ns [X|[X|[]]]; discriminate. }
      unfold rule_inst in E. destruct (ru_actions r) as [a|]; [|injection E as <- <-; destruct H].
      destruct (build_actions None (pl_allow pl) (pl_force pl) a) as [[i0 a0] m0] eqn:B. injection E as <- <-.
      unfold build_actions in B. cbv zeta in B. destruct (ac_output a) as [o|]; [|injection B as <- <- <-; destruct H].
      destruct (build_output_actions None o) as [[[po ac] ms] ins] eqn:O.
      assert (Hm : In (FlowMod fm) ms) by (destruct (negb (is_allowed a) && po); injection B as <- <- <-; exact H).
      clear B H. destruct o as [l|u]; cbn in O.
      * destruct (ordered_items None l) as [[a1 m1] i1] eqn:Ol. injection O as <- <- <- <-. revert a1 m1 i1 Ol Hm.
        induction l as [|i l IHl]; intros a1 m1 i1 Ol Hm; cbn in Ol; [injection Ol as <- <- <-; destruct Hm|].
        fold (ordered_items None l) in Ol. destruct (ordered_items None l) as [[a2 m2] i2].
        assert (Ol' : outs_app (item_out i) (a2, m2, i2) = (a1, m1, i1)) by (destruct i; exact Ol).
        destruct i; cbn in Ol'; injection Ol' as <- <- <-; try (eapply IHl; [reflexivity|exact Hm]).
        destruct Hm as [X|[X|Hm]]; try discriminate. eapply IHl; [reflexivity|exact Hm].
      * injection O as <- <- <- <-. destruct (u_failover u) as [[g ns]|]; [|destruct Hm]. eapply GM; exact Hm.
    + left. destruct H as [<-|[]]. exists 0%nat, r. split; [reflexivity|]. cbn [fst]. rewrite Z.sub_0_r, E. reflexivity.
  - destruct (IH _ _ H) as [(i & r' & N & ->)|X]; [|right; exact X]. left. exists (S i), r'. split; [exact N|].
    replace (prio - 1 - Z.of_nat i) with (prio - Z.of_nat (S i)) by lia. reflexivity.
Qed.
Lemma rules_flow : forall (pl : place) rs prio r, In r rs ->
  exists p, In (FlowMod (tb_add_cookie (pl_table pl) (ru_cookie r) p (rule_match pl r) (fst (rule_inst None pl r)))) (build_rules None false pl rs prio).
Proof.
  intros pl. induction rs as [|x rs IH]; intros prio r H; [destruct H|]. cbn [build_rules]. destruct H as [->|H].
  - eexists. apply in_app_iff. left. unfold build_rule_ofmsgs. destruct (rule_inst None pl r) as [insts msgs]. cbv zeta.
    apply in_app_iff. right. left. reflexivity.
  - destruct (IH (prio - 1) r H) as (p & Hp). exists p. apply in_app_iff. right. exact Hp.
Qed.

(** what building notes of the messages *)
Lemma built_types : forall ms r0 fm x, In (FlowMod fm) ms -> In x (shape (fm_match fm)) ->
  covers (fst (fold_left (fun r m => match m with
     | FlowMod fm => (note_items (fst r) (fm_match fm), snd r ++ inst_sets (fm_inst fm)) | _ => r end) ms r0)) x.
Proof.
  assert (K : forall ms r0 x, covers (fst r0) x -> covers (fst (fold_left (fun r m => match m with
     | FlowMod fm => (note_items (fst r) (fm_match fm), snd r ++ inst_sets (fm_inst fm)) | _ => r end) ms r0)) x).
  { induction ms as [|m ms IH]; intros r0 x H; cbn [fold_left]; [exact H|]. apply IH. destruct m; auto. cbn [fst].
    rewrite note_items_shape. apply notes_keep. exact H. }
  induction ms as [|m ms IH]; intros r0 fm x H Hx; [destruct H|]. cbn [fold_left]. destruct H as [->|H]; [|eapply IH; eauto].
  apply K. cbn [fst]. rewrite note_items_shape. apply notes_add. exact Hx.
Qed.
Lemma built_sets : forall ms r0 fm x, In (FlowMod fm) ms -> In x (inst_sets (fm_inst fm)) ->
  In x (snd (fold_left (fun r m => match m with
     | FlowMod fm => (note_items (fst r) (fm_match fm), snd r ++ inst_sets (fm_inst fm)) | _ => r end) ms r0)).
Proof.
  assert (K : forall ms (r0 : list (field * bool) * list field) x, In x (snd r0) -> In x (snd (fold_left (fun r m => match m with
     | FlowMod fm => (note_items (fst r) (fm_match fm), snd r ++ inst_sets (fm_inst fm)) | _ => r end) ms r0))).
  { induction ms as [|m ms IH]; intros r0 x H; cbn [fold_left]; [exact H|]. apply IH. destruct m; auto. cbn [snd].
    apply in_app_iff. auto. }
  induction ms as [|m ms IH]; intros r0 fm x H Hx; [destruct H|]. cbn [fold_left]. destruct H as [->|H]; [|eapply IH; eauto].
  apply K. cbn [snd]. apply in_app_iff. auto.
Qed.

(** ** Instructions at different places *)

(** all tables packets are sent on to made the same *)
Definition ren (i : instruction) : instruction := match i with Goto _ => Goto 0 | i => i end.
Lemma ren_sets : forall l, inst_sets (map ren l) = inst_sets l.
Proof. induction l as [|i l IH]; cbn; [reflexivity|]. unfold inst_sets in *. rewrite IH. destruct i; reflexivity. Qed.
Lemma ren_apply : forall l, existsb is_apply (map ren l) = existsb is_apply l.
Proof. induction l as [|i l IH]; cbn; [reflexivity|]. rewrite IH. destruct i; reflexivity. Qed.
Lemma ren_goto : forall l, existsb is_goto (map ren l) = existsb is_goto l.
Proof. induction l as [|i l IH]; cbn; [reflexivity|]. rewrite IH. destruct i; reflexivity. Qed.
Lemma ren_trim_list : forall g l, trim_list None g (map ren l) = option_map (map ren) (trim_list None g l).
Proof.
  intros g. induction l as [|i l IH]; cbn [map trim_list]; [reflexivity|]. rewrite IH.
  assert (E : trim_one None g (ren i) = option_map (map ren) (trim_one None g i)).
  { destruct i; cbn [ren trim_one]; try reflexivity.
    destruct (if negb g && negb (has_recirc acts) then trim_actions None acts else Some acts) as [[|y r]|]; reflexivity. }
  rewrite E. destruct (trim_one None g i) as [a|]; [|reflexivity]. cbn. destruct (trim_list None g l) as [b|]; cbn; [|reflexivity].
  rewrite map_app. reflexivity.
Qed.
Lemma ren_trim : forall l, trim (map ren l) = map ren (trim l).
Proof.
  intros l. unfold trim, trim_inst. rewrite ren_apply, ren_goto. destruct (existsb is_apply l); [|reflexivity].
  rewrite ren_trim_list. destruct (trim_list None (existsb is_goto l) l); reflexivity.
Qed.
Lemma inst_ren : forall (pl pl' : place) r, map ren (pl_allow pl) = map ren (pl_allow pl') ->
  map ren (pl_force pl) = map ren (pl_force pl') ->
  map ren (fst (rule_inst None pl r)) = map ren (fst (rule_inst None pl' r)).
Proof.
  intros pl pl' r A B. unfold rule_inst. destruct (ru_actions r) as [a|]; [|reflexivity].
  assert (I : forall x, map ren (match ac_force a with Some 1 => pl_force x | _ => pl_allow x end) =
    match ac_force a with Some 1 => map ren (pl_force x) | _ => map ren (pl_allow x) end).
  { intros x. destruct (ac_force a) as [[|q|q]|]; try reflexivity. destruct q; reflexivity. }
  pose proof (I pl) as I1. pose proof (I pl') as I2. rewrite A, B in I1. rewrite <- I2 in I1. clear I I2.
  unfold build_actions. cbv zeta.
  set (j := match ac_force a with Some 1 => pl_force pl | _ => pl_allow pl end) in *.
  set (j' := match ac_force a with Some 1 => pl_force pl' | _ => pl_allow pl' end) in *.
  destruct (ac_output a) as [o|].
  - destruct (build_output_actions None o) as [[[po ac] ms] ins]. destruct (negb (is_allowed a) && po); [reflexivity|].
    cbn [fst]. destruct (is_allowed a); rewrite !map_app, ?I1; reflexivity.
  - cbn [fst]. destruct (is_allowed a); rewrite !map_app, ?I1; reflexivity.
Qed.
Lemma rule_sets : forall (pl pl' : place) r, map ren (pl_allow pl) = map ren (pl_allow pl') ->
  map ren (pl_force pl) = map ren (pl_force pl') ->
  inst_sets (trim (fst (rule_inst None pl r))) = inst_sets (trim (fst (rule_inst None pl' r))).
Proof.
  intros pl pl' r A B. rewrite <- (ren_sets (trim _)), <- ren_trim, (inst_ren pl pl' r A B), ren_trim. apply ren_sets.
Qed.
Lemma no_goto_items : forall l t, (forall t, ~ In (OGoto t) l) -> ~ In (Goto t) (snd (ordered_items None l)).
Proof.
  induction l as [|i l IH]; intros t H; cbn; [tauto|]. fold (ordered_items None l).
  assert (X : ~ In (Goto t) (snd (ordered_items None l))) by (apply IH; intros u Hu; apply (H u); right; exact Hu).
  destruct (ordered_items None l) as [[a2 m2] i2]. cbn [snd] in X.
  destruct i; cbn; auto. exfalso. eapply H. left. reflexivity.
Qed.
Lemma rule_gotos : forall (pl : place) r n, no_goto r -> In (Goto n) (trim (fst (rule_inst None pl r))) ->
  In (Goto n) (pl_allow pl) \/ In (Goto n) (pl_force pl).
Proof.
  intros pl r n G H. apply trim_gotos in H. unfold rule_inst in H. unfold no_goto in G. destruct (ru_actions r) as [a|]; [|destruct H].
  specialize (G a eq_refl).
  assert (J : In (Goto n) (match ac_force a with Some 1 => pl_force pl | _ => pl_allow pl end) ->
    In (Goto n) (pl_allow pl) \/ In (Goto n) (pl_force pl)).
  { destruct (ac_force a) as [[|q|q]|]; auto. destruct q; auto. }
  assert (M : ~ In (Goto n) (opt_list (fun m => [MeterI m]) (ac_meter a))).
  { destruct (ac_meter a); cbn; [intros [X|[]]; discriminate|tauto]. }
  unfold build_actions in H. cbv zeta in H.
  assert (AP : forall acts : list action, ~ In (Goto n) (match acts with [] => [] | _ => [Apply acts] end)).
  { intros [|y l]; [tauto|]. intros [X|[]]; discriminate. }
  destruct (ac_output a) as [o|].
  - assert (O : ~ In (Goto n) (snd (build_output_actions None o))).
    { destruct o as [l|u]; cbn.
      - pose proof (no_goto_items l n G) as X. destruct (ordered_items None l) as [[a1 m1] i1]. exact X.
      - rewrite G. destruct (u_tunnel u); cbn; tauto. }
    destruct (build_output_actions None o) as [[[po ac] ms] ins]. cbn [snd] in O.
    destruct (negb (is_allowed a) && po); cbn [fst] in H.
    + apply in_app_iff in H as [H|H]; [|exfalso; exact (AP _ H)]. apply in_app_iff in H. tauto.
    + apply in_app_iff in H as [H|H]; [|exfalso; exact (AP _ H)]. apply in_app_iff in H as [H|H]; [contradiction|].
      apply in_app_iff in H as [H|H]; [contradiction|]. destruct (is_allowed a); [apply J, H|destruct H].
  - cbn [fst] in H. apply in_app_iff in H as [H|H]; [|exfalso; exact (AP _ H)]. apply in_app_iff in H as [H|H]; [contradiction|].
    destruct (is_allowed a); [apply J, H|destruct H].
Qed.

(** ** The tables *)

Section Acl.
  Variable f : features.
  Variable c : fconf.
  Variable am : amanager.
  Variables ext restricted : bool.
  Hypothesis Sep : separate c.
  Hypothesis Ord : ordinary c.
  Hypothesis Few : few c.
  Hypothesis Pip : acl_pipeline f c am.
  Let D := declare ext restricted (acl_decl c).

  Lemma built_use : forall u, In u (uses c) ->
    exists w, kind w = kind (snd u) /\ built c (fst u) = build (fc_acls c (fst u)) w.
  Proof.
    intros u Hu. unfold built. destruct (find (fun x => fst x =? fst u) (rev (uses c))) as [w|] eqn:E.
    - apply find_some in E as [Hw E]. apply Z.eqb_eq in E. apply in_rev in Hw. exists (snd w). split; [|reflexivity].
      apply Sep; auto.
    - exfalso. pose proof (find_none _ _ E u (proj1 (in_rev _ _) Hu)) as X. cbn in X. rewrite Z.eqb_refl in X. discriminate X.
  Qed.
  (** what is noted of an ACL holds wherever it is used *)
  Lemma use_types : forall u (pl : place) r x, In u (uses c) -> kind (snd u) = kind (pl_port pl, pl_vid pl) ->
    In r (al_rules (fc_acls c (fst u))) -> In x (shape (rule_match pl r)) -> covers (fst (built c (fst u))) x.
  Proof.
    intros u pl r x Hu K Hr Hx. destruct (built_use u Hu) as (w & Kw & ->). unfold build, build_acl_ofmsgs. cbn [flat_map].
    rewrite app_nil_r. set (pl' := build_place w _).
    destruct (rules_flow pl' _ (pl_high pl') r Hr) as (p & Hp).
    eapply built_types; [exact Hp|]. cbn. rewrite (shape_place pl' pl); [exact Hx|]. cbn.
    destruct w as [w1 w2]. cbn in *. congruence.
  Qed.
  Lemma use_sets : forall u (pl : place) r x, In u (uses c) ->
    map ren (pl_allow pl) = [Goto 0] -> map ren (pl_force pl) = [Goto 0] ->
    In r (al_rules (fc_acls c (fst u))) -> In x (inst_sets (trim (fst (rule_inst None pl r)))) -> In x (snd (built c (fst u))).
  Proof.
    intros u pl r x Hu A B Hr Hx. destruct (built_use u Hu) as (w & Kw & ->). unfold build, build_acl_ofmsgs. cbn [flat_map].
    rewrite app_nil_r. set (pl' := build_place w _).
    destruct (rules_flow pl' _ (pl_high pl') r Hr) as (p & Hp).
    eapply built_sets; [exact Hp|]. cbn. rewrite (rule_sets pl' pl); [exact Hx|rewrite A; reflexivity|rewrite B; reflexivity].
  Qed.

  Definition acl_table (t : tname) : Prop := t = PortAcl \/ t = VlanAcl \/ t = EgressAcl.
  Lemma D_acl : forall t, acl_table t -> D t = match acl_decl c t with Some d => d | None => mkDecl (default_match t) (default_set t) (default_exact t) end.
  Proof. intros t [->|[->| ->]]; unfold D, declare; destruct (acl_decl c _); reflexivity. Qed.
  Lemma table_types : forall ns n x ts, In n ns -> covers (fst (built c n)) x ->
    covers (fold_left (fun ts n => fold_left note (fst (built c n)) ts) ns ts) x.
  Proof.
    assert (K : forall ns x ts, covers ts x -> covers (fold_left (fun ts n => fold_left note (fst (built c n)) ts) ns ts) x).
    { induction ns as [|m ns IH]; intros x ts H; cbn [fold_left]; [exact H|]. apply IH, notes_keep, H. }
    induction ns as [|m ns IH]; intros n x ts H Hx; [destruct H|]. cbn [fold_left]. destruct H as [->|H]; [|eapply IH; eauto].
    apply K, covers_through, Hx.
  Qed.
  Lemma table_nodup : forall ns ts, NoDup (map fst ts) ->
    NoDup (map fst (fold_left (fun ts n => fold_left note (fst (built c n)) ts) ns ts)).
  Proof. induction ns as [|m ns IH]; intros ts H; cbn [fold_left]; [exact H|]. apply IH, notes_nodup, H. Qed.
  Lemma table_exact : forall ns b, b = false -> (forall n, In n ns -> al_exact (fc_acls c n) = false) ->
    fold_left (fun (_ : bool) n => al_exact (fc_acls c n)) ns b = false.
  Proof. induction ns as [|m ns IH]; intros b Hb H; cbn; [exact Hb|]. apply IH; [apply H; left; reflexivity|]. intros n Hn. apply H. right. exact Hn. Qed.
  Lemma D_nd : forall t, acl_table t -> NoDup (map fst (de_match (D t))).
  Proof.
    intros t Ht. rewrite (D_acl t Ht). unfold acl_decl. destruct (table_acls c t) as [|n ns] eqn:E.
    - destruct Ht as [->|[->| ->]]; cbn; repeat constructor; cbn; tauto.
    - apply table_nodup. constructor.
  Qed.
  (** ACLs of a table are used *)
  Lemma table_used : forall t n, acl_table t -> In n (table_acls c t) -> exists u, In u (uses c) /\ fst u = n.
  Proof.
    intros t n [->|[->| ->]] H; unfold uses; cbn [table_acls] in H.
    - assert (A : In n (flat_map fp_in (fc_ports c)) \/ In n (fc_dp c)) by (destruct (fc_dp c); auto). destruct A as [A|A].
      + apply in_flat_map in A as (p & Hp & A). exists (n, (Some (fp_num p), None)). split; [|reflexivity].
        apply in_app_iff. right. apply in_app_iff. left. apply in_flat_map. exists p. split; [exact Hp|]. apply in_map_iff. eauto.
      + exists (n, (None, None)). split; [|reflexivity]. apply in_app_iff. right. apply in_app_iff. right. apply in_map_iff. eauto.
    - apply in_flat_map in H as (v & Hv & A). exists (n, (None, Some (fv_vid v))). split; [|reflexivity].
      apply in_app_iff. left. apply in_flat_map. exists v. split; [exact Hv|]. apply in_map_iff. exists n. split; [reflexivity|apply in_app_iff; auto].
    - apply in_flat_map in H as (v & Hv & A). exists (n, (None, Some (fv_vid v))). split; [|reflexivity].
      apply in_app_iff. left. apply in_flat_map. exists v. split; [exact Hv|]. apply in_map_iff. exists n. split; [reflexivity|apply in_app_iff; auto].
  Qed.
  Lemma D_exact : forall t, acl_table t -> de_exact (D t) = false.
  Proof.
    intros t Ht. rewrite (D_acl t Ht). unfold acl_decl. destruct (table_acls c t) as [|n ns] eqn:E.
    - destruct Ht as [->|[->| ->]]; reflexivity.
    - cbn [de_exact]. apply table_exact; [reflexivity|]. intros m Hm. rewrite <- E in Hm.
      destruct (table_used t m Ht Hm) as (u & Hu & <-). apply (Ord u Hu).
  Qed.

  (** rules of ACLs at a place *)
  Lemma acls_ok : forall t (pl : place) ns, acl_table t -> included f t = true -> tb_id (pl_table pl) = table_id f t ->
    incl ns (table_acls c t) ->
    (forall n, In n ns -> exists u, In u (uses c) /\ fst u = n /\ kind (snd u) = kind (pl_port pl, pl_vid pl)) ->
    rules_of c ns <= 0x5000 -> pl_high pl = FILTER_PRIORITY -> pl_exact pl = false ->
    map ren (pl_allow pl) = [Goto 0] -> map ren (pl_force pl) = [Goto 0] ->
    (forall n, In (Goto n) (pl_allow pl) \/ In (Goto n) (pl_force pl) -> In n (map (table_id f) (next_tables f t))) ->
    Forall (sent_ok f D) (build_acl_ofmsgs None false pl (map (fc_acls c) ns)).
  Proof.
    intros t pl ns Ht It Id Inc Us Nr Hp Hx A B Hg. apply Forall_forall. intros m Hm.
    unfold build_acl_ofmsgs in Hm. apply rules_msgs in Hm as [(i & r & Hi & ->)|X]; [|destruct m; try exact I; destruct (X _ eq_refl)].
    assert (Hl : (i < length (flat_map al_rules (map (fc_acls c) ns)))%nat) by (apply nth_error_Some; congruence).
    assert (Hr : exists n, In n ns /\ In r (al_rules (fc_acls c n))).
    { apply nth_error_In in Hi. apply in_flat_map in Hi as (a & Ha & Hr). apply in_map_iff in Ha as (n & <- & Hn). eauto. }
    destruct Hr as (n & Hn & Hr). destruct (Us n Hn) as (u & Hu & En & Ku).
    assert (Dt : D t = mkDecl (fold_left (fun ts n => fold_left note (fst (built c n)) ts) (table_acls c t) [])
      (flat_map (fun n => snd (built c n)) (table_acls c t)) (fold_left (fun _ n => al_exact (fc_acls c n)) (table_acls c t) false)).
    { rewrite (D_acl t Ht). unfold acl_decl. destruct (table_acls c t) eqn:E; [destruct (Inc n Hn)|reflexivity]. }
    eapply (ok_fm f D t); cbn; auto.
    - apply D_nd; exact Ht.
    - split; discriminate.
    - apply Forall_forall. intros [fd [v k]] Hin.
      assert (S : In (fd, masked_value (v, k)) (shape (rule_match pl r))).
      { unfold shape, mapd. apply in_map_iff. exists (fd, (v, k)). auto. }
      rewrite <- En in Hr. pose proof (use_types u pl r _ Hu Ku Hr S) as C. rewrite En in C.
      pose proof (table_types (table_acls c t) n _ [] (Inc n Hn) C) as (b & Hb & Mb).
      exists b. rewrite Dt. split; [exact Hb|]. intros Hk. apply Mb. cbn [snd] in *. unfold masked_value. cbn [snd].
      rewrite (proj2 (Z.eqb_neq k (-1)) Hk). reflexivity.
    - apply from_dict_once.
    - left. rewrite Hx. rewrite Hp. unfold FILTER_PRIORITY. unfold rules_of in Nr.
      rewrite flat_map_concat_map, <- (map_map (fc_acls c) al_rules), <- flat_map_concat_map in Nr. lia.
    - intros E. rewrite (D_exact t Ht) in E. discriminate.
    - intros acts fd v H1 H2. rewrite Dt. cbn [de_set]. apply in_flat_map. exists n. split; [apply Inc, Hn|].
      rewrite <- En. eapply (use_sets u pl r); auto; [rewrite En; exact Hr|]. unfold inst_sets. apply in_flat_map.
      exists (Apply acts). split; [exact H1|]. apply in_set_fields. eauto.
    - intros k H. left. apply Hg. eapply rule_gotos; [|exact H]. rewrite <- En in Hr. apply (Ord u Hu). exact Hr.
  Qed.

  (** VLAN tables know VLANs, port tables know ports *)
  Lemma types_have : forall t n (pl : place) fd, acl_table t -> In n (table_acls c t) ->
    (exists u, In u (uses c) /\ fst u = n /\ kind (snd u) = kind (pl_port pl, pl_vid pl)) ->
    (forall d, In fd (map fst (match_from_dict (place_match (pl_port pl) (pl_vid pl) d)))) ->
    exists b, dict_get field_eqb fd (de_match (D t)) = Some b.
  Proof.
    intros t n pl fd Ht Hn (u & Hu & En & Ku) Hfd.
    assert (Dt : D t = mkDecl (fold_left (fun ts n => fold_left note (fst (built c n)) ts) (table_acls c t) [])
      (flat_map (fun n => snd (built c n)) (table_acls c t)) (fold_left (fun _ n => al_exact (fc_acls c n)) (table_acls c t) false)).
    { rewrite (D_acl t Ht). unfold acl_decl. destruct (table_acls c t) eqn:E; [destruct Hn|reflexivity]. }
    destruct (Ord u Hu) as (NE & _). destruct (al_rules (fc_acls c (fst u))) as [|r rs] eqn:Er; [contradiction|].
    specialize (Hfd (ru_attrs r)). apply in_map_iff in Hfd as ([fd' vm] & E & Hfd). cbn in E. subst fd'.
    assert (S : In (fd, masked_value vm) (shape (rule_match pl r))).
    { unfold shape, mapd. apply in_map_iff. exists (fd, vm). auto. }
    assert (Hr : In r (al_rules (fc_acls c (fst u)))) by (rewrite Er; left; reflexivity).
    pose proof (use_types u pl r _ Hu Ku Hr S) as C. rewrite En in C.
    pose proof (table_types (table_acls c t) n _ [] Hn C) as (b & Hb & _). exists b. rewrite Dt. exact Hb.
  Qed.

  Lemma port_use : forall p n, In p (fc_ports c) -> In n (fp_in p) -> In (n, (Some (fp_num p), None)) (uses c).
  Proof.
    intros p n Hp Hn. apply in_app_iff. right. apply in_app_iff. left. apply in_flat_map. exists p. split; [exact Hp|]. apply in_map_iff. eauto.
  Qed.
  Lemma vlan_use : forall v n, In v (fc_vlans c) -> In n (fv_in v) \/ In n (fv_out v) -> In (n, (None, Some (fv_vid v))) (uses c).
  Proof.
    intros v n Hv Hn. apply in_app_iff. left. apply in_flat_map. exists v. split; [exact Hv|]. apply in_map_iff. exists n.
    split; [reflexivity|]. apply in_app_iff. exact Hn.
  Qed.
  Lemma dp_use : forall n, In n (fc_dp c) -> In (n, (None, None)) (uses c).
  Proof. intros n Hn. apply in_app_iff. right. apply in_app_iff. right. apply in_map_iff. eauto. Qed.

  Lemma vlan_known : forall t, (t = VlanAcl \/ t = EgressAcl) -> table_acls c t <> [] ->
    exists b, dict_get field_eqb VlanVid (de_match (D t)) = Some b.
  Proof.
    intros t Ht NE. destruct (table_acls c t) as [|n ns] eqn:E; [contradiction|].
    assert (Hn : In n (table_acls c t)) by (rewrite E; left; reflexivity).
    assert (Hv : exists v, In v (fc_vlans c) /\ (In n (fv_in v) \/ In n (fv_out v))).
    { destruct Ht as [->| ->]; cbn in Hn; apply in_flat_map in Hn as (v & Hv & X); eauto. }
    destruct Hv as (v & Hv & Hx).
    apply (types_have t n (build_place (None, Some (fv_vid v)) false) VlanVid); auto.
    - destruct Ht; subst; unfold acl_table; auto.
    - eexists. split; [apply (vlan_use v n Hv Hx)|]. auto.
    - intros d. apply from_dict_key with (a := (false, VlanVid)); [|reflexivity].
      apply (dict_put_keys attr_eqb attr_eqb_eq). left. reflexivity.
  Qed.
  Lemma port_known : fc_dp c = [] -> exists b, dict_get field_eqb InPort (de_match (D PortAcl)) = Some b.
  Proof.
    intros E0. destruct (table_acls c PortAcl) as [|n ns] eqn:E.
    - exists false. rewrite (D_acl PortAcl (or_introl eq_refl)). unfold acl_decl. rewrite E. reflexivity.
    - assert (Hn : In n (table_acls c PortAcl)) by (rewrite E; left; reflexivity).
      assert (Hv : exists p, In p (fc_ports c) /\ In n (fp_in p)).
      { cbn in Hn. rewrite E0 in Hn. apply in_flat_map in Hn as (v & Hv & X); eauto. }
      destruct Hv as (p & Hp & Hx).
      apply (types_have PortAcl n (build_place (Some (fp_num p), None) false) InPort); auto.
      + left; reflexivity.
      + eexists. split; [apply (port_use p n Hp Hx)|]. auto.
      + intros d. apply from_dict_key with (a := (false, InPort)); [|reflexivity].
        apply (dict_put_keys attr_eqb attr_eqb_eq). left. reflexivity.
  Qed.

  (** ** The manager's messages *)

  Lemma to_next : forall t u, included f u = true -> In u (default_next t) -> In (table_id f u) (map (table_id f) (next_tables f t)).
  Proof. intros t u I N. apply in_map, filter_In. split; [exact N|exact I]. Qed.
  Lemma to_l2 : forall t, t = PortAcl \/ t = VlanAcl -> In (am_to_l2 am) (map (table_id f) (next_tables f t)).
  Proof.
    intros t Ht. rewrite (ap_to_l2 _ _ _ Pip). unfold output_table. destruct (ft_hairpin f) eqn:E; destruct Ht as [->| ->]; apply to_next; cbn; auto; tauto.
  Qed.
  Lemma to_vlan : In (am_to_vlan am) (map (table_id f) (next_tables f PortAcl)).
  Proof. rewrite (ap_to_vlan _ _ _ Pip). apply to_next; cbn; auto. Qed.
  Lemma to_class : In (am_to_class am) (map (table_id f) (next_tables f VlanAcl)).
  Proof.
    rewrite (ap_to_class _ _ _ Pip). unfold classification_table. destruct (ft_classification f) eqn:E; apply to_next; cbn; auto.
  Qed.
  Lemma to_egress : included f EgressAcl = true -> In (am_to_egress am) (map (table_id f) (next_tables f EgressAcl)).
  Proof.
    intros I. rewrite (ap_to_egress _ _ _ Pip). apply to_next; cbn; auto. unfold egress_pipeline. cbn in I. rewrite I. apply orb_true_r.
  Qed.

  Lemma one_rule : forall t tb m n, acl_table t -> included f t = true -> tb_id tb = table_id f t ->
    Forall (item_ok (D t)) [m] -> In n (map (table_id f) (next_tables f t)) ->
    sent_ok f D (FlowMod (tb_add tb FILTER_PRIORITY [m] [Goto n])).
  Proof.
    intros t tb m n Ht It Id Hm Hn. eapply (ok_write f D t); auto.
    - apply D_nd; exact Ht.
    - cbn. repeat constructor. tauto.
    - left. discriminate.
    - intros E. rewrite (D_exact t Ht) in E. discriminate.
    - intros acts fd v [E|[]]. discriminate.
    - intros k [E|[]]. injection E as <-. left. exact Hn.
  Qed.
  Lemma one_del : forall t tb prio m, acl_table t -> included f t = true -> tb_id tb = table_id f t ->
    Forall (item_ok (D t)) [m] -> sent_ok f D (FlowMod (tb_del tb FDelete prio [m] OFPP_ANY)).
  Proof.
    intros t tb prio m Ht It Id Hm. eapply (ok_del f D t); auto; [apply D_nd; exact Ht|]. cbn. repeat constructor. tauto.
  Qed.
  Lemma drop_ok : forall t tb lowest, acl_table t -> included f t = true -> tb_id tb = table_id f t ->
    sent_ok f D (FlowMod (tb_drop tb lowest [] 0)).
  Proof.
    intros t tb lowest Ht It Id. eapply (ok_write f D t); auto; try (constructor; fail).
    - apply D_nd; exact Ht.
    - intros _ X. destruct (X eq_refl).
    - intros acts fd v [].
    - intros n [].
  Qed.
  Lemma in_port_item : fc_dp c = [] -> forall n, Forall (item_ok (D PortAcl)) [exact InPort n].
  Proof.
    intros E n. destruct (port_known E) as (b & Hb). constructor; [|constructor]. exists b. split; [exact Hb|]. cbn. congruence.
  Qed.
  Lemma vid_item : forall t vid, (t = VlanAcl \/ t = EgressAcl) -> table_acls c t <> [] -> Forall (item_ok (D t)) [vlan_item vid].
  Proof. intros t vid Ht NE. destruct (vlan_known t Ht NE) as (b & Hb). constructor; [|constructor]. eapply vlan_item_ok; exact Hb. Qed.
  Lemma no_dp : am_dp_acls am = [] -> fc_dp c = [].
  Proof. intros E. rewrite (ap_dp _ _ _ Pip) in E. destruct (fc_dp c); [reflexivity|discriminate]. Qed.
  Lemma first_exact_no : forall ns, (forall n, In n ns -> exists u, In u (uses c) /\ fst u = n) -> first_exact (map (fc_acls c) ns) = false.
  Proof.
    intros [|n ns] H; [reflexivity|]. cbn. destruct (H n (or_introl eq_refl)) as (u & Hu & <-). apply (Ord u Hu).
  Qed.

  Lemma add_port_ok : forall p, port_of_conf c p -> Forall (sent_ok f D) (add_port am p).
  Proof.
    intros p (q & Hq & ->). unfold add_port, port_acls_allowed. destruct (am_dp_acls am) as [|a0 l0] eqn:Ed; [|constructor].
    destruct (ap_output_only _); [constructor|]. destruct (am_port am) as [t|] eqn:Et; [|constructor].
    destruct (ap_port_tab _ _ _ Pip t Et) as (It & Id). pose proof (no_dp Ed) as E0.
    assert (B : Forall (sent_ok f D) (build_acl_ofmsgs None false (port_place am t (aport_of c q)) (map (fc_acls c) (fp_in q)))).
    { apply (acls_ok PortAcl); auto.
      - left; reflexivity.
      - intros n Hn. cbn. rewrite E0. apply in_flat_map. eauto.
      - intros n Hn. eexists. split; [apply (port_use q n Hq Hn)|]. auto.
      - apply Few; exact Hq.
      - cbn. apply first_exact_no. intros n Hn. eexists. split; [apply (port_use q n Hq Hn)|reflexivity].
      - intros n [[E|[]]|[E|[]]]; injection E as <-; [apply to_vlan|apply to_l2; auto]. }
    cbn [aport_of ap_acls]. destruct (map (fc_acls c) (fp_in q)) eqn:Em; [|exact B].
    destruct (ap_dot1x _); constructor; [|constructor]. eapply (one_rule PortAcl); auto; [left; reflexivity|apply in_port_item; exact E0|apply to_vlan].
  Qed.
  Lemma del_port_ok : forall p, Forall (sent_ok f D) (del_port am p).
  Proof.
    intros p. unfold del_port, port_acls_allowed. destruct (am_dp_acls am) as [|a0 l0] eqn:Ed; [|constructor].
    destruct (ap_output_only p); [constructor|]. destruct (am_port am) as [t|] eqn:Et; [|constructor].
    destruct (ap_port_tab _ _ _ Pip t Et) as (It & Id). constructor; [|constructor].
    eapply (one_del PortAcl); auto; [left; reflexivity|apply in_port_item, no_dp, Ed].
  Qed.
  Lemma del_vlan_acl_ok : forall vid, Forall (sent_ok f D) (del_vlan am vid).
  Proof.
    intros vid. unfold del_vlan. apply Forall_app; split.
    - destruct (am_vlan am) as [t|] eqn:Et; [|constructor]. destruct (ap_vlan_tab _ _ _ Pip t Et) as (It & Id & NE). constructor; [|constructor].
      eapply (one_del VlanAcl); auto; [right; left; reflexivity|apply vid_item; auto].
    - destruct (am_egress am) as [t|] eqn:Et; [|constructor]. destruct (ap_egress_tab _ _ _ Pip t Et) as (It & Id & NE). constructor; [|constructor].
      eapply (one_del EgressAcl); auto; [right; right; reflexivity|apply vid_item; auto].
  Qed.
  Lemma add_vlan_ok : forall v, vlan_of_conf c v -> Forall (sent_ok f D) (add_vlan am v).
  Proof.
    intros v (w & Hw & ->). unfold add_vlan. apply Forall_app; split.
    - cbn [avlan_of av_in]. destruct (map (fc_acls c) (fv_in w)) eqn:Em; [constructor|]. rewrite <- Em.
      destruct (am_vlan am) as [t|] eqn:Et; [|constructor]. destruct (ap_vlan_tab _ _ _ Pip t Et) as (It & Id & NE).
      apply (acls_ok VlanAcl); auto.
      + right; left; reflexivity.
      + intros n Hn. cbn. apply in_flat_map. eauto.
      + intros n Hn. eexists. split; [apply (vlan_use w n Hw (or_introl Hn))|]. auto.
      + apply (proj1 Few w Hw).
      + cbn. apply first_exact_no. intros n Hn. eexists. split; [apply (vlan_use w n Hw (or_introl Hn))|reflexivity].
      + intros n [[E|[]]|[E|[]]]; injection E as <-; [apply to_class|apply to_l2; auto].
    - destruct (am_egress am) as [t|] eqn:Et; [|constructor]. destruct (ap_egress_tab _ _ _ Pip t Et) as (It & Id & NE).
      cbn [avlan_of av_out av_vid].
      assert (B : Forall (sent_ok f D) (build_acl_ofmsgs None false (egress_place am t (avlan_of c w)) (map (fc_acls c) (fv_out w)))).
      { apply (acls_ok EgressAcl); auto.
        + right; right; reflexivity.
        + intros n Hn. cbn. apply in_flat_map. eauto.
        + intros n Hn. eexists. split; [apply (vlan_use w n Hw (or_intror Hn))|]. auto.
        + apply (proj1 Few w Hw).
        + cbn. apply first_exact_no. intros n Hn. eexists. split; [apply (vlan_use w n Hw (or_intror Hn))|reflexivity].
        + intros n [[E|[]]|[E|[]]]; injection E as <-; apply to_egress; exact It. }
      destruct (map (fc_acls c) (fv_out w)) eqn:Em; [|exact B]. constructor; [|constructor].
      eapply (one_rule EgressAcl); auto; [right; right; reflexivity|apply vid_item; auto|apply to_egress; exact It].
  Qed.
  Lemma initialise_ok : Forall (sent_ok f D) (initialise_tables am).
  Proof.
    unfold initialise_tables. destruct (am_dp_acls am) as [|a l] eqn:Ed; [constructor|].
    destruct (am_port am) as [t|] eqn:Et; [|constructor]. destruct (ap_port_tab _ _ _ Pip t Et) as (It & Id).
    rewrite <- Ed, (ap_dp _ _ _ Pip). apply (acls_ok PortAcl); auto.
    - left; reflexivity.
    - intros n Hn. cbn. destruct (fc_dp c); [destruct Hn|exact Hn].
    - intros n Hn. eexists. split; [apply (dp_use n Hn)|]. auto.
    - apply Few.
    - intros n [[E|[]]|[E|[]]]; injection E as <-; [apply to_vlan|apply to_l2; auto].
  Qed.

  Lemma abatch_ok : forall lowest e, event_of_conf c e -> Forall (sent_ok f D) (abatch am lowest e).
  Proof.
    intros lowest e He.
    assert (AV : forall vs, (forall v, In v vs -> vlan_of_conf c v) -> Forall (sent_ok f D) (flat_map (add_vlan am) vs)).
    { intros vs H. apply Forall_flat_map, Forall_forall. intros v Hv. apply add_vlan_ok, H, Hv. }
    destruct e as [vs ps|p vs|p|p|gone vs]; cbn [abatch event_of_conf] in *.
    - destruct He as [Hv Hp]. repeat match goal with |- Forall _ (_ ++ _) => apply Forall_app; split end; auto.
      + constructor; [left; split; [reflexivity|left; reflexivity]|]. destruct (am_groups am); repeat constructor.
      + unfold default_drops, opt_tables. apply Forall_map. repeat (apply Forall_app; split).
        * destruct (am_port am) as [t|] eqn:Et; constructor; [|constructor]. destruct (ap_port_tab _ _ _ Pip t Et) as (It & Id).
          eapply (drop_ok PortAcl); auto. left; reflexivity.
        * destruct (am_vlan am) as [t|] eqn:Et; constructor; [|constructor]. destruct (ap_vlan_tab _ _ _ Pip t Et) as (It & Id & _).
          eapply (drop_ok VlanAcl); auto. right; left; reflexivity.
        * destruct (am_egress am) as [t|] eqn:Et; constructor; [|constructor]. destruct (ap_egress_tab _ _ _ Pip t Et) as (It & Id & _).
          eapply (drop_ok EgressAcl); auto. right; right; reflexivity.
      + apply initialise_ok.
      + apply Forall_flat_map, Forall_forall. intros p H. apply add_port_ok, Hp, H.
    - destruct He as [Hp Hv]. apply Forall_app; split; [apply add_port_ok; exact Hp|apply AV; exact Hv].
    - apply del_port_ok.
    - apply Forall_app; split; [apply del_port_ok|apply add_port_ok; exact He].
    - apply Forall_app; split; [|apply AV; exact He]. apply Forall_flat_map, Forall_forall. intros v _. apply del_vlan_acl_ok.
  Qed.
End Acl.
