(** * Access control lists: matches, and the rule that decides in a table *)
From Coq Require Import ZArith List Bool Lia Permutation.
From Verif Require Import PyBase PyBaseProofs OpenFlow ReorderModel ReorderSpec ReorderProofs TrimModel TrimProofs
  TableModel FloodRulesProofs BatchProofs L2Proofs AclModel AclSpec AclProofs.
Import ListNotations.
Open Scope Z_scope.

(** ** Matches *)

Lemma attr_eqb_spec : forall a b, attr_eqb a b = true <-> a = b.
Proof.
  intros [o f] [o' f']. unfold attr_eqb. simpl. rewrite andb_true_iff, Bool.eqb_true_iff, field_eqb_spec.
  split; [intros [-> ->]; auto|intros H; injection H; auto].
Qed.

(** the last value given to a field *)
Fixpoint last_attr (f : field) (d : list (attr * (Z * Z))) : option (Z * Z) :=
  match d with
  | [] => None
  | a :: r => match last_attr f r with
              | Some x => Some x
              | None => if field_eqb f (snd (fst a)) then Some (snd a) else None
              end
  end.

Lemma fold_put_get : forall d k f,
  dict_get field_eqb f (fold_left (fun k a => dict_put field_eqb (snd (fst a)) (snd a) k) d k) =
  match last_attr f d with Some x => Some x | None => dict_get field_eqb f k end.
Proof.
  induction d as [|a d IH]; intros k f; simpl; auto. rewrite IH.
  destruct (last_attr f d); auto. rewrite (dict_get_put _ field_eqb_spec). destruct (field_eqb f _); auto.
Qed.
Lemma fold_put_nodup : forall d (k : list (field * (Z * Z))), NoDup (map fst k) ->
  NoDup (map fst (fold_left (fun k (a : attr * (Z * Z)) => dict_put field_eqb (snd (fst a)) (snd a) k) d k)).
Proof. induction d as [|a d IH]; intros k H; simpl; auto. apply IH. apply (dict_put_nodup _ field_eqb_spec); auto. Qed.

Lemma mfd_in : forall d f x, In (f, x) (match_from_dict d) <-> last_attr f d = Some x.
Proof.
  intros d f x. unfold match_from_dict. rewrite py_sorted_in.
  set (k := fold_left (fun k (a : attr * (Z * Z)) => dict_put field_eqb (snd (fst a)) (snd a) k) d []).
  assert (N : NoDup (map fst k)) by (apply fold_put_nodup; constructor).
  assert (G : dict_get field_eqb f k = last_attr f d) by (unfold k; rewrite fold_put_get; destruct (last_attr f d); auto).
  rewrite <- G. split.
  - apply (dict_in_get _ field_eqb_spec); auto.
  - apply (dict_get_in _ field_eqb_spec).
Qed.

Lemma item_agrees : forall p f v m, item_matches p (f, (v, m)) = true <-> agrees p f v m.
Proof.
  intros p f v m. unfold item_matches, agrees. destruct (pk_get p f) as [x|].
  - rewrite Z.eqb_eq. split; [eauto|]. intros [y [E H]]. injection E as ->. auto.
  - split; [discriminate|]. intros [y [E _]]. discriminate.
Qed.
Lemma mfd_matches : forall d p, matches p (match_from_dict d) = true <->
  forall f v m, last_attr f d = Some (v, m) -> agrees p f v m.
Proof.
  intros d p. unfold matches. rewrite forallb_forall. split.
  - intros H f v m E. apply item_agrees, H, mfd_in; auto.
  - intros H [f [v m]] E. apply item_agrees, H, mfd_in; auto.
Qed.

Definition once (d : list (attr * (Z * Z))) : Prop := NoDup (map (fun a => snd (fst a)) d).
Lemma last_attr_none : forall d f, last_attr f d = None <-> forall a, In a d -> snd (fst a) <> f.
Proof.
  induction d as [|a d IH]; intros f; simpl; [split; [intros _ a []|auto]|].
  destruct (last_attr f d) as [x|] eqn:E.
  - split; [discriminate|]. intros H. exfalso.
    assert (Y : last_attr f d = None) by (apply IH; intros b Hb; apply H; auto). congruence.
  - destruct (field_eqb f (snd (fst a))) eqn:Ef.
    + split; [discriminate|]. intros H. apply field_eqb_spec in Ef. exfalso. apply (H a); auto.
    + split; auto. intros _ b [<-|Hb]; [|apply IH; auto].
      intros X. assert (Y : field_eqb f (snd (fst a)) = true) by (apply field_eqb_spec; auto). congruence.
Qed.
Lemma last_attr_in : forall d f x, once d -> (last_attr f d = Some x <-> exists o, In ((o, f), x) d).
Proof.
  unfold once. induction d as [|a d IH]; intros f x N; simpl.
  - split; [discriminate|intros [o []]].
  - simpl in N. inversion N; subst. destruct (last_attr f d) as [y|] eqn:E.
    + assert (Y : exists o, In ((o, f), y) d) by (apply IH; auto). split.
      * intros X. injection X as ->. destruct Y as [o Y]; eauto.
      * intros [o [->|X]].
        -- exfalso. destruct Y as [o' Y]. apply H1. apply in_map_iff. exists ((o', f), y). auto.
        -- assert (Z0 : Some y = Some x) by (rewrite <- E; apply IH; eauto). exact Z0.
    + assert (Nn := proj1 (last_attr_none d f) E). destruct (field_eqb f (snd (fst a))) eqn:Ef.
      * apply field_eqb_spec in Ef. split.
        -- intros X. injection X as <-. exists (fst (fst a)). left. subst f; destruct a as [[o f0] x0]; reflexivity.
        -- intros [o [->|X]]; auto. exfalso. apply (Nn _ X). reflexivity.
      * split; [discriminate|]. intros [o [->|X]].
        -- simpl in Ef. assert (Y : field_eqb f f = true) by (apply field_eqb_spec; auto). congruence.
        -- exfalso. apply (Nn _ X). reflexivity.
Qed.

(** putting the field of the place *)
Lemma put_last_same : forall d F x, once d -> last_attr F (dict_put attr_eqb (false, F) x d) = Some x.
Proof.
  unfold once. induction d as [|[[o f] y] d IH]; intros F x N; simpl.
  - assert (Y : field_eqb F F = true) by (apply field_eqb_spec; auto). rewrite Y. reflexivity.
  - simpl in N. inversion N; subst. destruct (attr_eqb (false, F) (o, f)) eqn:E; simpl.
    + apply attr_eqb_spec in E. injection E as <- <-.
      assert (Y : last_attr F d = None) by (apply last_attr_none; intros a Ha X; apply H1; apply in_map_iff; eauto).
      rewrite Y. assert (Z0 : field_eqb F F = true) by (apply field_eqb_spec; auto). rewrite Z0. reflexivity.
    + rewrite IH; auto.
Qed.
Lemma put_last_other : forall d F x f, f <> F -> last_attr f (dict_put attr_eqb (false, F) x d) = last_attr f d.
Proof.
  intros d F x f H. assert (Hf : field_eqb f F = false).
  { destruct (field_eqb f F) eqn:E; auto. apply field_eqb_spec in E. contradiction. }
  induction d as [|[[o g] y] d IH]; simpl.
  - rewrite Hf. reflexivity.
  - destruct (attr_eqb (false, F) (o, g)) eqn:E; simpl.
    + apply attr_eqb_spec in E. injection E as <- <-. rewrite Hf. reflexivity.
    + rewrite IH. reflexivity.
Qed.

(** ** The places ACLs are attached to *)

Definition anchor (pl : place) : option (field * (Z * Z)) :=
  match pl_port pl, pl_vid pl with
  | Some n, None => Some (InPort, (n, -1))
  | None, Some v => Some (VlanVid, (vid_present v, -1))
  | _, _ => None
  end.
Definition single (pl : place) : Prop := pl_port pl = None \/ pl_vid pl = None.

Lemma rule_last : forall pl r f, single pl -> once (ru_attrs r) ->
  last_attr f (place_match (pl_port pl) (pl_vid pl) (ru_attrs r)) =
  match anchor pl with
  | Some (F, x) => if field_eqb f F then Some x else last_attr f (ru_attrs r)
  | None => last_attr f (ru_attrs r)
  end.
Proof.
  intros pl r f S O. unfold single in S. unfold place_match, anchor. destruct (pl_port pl) as [n|], (pl_vid pl) as [v|]; auto.
  - destruct S; discriminate.
  - destruct (field_eqb f InPort) eqn:E.
    + apply field_eqb_spec in E. subst. apply put_last_same; auto.
    + apply put_last_other. intros ->. assert (Y : field_eqb InPort InPort = true) by reflexivity. congruence.
  - destruct (field_eqb f VlanVid) eqn:E.
    + apply field_eqb_spec in E. subst. apply put_last_same; auto.
    + apply put_last_other. intros ->. assert (Y : field_eqb VlanVid VlanVid = true) by reflexivity. congruence.
Qed.

Lemma rule_match_in : forall pl r f x, single pl -> once (ru_attrs r) ->
  (In (f, x) (rule_match pl r) <->
   match anchor pl with
   | Some (F, y) => (f = F /\ x = y) \/ (f <> F /\ exists o, In ((o, f), x) (ru_attrs r))
   | None => exists o, In ((o, f), x) (ru_attrs r)
   end).
Proof.
  intros pl r f x S O. unfold rule_match. rewrite mfd_in, rule_last by auto.
  destruct (anchor pl) as [[F y]|]; [|apply last_attr_in; auto].
  destruct (field_eqb f F) eqn:E.
  - apply field_eqb_spec in E. subst. split; [intros X; injection X; auto|]. intros [[_ ->]|[X _]]; auto. contradiction.
  - assert (f <> F) by (intros ->; assert (Y : field_eqb F F = true) by (apply field_eqb_spec; auto); congruence).
    rewrite last_attr_in by auto. split; [auto|]. intros [[X _]|[_ X]]; auto. contradiction.
Qed.

Lemma rule_matches : forall pl r p, single pl -> once (ru_attrs r) ->
  (matches p (rule_match pl r) = true <->
   match anchor pl with
   | Some (F, y) => agrees p F (fst y) (snd y) /\ rule_covers (Some F) p r
   | None => rule_covers None p r
   end).
Proof.
  intros pl r p S O. unfold matches. rewrite forallb_forall. unfold rule_covers.
  split.
  - intros H. assert (G : forall f v m, In (f, (v, m)) (rule_match pl r) -> agrees p f v m).
    { intros f v m X. apply item_agrees, H; auto. }
    destruct (anchor pl) as [[F [v0 m0]]|] eqn:A.
    + split.
      * apply G. apply rule_match_in; auto. rewrite A. auto.
      * intros o f v m X Y. apply G, rule_match_in; auto. rewrite A. right. split; eauto. congruence.
    + intros o f v m X _. apply G, rule_match_in; auto. rewrite A. eauto.
  - intros H [f [v m]] X. apply item_agrees. apply rule_match_in in X; auto.
    destruct (anchor pl) as [[F [v0 m0]]|].
    + destruct X as [[-> X]|[N [o X]]]; [injection X as -> ->; apply H|]. apply (proj2 H o); auto. congruence.
    + destruct X as [o X]. apply (H o); auto. discriminate.
Qed.

(** ** The messages of a list of rules *)

Lemma in_build_rules : forall pl rs prio m, pl_exact pl = false ->
  (In m (build_rules None false pl rs prio) <->
   exists i r, nth_error rs i = Some r /\
     (In m (snd (rule_inst None pl r)) \/
      m = FlowMod (tb_add_cookie (pl_table pl) (ru_cookie r) (prio - Z.of_nat i) (rule_match pl r) (fst (rule_inst None pl r))))).
Proof.
  intros pl rs prio m HE. revert prio. induction rs as [|r rs IH]; intros prio.
  - simpl. split; [intros []|]. intros [i [r [X _]]]. destruct i; discriminate.
  - cbn [build_rules]. rewrite in_app_iff, IH. unfold build_rule_ofmsgs. rewrite HE.
    destruct (rule_inst None pl r) as [insts msgs] eqn:ER. cbn [app].
    rewrite in_app_iff. split.
    + intros [[H|[<-|[]]]|[i [r' [X Y]]]].
      * exists 0%nat, r. rewrite ER. auto.
      * exists 0%nat, r. rewrite ER. split; auto. right. simpl. rewrite Z.sub_0_r. auto.
      * exists (S i), r'. split; auto. destruct Y as [Y| ->]; auto. right. do 2 f_equal. lia.
    + intros [i [r' [X Y]]]. destruct i as [|i]; simpl in X.
      * injection X as <-. rewrite ER in Y. left. destruct Y as [Y| ->]; auto. right. left.
        simpl. rewrite Z.sub_0_r. auto.
      * right. exists i, r'. split; auto. destruct Y as [Y| ->]; auto. right. do 2 f_equal. lia.
Qed.

(** the failover groups in the messages of a rule *)
Lemma ordered_msgs : forall l m, Forall item_ok l ->
  (In m (snd (fst (ordered_items None l))) <->
   exists g ns, In (g, ns) (flat_map (fun i => match i with OFailover g ns => [(g, ns)] | _ => [] end) l) /\
     In m (groupadd_ff g ns)).
Proof.
  intros l m. induction l as [|i l IH]; intros H.
  - simpl. split; [intros []|intros [g [ns [[] _]]]].
  - inversion H; subst. specialize (IH H3). unfold ordered_items in *. cbn [fold_right flat_map].
    destruct (fold_right _ _ l) as [[ra rm] ri]. cbn [fst snd] in IH.
    assert (E : match i with OTunnel t => match @None (Z -> list out_item) with Some rules => plain_items (rules t) | None => item_out i end
                  | _ => item_out i end = item_out i) by (destruct i; auto). rewrite E. clear E.
    assert (S : snd (fst (outs_app (item_out i) (ra, rm, ri))) = snd (fst (item_out i)) ++ rm)
      by (destruct (item_out i) as [[? ?] ?]; reflexivity). rewrite S, in_app_iff, IH. clear S.
    split.
    + intros [X|[g [ns [X Y]]]].
      * destruct i; simpl in X; try contradiction. exists gid, ns. split; [simpl; auto|exact X].
      * exists g, ns. split; auto. apply in_app_iff; auto.
    + intros [g [ns [X Y]]]. apply in_app_iff in X as [X|X]; [|right; eauto].
      destruct i; simpl in X; try contradiction. destruct X as [X|[]]. injection X as <- <-. left. exact Y.
Qed.
Lemma rule_msgs : forall pl r m, rule_ok r ->
  (In m (snd (rule_inst None pl r)) <-> exists g ns, In (g, ns) (failovers r) /\ In m (groupadd_ff g ns)).
Proof.
  intros pl r m [_ H]. unfold rule_inst, failovers. destruct (ru_actions r) as [a|].
  2:{ simpl. split; [intros []|intros [? [? [[] _]]]]. }
  destruct (H a eq_refl) as [_ Ho]. unfold build_actions.
  destruct (ac_output a) as [[l|u]|]; cbn [build_output_actions].
  - pose proof (ordered_msgs l m Ho) as X. destruct (ordered_items None l) as [[x y] z].
    cbn [fst snd] in X. destruct (negb (is_allowed a) && true); exact X.
  - match goal with |- context [if ?c then _ else _] => destruct c end; cbn [snd];
    (destruct (u_failover u) as [[g ns]|]; cbn [opt_list fst snd];
     [split; [intros X; exists g, ns; split; [left; auto|auto] | intros [g' [ns' [[X|[]] Y]]]; injection X as <- <-; auto]
     |split; [intros [] | intros [? [? [[] _]]]]]).
  - cbn. split; [intros []|intros [? [? [[] _]]]].
Qed.

(** the groups the entry of a rule uses *)
Lemma ordered_groups : forall l g, Forall item_ok l -> In (GroupAct g) (fst (fst (ordered_items None l))) ->
  exists ns, In (g, ns) (flat_map (fun i => match i with OFailover g ns => [(g, ns)] | _ => [] end) l).
Proof.
  intros l g. induction l as [|i l IH]; intros H X; [destruct X|].
  inversion H; subst. specialize (IH H3). unfold ordered_items in *. cbn [fold_right flat_map] in *.
  destruct (fold_right _ _ l) as [[ra rm] ri]. cbn [fst snd] in IH.
  assert (E : match i with OTunnel t => match @None (Z -> list out_item) with Some rules => plain_items (rules t) | None => item_out i end
                | _ => item_out i end = item_out i) by (destruct i; auto). rewrite E in X. clear E.
  assert (S : fst (fst (outs_app (item_out i) (ra, rm, ri))) = fst (fst (item_out i)) ++ ra)
    by (destruct (item_out i) as [[? ?] ?]; reflexivity). rewrite S, in_app_iff in X. clear S.
  destruct X as [X|X].
  - destruct i; simpl in X; try contradiction.
    + apply repeat_spec in X. discriminate.
    + destruct X as [X|[X|[]]]; discriminate.
    + destruct X as [X|[]]; discriminate.
    + apply in_flat_map in X as [v [_ [X|[X|[]]]]]; discriminate.
    + apply in_map_iff in X as [v [X _]]; discriminate.
    + destruct X as [X|[]]; discriminate.
    + apply in_map_iff in X as [v [X _]]; discriminate.
    + destruct X as [X|[]]. injection X as ->. exists ns. simpl. auto.
  - destruct (IH X) as [ns Y]. exists ns. apply in_app_iff; auto.
Qed.
Lemma no_group_rewrite : forall u g, ~ In (GroupAct g) (rewrite_vlan u).
Proof.
  intros u g X. unfold rewrite_vlan in X. apply in_app_iff in X as [X|X].
  - destruct (u_pop u); [apply repeat_spec in X; discriminate|destruct X].
  - destruct (u_vid u); [destruct X as [X|[X|[]]]; discriminate|].
    destruct (u_swap u); [destruct X as [X|[]]; discriminate|].
    destruct (u_vids u); [|destruct X]. apply in_flat_map in X as [v [_ [X|[X|[]]]]]; discriminate.
Qed.
Lemma rule_groups : forall pl next l2 r g, pl_allow pl = [Goto next] -> pl_force pl = [Goto l2] -> rule_ok r ->
  In (GroupAct g) (flat_map inst_actions (fst (rule_inst None pl r))) -> exists ns, In (g, ns) (failovers r).
Proof.
  intros pl next l2 r g HA HF [_ H] X. unfold rule_inst, failovers in *. destruct (ru_actions r) as [a|]; [|destruct X].
  destruct (H a eq_refl) as [Hct Ho]. clear H. unfold build_actions in X. rewrite HA, HF, Hct in X. cbn [opt_list] in X.
  set (nx := match ac_force a with Some 1 => [Goto l2] | _ => [Goto next] end) in X.
  assert (Hnx : flat_map inst_actions nx = []) by (unfold nx; destruct (ac_force a) as [[|[| |]|]|]; reflexivity).
  assert (Hal : flat_map inst_actions (if is_allowed a then nx else []) = []) by (destruct (is_allowed a); auto).
  assert (Hme : flat_map inst_actions (opt_list (fun m => [MeterI m]) (ac_meter a)) = []) by (destruct (ac_meter a); auto).
  assert (Q : forall insts acts, flat_map inst_actions insts = [] ->
    In (GroupAct g) (flat_map inst_actions (insts ++ match acts with [] => [] | _ => [Apply acts] end)) -> In (GroupAct g) acts).
  { intros insts acts E Y. rewrite flat_map_app, E in Y. destruct acts; [destruct Y|]. cbn [flat_map inst_actions app] in Y.
    rewrite app_nil_r in Y. exact Y. }
  assert (M : forall acts, In (GroupAct g) (opt_list (fun n => [out_port n]) (ac_mirror a) ++ acts) -> In (GroupAct g) acts).
  { intros acts Y. apply in_app_iff in Y as [Y|Y]; auto. destruct (ac_mirror a); [destruct Y as [Y|[]]; discriminate|destruct Y]. }
  destruct (ac_output a) as [[l|u]|].
  - cbn [build_output_actions] in X. pose proof (fun Y => ordered_groups l g Ho Y) as OG.
    assert (OI : flat_map inst_actions (snd (ordered_items None l)) = []).
    { clear - Ho. induction l as [|i l IH]; auto. inversion Ho; subst. specialize (IH H2). unfold ordered_items in *.
      cbn [fold_right]. destruct (fold_right _ _ l) as [[? ?] ?]. cbn [snd] in IH. destruct i; simpl; auto. }
    destruct (ordered_items None l) as [[x y] z]. cbn [fst snd] in *.
    destruct (negb (is_allowed a) && true); cbn [fst] in X; apply Q in X.
    + apply OG, M; auto.
    + rewrite flat_map_app, Hme, OI; auto.
    + rewrite app_nil_r in X. apply OG, M; auto.
    + rewrite !flat_map_app, Hme, OI, Hal; auto.
  - destruct Ho as [_ [_ [_ [T [G _]]]]]. cbn [build_output_actions] in X. rewrite T, G in X. cbn [fst snd opt_list app] in X.
    assert (U : In (GroupAct g) (rewrite_vlan u ++ opt_list set_fields (u_sets u) ++ opt_list (fun n => [out_port n]) (u_port u)
         ++ opt_list (map out_port) (u_ports u) ++ opt_list (fun g => [GroupAct (fst g)]) (u_failover u) ++ [])).
    { match type of X with context [if ?c then _ else _] => destruct c end; cbn [fst] in X; apply Q in X.
      - apply M; auto.
      - rewrite app_nil_r, Hme; auto.
      - rewrite app_nil_r in X. apply M; auto.
      - rewrite flat_map_app, Hme; auto. }
    rewrite !in_app_iff in U. destruct U as [U|[U|[U|[U|[U|[]]]]]].
    + destruct (no_group_rewrite _ _ U).
    + destruct (u_sets u); [|destruct U]. apply in_map_iff in U as [v [U _]]; discriminate.
    + destruct (u_port u); [destruct U as [U|[]]; discriminate|destruct U].
    + destruct (u_ports u); [|destruct U]. apply in_map_iff in U as [v [U _]]; discriminate.
    + destruct (u_failover u) as [[g' ns]|]; [|destruct U]. destruct U as [U|[]]. injection U as ->. exists ns. left. auto.
  - apply Q in X; [|rewrite flat_map_app, Hme, Hal; auto]. apply M in X. destruct X.
Qed.
Lemma trim_groups : forall inst g, In (GroupAct g) (flat_map inst_actions (trim inst)) -> In (GroupAct g) (flat_map inst_actions inst).
Proof.
  intros inst g H. unfold trim in H. destruct (trim_inst None inst) as [i|] eqn:E; auto.
  unfold trim_inst in E. destruct (existsb is_apply inst); [|injection E as <-; auto].
  generalize (existsb is_goto inst), E. clear E. intros b. revert i H. induction inst as [|x l IH]; intros i H E; simpl in E.
  - injection E as <-. auto.
  - destruct (trim_one None b x) as [a|] eqn:E1; [|discriminate]. destruct (trim_list None b l) as [r|] eqn:E2; [|discriminate].
    injection E as <-. rewrite flat_map_app in H. simpl. apply in_app_iff in H. apply in_app_iff.
    destruct H as [H|H]; [left|right; eapply IH; eauto].
    destruct x; simpl in E1; try (injection E1 as <-; simpl in H; destruct H).
    destruct (negb b && negb (has_recirc acts)) eqn:EB.
    + unfold trim_actions in E1. destruct (trim_loop_prefix acts) as [t [A _]]. simpl. rewrite A. apply in_app_iff. left.
      destruct (trim_loop acts); injection E1 as <-; simpl in H; rewrite ?app_nil_r in H; auto.
    + destruct acts; injection E1 as <-; simpl in H; rewrite ?app_nil_r in H; auto.
Qed.

(** ** The first match *)

Lemma decides_nth : forall P rs r, decides P rs r <->
  exists i, nth_error rs i = Some r /\ P r /\ forall j r', (j < i)%nat -> nth_error rs j = Some r' -> ~ P r'.
Proof.
  intros P rs r. split.
  - induction 1 as [r rest H|r rest r' N H [i [A [B C]]]].
    + exists 0%nat. split; auto. split; auto. intros j r' X. lia.
    + exists (S i). split; auto. split; auto. intros [|j] r'' X Y; simpl in Y; [congruence|]. apply (C j); auto. lia.
  - intros [i [A [B C]]]. revert i A C. induction rs as [|x rs IH]; intros i A C; [destruct i; discriminate|].
    destruct i as [|i]; simpl in A.
    + injection A as ->. constructor; auto.
    + apply decides_later.
      * apply (C 0%nat); auto. lia.
      * apply (IH i); auto. intros j r' X Y. apply (C (S j)); auto. lia.
Qed.
Lemma decides_or : forall P rs, (forall r, In r rs -> P r \/ ~ P r) -> (exists r, decides P rs r) \/ undecided P rs.
Proof.
  intros P rs. induction rs as [|r rs IH]; intros D.
  - right. intros r [].
  - destruct (D r (or_introl eq_refl)) as [H|H].
    + left. exists r. constructor; auto.
    + destruct IH as [[r' X]|X].
      * intros x Hx. apply D. right; auto.
      * left. exists r'. constructor; auto.
      * right. intros x [<-|Hx]; auto.
Qed.
Lemma decides_in : forall P rs r, decides P rs r -> In r rs /\ P r.
Proof. induction 1 as [|? ? ? ? ? [A B]]; split; simpl; auto. Qed.
Lemma decides_fun : forall P rs r r', decides P rs r -> decides P rs r' -> r = r'.
Proof. intros P rs r r' H. induction H; intros H'; inversion H'; subst; auto; contradiction. Qed.

(** Entries that are rules of one place in order, whatever their matches. *)
Section Rules.
  Variables (s : switch) (live : Z -> bool) (pl : place) (mt : rule -> fmatch) (rs : list rule) (high lowest next l2 : Z) (p : packet).
  Notation t := (tb_id (pl_table pl)).
  Variables (P : rule -> Prop) (drop : flow).
  Hypothesis Ha : pl_allow pl = [Goto next].
  Hypothesis Hf : pl_force pl = [Goto l2].
  Hypothesis Hok : Forall rule_ok rs.
  Hypothesis Hlen : Z.of_nat (length rs) <= high - lowest.
  Hypothesis HP : forall r, In r rs -> (matches p (mt r) = true <-> P r).
  Definition rw (i : nat) (r : rule) : flowmod :=
    tb_add_cookie (pl_table pl) (ru_cookie r) (high - Z.of_nat i) (mt r) (fst (rule_inst None pl r)).
  Hypothesis H1 : forall i r, nth_error rs i = Some r -> In (flow_of (rw i r)) (sw_flows s).
  Hypothesis H2 : forall f, In f (sw_flows s) -> f_table f = t -> matches p (f_match f) = true ->
    (exists i r, nth_error rs i = Some r /\ f = flow_of (rw i r)) \/ f = drop.
  Hypothesis Hd : In drop (sw_flows s) /\ f_table drop = t /\ f_match drop = [] /\ f_prio drop = lowest /\ f_inst drop = [].
  Hypothesis Hg : forall r g ns, In r rs -> In (g, ns) (failovers r) -> group_lookup s g = Some (ff_group g ns).

  Lemma rnth_lt : forall i (r : rule), nth_error rs i = Some r -> lowest < high - Z.of_nat i.
  Proof. intros i r X. assert (i < length rs)%nat by (apply nth_error_Some; congruence). lia. Qed.

  Lemma rhit_decides : forall f, hit (sw_flows s) t p f <->
    (exists i r, nth_error rs i = Some r /\ decides P rs r /\ f = flow_of (rw i r) /\
       (forall j r', (j < i)%nat -> nth_error rs j = Some r' -> ~ P r')) \/
    (undecided P rs /\ f = drop).
  Proof.
    intros f. destruct Hd as [D1 [D2 [D3 [D4 D5]]]].
    assert (Mdrop : matches p (f_match drop) = true) by (rewrite D3; reflexivity).
    assert (IN : forall i r, nth_error rs i = Some r -> In r rs) by (intros; eapply nth_error_In; eauto).
    split.
    - intros [A [B [C D]]]. destruct (H2 f A B C) as [[i [r [N ->]]]| ->].
      + left.
        assert (PR : P r) by (apply HP; eauto).
        assert (J : forall j r', (j < i)%nat -> nth_error rs j = Some r' -> ~ P r').
        { intros j r' L N' X.
          specialize (D _ (H1 _ _ N') eq_refl). simpl in D. assert (E : matches p (mt r') = true) by (apply HP; eauto).
          specialize (D E). lia. }
        exists i, r. split; auto. split; auto. apply decides_nth. eauto.
      + right. split; auto. intros r Hr X. apply In_nth_error in Hr as [i N].
        specialize (D _ (H1 _ _ N) eq_refl). simpl in D. assert (E : matches p (mt r) = true) by (apply HP; eauto).
        specialize (D E). pose proof (rnth_lt i r N). lia.
    - intros [[i [r [N [DE [-> J]]]]]|[U ->]].
      + assert (PR : P r) by (apply decides_in in DE; tauto).
        split; [apply H1; eauto|]. split; [reflexivity|]. split; [simpl; apply HP; eauto|].
        intros g G1 G2 G3. destruct (H2 g G1 G2 G3) as [[j [r' [N' ->]]]| ->].
        * simpl in *. assert (PR' : P r') by (apply HP; eauto).
          destruct (Nat.lt_ge_cases j i) as [L|L]; [exfalso; apply (J j r'); auto|]. lia.
        * simpl. pose proof (rnth_lt i r N). lia.
      + split; auto. split; auto. split; auto. intros g G1 G2 G3. destruct (H2 g G1 G2 G3) as [[j [r' [N' ->]]]| ->]; [|lia].
        simpl in G3. exfalso. apply (U r'); [eauto|]. apply HP; eauto.
  Qed.

  Lemma walk_rules : forall es, walk s live t p es <->
    acl_outcome (fun force q es' => walk s live (if force then l2 else next) q es') live P rs p es.
  Proof.
    intros es. destruct Hd as [D1 [D2 [D3 [_ D5]]]].
    assert (EX : forall i r, nth_error rs i = Some r -> exists q, exec_insts (group_lookup s) live (f_inst (flow_of (rw i r))) p =
      (fst (effect live r p), q, match snd (effect live r p) with Some (force, _) => Some (if force then l2 else next) | None => None end) /\
      (forall force q', snd (effect live r p) = Some (force, q') -> q = q')).
    { intros i r N. simpl. assert (In r rs) by (eapply nth_error_In; eauto). apply rule_trim_exec; auto; [apply (proj1 (Forall_forall _ _) Hok); auto|].
      intros g ns X. eapply Hg; eauto. }
    split.
    - intros W. inversion W as [t0 p0 NM|t0 p0 f es0 p' HI E|t0 p0 f es0 p' t' es' HI E W']; subst.
      + exfalso. specialize (NM drop D1 D2). rewrite D3 in NM. discriminate.
      + apply rhit_decides in HI as [[i [r [N [DE [-> J]]]]]|[U ->]].
        * left. exists r. split; auto. destruct (EX i r N) as [q [X Y]]. rewrite E in X.
          destruct (effect live r p) as [out [[force q']|]]; simpl in X; injection X; intros; subst; try discriminate; auto.
        * right. split; auto. rewrite D5 in E. simpl in E. injection E; auto.
      + apply rhit_decides in HI as [[i [r [N [DE [-> J]]]]]|[U ->]].
        * left. exists r. split; auto. destruct (EX i r N) as [q [X Y]]. rewrite E in X.
          destruct (effect live r p) as [out [[force q']|]]; simpl in X; injection X; intros; subst; [|discriminate].
          exists es'. split; auto. rewrite <- (Y force q'); auto.
        * exfalso. rewrite D5 in E. discriminate.
    - intros [[r [DE M]]|[U ->]].
      + destruct (proj1 (decides_nth P rs r) DE) as [i [N [PR J]]]. destruct (EX i r N) as [q [X Y]].
        assert (HI : hit (sw_flows s) t p (flow_of (rw i r))) by (apply rhit_decides; left; eauto 8).
        destruct (effect live r p) as [out [[force q']|]]; simpl in X.
        * destruct M as [es' [W ->]]. eapply walk_goto; [exact HI|exact X|]. rewrite (Y force q') by auto. exact W.
        * subst. eapply walk_end; eauto.
      + eapply walk_end; [apply rhit_decides; right; eauto|]. rewrite D5. reflexivity.
  Qed.
End Rules.

Section Table.
  Variables (s : switch) (live : Z -> bool) (pl : place) (rs : list rule) (high lowest next l2 : Z) (p : packet).
  Notation t := (tb_id (pl_table pl)).
  Variables (P : rule -> Prop) (drop : flow).
  Hypothesis Hx : pl_exact pl = false.
  Hypothesis Ha : pl_allow pl = [Goto next].
  Hypothesis Hf : pl_force pl = [Goto l2].
  Hypothesis Hok : Forall rule_ok rs.
  Hypothesis Hlen : Z.of_nat (length rs) <= high - lowest.
  Hypothesis HP : forall r, In r rs -> (matches p (rule_match pl r) = true <-> P r).
  Hypothesis H1 : forall w, In (FlowMod w) (build_rules None false pl rs high) -> In (flow_of w) (sw_flows s).
  Hypothesis H2 : forall f, In f (sw_flows s) -> f_table f = t -> matches p (f_match f) = true ->
    (exists w, In (FlowMod w) (build_rules None false pl rs high) /\ f = flow_of w) \/ f = drop.
  Hypothesis Hd : In drop (sw_flows s) /\ f_table drop = t /\ f_match drop = [] /\ f_prio drop = lowest /\ f_inst drop = [].
  Hypothesis Hg : forall r g ns, In r rs -> In (g, ns) (failovers r) -> group_lookup s g = Some (ff_group g ns).

  Definition fw (i : nat) (r : rule) : flowmod :=
    tb_add_cookie (pl_table pl) (ru_cookie r) (high - Z.of_nat i) (rule_match pl r) (fst (rule_inst None pl r)).

  Lemma flow_writes : forall w, In (FlowMod w) (build_rules None false pl rs high) <->
    exists i r, nth_error rs i = Some r /\ w = fw i r.
  Proof.
    intros w. rewrite in_build_rules by auto. split.
    - intros [i [r [A [B|B]]]].
      + apply rule_msgs in B; [|rewrite Forall_forall in Hok; eapply Hok, nth_error_In; eauto].
        destruct B as [g [ns [_ [B|[B|[]]]]]]; discriminate.
      + exists i, r. split; auto. injection B; auto.
    - intros [i [r [A ->]]]. exists i, r. auto.
  Qed.

  Lemma walk_acl : forall es, walk s live t p es <->
    acl_outcome (fun force q es' => walk s live (if force then l2 else next) q es') live P rs p es.
  Proof.
    apply (walk_rules s live pl (rule_match pl) rs high lowest next l2 p P drop); auto.
    - intros i r N. apply H1. apply flow_writes. exists i, r. auto.
    - intros f A B C. destruct (H2 f A B C) as [[w [W ->]]|D]; auto. left. apply flow_writes in W as [i [r [N ->]]]. eauto.
  Qed.
End Table.
