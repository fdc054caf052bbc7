(** * Access control lists: what a rule does and which rule decides *)
From Coq Require Import ZArith List Bool Lia Permutation.
From Verif Require Import PyBase PyBaseProofs OpenFlow ReorderModel ReorderSpec ReorderProofs TrimModel TrimProofs
  TableModel FloodRulesProofs BatchProofs L2Proofs AclModel AclSpec.
Import ListNotations.
Open Scope Z_scope.

(** ** Actions *)

Lemma vid_bits : forall v, vid_ok v -> Z.land (vid_present v) 0xfff = v.
Proof.
  intros v H. unfold vid_present, OFPVID_PRESENT, vid_ok in *. rewrite Z.land_lor_distr_l.
  change (Z.land 4096 4095) with 0. rewrite Z.lor_0_r.
  change 4095 with (Z.ones 12). rewrite Z.land_ones by lia. apply Z.mod_small. lia.
Qed.

Section Exec.
  Variables (gr : Z -> option group) (live : Z -> bool).

  Lemma ex_app : forall a b p es q es2 q2, exec_acts gr live a p = (es, q) -> exec_acts gr live b q = (es2, q2) ->
    exec_acts gr live (a ++ b) p = (es ++ es2, q2).
  Proof. intros. rewrite exec_acts_app, H. simpl. rewrite H0. reflexivity. Qed.

  Lemma ex_pop : forall n p, exec_acts gr live (repeat PopVlan n) p = ([], popped n p).
  Proof.
    induction n as [|n IH]; intros p; simpl.
    - destruct p; reflexivity.
    - rewrite IH. unfold popped, pop_vlan. simpl. destruct (pk_tags p); simpl; auto. destruct n; auto.
  Qed.
  Lemma ex_push : forall v p, vid_ok v -> exec_acts gr live (push_vlan_acts v) p = ([], pushed v p).
  Proof.
    intros v p H. unfold push_vlan_acts, pushed, push_vlan. simpl. destruct p as [i tags h]; simpl.
    destruct tags as [|[w pcp] r]; simpl; rewrite vid_bits by auto; reflexivity.
  Qed.
  Lemma ex_pushes : forall vs p, Forall vid_ok vs ->
    exec_acts gr live (flat_map push_vlan_acts vs) p = ([], fold_left (fun p v => pushed v p) vs p).
  Proof.
    induction vs as [|v vs IH]; intros p H; [reflexivity|]. inversion H; subst.
    cbn [flat_map]. change (@nil emission) with (@nil emission ++ []).
    eapply ex_app; [apply ex_push; auto|]. rewrite IH by auto. reflexivity.
  Qed.
  Lemma ex_swap : forall v p, vid_ok v -> exec_acts gr live [set_vlan_vid v] p = ([], swapped v p).
  Proof.
    intros v p H. unfold set_vlan_vid, swapped. destruct p as [i tags h]; simpl.
    destruct tags as [|[w pcp] r]; simpl; auto. rewrite vid_bits by auto; reflexivity.
  Qed.
  Lemma ex_sets : forall l p, exec_acts gr live (set_fields l) p = ([], with_fields l p).
  Proof. induction l as [|[f v] l IH]; intros p; simpl; auto. Qed.
  Lemma ex_ports : forall ns p, exec_acts gr live (map out_port ns) p = (map (fun n => (n, p)) ns, p).
  Proof. induction ns as [|n ns IH]; intros p; simpl; auto. rewrite IH. reflexivity. Qed.
  Lemma ex_failover : forall g ns p, gr g = Some (ff_group g ns) ->
    exec_acts gr live [GroupAct g] p = (first_live live ns p, p).
  Proof.
    intros g ns p H. simpl. rewrite H, app_nil_r. unfold ff_group, exec_group, first_live. simpl. f_equal.
    clear H. induction ns as [|n ns IH]; simpl; auto. destruct (live n); [reflexivity|exact IH].
  Qed.

  Definition fo_ok (l : list (Z * list Z)) : Prop := forall g ns, In (g, ns) l -> gr g = Some (ff_group g ns).

  Lemma ordered_spec : forall l p, Forall item_ok l ->
    fo_ok (flat_map (fun i => match i with OFailover g ns => [(g, ns)] | _ => [] end) l) ->
    exists acts, fst (fst (ordered_items None l)) = acts /\ snd (ordered_items None l) = [] /\
      exec_acts gr live acts p = perform live l p.
  Proof.
    induction l as [|i l IH]; intros p H F.
    - exists []. auto.
    - inversion H as [|? ? Hi Hl]; subst. unfold ordered_items in *. cbn [fold_right].
      assert (F2 : fo_ok (flat_map (fun i => match i with OFailover g ns => [(g, ns)] | _ => [] end) l)).
      { intros g ns X. apply F. simpl. apply in_app_iff; auto. }
      set (R := fold_right _ _ l) in *.
      assert (E : match i with OTunnel t => match @None (Z -> list out_item) with Some rules => plain_items (rules t) | None => item_out i end
                  | _ => item_out i end = item_out i) by (destruct i; auto). rewrite E. clear E.
      destruct R as [[ra rm] ri] eqn:ER.
      assert (S : snd (item_out i) = []) by (destruct i; simpl in *; auto; contradiction).
      destruct (item_out i) as [[ia im] ii] eqn:EI. simpl in S. subst ii.
      destruct (IH p Hl F2) as [_ [_ [I2 _]]]. simpl in I2. subst ri.
      exists (ia ++ ra). split; [reflexivity|split; [reflexivity|]].
      assert (Hx : forall now q, exec_acts gr live ia p = (now, q) ->
                exec_acts gr live (ia ++ ra) p = let '(later, q') := perform live l q in (now ++ later, q')).
      { intros now q X. destruct (IH q Hl F2) as [acts [Ea [_ Eb]]]. simpl in Ea. subst acts.
        destruct (perform live l q) as [later q'] eqn:EP. eapply ex_app; eauto. }
      cbn [perform]. destruct i; simpl in EI, Hi; injection EI as <- <-; try contradiction;
        (erewrite Hx; [|first [apply ex_pop | apply ex_push; assumption | apply ex_swap; assumption
           | apply ex_pushes; assumption | apply ex_sets | apply (ex_ports [n]) | apply ex_ports
           | apply ex_failover; apply F; simpl; auto ]]); reflexivity.
  Qed.

  Lemma ex_opt : forall A (f : A -> list action) (o : option A) p es q,
    match o with Some x => exec_acts gr live (f x) p = (es, q) | None => es = [] /\ q = p end ->
    exec_acts gr live (opt_list f o) p = (es, q).
  Proof. intros A f [x|] p es q H; simpl; auto. destruct H as [-> ->]; auto. Qed.

  Lemma rewrite_spec : forall u p, unordered_ok u ->
    exec_acts gr live (rewrite_vlan u ++ opt_list set_fields (u_sets u)) p = ([], rewritten u p).
  Proof.
    intros u p [H1 [H2 [H3 _]]]. unfold rewrite_vlan, rewritten.
    set (p1 := match u_pop u with Some n => popped n p | None => p end).
    assert (E1 : exec_acts gr live (match u_pop u with Some n => repeat PopVlan n | None => [] end) p = ([], p1)).
    { unfold p1. destruct (u_pop u); auto. apply ex_pop. }
    set (p2 := match u_vid u with Some v => pushed v p1 | None => _ end).
    assert (E2 : exec_acts gr live (match u_vid u with Some v => push_vlan_acts v | None =>
        match u_swap u with Some v => [set_vlan_vid v] | None =>
          match u_vids u with Some vs => flat_map push_vlan_acts vs | None => [] end end end) p1 = ([], p2)).
    { unfold p2. destruct (u_vid u); [apply ex_push; auto|]. destruct (u_swap u); [apply ex_swap; auto|].
      destruct (u_vids u); [apply ex_pushes; auto|reflexivity]. }
    change (@nil emission) with ((@nil emission ++ []) ++ []).
    eapply ex_app; [eapply ex_app; [exact E1|exact E2]|].
    destruct (u_sets u); simpl; [apply ex_sets|reflexivity].
  Qed.

  Lemma unordered_spec : forall u p, unordered_ok u ->
    fo_ok (match u_failover u with Some g => [g] | None => [] end) ->
    exec_acts gr live
      (rewrite_vlan u ++ opt_list set_fields (u_sets u) ++ opt_list (fun n => [out_port n]) (u_port u)
         ++ opt_list (map out_port) (u_ports u) ++ opt_list (fun g => [GroupAct (fst g)]) (u_failover u) ++ []) p
    = (sent live u (rewritten u p), rewritten u p).
  Proof.
    intros u p H F. rewrite app_assoc. set (q := rewritten u p).
    change (sent live u q) with ([] ++ sent live u q).
    eapply ex_app; [apply rewrite_spec; auto|]. unfold sent. fold q.
    eapply ex_app; [|eapply ex_app].
    - instantiate (1 := q). destruct (u_port u); reflexivity.
    - instantiate (1 := q). destruct (u_ports u); simpl; [apply ex_ports|reflexivity].
    - rewrite app_nil_r. destruct (u_failover u) as [[g ns]|]; simpl; [|reflexivity].
      rewrite <- (ex_failover g ns q); [reflexivity|]. apply F. simpl; auto.
  Qed.

  (** ** A whole rule *)

  Lemma meters_exec : forall (o : option Z) l p, exec_insts gr live (opt_list (fun m => [MeterI m]) o ++ l) p = exec_insts gr live l p.
  Proof. intros [m|] l p; reflexivity. Qed.

  Lemma apply_exec : forall acts p, exec_insts gr live (match acts with [] => [] | _ => [Apply acts] end) p
    = (fst (exec_acts gr live acts p), snd (exec_acts gr live acts p), None).
  Proof.
    intros [|a l] p; [reflexivity|]. cbn [exec_insts]. destruct (exec_acts gr live (a :: l) p) as [es q].
    rewrite app_nil_r. reflexivity.
  Qed.

  Lemma acts_of_output : forall o p,
    (match o with Ordered l => Forall item_ok l | Unordered u => unordered_ok u end) ->
    fo_ok (match o with Ordered l => flat_map (fun i => match i with OFailover g ns => [(g, ns)] | _ => [] end) l
                      | Unordered u => match u_failover u with Some g => [g] | None => [] end end) ->
    exists ported acts msgs, build_output_actions None o = (ported, acts, msgs, []) /\
      exec_acts gr live acts p =
        match o with Ordered l => perform live l p | Unordered u => (sent live u (rewritten u p), rewritten u p) end.
  Proof.
    intros [l|u] p H F.
    - destruct (ordered_spec l p H F) as [acts [A [B C]]]. unfold build_output_actions.
      destruct (ordered_items None l) as [[x y] z]. simpl in A, B. subst. eauto 6.
    - pose proof (unordered_spec u p H F) as X.
      destruct H as [_ [_ [_ [T [G _]]]]]. unfold build_output_actions. rewrite T, G. simpl.
      eexists _, _, _. split; [reflexivity|]. exact X.
  Qed.

  Lemma rule_exec : forall pl next l2 r p, pl_allow pl = [Goto next] -> pl_force pl = [Goto l2] -> rule_ok r ->
    fo_ok (failovers r) ->
    exists q, exec_insts gr live (fst (rule_inst None pl r)) p =
      (fst (effect live r p), q,
       match snd (effect live r p) with Some (force, _) => Some (if force then l2 else next) | None => None end) /\
      (forall force q', snd (effect live r p) = Some (force, q') -> q = q').
  Proof.
    intros pl next l2 r p HA HF [_ HR] F. unfold rule_inst, effect, failovers in *.
    destruct (ru_actions r) as [a|]; [|exists p; split; [reflexivity|discriminate]].
    destruct (HR a eq_refl) as [Hct Ho]. clear HR. unfold build_actions. rewrite HA, HF, Hct. cbn [opt_list].
    set (nx := match ac_force a with Some 1 => [Goto l2] | _ => [Goto next] end).
    assert (Hnx : nx = [Goto (if match ac_force a with Some x => x =? 1 | None => false end then l2 else next)]).
    { unfold nx. destruct (ac_force a) as [[|[| |]|]|]; reflexivity. }
    assert (Hal : is_allowed a = match ac_allow a, ac_mirror a with
          | Some x, _ => x =? 1 | None, Some _ => true | None, None => false end).
    { unfold is_allowed. destruct (ac_allow a), (ac_mirror a); reflexivity. }
    rewrite <- Hal. clear Hal. rewrite Hnx. clear Hnx nx.
    set (fl := match ac_force a with Some x => x =? 1 | None => false end).
    set (mir := opt_list (fun n => [out_port n]) (ac_mirror a)).
    assert (Hm : forall acts es q, exec_acts gr live acts p = (es, q) ->
      exec_acts gr live (mir ++ acts) p = (match ac_mirror a with Some n => (n, p) :: es | None => es end, q)).
    { intros acts es q X. unfold mir. destruct (ac_mirror a) as [n|]; simpl; rewrite X; reflexivity. }
    assert (K : forall acts es q, exec_acts gr live acts p = (es, q) ->
      exists q', exec_insts gr live ((opt_list (fun m => [MeterI m]) (ac_meter a) ++ (if is_allowed a then [Goto (if fl then l2 else next)] else [])) ++ match mir ++ acts with [] => [] | _ => [Apply (mir ++ acts)] end) p =
        (match ac_mirror a with Some n => (n, p) :: es | None => es end, q',
         match (if is_allowed a then Some (fl, q) else None) with Some (force, _) => Some (if force then l2 else next) | None => None end) /\
        (forall force q'', (if is_allowed a then Some (fl, q) else None) = Some (force, q'') -> q' = q'')).
    { intros acts es q X. apply Hm in X. rewrite <- app_assoc, meters_exec. exists q.
      destruct (is_allowed a); cbn [app exec_insts]; rewrite apply_exec, X; cbn [fst snd]; split; auto;
        intros f q'' Y; congruence. }
    destruct (ac_output a) as [o|].
    - destruct (acts_of_output o p) as [ported [acts [msgs [E X]]]].
      + destruct o; auto.
      + destruct o; auto.
      + rewrite E. destruct (match o with Ordered l => perform live l p | Unordered u => (sent live u (rewritten u p), rewritten u p) end) as [es q] eqn:EO.
        replace (match o with Ordered l => perform live l p | Unordered u => (sent live u (rewritten u p), rewritten u p) end) with (es, q) by (symmetry; destruct o; exact EO).
        destruct (K acts es q X) as [q' [K1 K2]].
        destruct (negb (is_allowed a) && ported) eqn:Eb; cbn [fst snd].
        * apply andb_true_iff in Eb as [Eb _]. apply negb_true_iff in Eb. rewrite Eb in *. exists q'. split; auto.
        * rewrite app_nil_r. cbn [app]. exists q'. split; auto.
    - destruct (K [] [] p eq_refl) as [q' [K1 K2]]. cbn [fst snd]. exists q'. split; auto.
  Qed.

  Lemma rule_applies : forall pl next l2 r, pl_allow pl = [Goto next] -> pl_force pl = [Goto l2] -> rule_ok r ->
    (applies (fst (rule_inst None pl r)) <= 1)%nat.
  Proof.
    intros pl next l2 r HA HF [_ HR]. unfold rule_inst. destruct (ru_actions r) as [a|]; [|auto].
    destruct (HR a eq_refl) as [Hct Ho].
    assert (Z : forall insts acts, existsb is_apply insts = false ->
      (applies (insts ++ match acts with [] => [] | _ => [Apply acts] end) <= 1)%nat).
    { intros insts acts H. unfold applies. rewrite filter_app, app_length.
      replace (filter is_apply insts) with (@nil instruction); [destruct acts; simpl; lia|].
      symmetry. induction insts as [|i l IH]; simpl in *; auto. apply orb_false_iff in H as [-> H]. auto. }
    unfold build_actions. rewrite HA, HF.
    assert (M : existsb is_apply (opt_list (fun m => [MeterI m]) (ac_meter a)) = false) by (destruct (ac_meter a); auto).
    assert (N : existsb is_apply (match ac_force a with Some 1 => [Goto l2] | _ => [Goto next] end) = false) by (destruct (ac_force a) as [[|[| |]|]|]; auto).
    destruct (ac_output a) as [o|].
    - destruct (build_output_actions None o) as [[[ported acts] msgs] insts] eqn:E.
      assert (I : existsb is_apply insts = false).
      { destruct o as [l|u]; cbn in E.
        - assert (X : forall l, existsb is_apply (snd (ordered_items None l)) = false).
          { clear. induction l as [|i l IH]; auto. unfold ordered_items in *. cbn [fold_right].
            destruct (fold_right _ _ l) as [[? ?] ?]. simpl in IH.
            destruct i; simpl; auto. }
          specialize (X l). destruct (ordered_items None l) as [[? ?] ?]. injection E as <- <- <- <-. auto.
        - injection E as <- <- <- <-. destruct (u_tunnel u), (u_goto u); auto. }
      destruct (negb (is_allowed a) && ported); cbn [fst]; apply Z; rewrite ?existsb_app, M, I; auto.
      destruct (is_allowed a); rewrite ?N; auto.
    - cbn [fst]. apply Z. rewrite existsb_app, M. destruct (is_allowed a); rewrite ?N; auto.
  Qed.

  Lemma rule_trim_exec : forall pl next l2 r p, pl_allow pl = [Goto next] -> pl_force pl = [Goto l2] -> rule_ok r ->
    fo_ok (failovers r) ->
    exists q, exec_insts gr live (trim (fst (rule_inst None pl r))) p =
      (fst (effect live r p), q,
       match snd (effect live r p) with Some (force, _) => Some (if force then l2 else next) | None => None end) /\
      (forall force q', snd (effect live r p) = Some (force, q') -> q = q').
  Proof.
    intros pl next l2 r p HA HF HR F. destruct (rule_exec pl next l2 r p HA HF HR F) as [q [E Q]].
    destruct (exec_insts gr live (trim (fst (rule_inst None pl r))) p) as [[es q1] nx] eqn:ET.
    destruct (trim_sem _ _ _ _ _ _ _ (rule_applies pl next l2 r HA HF HR) ET) as [q0 [E0 N]].
    rewrite E in E0. injection E0 as <- <- <-. exists q1. split; auto.
    intros force q' X. rewrite X in N. rewrite N by discriminate. eauto.
  Qed.
End Exec.
