(** * Proofs about the flood table *)
From Coq Require Import ZArith List Bool Lia Permutation.
From Verif Require Import PyBase PyBaseProofs OpenFlow ReorderModel ReorderSpec ReorderProofs BatchProofs
  TrimModel TrimProofs TableModel FloodModel FloodSpec FloodProofs FloodRulesModel FloodRulesSpec.
Import ListNotations.
Open Scope Z_scope.

(** Does the frame belong to a destination class? *)
Definition in_class (p : packet) (c : fclass) : Prop :=
  match fc_dst c with
  | Some (d, m) => exists x, pk_hdr p EthDst = Some x /\ Z.land x m = Z.land d m
  | None => True
  end /\
  match fc_type c with
  | Some t => pk_hdr p EthType = Some t
  | None => True
  end.
(** The most specific of the classes a VLAN floods. *)
Definition best_class (cs : list fclass) (p : packet) (c : fclass) : Prop :=
  In c cs /\ in_class p c /\ forall c', In c' cs -> in_class p c' -> class_prio c' <= class_prio c.

(** ** Matching *)
Lemma land_m1 : forall x, Z.land x (-1) = x.
Proof. intros. apply Z.land_m1_r. Qed.

Lemma item_exact : forall p f v, item_matches p (exact f v) = true <-> pk_get p f = Some v.
Proof.
  intros p f v. unfold item_matches, exact. destruct (pk_get p f) as [x|]; [|split; discriminate].
  rewrite !land_m1, Z.eqb_eq. split; [intros ->; auto|intros E; injection E; auto].
Qed.
Lemma matches_app : forall p a b, matches p (a ++ b) = matches p a && matches p b.
Proof. intros. apply forallb_app. Qed.

Lemma class_items_match : forall p c, matches p (class_items c) = true <-> in_class p c.
Proof.
  intros p [u t d]. unfold class_items, in_class. cbn [fc_dst fc_type].
  rewrite matches_app, andb_true_iff.
  assert (A : matches p (match d with Some (d, m) => [masked EthDst d m] | None => [] end) = true <->
    match d with Some (d, m) => exists x, pk_hdr p EthDst = Some x /\ Z.land x m = Z.land d m | None => True end).
  { destruct d as [[d m]|]; [|split; auto]. cbn [matches forallb]. rewrite andb_true_r.
    unfold item_matches, masked. cbn [pk_get]. destruct (pk_hdr p EthDst) as [x|].
    - rewrite Z.eqb_eq. split; [eauto|intros [y [E H]]; congruence].
    - split; [discriminate|intros [y [E H]]; discriminate]. }
  assert (B : matches p (match t with Some t => [exact EthType t] | None => [] end) = true <->
    match t with Some t => pk_hdr p EthType = Some t | None => True end).
  { destruct t as [t|]; [|split; auto]. cbn [matches forallb]. rewrite andb_true_r, item_exact. cbn [pk_get]. tauto. }
  rewrite A, B. tauto.
Qed.

Lemma vlan_item_eq : forall vid, 0 < vid < 4096 -> vlan_item vid = exact VlanVid (vid + 4096).
Proof.
  intros vid H. unfold vlan_item, OFPVID_NONE. destruct (Z.eqb_spec vid 0); [lia|].
  rewrite vid_present_add by lia. reflexivity.
Qed.
Lemma vlan_item_match : forall p vid w pcp r, 0 < vid < 4096 -> 0 <= w < 4096 -> pk_tags p = (w, pcp) :: r ->
  (item_matches p (vlan_item vid) = true <-> w = vid).
Proof.
  intros p vid w pcp r H Hw E. rewrite vlan_item_eq, item_exact by auto. cbn [pk_get]. rewrite E.
  pose proof (vid_present_add w Hw) as X. unfold vid_present in X. rewrite X. split.
  - intros K; injection K; lia.
  - intros ->; auto.
Qed.
Lemma vlan_match_spec : forall p vid c w pcp r, 0 < vid < 4096 -> 0 <= w < 4096 -> pk_tags p = (w, pcp) :: r ->
  (matches p (vlan_match vid c) = true <-> in_class p c /\ w = vid).
Proof.
  intros. unfold vlan_match. rewrite matches_app, andb_true_iff, class_items_match.
  cbn [matches forallb]. rewrite andb_true_r, (vlan_item_match p vid w pcp r); tauto.
Qed.
Lemma port_match_spec : forall p vid n c w pcp r, 0 < vid < 4096 -> 0 <= w < 4096 -> pk_tags p = (w, pcp) :: r ->
  (matches p (port_match vid n c) = true <-> pk_in p = n /\ in_class p c /\ w = vid).
Proof.
  intros. unfold port_match. change (matches p (exact InPort n :: vlan_match vid c))
    with (item_matches p (exact InPort n) && matches p (vlan_match vid c)).
  rewrite andb_true_iff, item_exact, (vlan_match_spec p vid c w pcp r) by auto. cbn [pk_get].
  split; intros [A B]; split; auto; congruence.
Qed.

(** ** Classes *)
Definition all_classes := flood_dsts true.
Lemma flood_dsts_all : forall r c, In c (flood_dsts r) -> In c all_classes.
Proof. intros [] c H; auto. unfold all_classes, flood_dsts. apply in_app_iff; auto. Qed.
Lemma vlan_classes_all : forall r v c, In c (vlan_classes r v) -> In c all_classes.
Proof. intros r v c H. apply filter_In in H as [H _]. eapply flood_dsts_all; eauto. Qed.

Definition class_eq_dec : forall a b : fclass, {a = b} + {a <> b}.
Proof. repeat decide equality. Defined.

Definition dst_compat (a b : option (Z * Z)) : bool :=
  match a, b with
  | Some (d1, m1), Some (d2, m2) => Z.land d1 (Z.land m1 m2) =? Z.land d2 (Z.land m1 m2)
  | _, _ => true
  end.
Definition class_compat (c d : fclass) : bool :=
  dst_compat (fc_dst c) (fc_dst d) &&
  match fc_type c, fc_type d with Some a, Some b => a =? b | _, _ => true end.

Lemma dst_compat_spec : forall x d1 m1 d2 m2,
  Z.land x m1 = Z.land d1 m1 -> Z.land x m2 = Z.land d2 m2 ->
  Z.land d1 (Z.land m1 m2) = Z.land d2 (Z.land m1 m2).
Proof.
  intros x d1 m1 d2 m2 H1 H2.
  rewrite (Z.land_assoc d1), <- H1, (Z.land_comm m1 m2), (Z.land_assoc d2), <- H2.
  rewrite <- !Z.land_assoc. f_equal. apply Z.land_comm.
Qed.
Lemma class_compat_spec : forall p c d, in_class p c -> in_class p d -> class_compat c d = true.
Proof.
  intros p [u1 t1 d1] [u2 t2 d2] [A1 B1] [A2 B2]. unfold class_compat. cbn [fc_dst fc_type] in *.
  apply andb_true_iff. split.
  - destruct d1 as [[d1 m1]|], d2 as [[d2 m2]|]; simpl; auto.
    destruct A1 as [x [E1 A1]], A2 as [y [E2 A2]]. apply Z.eqb_eq.
    assert (x = y) by congruence. subst y. eapply dst_compat_spec; eauto.
  - destruct t1, t2; auto. apply Z.eqb_eq. congruence.
Qed.

Definition separated (c d : fclass) : bool :=
  (if class_eq_dec c d then true else false) || negb (class_compat c d) ||
  (class_prio c + 2 <=? class_prio d) || (class_prio d + 2 <=? class_prio c).
Lemma all_separated : forallb (fun c => forallb (separated c) all_classes) all_classes = true.
Proof. vm_compute. reflexivity. Qed.
Lemma class_sep : forall p c d, In c all_classes -> In d all_classes -> in_class p c -> in_class p d ->
  c = d \/ class_prio c + 2 <= class_prio d \/ class_prio d + 2 <= class_prio c.
Proof.
  intros p c d Hc Hd Ic Id.
  pose proof (proj1 (forallb_forall _ _) all_separated c Hc) as H.
  pose proof (proj1 (forallb_forall _ _) H d Hd) as X. unfold separated in X.
  rewrite (class_compat_spec p c d Ic Id) in X. rewrite !orb_true_iff, !Z.leb_le in X.
  destruct X as [[[X|X]|X]|X]; auto; [|discriminate].
  destruct (class_eq_dec c d); auto; discriminate.
Qed.
Lemma class_prio_pos : forall c, In c all_classes -> 0x2000 <= class_prio c.
Proof.
  intros c H. assert (X : forallb (fun c => 0x2000 <=? class_prio c) all_classes = true) by (vm_compute; reflexivity).
  apply Z.leb_le. exact (proj1 (forallb_forall _ _) X c H).
Qed.

Definition items_eqb (c d : fclass) : bool := if fmatch_eq_dec (class_items c) (class_items d) then true else false.
Lemma class_items_inj : forall c d, In c all_classes -> In d all_classes -> class_items c = class_items d -> c = d.
Proof.
  intros c d Hc Hd E.
  assert (X : forallb (fun c => forallb (fun d => negb (items_eqb c d) || (if class_eq_dec c d then true else false)) all_classes) all_classes = true)
    by (vm_compute; reflexivity).
  pose proof (proj1 (forallb_forall _ _) X c Hc) as Y. pose proof (proj1 (forallb_forall _ _) Y d Hd) as Z.
  unfold items_eqb in Z. destruct (fmatch_eq_dec (class_items c) (class_items d)); [|contradiction].
  simpl in Z. destruct (class_eq_dec c d); auto; discriminate.
Qed.

Lemma vlan_item_inj : forall a b, 0 < a < 4096 -> 0 < b < 4096 -> vlan_item a = vlan_item b -> a = b.
Proof. intros a b Ha Hb E. rewrite !vlan_item_eq in E by auto. unfold exact in E. injection E. lia. Qed.
Lemma vlan_match_inj : forall a b c d, 0 < a < 4096 -> 0 < b < 4096 -> In c all_classes -> In d all_classes ->
  vlan_match a c = vlan_match b d -> a = b /\ c = d.
Proof.
  intros a b c d Ha Hb Hc Hd E. unfold vlan_match in E. apply app_inj_tail in E as [E1 E2].
  split; [apply vlan_item_inj; auto|apply class_items_inj; auto].
Qed.
Lemma port_match_inj : forall a b n m c d, 0 < a < 4096 -> 0 < b < 4096 -> In c all_classes -> In d all_classes ->
  port_match a n c = port_match b m d -> a = b /\ n = m /\ c = d.
Proof.
  intros a b n m c d Ha Hb Hc Hd E. unfold port_match in E. injection E as En E.
  apply vlan_match_inj in E; auto. tauto.
Qed.
Lemma vlan_port_match : forall a b m c d, 0 < a < 4096 -> vlan_match a c <> port_match b m d.
Proof.
  intros a b m c d Ha E. unfold vlan_match, port_match, class_items in E.
  destruct c as [u [t|] [[x k]|]]; simpl in E; try discriminate.
  unfold vlan_item in E. destruct (a =? OFPVID_NONE); discriminate.
Qed.

(** ** From a table with the right rules to the right deliveries *)

Lemma copies_in_wire : forall k es, k <> OFPP_IN_PORT -> copies OFPP_IN_PORT (wire k es) = [].
Proof.
  intros k es Hk. unfold copies, wire. induction es as [|[n p] es IH]; auto.
  cbn [flat_map]. unfold transmit. destruct (Z.eqb_spec n OFPP_IN_PORT) as [->|N].
  - cbn [app filter fst]. destruct (Z.eqb_spec k OFPP_IN_PORT); [congruence|]. auto.
  - destruct (Z.eqb_spec n k); auto. cbn [app filter fst]. destruct (Z.eqb_spec n OFPP_IN_PORT); [congruence|]. auto.
Qed.

Lemma copies_outputs : forall g live acts p n, no_groups acts ->
  (In n (output_ports acts) <-> copies n (fst (exec_acts g live acts p)) <> []).
Proof.
  intros g live. induction acts as [|a acts IH]; intros p n H; simpl; [unfold copies; simpl; tauto|].
  destruct a as [k l|f x| | |gid| |rc arg]; simpl in H |- *; try (apply IH; auto); [|contradiction].
  specialize (IH p n H). destruct (exec_acts g live acts p) as [es p']. simpl in *. unfold copies in *. simpl.
  destruct (Z.eqb_spec k n) as [->|N]; simpl.
  - split; [discriminate|auto].
  - rewrite <- IH. intuition congruence.
Qed.

Lemma num_not_in_port : forall v q, wf_vlan v -> In q (members v) -> p_num q <> OFPP_IN_PORT.
Proof. intros v q WF H. pose proof (wf_range v WF q H). unfold OFPP_MAX, OFPP_IN_PORT in *. lia. Qed.

Lemma port_delivers : forall g live v eu i ae er p, wf_vlan v -> pk_tags p <> [] -> In i (members v) ->
  flood_acts_for_port v eu i ae er <> [] ->
  delivers v eu ae (er && p_restricted i) i p
    (wire (p_num i) (fst (exec_acts g live (flood_acts_for_port v eu i ae er) p))).
Proof.
  intros g live v eu i ae er p WF Ht Hi Hn.
  pose proof (num_not_in_port v i WF Hi) as Ni.
  set (es := fst (exec_acts g live (flood_acts_for_port v eu i ae er) p)).
  destruct (port_flood_lemma g live v eu i ae er p WF Ht Hn) as [F1 [F2 [F3 F4]]].
  destruct (port_reflect_lemma g live v eu i ae er p WF Ht Hi Hn) as [R1 R2].
  fold es in F1, F2, F3, F4, R1, R2.
  assert (W : forall q, In q (members v) -> p_num q <> p_num i -> copies (p_num q) (wire (p_num i) es) = copies (p_num q) es).
  { intros q Hq N. apply copies_wire; auto. eapply num_not_in_port; eauto. }
  unfold delivers. split; [|split; [|split; [|split; [|split]]]]; auto.
  - intros q Hq He. destruct He as [M [A [B C]]] eqn:E. rewrite W; auto.
  - intros q Hq He. destruct He as [M [A [B C]]] eqn:E. rewrite W; auto.
  - intros q Hq N Hc. rewrite W in Hc; auto.
  - intros n Hno Hc. destruct (Z.eq_dec n OFPP_IN_PORT) as [->|N].
    + rewrite copies_in_wire in Hc; congruence.
    + apply F4; auto. rewrite <- (proj2 (copies_wire (p_num i) n es Ni)); auto.
      intros ->. apply (Hno i); auto.
Qed.

Lemma vlan_acts_no_groups : forall v eu, no_groups (flood_acts_for_vlan v eu).
Proof. intros. apply flood_no_groups. Qed.
Lemma port_acts_no_groups : forall v eu i ae er, no_groups (flood_acts_for_port v eu i ae er).
Proof.
  intros. unfold flood_acts_for_port. destruct (p_phys_up i); [|simpl; auto].
  destruct (nonempty _); [|simpl; auto]. apply dedupe_no_groups, flood_no_groups.
Qed.

Lemma dedupe_outputs_same : forall l ps as_ n, (In n (output_ports (dedupe_acts l ps as_)) \/ In n ps <-> In n (output_ports l) \/ In n ps).
Proof.
  induction l as [|a l IH]; intros ps as_ n; simpl; [tauto|].
  destruct a as [k m|f x| | |gid| |rc arg]; simpl;
    try (destruct (existsb (action_eqb _) as_); simpl; apply IH).
  destruct (existsb (Z.eqb k) ps) eqn:E; simpl.
  - rewrite IH. apply existsb_Zeqb in E. split; intros [H|H]; auto. destruct H as [<-|H]; auto.
  - specialize (IH (k :: ps) as_ n). simpl in IH. intuition.
Qed.

Lemma set_eqb_spec : forall a b, set_eqb a b = true <-> forall n, In n a <-> In n b.
Proof.
  intros a b. unfold set_eqb, subset. rewrite andb_true_iff, !forallb_forall. split.
  - intros [A B] n. split; intros H; apply existsb_Zeqb; auto.
  - intros H. split; intros x Hx; apply existsb_Zeqb, H; auto.
Qed.

Lemma vlan_delivers : forall g live v c i p, wf_vlan v -> pk_tags p <> [] -> In i (members v) ->
  class_port_acts v c i <> [] -> same_as_vlan v c i = true ->
  delivers v (fc_unicast c) false (match fc_type c with None => true | Some _ => false end && p_restricted i) i p
    (wire (p_num i) (fst (exec_acts g live (flood_acts_for_vlan v (fc_unicast c)) p))).
Proof.
  intros g live v c i p WF Ht Hi Hn Hs.
  pose proof (num_not_in_port v i WF Hi) as Ni.
  set (eu := fc_unicast c) in *. set (er := match fc_type c with None => true | Some _ => false end) in *.
  set (es := fst (exec_acts g live (flood_acts_for_vlan v eu) p)).
  unfold same_as_vlan in Hs. apply andb_true_iff in Hs as [Hs _].
  assert (S : forall n, (In n (output_ports (flood_acts_for_vlan v eu)) /\ n <> p_num i) <->
                   In n (output_ports (class_port_acts v c i))).
  { intros n. rewrite set_eqb_spec in Hs. specialize (Hs n). rewrite <- Hs, filter_In, negb_true_iff, Z.eqb_neq.
    pose proof (dedupe_outputs_same (flood_acts_for_vlan v eu) [] [] n) as D. simpl in D. fold eu. tauto. }
  unfold class_port_acts in Hn, Hs, S. fold eu er in Hn, Hs, S.
  set (ep := fst (exec_acts g live (flood_acts_for_port v eu i false er) p)).
  assert (C : forall n, (copies n es <> [] /\ n <> p_num i) <-> copies n ep <> []).
  { intros n. unfold es, ep. rewrite <- (copies_outputs g live _ p n (vlan_acts_no_groups v eu)).
    rewrite <- (copies_outputs g live _ p n (port_acts_no_groups v eu i false er)). apply S. }
  destruct (port_flood_lemma g live v eu i false er p WF Ht Hn) as [P1 [P2 [P3 P4]]].
  destruct (vlan_flood_lemma g live v eu p WF Ht) as [F1 [F2 [F3 F4]]].
  fold es in F1, F2, F3, F4. fold ep in P1, P2, P3, P4.
  destruct (port_reflect_lemma g live v eu i false er p WF Ht Hi Hn) as [R1 _]. fold ep in R1.
  pose proof (vlan_reflect_lemma g live v eu i p WF Ht Hi) as R2. fold es in R2.
  assert (W : forall q, In q (members v) -> p_num q <> p_num i -> copies (p_num q) (wire (p_num i) es) = copies (p_num q) es).
  { intros q Hq N. apply copies_wire; auto. eapply num_not_in_port; eauto. }
  unfold delivers. split; [|split; [|split; [|split; [|split]]]].
  - intros q Hq He. assert (E := He). destruct E as [M [_ [N _]]]. rewrite W by auto. apply F1; auto.
    apply F3; auto. apply (proj2 (C (p_num q))).
    destruct (P1 q Hq He) as [p' [X _]]. congruence.
  - intros q Hq He. assert (E := He). destruct E as [M [_ [N _]]]. rewrite W by auto. apply F2; auto.
    apply F3; auto. apply (proj2 (C (p_num q))).
    destruct (P2 q Hq He) as [p' [X _]]. congruence.
  - intros q Hq N Hc. rewrite W in Hc by auto. apply P3; auto. apply C; auto.
  - intros H. exfalso. destruct (R1 H) as [p' [X _]].
    rewrite (proj1 (copies_wire (p_num i) 0 ep Ni)) in X.
    rewrite (proj1 (copies_wire (p_num i) 0 es Ni)) in R2.
    assert (Y : copies OFPP_IN_PORT ep <> []) by congruence. apply C in Y as [Y _]. congruence.
  - intros _. exact R2.
  - intros n Hno Hc. destruct (Z.eq_dec n OFPP_IN_PORT) as [->|N].
    + rewrite copies_in_wire in Hc; congruence.
    + assert (n <> p_num i) by (intros ->; apply (Hno i); auto).
      rewrite (proj2 (copies_wire (p_num i) n es Ni)) in Hc by auto.
      apply P4; auto. apply C; auto.
Qed.

Lemma trim_apply : forall g live acts p,
  exists p', exec_insts g live (trim [Apply acts]) p = (fst (exec_acts g live acts p), p', None).
Proof.
  intros g live acts p. unfold trim. destruct (trim_inst None [Apply acts]) as [i|] eqn:E.
  - pose proof (trim_inst_preserves_lemma g live None [Apply acts] i p (le_n _) E) as H.
    cbn [exec_insts] in H. destruct (exec_acts g live acts p) as [es q] eqn:Ea.
    destruct (exec_insts g live i p) as [[es' q'] nx].
    rewrite app_nil_r in H. destruct H as [-> [-> _]]. eauto.
  - cbn [exec_insts]. destruct (exec_acts g live acts p) as [es q]. rewrite app_nil_r. eauto.
Qed.

Lemma hit_exists : forall fs t p f, In f fs -> f_table f = t -> matches p (f_match f) = true ->
  exists h, hit fs t p h.
Proof.
  intros fs t p. induction fs as [|a fs IH]; intros f Hf Ht Hm; [destruct Hf|].
  assert (D : (exists h, hit fs t p h) \/ forall g, In g fs -> f_table g = t -> matches p (f_match g) = true -> False).
  { clear Hf. destruct (existsb (fun g => (f_table g =? t) && matches p (f_match g)) fs) eqn:E.
    - apply existsb_exists in E as [g [Hg E]]. apply andb_true_iff in E as [E1 E2]. apply Z.eqb_eq in E1.
      left. apply (IH g); auto.
    - right. intros g Hg E1 E2. assert (X : existsb (fun g => (f_table g =? t) && matches p (f_match g)) fs = true); [|congruence].
      apply existsb_exists. exists g. rewrite E1, E2, Z.eqb_refl. auto. }
  destruct (Z.eq_dec (f_table a) t) as [Ta|Ta]; [destruct (matches p (f_match a)) eqn:Ma|].
  - destruct D as [[h [H1 [H2 [H3 H4]]]]|D].
    + destruct (Z_le_gt_dec (f_prio h) (f_prio a)) as [L|L].
      * exists a. split; [left; auto|split; auto; split; auto]. intros g [<-|Hg] E1 E2; [lia|].
        specialize (H4 g Hg E1 E2). lia.
      * exists h. split; [right; auto|split; auto; split; auto]. intros g [<-|Hg] E1 E2; [lia|auto].
    + exists a. split; [left; auto|split; auto; split; auto]. intros g [<-|Hg] E1 E2; [lia|].
      exfalso; eauto.
  - destruct Hf as [->|Hf]; [congruence|]. destruct D as [[h [H1 [H2 [H3 H4]]]]|D]; [|exfalso; eauto].
    exists h. split; [right; auto|split; auto; split; auto]. intros g [<-|Hg] E1 E2; [congruence|auto].
  - destruct Hf as [->|Hf]; [congruence|]. destruct D as [[h [H1 [H2 [H3 H4]]]]|D]; [|exfalso; eauto].
    exists h. split; [right; auto|split; auto; split; auto]. intros g [<-|Hg] E1 E2; [congruence|auto].
Qed.

(** ** Reserved destinations *)
Lemma land_hi : forall x a n, 0 <= n -> Z.land x (a * 2 ^ n) = Z.land (x / 2 ^ n) a * 2 ^ n.
Proof.
  intros x a n Hn. rewrite <- !Z.shiftl_mul_pow2, <- Z.shiftr_div_pow2 by auto.
  apply Z.bits_inj'. intros k Hk. rewrite Z.land_spec, !Z.shiftl_spec, Z.land_spec by auto.
  destruct (Z_lt_le_dec k n).
  - rewrite !(Z.testbit_neg_r _ (k - n)) by lia. rewrite andb_false_r. auto.
  - rewrite Z.shiftr_spec by lia. replace (k - n + n) with k by lia. auto.
Qed.
Lemma land_ones_48 : forall x, 0 <= x < 2 ^ 48 -> Z.land x 0xffffffffffff = x.
Proof.
  intros x H. change 0xffffffffffff with (Z.ones 48). rewrite Z.land_ones by lia. apply Z.mod_small; auto.
Qed.
Lemma land_byte : forall x n, 0 <= x < 2 ^ 48 -> 0 < n < 6 ->
  Z.land x (mac_byte_mask n) = x / 2 ^ (8 * (6 - n)) * 2 ^ (8 * (6 - n)).
Proof.
  intros x n Hx Hn. unfold mac_byte_mask.
  replace (2 ^ 48 - 2 ^ (8 * (6 - n))) with (Z.ones (8 * n) * 2 ^ (8 * (6 - n))).
  2:{ rewrite Z.ones_equiv, Z.mul_pred_l, <- Z.pow_add_r by lia. replace (8 * n + 8 * (6 - n)) with 48 by lia. lia. }
  rewrite land_hi, Z.land_ones by lia. rewrite Z.mod_small; auto.
  split; [apply Z.div_pos; [lia|apply Z.pow_pos_nonneg; lia]|].
  apply Z.div_lt_upper_bound; [apply Z.pow_pos_nonneg; lia|]. rewrite <- Z.pow_add_r by lia.
  replace (8 * (6 - n) + 8 * n) with 48 by lia. lia.
Qed.
Lemma byte_class : forall x d n, 0 <= x < 2 ^ 48 -> 0 <= d < 2 ^ 48 -> 0 < n < 6 ->
  (Z.land x (mac_byte_mask n) = Z.land d (mac_byte_mask n) <-> x / 2 ^ (8 * (6 - n)) = d / 2 ^ (8 * (6 - n))).
Proof.
  intros x d n Hx Hd Hn. rewrite !land_byte by auto.
  assert (0 < 2 ^ (8 * (6 - n))) by (apply Z.pow_pos_nonneg; lia). split; [|congruence].
  intros E. apply Z.mul_reg_r in E; auto; lia.
Qed.
Lemma full_class : forall x d, 0 <= x < 2 ^ 48 -> 0 <= d < 2 ^ 48 ->
  (Z.land x (mac_byte_mask 6) = Z.land d (mac_byte_mask 6) <-> x = d).
Proof.
  intros x d Hx Hd. change (mac_byte_mask 6) with 0xffffffffffff. rewrite !land_ones_48 by auto. tauto.
Qed.

Lemma has_dst_class : forall p x (P : Z -> Prop), has_dst p x ->
  ((exists y, pk_hdr p EthDst = Some y /\ P y) <-> P x).
Proof. intros p x P [E _]. split; [intros [y [E' H]]; congruence|eauto]. Qed.

Lemma filter_match : forall p x, has_dst p x ->
  ((exists dm, In dm filter_dsts /\ matches p [masked EthDst (fst dm) (snd dm)] = true) <-> reserved_dst p).
Proof.
  intros p x D. assert (MAC := proj2 D).
  assert (I : forall d m, matches p [masked EthDst d m] = true <-> Z.land x m = Z.land d m).
  { intros d m. cbn [matches forallb]. rewrite andb_true_r. unfold item_matches, masked. cbn [pk_get].
    rewrite (proj1 D). apply Z.eqb_eq. }
  assert (N : Z.land x 0xfffffffffff0 = Z.land 0x0180c2000000 0xfffffffffff0 <-> 0x0180c2000000 <= x <= 0x0180c200000f).
  { change 0xfffffffffff0 with (0xfffffffffff * 2 ^ 4).
    rewrite !land_hi by lia. change 0xfffffffffff with (Z.ones 44).
    change (2 ^ 4) with 16. change (0x0180c2000000 / 16) with 0x0180c200000.
    change (Z.land 0x0180c200000 (Z.ones 44)) with 0x0180c200000.
    rewrite Z.land_ones, Z.mod_small.
    - pose proof (Z.div_mod x 16 ltac:(lia)). pose proof (Z.mod_pos_bound x 16 ltac:(lia)). lia.
    - split; [apply Z.div_pos; lia|]. apply Z.div_lt_upper_bound; [lia|]. change (16 * 2 ^ 44) with (2 ^ 48). lia.
    - lia. }
  split.
  - intros [dm [[<-|[<-|[<-|[]]]] H]]; apply I in H; exists x; split; auto; cbn [fst snd] in H.
    + left. apply (full_class x 0x01000ccccccc MAC ltac:(lia)). exact H.
    + right; left. apply (full_class x 0x01000ccccccd MAC ltac:(lia)). exact H.
    + right; right. apply N; auto.
  - intros [y [E H]]. assert (y = x) by (destruct E, D; congruence). subst y. destruct H as [H|[H|H]].
    + exists (0x01000ccccccc, mac_byte_mask 6). split; [left; auto|]. apply I. rewrite H. auto.
    + exists (0x01000ccccccd, mac_byte_mask 6). split; [right; left; auto|]. apply I. rewrite H. auto.
    + exists (0x0180c2000000, 0xfffffffffff0). split; [right; right; left; auto|]. apply I. apply N; auto.
Qed.

(** ** The class of a frame *)
Ltac dst_goal x D := unfold in_class; cbn [fc_dst fc_type];
  rewrite ?(has_dst_class _ x (fun y => Z.land y (mac_byte_mask 6) = Z.land _ (mac_byte_mask 6)) D),
          ?(has_dst_class _ x (fun y => Z.land y (mac_byte_mask 3) = Z.land _ (mac_byte_mask 3)) D),
          ?(has_dst_class _ x (fun y => Z.land y (mac_byte_mask 2) = Z.land _ (mac_byte_mask 2)) D).

Lemma class_by_dst : forall p x u t d n, has_dst p x -> 0 <= d < 2 ^ 48 -> 0 < n <= 6 ->
  (in_class p (mkClass u t (Some (d, mac_byte_mask n))) <->
   (if n =? 6 then x = d else x / 2 ^ (8 * (6 - n)) = d / 2 ^ (8 * (6 - n))) /\
   match t with Some t => pk_hdr p EthType = Some t | None => True end).
Proof.
  intros p x u t d n D Hd Hn. unfold in_class. cbn [fc_dst fc_type].
  rewrite (has_dst_class p x (fun y => Z.land y (mac_byte_mask n) = Z.land d (mac_byte_mask n)) D).
  destruct (Z.eqb_spec n 6) as [->|N].
  - rewrite full_class by (auto; apply D). tauto.
  - rewrite byte_class by (try apply D; auto; lia). tauto.
Qed.

Lemma restricted_class : forall p x c, has_dst p x -> In c RESTRICTED_FLOOD_DISTS -> in_class p c ->
  arp_nd x (pk_hdr p EthType) = true.
Proof.
  intros p x c D Hc I.
  repeat (destruct Hc as [<-|Hc]; [apply (class_by_dst p x) in I; auto; [|lia|lia]; cbn in I; destruct I as [I ->];
    unfold arp_nd; subst; try reflexivity|]); [|destruct Hc].
  cbv beta iota. change (x / 2 ^ 24 = 0x3333ff) in I. rewrite I. reflexivity.
Qed.
Lemma arp_nd_class : forall p x, has_dst p x -> arp_nd x (pk_hdr p EthType) = true ->
  exists c, In c RESTRICTED_FLOOD_DISTS /\ in_class p c.
Proof.
  intros p x D H. unfold arp_nd in H.
  assert (T : pk_hdr p EthType = Some 0x806 /\ (x =? 0xffffffffffff) = true \/
    pk_hdr p EthType = Some 0x86dd /\ (x / 2 ^ 24 =? 0x3333ff) || (x =? 0x333300000001) || (x =? 0x333300000002) = true).
  { destruct (pk_hdr p EthType) as [t|]; [|discriminate].
    destruct (Z.eq_dec t 0x806) as [->|N1]; [auto|]. destruct (Z.eq_dec t 0x86dd) as [->|N2]; [auto|].
    exfalso. revert H N1 N2. clear. intros H N1 N2.
    repeat (match type of H with context [match ?t with _ => _ end] => destruct t; try discriminate; try congruence end). }
  destruct T as [[T H']|[T H']].
  - apply Z.eqb_eq in H'. eexists; split; [left; reflexivity|]. apply (class_by_dst p x); auto; lia.
  - rewrite !orb_true_iff, !Z.eqb_eq in H'. destruct H' as [[H'|H']|H'].
    + eexists; split; [right; left; reflexivity|]. apply (class_by_dst p x); auto; lia.
    + eexists; split; [right; right; right; left; reflexivity|]. apply (class_by_dst p x); auto; lia.
    + eexists; split; [right; right; left; reflexivity|]. apply (class_by_dst p x); auto; lia.
Qed.
Lemma group_class : forall p x c, has_dst p x -> In c all_classes -> fc_unicast c = false -> in_class p c -> group_dst x = true.
Proof.
  intros p x c D Hc U I. unfold group_dst. rewrite !orb_true_iff, !Z.eqb_eq.
  destruct Hc as [<-|Hc]; [discriminate|].
  repeat (destruct Hc as [<-|Hc]; [apply (class_by_dst p x) in I; auto; [|lia|lia]; cbn -[Z.div Z.pow] in I; destruct I as [I _];
    auto; try (subst; auto; fail)|]); [|destruct Hc].
  right. change (8 * (6 - 3)) with 24 in I. change (0x3333ff000000 / 2 ^ 24) with 0x3333ff in I.
  change (2 ^ 32) with (2 ^ 24 * 2 ^ 8). rewrite <- Z.div_div by lia. rewrite I. reflexivity.
Qed.
Lemma class_group : forall p x, has_dst p x -> group_dst x = true ->
  exists c, In c FLOOD_DSTS /\ fc_unicast c = false /\ in_class p c.
Proof.
  intros p x D H. unfold group_dst in H. rewrite !orb_true_iff, !Z.eqb_eq in H.
  destruct H as [[[H|H]|H]|H].
  - exists (mkClass false None (Some (0xffffffffffff, mac_byte_mask 6))). split; [simpl; auto 9|]. split; auto.
    apply (class_by_dst p x); auto; lia.
  - exists (mkClass false None (Some (0x01005e000000, mac_byte_mask 3))). split; [simpl; auto 9|]. split; auto.
    apply (class_by_dst p x); auto; lia.
  - exists (mkClass false None (Some (0x0180c2000000, mac_byte_mask 3))). split; [simpl; auto 9|]. split; auto.
    apply (class_by_dst p x); auto; lia.
  - exists (mkClass false None (Some (0x333300000000, mac_byte_mask 2))). split; [simpl; auto 9|]. split; auto.
    apply (class_by_dst p x); auto; lia.
Qed.

Definition in_classb (p : packet) (c : fclass) : bool := matches p (class_items c).
Lemma best_exists : forall cs p c, In c cs -> in_class p c -> exists b, best_class cs p b.
Proof.
  intros cs p c Hc Ic.
  set (fs := map (fun c => mkFlow 0 (class_prio c) (class_items c) 0 [] 0 0 0) cs).
  destruct (hit_exists fs 0 p (mkFlow 0 (class_prio c) (class_items c) 0 [] 0 0 0)) as [f [H1 [H2 [H3 H4]]]].
  - apply in_map_iff; eauto.
  - reflexivity.
  - apply class_items_match; auto.
  - apply in_map_iff in H1 as [b [<- Hb]]. exists b. split; [auto|]. split; [apply class_items_match; auto|].
    intros c' Hc' Ic'. apply (H4 (mkFlow 0 (class_prio c') (class_items c') 0 [] 0 0 0)); auto.
    + apply in_map_iff; eauto.
    + apply class_items_match; auto.
Qed.

Lemma best_class_spec : forall r v p x, has_dst p x -> (group_dst x = false -> v_unicast_flood v = true) ->
  exists c, best_class (vlan_classes r v) p c /\ fc_unicast c = negb (group_dst x) /\
    match fc_type c with None => true | Some _ => false end = negb (r && arp_nd x (pk_hdr p EthType)).
Proof.
  intros r v p x D Hu.
  assert (Sub : forall c, In c FLOOD_DSTS -> In c (flood_dsts r)).
  { intros c H. unfold flood_dsts. destruct r; auto. apply in_app_iff; auto. }
  assert (V : forall c, In c (flood_dsts r) -> fc_unicast c = false -> In c (vlan_classes r v)).
  { intros c H U. apply filter_In. rewrite U. auto. }
  assert (E : exists c, In c (vlan_classes r v) /\ in_class p c).
  { destruct (group_dst x) eqn:G.
    - destruct (class_group p x D G) as [c [A [B C]]]. exists c. auto.
    - exists (mkClass true None None). split; [|split; simpl; auto]. apply filter_In. split; [apply Sub; left; auto|].
      cbn. rewrite Hu; auto. }
  destruct E as [c0 [Hc0 Ic0]]. destruct (best_exists _ p c0 Hc0 Ic0) as [c B]. exists c. split; auto.
  destruct B as [Bc [Bi Bm]].
  assert (X : forallb (fun c => forallb (fun d => implb (fc_unicast d && negb (fc_unicast c)) (class_prio d <? class_prio c)
                  && implb (match fc_type d, fc_type c with None, Some _ => true | _, _ => false end) (class_prio d <? class_prio c))
                  all_classes) all_classes = true) by (vm_compute; reflexivity).
  assert (Y : forall c d, In c all_classes -> In d all_classes ->
     (fc_unicast d = true -> fc_unicast c = false -> class_prio d < class_prio c) /\
     (fc_type d = None -> fc_type c <> None -> class_prio d < class_prio c)).
  { intros c1 d1 H1 H2. pose proof (proj1 (forallb_forall _ _) X c1 H1) as K. pose proof (proj1 (forallb_forall _ _) K d1 H2) as K'.
    cbv beta in K'. apply andb_true_iff in K' as [K1 K2]. split.
    - intros A1 A2. rewrite A1, A2 in K1. apply Z.ltb_lt. exact K1.
    - intros A1 A2. rewrite A1 in K2. destruct (fc_type c1); [|congruence]. apply Z.ltb_lt. exact K2. }
  split.
  - destruct (group_dst x) eqn:G; simpl.
    + destruct (fc_unicast c) eqn:U; auto. exfalso. destruct (class_group p x D G) as [d [A1 [A2 A3]]].
      pose proof (Bm d (V d (Sub d A1) A2) A3).
      pose proof (proj1 (Y d c (flood_dsts_all _ _ (Sub d A1)) (vlan_classes_all _ _ _ Bc)) U A2). lia.
    + destruct (fc_unicast c) eqn:U; auto. exfalso.
      assert (group_dst x = true) by (eapply group_class; eauto using vlan_classes_all). congruence.
  - assert (TR : forall c, In c RESTRICTED_FLOOD_DISTS -> fc_type c <> None /\ fc_unicast c = false).
    { intros d Hd. repeat (destruct Hd as [<-|Hd]; [split; [discriminate|reflexivity]|]). destruct Hd. }
    assert (TN : forall c, In c FLOOD_DSTS -> fc_type c = None).
    { intros d Hd. repeat (destruct Hd as [<-|Hd]; [reflexivity|]). destruct Hd. }
    destruct (r && arp_nd x (pk_hdr p EthType)) eqn:R; simpl.
    + apply andb_true_iff in R as [-> R]. destruct (arp_nd_class p x D R) as [d [A1 A2]].
      destruct (TR d A1) as [T1 T2].
      destruct (fc_type c) eqn:T; auto. exfalso.
      assert (A3 : In d (flood_dsts true)) by (apply in_app_iff; auto).
      pose proof (Bm d (V d A3 T2) A2).
      pose proof (proj2 (Y d c A3 (vlan_classes_all _ _ _ Bc)) T T1). lia.
    + destruct (fc_type c) eqn:T; auto. exfalso.
      apply filter_In in Bc as [Bc _]. unfold flood_dsts in Bc. destruct r.
      * apply in_app_iff in Bc as [Bc|Bc]; [rewrite TN in T; [discriminate|auto]|].
        pose proof (restricted_class p x c D Bc Bi). simpl in R. congruence.
      * rewrite TN in T; [discriminate|auto].
Qed.

(** ** Known flows *)
Section Table.
  Variable ft : table.
  Variable md : mode.
  Variable restricted : bool.
  Hypothesis NotGrouped : md <> Grouped.

  Definition known_slot (prio : Z) (m : fmatch) : Prop :=
    (md = Multi /\ exists vid c, 0 < vid < 4096 /\ In c (flood_dsts restricted) /\ prio = class_prio c /\ m = vlan_match vid c) \/
    (exists vid n c, 0 < vid < 4096 /\ In c (flood_dsts restricted) /\ prio = class_prio c + 1 /\ m = port_match vid n c).
  Definition drop_slot (prio : Z) (m : fmatch) : Prop :=
    (exists dm, In dm filter_dsts /\ prio = 0x2000 + mac_mask_bits (snd dm) /\ m = [masked EthDst (fst dm) (snd dm)]) \/
    (prio = 0 /\ m = []).
  Definition known (f : flow) : Prop :=
    f_table f = tb_id ft /\
    (known_slot (f_prio f) (f_match f) \/ (f_inst f = [] /\ drop_slot (f_prio f) (f_match f))).

  Record good_table (fs : list flow) (v : vlan) : Prop := {
    gt_known : forall f, In f fs -> known f;
    gt_vlan : md = Multi -> forall c, In c (vlan_classes restricted v) ->
       (exists f, In f fs /\ f_table f = tb_id ft /\ f_prio f = class_prio c /\ f_match f = vlan_match (v_vid v) c) /\
       (forall f, In f fs -> f_table f = tb_id ft -> f_prio f = class_prio c -> f_match f = vlan_match (v_vid v) c ->
          f_inst f = trim [Apply (flood_acts_for_vlan v (fc_unicast c))]);
    gt_port : forall c q, In c (vlan_classes restricted v) -> In q (flood_ports (members v) (fc_unicast c)) ->
       class_port_acts v c q <> [] -> md = Combinatorial \/ same_as_vlan v c q = false ->
       (exists f, In f fs /\ f_table f = tb_id ft /\ f_prio f = class_prio c + 1 /\ f_match f = port_match (v_vid v) (p_num q) c) /\
       (forall f, In f fs -> f_table f = tb_id ft -> f_prio f = class_prio c + 1 -> f_match f = port_match (v_vid v) (p_num q) c ->
          f_inst f = trim [Apply (class_port_acts v c q)]);
    gt_noport : md = Multi -> forall c q, In c (vlan_classes restricted v) -> In q (flood_ports (members v) (fc_unicast c)) ->
       class_port_acts v c q <> [] -> same_as_vlan v c q = true ->
       forall f, In f fs -> f_table f = tb_id ft -> f_prio f = class_prio c + 1 -> f_match f <> port_match (v_vid v) (p_num q) c
  }.

  Lemma class_dropped : forall v c d, In c (flood_dsts restricted) -> ~ In c (vlan_classes restricted v) ->
    In d (vlan_classes restricted v) -> class_prio c + 2 <= class_prio d.
  Proof.
    intros v c d Hc Hn Hd. apply filter_In in Hd as [Hd Ud]. 
    assert (U : fc_unicast c && negb (v_unicast_flood v) = true).
    { destruct (fc_unicast c && negb (v_unicast_flood v)) eqn:E; auto. exfalso; apply Hn, filter_In. rewrite E; auto. }
    apply andb_true_iff in U as [U1 U2]. rewrite U2, andb_true_r, negb_true_iff in Ud.
    assert (X : forallb (fun c => forallb (fun d => negb (fc_unicast c) || fc_unicast d || (class_prio c + 2 <=? class_prio d)) all_classes) all_classes = true)
      by (vm_compute; reflexivity).
    pose proof (proj1 (forallb_forall _ _) X c (flood_dsts_all _ _ Hc)) as Y.
    pose proof (proj1 (forallb_forall _ _) Y d (flood_dsts_all _ _ Hd)) as Z.
    simpl in Z. rewrite U1, Ud in Z. simpl in Z. apply Z.leb_le in Z. auto.
  Qed.

  Section Deliver.
    Variables (fs : list flow) (v : vlan) (c : fclass) (i : port) (p : packet) (pcp : Z) (r : list (Z * Z)).
    Hypothesis GT : good_table fs v.
    Hypothesis VV : valid_vlan v.
    Hypothesis Mi : In i (members v).
    Hypothesis Hin : pk_in p = p_num i.
    Hypothesis Htag : pk_tags p = (v_vid v, pcp) :: r.
    Variable x : Z.
    Hypothesis MAC : has_dst p x.
    Hypothesis Best : best_class (vlan_classes restricted v) p c.
    Hypothesis Uni : fc_unicast c = true -> p_unicast_flood i = true.
    Hypothesis NR : ~ reserved_dst p.
    Hypothesis Acts : class_port_acts v c i <> [].

    Lemma i_flood : In i (flood_ports (members v) (fc_unicast c)).
    Proof. unfold flood_ports. destruct (fc_unicast c); auto. apply filter_In; auto. Qed.

    (** some rule with at least the class's priority matches *)
    Lemma rule_exists : exists f, In f fs /\ f_table f = tb_id ft /\ matches p (f_match f) = true /\ class_prio c <= f_prio f /\
      (md = Combinatorial \/ same_as_vlan v c i = false -> class_prio c + 1 <= f_prio f).
    Proof.
      destruct Best as [Bc [Ic _]]. destruct VV as [WF V].
      assert (C : md = Combinatorial \/ same_as_vlan v c i = false \/ (md = Multi /\ same_as_vlan v c i = true)).
      { destruct md; auto; [|congruence]. destruct (same_as_vlan v c i); auto. }
      assert (P : md = Combinatorial \/ same_as_vlan v c i = false -> exists f, In f fs /\ f_table f = tb_id ft /\
          f_prio f = class_prio c + 1 /\ f_match f = port_match (v_vid v) (p_num i) c).
      { intros H. apply (gt_port fs v GT c i Bc i_flood Acts H). }
      destruct C as [C|[C|[C1 C2]]].
      1,2: destruct (P ltac:(auto)) as [f [A [B [D E]]]]; exists f; rewrite E, D; split; [auto|]; split; [auto|];
           split; [|split; [lia|intros; lia]]; apply (port_match_spec p (v_vid v) (p_num i) c (v_vid v) pcp r); auto; lia.
      destruct (gt_vlan fs v GT C1 c Bc) as [[f [A [B [D E]]]] _].
      exists f. split; [auto|]. split; [auto|]. rewrite D, E. split; [|split; [lia|intros [K|K]; congruence]].
      apply (vlan_match_spec p (v_vid v) c (v_vid v) pcp r); auto; lia.
    Qed.

    Lemma class_le : forall c', In c' (flood_dsts restricted) -> in_class p c' -> c' = c \/ class_prio c' + 2 <= class_prio c.
    Proof.
      intros c' Hc' Ic'. destruct Best as [Bc [Ic Bm]].
      destruct (in_dec class_eq_dec c' (vlan_classes restricted v)) as [I|N].
      - specialize (Bm c' I Ic').
        destruct (class_sep p c' c) as [E|[E|E]]; auto; try lia.
        + apply flood_dsts_all with restricted; auto.
        + eapply vlan_classes_all; eauto.
      - right. eapply class_dropped; eauto.
    Qed.

    Lemma flood_table_delivers : forall g live f es p' nx, hit fs (tb_id ft) p f ->
      exec_insts g live (f_inst f) p = (es, p', nx) ->
      nx = None /\
      delivers v (fc_unicast c) false (match fc_type c with None => true | Some _ => false end && p_restricted i) i p
        (wire (p_num i) es).
    Proof.
      intros g live f es p' nx [Hf [Tf [Mf Top]]] Ex.
      destruct VV as [WF V]. destruct rule_exists as [f0 [F1 [F2 [F3 [F4 F5]]]]].
      assert (T0 : f_prio f0 <= f_prio f) by (apply Top; auto).
      assert (Ht : pk_tags p <> []) by (rewrite Htag; discriminate).
      destruct (gt_known fs v GT f Hf) as [_ [[[K1 [vid [c' [Kv [Kc [Kp Km]]]]]]|[vid [n [c' [Kv [Kc [Kp Km]]]]]]]|[Ki Kd]]].
      - (* VLAN rule *)
        rewrite Km in Mf. apply (vlan_match_spec p vid c' (v_vid v) pcp r) in Mf as [Ic' <-]; auto; [|lia].
        destruct (class_le c' Kc Ic') as [->|L]; [|lia].
        destruct Best as [Bc _].
        assert (S : same_as_vlan v c i = true).
        { destruct (same_as_vlan v c i) eqn:S; auto. specialize (F5 (or_intror eq_refl)). lia. }
        rewrite (proj2 (gt_vlan fs v GT K1 c Bc) f Hf Tf Kp Km) in Ex.
        destruct (trim_apply g live (flood_acts_for_vlan v (fc_unicast c)) p) as [p1 E1].
        rewrite E1 in Ex. injection Ex as <- <- <-. split; auto.
        apply vlan_delivers; auto.
      - (* port rule *)
        rewrite Km in Mf. apply (port_match_spec p vid n c' (v_vid v) pcp r) in Mf as [In_ [Ic' <-]]; auto; [|lia].
        destruct (class_le c' Kc Ic') as [->|L]; [|lia].
        destruct Best as [Bc _]. rewrite Hin in In_. subst n.
        assert (S : md = Combinatorial \/ same_as_vlan v c i = false).
        { destruct md eqn:Emd; auto; [|congruence]. destruct (same_as_vlan v c i) eqn:S; auto. exfalso.
          eapply (gt_noport fs v GT Emd c i Bc i_flood Acts S f); eauto. }
        rewrite (proj2 (gt_port fs v GT c i Bc i_flood Acts S) f Hf Tf Kp Km) in Ex.
        destruct (trim_apply g live (class_port_acts v c i) p) as [p1 E1].
        rewrite E1 in Ex. injection Ex as <- <- <-. split; auto.
        apply port_delivers; auto.
      - exfalso. destruct Kd as [[dm [D1 [D2 D3]]]|[D1 D2]].
        + apply NR, (filter_match p x); auto. exists dm. rewrite <- D3. auto.
        + assert (0x2000 <= class_prio c); [|lia]. apply class_prio_pos. eapply vlan_classes_all; apply Best.
    Qed.
    Lemma flood_table_hit : exists f, hit fs (tb_id ft) p f.
    Proof. destruct rule_exists as [f [A [B [C _]]]]. eapply hit_exists; eauto. Qed.
  End Deliver.

  (** ** From a batch to a good table *)
  Record part := mkPart { pt_del : bool; pt_rules : option (fcmd * bool); pt_vlan : vlan }.
  Definition part_msgs (pt : part) : list ofmsg :=
    (if pt_del pt then [del_vlan_msg ft (pt_vlan pt)] else []) ++
    match pt_rules pt with Some (cmd, cold) => flood_rules ft md restricted cmd cold (pt_vlan pt) | None => [] end.
  Definition part_ok (pt : part) : Prop :=
    valid_vlan (pt_vlan pt) /\ match pt_rules pt with Some (cmd, _) => cmd = FAdd \/ cmd = FModifyStrict | None => True end.

  Definition part_of (o : flood_op) : part :=
    match o with
    | OpAdd v => mkPart false (Some (FAdd, false)) v
    | OpUpdate v => mkPart false (Some (FModifyStrict, false)) v
    | OpDel v => mkPart true None v
    | OpReadd v => mkPart true (Some (FAdd, true)) v
    end.
  Lemma part_of_msgs : forall o, op_msgs ft md restricted o = part_msgs (part_of o).
  Proof. destruct o; reflexivity. Qed.
  Lemma parts_of_msgs : forall ops, flat_map (op_msgs ft md restricted) ops = flat_map part_msgs (map part_of ops).
  Proof. induction ops as [|o ops IH]; [reflexivity|]. cbn [flat_map map]. rewrite IH, part_of_msgs. reflexivity. Qed.
  Lemma part_of_ok : forall o, valid_vlan (op_vlan o) -> part_ok (part_of o).
  Proof. destruct o; simpl; intros H; split; simpl; auto. Qed.
  Definition cold_part (v : vlan) : part := mkPart false (Some (FAdd, true)) v.
  Lemma cold_parts_msgs : forall vs, flat_map (flood_rules ft md restricted FAdd true) vs = flat_map part_msgs (map cold_part vs).
  Proof. induction vs as [|v vs IH]; [reflexivity|]. cbn [flat_map map]. rewrite IH. reflexivity. Qed.

  (** the kinds of messages of a batch *)
  Inductive wvlan (pt : part) : flowmod -> Prop :=
  | Wv : forall cmd cold c, md = Multi -> pt_rules pt = Some (cmd, cold) -> In c (vlan_classes restricted (pt_vlan pt)) ->
      wvlan pt (tb_write ft cmd (class_prio c) (vlan_match (v_vid (pt_vlan pt)) c)
                 [Apply (flood_acts_for_vlan (pt_vlan pt) (fc_unicast c))] 0 0).
  Inductive wport (pt : part) : flowmod -> Prop :=
  | Wp : forall cmd cold c q, pt_rules pt = Some (cmd, cold) -> In c (vlan_classes restricted (pt_vlan pt)) ->
      In q (flood_ports (members (pt_vlan pt)) (fc_unicast c)) -> class_port_acts (pt_vlan pt) c q <> [] ->
      md = Combinatorial \/ same_as_vlan (pt_vlan pt) c q = false ->
      wport pt (tb_write ft cmd (class_prio c + 1) (port_match (v_vid (pt_vlan pt)) (p_num q) c)
                 [Apply (class_port_acts (pt_vlan pt) c q)] 0 0).
  Inductive dport (pt : part) : flowmod -> Prop :=
  | Dp : forall cmd c q, md = Multi -> pt_rules pt = Some (cmd, false) -> In c (vlan_classes restricted (pt_vlan pt)) ->
      In q (flood_ports (members (pt_vlan pt)) (fc_unicast c)) -> class_port_acts (pt_vlan pt) c q <> [] ->
      same_as_vlan (pt_vlan pt) c q = true ->
      dport pt (tb_del ft FDelete (class_prio c + 1) (port_match (v_vid (pt_vlan pt)) (p_num q) c) OFPP_ANY).
  Inductive dvlan (pt : part) : flowmod -> Prop :=
  | Dv : pt_del pt = true -> dvlan pt (tb_del ft FDelete 0 [vlan_item (v_vid (pt_vlan pt))] OFPP_ANY).

  Lemma part_msgs_in : forall pt m, In m (part_msgs pt) <->
    exists fm, m = FlowMod fm /\ (wvlan pt fm \/ wport pt fm \/ dport pt fm \/ dvlan pt fm).
  Proof.
    intros [d rl v] m. unfold part_msgs. cbn [pt_del pt_rules pt_vlan]. rewrite in_app_iff. split.
    - intros [H|H].
      + destruct d; [|destruct H]. destruct H as [<-|[]]. eexists; split; [reflexivity|]. right; right; right.
        apply (Dv (mkPart true rl v)). reflexivity.
      + destruct rl as [[cmd cold]|]; [|destruct H]. unfold flood_rules in H. apply in_app_iff in H as [H|H].
        2:{ destruct md; try contradiction. }
        apply in_flat_map in H as [c [Hc H]]. unfold mask_flood_rules in H. apply in_app_iff in H as [H|H].
        * destruct md eqn:E; try contradiction. destruct H as [<-|[]]. eexists; split; [reflexivity|]. left.
          eapply (Wv (mkPart d (Some (cmd, cold)) v)); simpl; eauto.
        * apply in_flat_map in H as [q [Hq H]]. unfold port_rule in H.
          destruct (class_port_acts v c q) as [|a l] eqn:Ea; [destruct H|]. cbn [nonempty] in H.
          assert (N : class_port_acts v c q <> []) by (rewrite Ea; discriminate). rewrite <- Ea in H.
          destruct md eqn:E; [|destruct H as [<-|[]]|congruence].
          -- destruct (same_as_vlan v c q) eqn:S.
             ++ destruct cold; [destruct H|]. destruct H as [<-|[]]. eexists; split; [reflexivity|]. right; right; left.
                eapply (Dp (mkPart d (Some (cmd, false)) v)); simpl; eauto.
             ++ destruct H as [<-|[]]. eexists; split; [reflexivity|]. right; left.
                eapply (Wp (mkPart d (Some (cmd, cold)) v)); simpl; eauto.
          -- eexists; split; [reflexivity|]. right; left.
             eapply (Wp (mkPart d (Some (cmd, cold)) v)); simpl; eauto.
    - intros [fm [-> H]].
      assert (R : forall cmd cold, rl = Some (cmd, cold) ->
        (exists c, In c (vlan_classes restricted v) /\ In (FlowMod fm) (mask_flood_rules ft md cmd cold v c)) ->
        In (FlowMod fm) match rl with Some (cmd, cold) => flood_rules ft md restricted cmd cold v | None => [] end).
      { intros cmd cold -> [c [Hc Hm]]. unfold flood_rules. apply in_app_iff. left. apply in_flat_map. eauto. }
      assert (N : forall A (l : list A), l <> [] -> nonempty l = true) by (intros A [|x l]; [congruence|reflexivity]).
      destruct H as [H|[H|[H|H]]]; destruct H; cbn [pt_del pt_rules pt_vlan] in *.
      + right. eapply R; eauto. exists c. split; auto. unfold mask_flood_rules. rewrite H. left; reflexivity.
      + right. eapply R; eauto. exists c. split; auto. unfold mask_flood_rules. apply in_app_iff; right.
        apply in_flat_map. exists q. split; auto. unfold port_rule. rewrite N by auto.
        destruct md; [|left; reflexivity|congruence]. destruct H3 as [H3|H3]; [discriminate|]. rewrite H3. left; reflexivity.
      + right. eapply R; eauto. exists c. split; auto. unfold mask_flood_rules. apply in_app_iff; right.
        apply in_flat_map. exists q. split; auto. unfold port_rule. rewrite N by auto. rewrite H, H4. left; reflexivity.
      + left. rewrite H. left. reflexivity.
  Qed.

  Definition prefix_ok (pre : list ofmsg) : Prop := pre = [] \/ pre = miss_msg ft :: initialise_msgs ft.
  Inductive wdrop : flowmod -> Prop :=
  | Wd : forall prio m, drop_slot prio m -> wdrop (tb_drop ft prio m 0).
  Lemma prefix_in : forall pre m, prefix_ok pre -> In m pre -> exists fm, m = FlowMod fm /\ wdrop fm.
  Proof.
    intros pre m [->| ->]; [intros []|]. intros [<-|H].
    - eexists; split; [reflexivity|]. constructor. right; auto.
    - unfold initialise_msgs in H. apply in_map_iff in H as [dm [<- H]]. eexists; split; [reflexivity|].
      constructor. left. exists dm; auto.
  Qed.

  Lemma flood_port_member : forall v u q, In q (flood_ports (members v) u) -> In q (members v).
  Proof. intros v [] q H; auto. apply filter_In in H; tauto. Qed.

  Section Batch.
    Variables (pre : list ofmsg) (parts : list part).
    Hypothesis Pre : prefix_ok pre.
    Hypothesis Vids : NoDup (map (fun pt => v_vid (pt_vlan pt)) parts).
    Hypothesis Ok : forall pt, In pt parts -> part_ok pt.
    Let ms := pre ++ flat_map part_msgs parts.

    Lemma ms_in : forall m, In m ms -> exists fm, m = FlowMod fm /\
      (wdrop fm \/ exists pt, In pt parts /\ (wvlan pt fm \/ wport pt fm \/ dport pt fm \/ dvlan pt fm)).
    Proof.
      intros m H. apply in_app_iff in H as [H|H].
      - apply prefix_in in H as [fm [-> H]]; auto. eauto.
      - apply in_flat_map in H as [pt [Hp H]]. apply part_msgs_in in H as [fm [-> H]]. eauto 6.
    Qed.
    Lemma ms_part : forall pt fm, In pt parts -> (wvlan pt fm \/ wport pt fm \/ dport pt fm \/ dvlan pt fm) -> In (FlowMod fm) ms.
    Proof. intros. apply in_app_iff; right. apply in_flat_map. exists pt. split; auto. apply part_msgs_in. eauto. Qed.

    Lemma part_unique : forall a b, In a parts -> In b parts -> v_vid (pt_vlan a) = v_vid (pt_vlan b) -> a = b.
    Proof. intros a b Ha Hb E. exact (NoDup_map_inj_in _ _ (fun pt => v_vid (pt_vlan pt)) parts a b Vids Ha Hb E). Qed.
    Lemma part_vid : forall a, In a parts -> 0 < v_vid (pt_vlan a) < 4096.
    Proof. intros a Ha. apply Ok in Ha as [[_ H] _]. auto. Qed.

    Lemma drop_vlan : forall prio m vid c, drop_slot prio m -> 0 < vid < 4096 -> m <> vlan_match vid c.
    Proof.
      intros prio m vid c [[dm [_ [_ ->]]]|[_ ->]] V E; unfold vlan_match in E.
      - change [masked EthDst (fst dm) (snd dm)] with ([] ++ [masked EthDst (fst dm) (snd dm)]) in E.
        apply app_inj_tail in E as [_ E]. rewrite vlan_item_eq in E by auto. discriminate.
      - destruct (class_items c); discriminate.
    Qed.
    Lemma drop_port : forall prio m vid n c, drop_slot prio m -> m <> port_match vid n c.
    Proof.
      intros prio m vid n c [[dm [_ [_ ->]]]|[_ ->]] E; unfold port_match in E; discriminate.
    Qed.

    Lemma wvlan_slot : forall a b fa fb, In a parts -> In b parts -> wvlan a fa -> wvlan b fb -> same_flow_slot fa fb ->
      a = b /\ fa = fb.
    Proof.
      intros a b fa fb Ha Hb A B [_ [P M]]. destruct A, B. cbn in P, M.
      apply vlan_match_inj in M as [V <-]; eauto using part_vid, vlan_classes_all.
      apply part_unique in V; auto. subst b. assert (X : Some (cmd, cold) = Some (cmd0, cold0)) by congruence.
      injection X as <- <-. auto.
    Qed.
    Lemma port_unique : forall v a b, valid_vlan v -> In a (members v) -> In b (members v) -> p_num a = p_num b -> a = b.
    Proof. intros v a b [WF _] Ha Hb E. exact (NoDup_map_inj_in _ _ p_num (members v) a b (wf_nodup v WF) Ha Hb E). Qed.
    Lemma wport_slot : forall a b fa fb, In a parts -> In b parts -> wport a fa -> wport b fb -> same_flow_slot fa fb ->
      a = b /\ fa = fb.
    Proof.
      intros a b fa fb Ha Hb A B [_ [P M]]. destruct A, B. cbn in P, M.
      apply port_match_inj in M as [V [N <-]]; eauto using part_vid, vlan_classes_all.
      apply part_unique in V; auto. subst b. assert (X : Some (cmd, cold) = Some (cmd0, cold0)) by congruence.
      injection X as <- <-. assert (q = q0).
      { apply (port_unique (pt_vlan a)); eauto using flood_port_member. apply Ok; auto. }
      subst q0. auto.
    Qed.
    Lemma wport_dport : forall a b fa fb, In a parts -> In b parts -> wport a fa -> dport b fb -> same_flow_slot fa fb -> False.
    Proof.
      intros a b fa fb Ha Hb A B [_ [P M]]. destruct A, B. cbn in P, M.
      apply port_match_inj in M as [V [N <-]]; eauto using part_vid, vlan_classes_all.
      apply part_unique in V; auto. subst b. assert (q = q0).
      { apply (port_unique (pt_vlan a)); eauto using flood_port_member. apply Ok; auto. }
      subst q0. destruct H3; congruence.
    Qed.
    Lemma wvlan_port : forall a b fa fb, In a parts -> wvlan a fa -> wport b fb \/ dport b fb -> same_flow_slot fa fb -> False.
    Proof.
      intros a b fa fb Ha A B [_ [P M]]. destruct A. destruct B as [B|B]; destruct B; cbn in M;
        eapply vlan_port_match; eauto using part_vid.
    Qed.
    Lemma wdrop_other : forall pt fa fb, In pt parts -> wdrop fa -> wvlan pt fb \/ wport pt fb -> same_flow_slot fa fb -> False.
    Proof.
      intros pt fa fb Hp A B [_ [P M]]. destruct A. destruct B as [B|B]; destruct B; cbn in M.
      - eapply drop_vlan; eauto using part_vid.
      - eapply drop_port; eauto.
    Qed.

    (** the command of a rule *)
    Lemma rule_cmd : forall pt fm, In pt parts -> wvlan pt fm \/ wport pt fm ->
      exists cold, pt_rules pt = Some (fm_cmd fm, cold) /\ (fm_cmd fm = FAdd \/ fm_cmd fm = FModifyStrict).
    Proof.
      intros pt fm Hp [H|H]; destruct H; destruct (Ok pt Hp) as [_ O]; [rewrite H0 in O|rewrite H in O]; eauto.
    Qed.
    Lemma write_kind : forall fm, In (FlowMod fm) ms -> is_flow_write (FlowMod fm) = true ->
      wdrop fm \/ exists pt, In pt parts /\ (wvlan pt fm \/ wport pt fm).
    Proof.
      intros fm H W. apply ms_in in H as [fm' [E H]]. injection E as <-.
      destruct H as [H|[pt [Hp [H|[H|[H|H]]]]]]; eauto; destruct H; discriminate.
    Qed.
    Lemma delete_kind : forall fm, In (FlowMod fm) ms -> is_delete (FlowMod fm) = true ->
      exists pt, In pt parts /\ (dport pt fm \/ dvlan pt fm).
    Proof.
      intros fm H W. apply ms_in in H as [fm' [E H]]. injection E as <-.
      destruct H as [H|[pt [Hp [H|[H|[H|H]]]]]]; eauto.
      - destruct H; discriminate.
      - exfalso. destruct (rule_cmd pt fm Hp (or_introl H)) as [cold [_ [E|E]]]; simpl in W; rewrite E in W; discriminate.
      - exfalso. destruct (rule_cmd pt fm Hp (or_intror H)) as [cold [_ [E|E]]]; simpl in W; rewrite E in W; discriminate.
    Qed.
    Lemma all_cookie : forall fm, In (FlowMod fm) ms -> fm_cookie fm = tb_cookie ft.
    Proof.
      intros fm H. apply ms_in in H as [fm' [E H]]. injection E as <-.
      destruct H as [H|[pt [Hp [H|[H|[H|H]]]]]]; destruct H; reflexivity.
    Qed.
    Lemma dvlan_prio : forall pt fm, dvlan pt fm -> fm_prio fm = 0.
    Proof. intros pt fm []; reflexivity. Qed.
    Lemma rule_prio : forall pt fm, wvlan pt fm \/ wport pt fm -> 0 < fm_prio fm.
    Proof.
      intros pt fm [H|H]; destruct H; cbn.
      - pose proof (class_prio_pos c (vlan_classes_all _ _ _ H1)). lia.
      - pose proof (class_prio_pos c (vlan_classes_all _ _ _ H0)). lia.
    Qed.
    Lemma writes_agree : forall w1 w2, In (FlowMod w1) ms -> In (FlowMod w2) ms ->
      is_flow_write (FlowMod w1) = true -> is_flow_write (FlowMod w2) = true -> same_flow_slot w1 w2 ->
      (wdrop w1 /\ wdrop w2) \/ w1 = w2.
    Proof.
      intros w1 w2 H1 H2 W1 W2 S.
      assert (S' : same_flow_slot w2 w1) by (destruct S as [A [B C]]; split; [|split]; congruence).
      apply write_kind in H1; auto. apply write_kind in H2; auto.
      destruct H1 as [H1|[pa [Ha H1]]], H2 as [H2|[pb [Hb H2]]]; auto.
      - exfalso. eapply wdrop_other; eauto.
      - exfalso. eapply wdrop_other; eauto.
      - right. destruct H1 as [H1|H1], H2 as [H2|H2].
        + apply (wvlan_slot pa pb w1 w2); auto.
        + exfalso. apply (wvlan_port pa pb w1 w2); auto.
        + exfalso. apply (wvlan_port pb pa w2 w1); auto.
        + apply (wport_slot pa pb w1 w2); auto.
    Qed.

    Lemma batch_clean : clean_batch ms.
    Proof.
      constructor.
      - intros g H. apply ms_in in H as [fm [E _]]. discriminate.
      - intros i b H. apply ms_in in H as [fm [E _]]. discriminate.
      - intros fm H D _. apply delete_kind in H as [pt [Hp [H|H]]]; auto; destruct H; auto.
      - intros d w Hd Hw Cd Ww S _. assert (D : is_delete (FlowMod d) = true) by (simpl; rewrite Cd; auto).
        apply delete_kind in Hd as [pb [Hb Hd]]; auto. apply write_kind in Hw; auto.
        assert (S' : same_flow_slot w d) by (destruct S as [A [B C]]; split; [|split]; congruence).
        destruct Hw as [Hw|[pa [Ha Hw]]].
        + destruct Hw as [prio m K]. destruct Hd as [Hd|Hd].
          * destruct Hd. destruct S as [_ [_ M]]. cbn in M. eapply drop_port; eauto.
          * destruct Hd. destruct S as [_ [_ M]]. cbn in M. pose proof (part_vid pb Hb) as V.
            rewrite vlan_item_eq in M by auto. destruct K as [[dm [_ [_ ->]]]|[_ ->]]; discriminate.
        + destruct Hd as [Hd|Hd].
          * destruct Hw as [Hw|Hw]; [apply (wvlan_port pa pb w d)|apply (wport_dport pa pb w d)]; auto.
          * apply dvlan_prio in Hd. apply rule_prio in Hw. destruct S as [_ [P _]]. lia.
      - intros w1 w2 H1 H2 W1 W2 S. split; [rewrite !all_cookie; auto|].
        destruct (writes_agree w1 w2) as [[A B]|E]; auto; [|congruence]. destruct A, B. reflexivity.
      - intros w H E. assert (W : is_flow_write (FlowMod w) = true) by (simpl; rewrite E; auto).
        apply write_kind in H as [H|[pt [Hp H]]]; auto.
        + destruct H; discriminate.
        + destruct (rule_cmd pt w Hp H) as [_ [_ [X|X]]]; congruence.
      - intros d w Hd Hw Cd Cw S. assert (D : is_delete (FlowMod d) = true) by (simpl; rewrite Cd; auto).
        apply delete_kind in Hd as [pb [Hb [Hd|Hd]]]; auto; destruct Hd; discriminate.
      - intros g1 g2 H. apply ms_in in H as [fm [E _]]. discriminate.
      - intros i b1 b2 H. apply ms_in in H as [fm [E _]]. discriminate.
    Qed.
  End Batch.

  (** every history knows only known flows *)
  Lemma rule_known : forall pt fm, part_ok pt -> wvlan pt fm \/ wport pt fm ->
    fm_table fm = tb_id ft /\ known_slot (fm_prio fm) (fm_match fm).
  Proof.
    intros pt fm [[_ V] _] [H|H]; destruct H; cbn; split; auto; unfold known_slot.
    - left. split; auto. exists (v_vid (pt_vlan pt)), c. apply filter_In in H1 as [H1 _]. auto.
    - right. exists (v_vid (pt_vlan pt)), (p_num q), c. apply filter_In in H0 as [H0 _]. auto.
  Qed.
  Lemma trim_nil : trim [] = [].
  Proof. reflexivity. Qed.

  Lemma batch_known : forall pre parts sh ub out s, prefix_ok pre -> (forall pt, In pt parts -> part_ok pt) ->
    (forall l, Permutation (sh l) l) ->
    valve_flowreorder sh ub (pre ++ flat_map part_msgs parts) = Some out ->
    (forall f, In f (sw_flows s) -> known f) ->
    forall f, In f (sw_flows (apply_msgs out s)) -> known f.
  Proof.
    intros pre parts sh ub out s Pre Ok Hsh R Hs.
    apply (reorder_inv known sh ub (pre ++ flat_map part_msgs parts) out s Hsh R); auto.
    - intros w Hw C. assert (W : is_flow_write (FlowMod w) = true) by (simpl; rewrite C; auto).
      apply (write_kind pre parts Pre) in Hw as [Hw|[pt [Hp Hw]]]; auto.
      + destruct Hw. split; [reflexivity|]. right. split; auto.
      + apply rule_known in Hw as [A B]; auto. split; [auto|left; auto].
    - intros w f Hw C S K. assert (W : is_flow_write (FlowMod w) = true) by (simpl; rewrite C; auto).
      apply wslot_spec in S as [T [P M]].
      apply (write_kind pre parts Pre) in Hw as [Hw|[pt [Hp Hw]]]; auto.
      + destruct Hw. discriminate.
      + apply rule_known in Hw as [A B]; auto. split; [simpl; congruence|]. left. simpl. rewrite P, M. auto.
    - intros w Hw E. assert (W : is_flow_write (FlowMod w) = true) by (simpl; rewrite E; auto).
      apply (write_kind pre parts Pre) in Hw as [Hw|[pt [Hp Hw]]]; auto.
      + destruct Hw; discriminate.
      + destruct (rule_cmd parts Ok pt w Hp Hw) as [_ [_ [X|X]]]; congruence.
  Qed.

  Lemma reachable_known : forall s, reachable ft md restricted s -> forall f, In f (sw_flows s) -> known f.
  Proof.
    induction 1 as [sh ub vs out Hsh Hv _ R|s sh ub ops out H IH Hsh Hv R].
    - unfold cold_msgs in R. rewrite cold_parts_msgs in R.
      apply (batch_known (miss_msg ft :: initialise_msgs ft) (map cold_part vs) sh ub out empty_switch); auto.
      + right; auto.
      + intros pt Hp. apply in_map_iff in Hp as [v [<- Hp]]. split; simpl; auto.
      + intros f [].
    - rewrite parts_of_msgs in R.
      apply (batch_known [] (map part_of ops) sh ub out s); auto.
      + left; auto.
      + intros pt Hp. apply in_map_iff in Hp as [o [<- Hp]]. apply part_of_ok; auto.
  Qed.

  Lemma batch_good : forall pre parts sh ub out s pt cold, prefix_ok pre ->
    NoDup (map (fun pt => v_vid (pt_vlan pt)) parts) -> (forall pt, In pt parts -> part_ok pt) ->
    (forall l, Permutation (sh l) l) ->
    valve_flowreorder sh ub (pre ++ flat_map part_msgs parts) = Some out ->
    (forall f, In f (sw_flows s) -> known f) ->
    In pt parts -> pt_rules pt = Some (FAdd, cold) ->
    (cold = true -> pt_del pt = true \/ sw_flows s = []) ->
    good_table (sw_flows (apply_msgs out s)) (pt_vlan pt).
  Proof.
    intros pre parts sh ub out s pt cold Pre Vids Ok Hsh R Hs Hpt Hr Hc.
    assert (CB := batch_clean pre parts Pre Vids Ok).
    set (ms := pre ++ flat_map part_msgs parts) in *.
    assert (WR : forall w, wvlan pt w \/ wport pt w ->
      fm_table w = tb_id ft /\
      In (flow_of w) (sw_flows (apply_msgs out s)) /\
      forall f, In f (sw_flows (apply_msgs out s)) ->
        f_table f = fm_table w -> f_prio f = fm_prio w -> f_match f = fm_match w -> f = flow_of w).
    { intros w Hw. split; [apply (rule_known pt w); auto|].
      assert (Iw : In (FlowMod w) ms) by (apply (ms_part pre parts pt w); auto; tauto).
      assert (Cw : fm_cmd w = FAdd).
      { destruct (rule_cmd parts Ok pt w Hpt Hw) as [c' [E _]]. congruence. }
      apply (batch_written sh ub ms out s CB Hsh R w Iw Cw).
      intros w' Iw' Ww' S. assert (Ww : is_flow_write (FlowMod w) = true) by (simpl; rewrite Cw; auto).
      destruct (writes_agree pre parts Pre Vids Ok w w' Iw Iw' Ww Ww' S) as [[D _]|E]; [|congruence].
      exfalso. assert (Sr : same_flow_slot w w) by (split; [|split]; reflexivity).
      eapply (wdrop_other parts Ok pt w w); eauto. }
    constructor.
    - apply (batch_known pre parts sh ub out s); auto.
    - intros Em c Hc'. destruct (WR _ (or_introl (Wv pt FAdd cold c Em Hr Hc'))) as [_ [A B]]. split.
      + eexists; split; [exact A|]. repeat split; reflexivity.
      + intros f Hf T P M. specialize (B f Hf T P M). rewrite B. reflexivity.
    - intros c q Hc' Hq Ha Hm.
      destruct (WR _ (or_intror (Wp pt FAdd cold c q Hr Hc' Hq Ha Hm))) as [_ [A B]]. split.
      + eexists; split; [exact A|]. repeat split; reflexivity.
      + intros f Hf T P M. specialize (B f Hf T P M). rewrite B. reflexivity.
    - intros Em c q Hc' Hq Ha Hsame f Hf T P M.
      destruct (batch_unwritten sh ub ms out s CB Hsh R f Hf) as [Hfs Hnd].
      { intros w Hw Ww [T' [P' M']].
        destruct (write_kind pre parts Pre w Hw Ww) as [Hd|[pb [Hb Hd]]].
        - destruct Hd. cbn in M'. rewrite M in M'. eapply drop_port; eauto.
        - assert (D : dport pt (tb_del ft FDelete (class_prio c + 1) (port_match (v_vid (pt_vlan pt)) (p_num q) c) OFPP_ANY) \/ cold = true).
          { destruct cold; auto. left. eapply Dp; eauto. }
          destruct Hd as [Hd|Hd].
          + destruct Hd. cbn in M'. rewrite M in M'. eapply vlan_port_match; eauto. apply (Ok pb Hb).
          + destruct Hd. cbn in M'. rewrite M in M'.
            apply port_match_inj in M' as [V [N X]]; eauto using (part_vid parts Ok), vlan_classes_all. subst c0.
            apply (part_unique parts Vids) in V; auto. subst pb. assert (q0 = q).
            { apply (port_unique (pt_vlan pt)); eauto using flood_port_member. apply Ok; auto. }
            subst q0. destruct H3; congruence. }
      destruct cold.
      + destruct (Hc eq_refl) as [E|E]; [|rewrite E in Hfs; destruct Hfs].
        assert (X := Hnd _ (ms_part pre parts pt _ Hpt (or_intror (or_intror (or_intror (Dv pt E))))) eq_refl).
        simpl in X. unfold del_hits in X. cbn in X. unfold table_sel in X. rewrite T, Z.eqb_refl, orb_true_r in X.
        rewrite M in X. unfold covers in X. cbn [forallb] in X.
        assert (Y : existsb (item_covers (vlan_item (v_vid (pt_vlan pt)))) (port_match (v_vid (pt_vlan pt)) (p_num q) c) = true).
        { apply existsb_exists. exists (vlan_item (v_vid (pt_vlan pt))). split; [|apply item_covers_refl].
          unfold port_match, vlan_match. right. apply in_app_iff. right; left; auto. }
        rewrite Y in X. unfold out_sel in X. cbn in X. discriminate.
      + assert (X := Hnd _ (ms_part pre parts pt _ Hpt
            (or_intror (or_intror (or_introl (Dp pt FAdd c q Em Hr Hc' Hq Ha Hsame))))) eq_refl).
        unfold del_flow, del_hits, tb_del in X. cbn [fm_cmd fm_table fm_match] in X. unfold table_sel in X. rewrite T, Z.eqb_refl, orb_true_r in X.
        rewrite M, covers_refl in X. unfold out_sel in X. cbn in X. discriminate.
  Qed.

  (** rules of classes the VLAN does not flood are gone if the table is fresh *)
  Lemma batch_fresh : forall pre parts sh ub out s pt, prefix_ok pre ->
    NoDup (map (fun pt => v_vid (pt_vlan pt)) parts) -> (forall pt, In pt parts -> part_ok pt) ->
    (forall l, Permutation (sh l) l) ->
    valve_flowreorder sh ub (pre ++ flat_map part_msgs parts) = Some out ->
    In pt parts -> pt_del pt = true \/ sw_flows s = [] ->
    forall f c, In f (sw_flows (apply_msgs out s)) -> f_table f = tb_id ft ->
      In c (flood_dsts restricted) -> ~ In c (vlan_classes restricted (pt_vlan pt)) ->
      f_match f <> vlan_match (v_vid (pt_vlan pt)) c /\
      forall n, f_match f <> port_match (v_vid (pt_vlan pt)) n c.
  Proof.
    intros pre parts sh ub out s pt Pre Vids Ok Hsh R Hpt Hd f c Hf T Hc Hn.
    assert (CB := batch_clean pre parts Pre Vids Ok).
    set (ms := pre ++ flat_map part_msgs parts) in *.
    assert (V := part_vid parts Ok pt Hpt).
    assert (G : forall m, (m = vlan_match (v_vid (pt_vlan pt)) c \/ exists n, m = port_match (v_vid (pt_vlan pt)) n c) -> f_match f <> m).
    2:{ split; [apply G; auto|intros n; apply G; eauto]. }
    intros m Hm Ef.
    destruct (batch_unwritten sh ub ms out s CB Hsh R f Hf) as [Hfs Hnd].
    { intros w Hw Ww [_ [_ M']]. rewrite Ef in M'.
      assert (Ac : In c all_classes) by (eapply flood_dsts_all; eauto).
      destruct (write_kind pre parts Pre w Hw Ww) as [K|[pb [Hb [K|K]]]].
      - destruct K. cbn in M'. destruct Hm as [->|[n ->]]; [eapply drop_vlan|eapply drop_port]; eauto.
      - destruct K. cbn in M'. pose proof (part_vid parts Ok pb Hb).
        assert (In c0 all_classes) by (eapply vlan_classes_all; eauto).
        destruct Hm as [->|[n ->]].
        + apply vlan_match_inj in M' as [E <-]; auto. apply (part_unique parts Vids) in E; auto. subst pb. auto.
        + eapply vlan_port_match; [|exact M']; auto.
      - destruct K. cbn in M'. pose proof (part_vid parts Ok pb Hb).
        assert (In c0 all_classes) by (eapply vlan_classes_all; eauto).
        destruct Hm as [->|[n ->]].
        + eapply vlan_port_match; [|symmetry; exact M']; auto.
        + apply port_match_inj in M' as [E [_ <-]]; auto. apply (part_unique parts Vids) in E; auto. subst pb. auto. }
    destruct Hd as [E|E]; [|rewrite E in Hfs; destruct Hfs].
    assert (X := Hnd _ (ms_part pre parts pt _ Hpt (or_intror (or_intror (or_intror (Dv pt E))))) eq_refl).
    unfold del_flow, del_hits, tb_del in X. cbn [fm_cmd fm_table fm_match] in X. unfold table_sel in X.
    rewrite T, Z.eqb_refl, orb_true_r in X. rewrite Ef in X. unfold covers in X. cbn [forallb] in X.
    assert (Y : existsb (item_covers (vlan_item (v_vid (pt_vlan pt)))) m = true).
    { apply existsb_exists. exists (vlan_item (v_vid (pt_vlan pt))). split; [|apply item_covers_refl].
      destruct Hm as [->|[n ->]]; unfold port_match, vlan_match; [|right]; apply in_app_iff; right; left; auto. }
    rewrite Y in X. unfold out_sel in X. cbn in X. discriminate.
  Qed.

  (** the filter rules are never removed *)
  Definition has_filters (fs : list flow) : Prop :=
    forall dm, In dm filter_dsts -> In (flow_of (tb_drop ft (0x2000 + mac_mask_bits (snd dm)) [masked EthDst (fst dm) (snd dm)] 0)) fs.

  Lemma keep_flow : forall f ms s, (forall m, In m ms -> m = Barrier \/ exists w, m = FlowMod w /\ del_hits w f = false /\
      (is_flow_write m = true -> fm_match w <> f_match f)) -> (forall w, In (FlowMod w) ms -> fm_cmd w <> FModify) ->
    In f (sw_flows s) -> In f (sw_flows (apply_msgs ms s)).
  Proof.
    intros f. induction ms as [|m ms IH]; intros s H HM Hf; [exact Hf|].
    change (In f (sw_flows (apply_msgs ms (apply_msg m s)))). apply IH.
    - intros m' Hm'. apply H. right; auto.
    - intros w Hw. apply HM; right; auto.
    - destruct (H m (or_introl eq_refl)) as [->|[w [-> [D W]]]]; auto.
      assert (S : is_flow_write (FlowMod w) = true -> same_slot (fm_table w) (fm_prio w) (fm_match w) f = false).
      { intros K. destruct (same_slot _ _ _ f) eqn:E; auto. exfalso. unfold same_slot in E.
        rewrite !andb_true_iff, fmatch_eqb_spec in E. apply W; auto. destruct E; auto. }
      simpl. unfold apply_flowmod. simpl in S. destruct (fm_cmd w) eqn:C.
      + apply in_app_iff. left. apply filter_In. rewrite S; auto.
      + exfalso. apply (HM w); [left|]; auto.
      + apply in_map_iff. exists f. rewrite S; auto.
      + apply filter_In. rewrite D. auto.
      + apply filter_In. rewrite D. auto.
  Qed.

  Lemma covers_field : forall m f, (exists i, In i m /\ forall j, In j (f_match f) -> fst j <> fst i) ->
    covers m (f_match f) = false.
  Proof.
    intros m f [i [Hi H]]. destruct (covers m (f_match f)) eqn:E; auto. exfalso. unfold covers in E.
    rewrite forallb_forall in E. specialize (E i Hi). apply existsb_exists in E as [j [Hj E]]. apply (H j Hj).
    destruct i as [fi [vi mi]], j as [fj [vj mj]]. simpl in E. rewrite !andb_true_iff in E. destruct E as [[E _] _].
    unfold field_eqb in E. destruct (field_eq_dec fi fj); [auto|discriminate].
  Qed.

  Lemma filters_kept : forall s, reachable ft md restricted s -> has_filters (sw_flows s).
  Proof.
    induction 1 as [sh ub vs out Hsh Hv Nd R|s sh ub ops out H IH Hsh Hv R].
    - intros dm Hdm. unfold cold_msgs in R. rewrite cold_parts_msgs in R.
      set (parts := map cold_part vs) in *. set (pre := miss_msg ft :: initialise_msgs ft) in *.
      assert (Pre : prefix_ok pre) by (right; auto).
      assert (Ok : forall pt, In pt parts -> part_ok pt).
      { intros pt Hp. apply in_map_iff in Hp as [v [<- Hp]]. split; simpl; auto. }
      assert (Vids : NoDup (map (fun pt => v_vid (pt_vlan pt)) parts)).
      { unfold parts. rewrite map_map. exact Nd. }
      set (w := tb_drop ft (0x2000 + mac_mask_bits (snd dm)) [masked EthDst (fst dm) (snd dm)] 0).
      assert (Iw : In (FlowMod w) (pre ++ flat_map part_msgs parts)).
      { apply in_app_iff; left. right. apply in_map_iff. exists dm. auto. }
      apply (batch_written sh ub (pre ++ flat_map part_msgs parts) out empty_switch (batch_clean pre parts Pre Vids Ok) Hsh R w Iw eq_refl).
      intros w' Iw' Ww' S. destruct (writes_agree pre parts Pre Vids Ok w w' Iw Iw' eq_refl Ww' S) as [[_ D]|E]; [|congruence].
      destruct D. destruct S as [S1 [S2 S3]]. cbn in S2, S3. unfold w. rewrite <- S2, <- S3. reflexivity.
    - intros dm Hdm. specialize (IH dm Hdm). rewrite parts_of_msgs in R.
      assert (Ok : forall pt, In pt (map part_of ops) -> part_ok pt).
      { intros pt Hp. apply in_map_iff in Hp as [o [<- Hp]]. apply part_of_ok; auto. }
      assert (Pre : prefix_ok []) by (left; auto).
      assert (Sub : forall m, In m out -> In m (flat_map part_msgs (map part_of ops)) \/ m = Barrier).
      { intros m Hm. apply or_comm. apply (reorder_invents_nothing_lemma sh ub _ out m Hsh R Hm). }
      apply keep_flow; auto.
      + intros m Hm. destruct (Sub m Hm) as [Hm'|E]; [right|left; exact E].
        apply in_flat_map in Hm' as [pt [Hp Hm']]. apply part_msgs_in in Hm' as [w [-> K]]. exists w. split; auto.
        pose proof (part_vid _ Ok pt Hp) as V.
        assert (DS : drop_slot (0x2000 + mac_mask_bits (snd dm)) [masked EthDst (fst dm) (snd dm)]) by (left; exists dm; auto).
        split.
        * destruct K as [K|[K|[K|K]]].
          -- unfold del_hits. destruct (rule_cmd _ Ok pt w Hp (or_introl K)) as [_ [_ [E|E]]]; rewrite E; auto.
          -- unfold del_hits. destruct (rule_cmd _ Ok pt w Hp (or_intror K)) as [_ [_ [E|E]]]; rewrite E; auto.
          -- destruct K. unfold del_hits, tb_del. cbn [fm_cmd fm_table fm_match]. rewrite covers_field, andb_false_r; auto.
             exists (exact InPort (p_num q)). split; [left; auto|]. intros j [<-|[]]. discriminate.
          -- destruct K. unfold del_hits, tb_del. cbn [fm_cmd fm_table fm_match]. rewrite covers_field, andb_false_r; auto.
             exists (vlan_item (v_vid (pt_vlan pt))). split; [left; auto|]. intros j [<-|[]].
             rewrite vlan_item_eq by auto. discriminate.
        * intros W E. cbn in E. destruct K as [K|[K|[K|K]]]; destruct K; try discriminate.
          cbn in E; symmetry in E. eapply drop_vlan; eauto.
      + intros w Hw E. destruct (Sub _ Hw) as [Hm'|X]; [|discriminate].
        apply in_flat_map in Hm' as [pt [Hp Hm']]. apply part_msgs_in in Hm' as [w' [X K]]. injection X as <-.
        destruct K as [K|[K|[K|K]]].
        * destruct (rule_cmd _ Ok pt w Hp (or_introl K)) as [_ [_ [Y|Y]]]; congruence.
        * destruct (rule_cmd _ Ok pt w Hp (or_intror K)) as [_ [_ [Y|Y]]]; congruence.
        * destruct K; discriminate.
        * destruct K; discriminate.
  Qed.

  (** reserved destinations *)
  Lemma reserved_class : forall p x c, has_dst p x -> reserved_dst p -> In c all_classes -> in_class p c ->
    class_prio c + 1 < 0x2000 + 44.
  Proof.
    intros p x c D [y [D' Hr]] Hc I. assert (y = x) by (destruct D, D'; congruence). subst y. clear D'.
    destruct Hc as [<-|Hc]; [vm_compute; reflexivity|].
    repeat (destruct Hc as [<-|Hc];
      [first [vm_compute; reflexivity
             |exfalso; apply (class_by_dst p x) in I; [|exact D|lia|lia]; cbn -[Z.div Z.pow] in I; destruct I as [I _]; try lia]|]);
      [ |destruct Hc].
    change (x / 2 ^ 24 = 0x3333ff) in I.
    assert (0x3333ff * 2 ^ 24 <= x) by (rewrite <- I, Z.mul_comm; apply Z.mul_div_le; lia). lia.
  Qed.
  Lemma filter_prio : forall dm, In dm filter_dsts -> 0x2000 + 44 <= 0x2000 + mac_mask_bits (snd dm).
  Proof. intros dm H. repeat (destruct H as [<-|H]; [vm_compute; discriminate|]). destruct H. Qed.

  Lemma reserved_lemma : forall s p g live f es p' nx vid pcp r, reachable ft md restricted s ->
    reserved_dst p -> pk_tags p = (vid, pcp) :: r -> 0 <= vid < 4096 ->
    hit (sw_flows s) (tb_id ft) p f -> exec_insts g live (f_inst f) p = (es, p', nx) -> es = [] /\ nx = None.
  Proof.
    intros s p g live f es p' nx vid pcp r Hs Hr Ht Hv [Hf [Tf [Mf Top]]] Ex.
    assert (Hr' := Hr). destruct Hr' as [x [D _]].
    destruct (proj2 (filter_match p x D) Hr) as [dm [Hdm Mdm]].
    assert (P := Top _ (filters_kept s Hs dm Hdm) eq_refl Mdm). change (0x2000 + mac_mask_bits (snd dm) <= f_prio f) in P.
    pose proof (filter_prio dm Hdm).
    destruct (reachable_known s Hs f Hf) as [_ [[[K1 [vid' [c' [Kv [Kc [Kp Km]]]]]]|[vid' [n [c' [Kv [Kc [Kp Km]]]]]]]|[Ki Kd]]].
    - exfalso. rewrite Km in Mf. apply (vlan_match_spec p vid' c' vid pcp r) in Mf as [Ic' _]; auto.
      pose proof (reserved_class p x c' D Hr (flood_dsts_all _ _ Kc) Ic'). lia.
    - exfalso. rewrite Km in Mf. apply (port_match_spec p vid' n c' vid pcp r) in Mf as [_ [Ic' _]]; auto.
      pose proof (reserved_class p x c' D Hr (flood_dsts_all _ _ Kc) Ic'). lia.
    - rewrite Ki in Ex. injection Ex as <- <- <-. auto.
  Qed.

  (** ** The theorems *)
  Lemma programmed_good : forall v fresh s, just_programmed ft md restricted v fresh s ->
    valid_vlan v /\ good_table (sw_flows s) v /\
    (fresh = true -> forall f c, In f (sw_flows s) -> f_table f = tb_id ft -> In c (flood_dsts restricted) ->
       ~ In c (vlan_classes restricted v) ->
       f_match f <> vlan_match (v_vid v) c /\ forall n, f_match f <> port_match (v_vid v) n c).
  Proof.
    intros v fresh s H. destruct H as [sh ub vs out Hsh Hv Nd Hin R|s sh ub ops out Hs Hsh Hv Nd Hin R|s sh ub ops out Hs Hsh Hv Nd Hin R].
    - split; [auto|]. unfold cold_msgs in R. rewrite cold_parts_msgs in R.
      set (parts := map cold_part vs) in *. set (pre := miss_msg ft :: initialise_msgs ft) in *.
      assert (Pre : prefix_ok pre) by (right; auto).
      assert (Ok : forall pt, In pt parts -> part_ok pt).
      { intros pt Hp. apply in_map_iff in Hp as [w [<- Hp]]. split; simpl; auto. }
      assert (Vids : NoDup (map (fun pt => v_vid (pt_vlan pt)) parts)).
      { unfold parts. rewrite map_map. exact Nd. }
      assert (Ip : In (cold_part v) parts) by (apply in_map; auto).
      split.
      + apply (batch_good pre parts sh ub out empty_switch (cold_part v) true); auto. intros f [].
      + intros _. apply (batch_fresh pre parts sh ub out empty_switch (cold_part v)); auto.
    - split; [apply (Hv (OpAdd v)); auto|]. rewrite parts_of_msgs in R.
      assert (Ok : forall pt, In pt (map part_of ops) -> part_ok pt).
      { intros pt Hp. apply in_map_iff in Hp as [o [<- Hp]]. apply part_of_ok; auto. }
      assert (Vids : NoDup (map (fun pt => v_vid (pt_vlan pt)) (map part_of ops))).
      { rewrite map_map. erewrite map_ext; [exact Nd|]. intros []; reflexivity. }
      split; [|discriminate].
      apply (batch_good [] (map part_of ops) sh ub out s (part_of (OpAdd v)) false); auto.
      + left; auto.
      + apply reachable_known; auto.
      + apply in_map; auto.
    - split; [apply (Hv (OpReadd v)); auto|]. rewrite parts_of_msgs in R.
      assert (Ok : forall pt, In pt (map part_of ops) -> part_ok pt).
      { intros pt Hp. apply in_map_iff in Hp as [o [<- Hp]]. apply part_of_ok; auto. }
      assert (Vids : NoDup (map (fun pt => v_vid (pt_vlan pt)) (map part_of ops))).
      { rewrite map_map. erewrite map_ext; [exact Nd|]. intros []; reflexivity. }
      assert (Ip : In (part_of (OpReadd v)) (map part_of ops)) by (apply in_map; auto).
      split.
      + apply (batch_good [] (map part_of ops) sh ub out s (part_of (OpReadd v)) true); auto.
        * left; auto.
        * apply reachable_known; auto.
      + intros _. apply (batch_fresh [] (map part_of ops) sh ub out s (part_of (OpReadd v))); auto. left; auto.
  Qed.

  Lemma floodable_acts : forall v c i, wf_vlan v -> In i (members v) -> p_phys_up i = true ->
    (fc_unicast c = true -> p_unicast_flood i = true) ->
    floodable v (fc_unicast c) false (match fc_type c with None => true | Some _ => false end && p_restricted i) i ->
    class_port_acts v c i <> [].
  Proof.
    intros v c i WF Hi Up Hu [[q He]|Hh] E.
    - exact (port_no_flood_lemma v _ i false _ WF E Up q He).
    - unfold class_port_acts, flood_acts_for_port in E. rewrite Up in E.
      set (er := match fc_type c with None => true | Some _ => false end) in *.
      set (p := mkPacket 1 [(1, 0)] (fun _ => None)).
      assert (F := flood_emits_dedupe (fun _ => None) (fun _ => true) v (fc_unicast c) (Some i) false (er && p_restricted i) p).
      cbv zeta in F.
      pose proof (es_in_port v (fc_unicast c) false (er && p_restricted i) (Some i) WF
        (nonempty (external_ports v) && nonempty (tagged_flood_ports v (fc_unicast c))) true p ltac:(discriminate) i eq_refl Hi) as [R _].
      destruct (R (conj Hh Hu)) as [p' [X _]]. clear R.
      rewrite <- F in X. clear F.
      assert (Y : fst (exec_acts (fun _ => None) (fun _ => true)
        (dedupe_acts (flood_rule_actions v (fc_unicast c) (Some i) false (er && p_restricted i)) [] []) p) = []).
      { apply exec_empty_outputs.
        - apply no_groups_in, dedupe_no_groups, flood_no_groups.
        - destruct (output_ports _) eqn:Eo; auto. simpl in E. rewrite E in Eo. discriminate. }
      rewrite Y in X. discriminate.
  Qed.

  Lemma table_flood_lemma : forall v fresh s i p x pcp r, just_programmed ft md restricted v fresh s ->
    In i (members v) -> p_phys_up i = true -> pk_in p = p_num i -> pk_tags p = (v_vid v, pcp) :: r -> has_dst p x ->
    (group_dst x = false -> v_unicast_flood v = true /\ p_unicast_flood i = true) ->
    ~ reserved_dst p ->
    floodable v (negb (group_dst x)) false (negb (restricted && arp_nd x (pk_hdr p EthType)) && p_restricted i) i ->
    (exists f, hit (sw_flows s) (tb_id ft) p f) /\
    forall g live f es p' nx, hit (sw_flows s) (tb_id ft) p f -> exec_insts g live (f_inst f) p = (es, p', nx) ->
      nx = None /\
      delivers v (negb (group_dst x)) false (negb (restricted && arp_nd x (pk_hdr p EthType)) && p_restricted i) i p
        (wire (p_num i) es).
  Proof.
    intros v fresh s i p x pcp r J Hi Up Hin Ht D Hu NR Fl.
    destruct (programmed_good v fresh s J) as [VV [GT _]].
    destruct (best_class_spec restricted v p x D ltac:(intros H; apply Hu; auto)) as [c [B [U T]]].
    rewrite <- U, <- T in *.
    assert (Uc : fc_unicast c = true -> p_unicast_flood i = true).
    { intros E. rewrite E in U. symmetry in U. apply negb_true_iff in U. apply Hu; auto. }
    assert (A : class_port_acts v c i <> []) by (apply floodable_acts; auto; apply VV).
    split.
    - eapply flood_table_hit; eauto.
    - intros g live f es p' nx Hh Ex. eapply flood_table_delivers; eauto.
  Qed.

  Lemma table_no_unicast_lemma : forall v s p x pcp r g live f es p' nx, just_programmed ft md restricted v true s ->
    pk_tags p = (v_vid v, pcp) :: r -> has_dst p x -> group_dst x = false -> v_unicast_flood v = false ->
    hit (sw_flows s) (tb_id ft) p f -> exec_insts g live (f_inst f) p = (es, p', nx) -> es = [] /\ nx = None.
  Proof.
    intros v s p x pcp r g live f es p' nx J Ht D Hg Hu [Hf [Tf [Mf _]]] Ex.
    destruct (programmed_good v true s J) as [[WF V] [GT Fr]]. specialize (Fr eq_refl).
    assert (NC : forall c, In c (flood_dsts restricted) -> in_class p c -> ~ In c (vlan_classes restricted v)).
    { intros c Hc Ic Hv. apply filter_In in Hv as [_ Hv]. rewrite Hu, andb_true_r in Hv.
      apply negb_true_iff in Hv. assert (group_dst x = true) by (eapply group_class; eauto using flood_dsts_all). congruence. }
    destruct (gt_known _ _ GT f Hf) as [_ [[[K1 [vid' [c' [Kv [Kc [Kp Km]]]]]]|[vid' [n [c' [Kv [Kc [Kp Km]]]]]]]|[Ki Kd]]].
    - exfalso. rewrite Km in Mf. apply (vlan_match_spec p vid' c' (v_vid v) pcp r) in Mf as [Ic' <-]; auto; [|lia].
      apply (proj1 (Fr f c' Hf Tf Kc (NC c' Kc Ic'))). auto.
    - exfalso. rewrite Km in Mf. apply (port_match_spec p vid' n c' (v_vid v) pcp r) in Mf as [_ [Ic' <-]]; auto; [|lia].
      apply (proj2 (Fr f c' Hf Tf Kc (NC c' Kc Ic')) n). auto.
    - rewrite Ki in Ex. injection Ex as <- <- <-. auto.
  Qed.
End Table.
