(** * Proofs about the egress pipeline *)

From Coq Require Import ZArith List Bool Lia.
From Verif Require Import OpenFlow TrimModel TrimProofs SharedTrimProofs TableModel EgressModel EgressSpec.
Import ListNotations.
Open Scope Z_scope.

Lemma land_ones12 n : 0 <= n < 4096 -> Z.land n 0xFFF = n.
Proof. intros H. change 0xFFF with (Z.ones 12). rewrite Z.land_ones by lia. apply Z.mod_small. exact H. Qed.
Lemma md_port n v : 0 <= n < 4096 -> Z.land (egress_metadata n v) 0xFFF = n.
Proof.
  intros H. unfold egress_metadata, PORT_METADATA_MASK. rewrite Z.land_lor_distr_l.
  assert (E : Z.land (Z.shiftl v 12) 0xFFF = 0).
  { change 0xFFF with (Z.ones 12). rewrite Z.land_ones, Z.shiftl_mul_pow2 by lia. apply Z.mod_mul. lia. }
  rewrite E, !land_ones12 by (try rewrite land_ones12; lia). apply Z.lor_0_l.
Qed.
Lemma md_full n v : 0 <= n < 4096 -> 0 <= v < 4096 -> Z.land (egress_metadata n v) EGRESS_METADATA_MASK = egress_metadata n v.
Proof.
  intros Hn Hv. change EGRESS_METADATA_MASK with (Z.ones 24). rewrite Z.land_ones by lia. apply Z.mod_small.
  unfold egress_metadata, PORT_METADATA_MASK. rewrite land_ones12 by lia. rewrite Z.shiftl_mul_pow2 by lia.
  assert (0 <= Z.lor (v * 2 ^ 12) n) by (apply Z.lor_nonneg; lia). split; [assumption|].
  destruct (Z.eq_dec (Z.lor (v * 2 ^ 12) n) 0) as [->|N]; [lia|].
  apply Z.log2_lt_pow2; [lia|]. rewrite Z.log2_lor by lia. apply Z.max_lub_lt.
  - destruct (Z.eq_dec v 0) as [->|]; [cbn; lia|]. apply Z.log2_lt_pow2; lia.
  - destruct (Z.eq_dec n 0) as [->|]; [cbn; lia|]. apply Z.log2_lt_pow2; lia.
Qed.
Lemma md_inj n v n' v' : 0 <= n < 4096 -> 0 <= n' < 4096 -> egress_metadata n v = egress_metadata n' v' -> n = n'.
Proof. intros H H' E. rewrite <- (md_port n v H), <- (md_port n' v' H'), E. reflexivity. Qed.

Section Egress.
Variable c : econf.
Notation tid := (tb_id (ec_egress c)).

Definition rule_flow (p : eport) (v : Z) (pop : bool) : flow :=
  mkFlow tid HIGH_PRIORITY (egress_match (ep_num p) v) (tb_cookie (ec_egress c)) [Apply (egress_actions p pop)] 0 0 (tb_flags (ec_egress c)).
Definition miss_flow : flow := mkFlow tid MISS_PRIORITY [] (tb_cookie (ec_egress c)) [Goto (ec_flood c)] 0 0 (tb_flags (ec_egress c)).

Lemma no_recirc p pop : has_recirc (egress_actions p pop) = false.
Proof.
  unfold has_recirc, egress_actions. rewrite !existsb_app. replace (existsb _ (map _ _)) with false.
  - destruct pop; reflexivity.
  - symmetry. induction (ep_mirror p); [reflexivity|]. cbn. assumption.
Qed.
Lemma rule_trim p v pop : flow_of (tb_add (ec_egress c) HIGH_PRIORITY (egress_match (ep_num p) v) [Apply (egress_actions p pop)]) = rule_flow p v pop.
Proof.
  unfold rule_flow, flow_of, tb_add, tb_write. cbn [fm_table fm_prio fm_match fm_cookie fm_inst fm_hard fm_idle fm_flags]. f_equal.
  unfold trim, trim_inst. cbn [existsb is_apply is_goto orb trim_list trim_one]. rewrite no_recirc. cbn [negb andb].
  unfold trim_actions. replace (trim_loop (egress_actions p pop)) with (egress_actions p pop).
  - destruct (egress_actions p pop) eqn:E; [|reflexivity]. exfalso. unfold egress_actions in E. destruct (map _ _), pop; discriminate E.
  - unfold egress_actions. rewrite app_assoc, trim_step_snoc. reflexivity.
Qed.

(** [vids p v pop]: the rules of a port *)
Definition carries (p : eport) (v : Z) (pop : bool) : Prop :=
  (In v (ep_tagged p) /\ pop = false) \/ (ep_native p = Some v /\ pop = true).
Record xinv (up : Z -> option eport) (s : switch) : Prop := {
  xi_small : forall n p, up n = Some p -> ep_num p = n /\ small_port p;
  xi_sound : forall f, In f (sw_flows s) -> f = miss_flow \/ exists n p v pop, up n = Some p /\ carries p v pop /\ f = rule_flow p v pop;
  xi_rule : forall n p v pop, up n = Some p -> carries p v pop -> In (rule_flow p v pop) (sw_flows s);
  xi_miss : In miss_flow (sw_flows s);
  xi_groups : sw_groups s = [] }.

Lemma start_inv : xinv (fun _ => None) (apply_msgs (eg_default c) empty_switch).
Proof.
  constructor; cbn; try discriminate; auto.
  intros f [H|[]]. left. symmetry. exact H.
Qed.

(** Adding one rule *)
Lemma match_inj n v n' v' : 0 < n < 4096 -> 0 < n' < 4096 -> 0 < v < 4096 -> 0 < v' < 4096 -> egress_match n v = egress_match n' v' -> n = n' /\ v = v'.
Proof.
  intros Hn Hn' Hv Hv' E. unfold egress_match, vlan_item, OFPVID_NONE in E.
  rewrite (proj2 (Z.eqb_neq v 0)), (proj2 (Z.eqb_neq v' 0)) in E by lia. unfold masked, exact in E.
  assert (E1 : egress_metadata n v = egress_metadata n' v') by congruence. assert (E2 : vid_present v = vid_present v') by congruence. clear E.
  split; [apply (md_inj n v n' v'); auto; lia|]. apply vid_present_inj_lemma; auto; lia.
Qed.
Lemma carries_small p v pop : small_port p -> carries p v pop -> 0 < v < 4096.
Proof. intros (_ & _ & V & _) [[H _]|[H _]]; apply V; auto. Qed.
Lemma carries_pop p v a b : small_port p -> carries p v a -> carries p v b -> a = b.
Proof. intros (_ & _ & _ & N) [[H1 ->]|[H1 ->]] [[H2 ->]|[H2 ->]]; auto; exfalso; [apply (N v H2 H1)|apply (N v H1 H2)]. Qed.

Lemma add_flow p v pop s : small_port p -> carries p v pop -> sw_groups s = [] ->
  let s' := apply_msg (egress_rule c p v pop) s in
  sw_groups s' = [] /\ (forall f, In f (sw_flows s') <-> f = rule_flow p v pop \/ (In f (sw_flows s) /\ same_slot tid HIGH_PRIORITY (egress_match (ep_num p) v) f = false)).
Proof.
  intros Sm Cr G. split; [exact G|]. intros f. unfold egress_rule. cbn [apply_msg apply_flowmod sw_flows].
  change (fm_cmd (tb_add (ec_egress c) HIGH_PRIORITY (egress_match (ep_num p) v) [Apply (egress_actions p pop)])) with FAdd.
  unfold apply_flowmod. change (fm_cmd (tb_add (ec_egress c) HIGH_PRIORITY (egress_match (ep_num p) v) [Apply (egress_actions p pop)])) with FAdd.
  cbn iota. rewrite rule_trim, in_app_iff, filter_In. cbn [In].
  change (fm_table (tb_add (ec_egress c) HIGH_PRIORITY (egress_match (ep_num p) v) [Apply (egress_actions p pop)])) with tid.
  change (fm_prio (tb_add (ec_egress c) HIGH_PRIORITY (egress_match (ep_num p) v) [Apply (egress_actions p pop)])) with HIGH_PRIORITY.
  change (fm_match (tb_add (ec_egress c) HIGH_PRIORITY (egress_match (ep_num p) v) [Apply (egress_actions p pop)])) with (egress_match (ep_num p) v).
  rewrite negb_true_iff. intuition congruence.
Qed.
Lemma slot_rule p v pop p' v' : small_port p -> small_port p' -> carries p v pop -> 0 < v' < 4096 ->
  same_slot tid HIGH_PRIORITY (egress_match (ep_num p') v') (rule_flow p v pop) = true -> ep_num p = ep_num p' /\ v = v'.
Proof.
  intros Sm Sm' Cr Hv H. unfold same_slot in H. apply andb_true_iff in H as [_ H]. unfold fmatch_eqb in H. cbn [f_match rule_flow] in H.
  destruct (fmatch_eq_dec _ _) as [E|]; [|discriminate]. apply match_inj in E; auto.
  - exact (proj1 Sm). - exact (proj1 Sm'). - exact (carries_small _ _ _ Sm Cr).
Qed.

(** Adding some of the rules of a port to a state that has some of them *)
Lemma add_rules p l : small_port p -> (forall x, In x l -> carries p (fst x) (snd x)) -> forall s, sw_groups s = [] ->
  (forall f, In f (sw_flows s) -> f = miss_flow \/ exists p' v pop, small_port p' /\ carries p' v pop /\ f = rule_flow p' v pop /\ (ep_num p' = ep_num p -> p' = p)) ->
  let s' := apply_msgs (map (fun x => egress_rule c p (fst x) (snd x)) l) s in
  sw_groups s' = [] /\ (forall f, In f (sw_flows s') <-> In f (sw_flows s) \/ exists x, In x l /\ f = rule_flow p (fst x) (snd x)).
Proof.
  intros Sm. induction l as [|x l IH]; intros L s G S.
  - cbn. split; [exact G|]. intros f. split; [auto|]. intros [H|(x & [] & _)]. exact H.
  - cbn [map]. destruct (add_flow p (fst x) (snd x) s Sm (L x (or_introl eq_refl)) G) as [G1 F1].
    change (apply_msgs (?m :: ?r) s) with (apply_msgs r (apply_msg m s)).
    assert (F2 : forall f, In f (sw_flows (apply_msg (egress_rule c p (fst x) (snd x)) s)) <-> In f (sw_flows s) \/ f = rule_flow p (fst x) (snd x)).
    { intros f. rewrite F1. split; [intuition|]. intros [H|H]; [|auto]. destruct (same_slot _ _ _ f) eqn:E; [|auto]. left.
      destruct (S f H) as [->|(p' & v & pop & Sm' & Cr & -> & U)].
      - exfalso. unfold same_slot in E. apply andb_true_iff in E as [E _]. apply andb_true_iff in E as [_ E]. discriminate E.
      - apply slot_rule in E as [E1 ->]; auto; [|apply (carries_small p _ (snd x) Sm); apply L; left; reflexivity].
        rewrite (U E1) in *. rewrite (carries_pop p (fst x) pop (snd x)); auto. apply L. left. reflexivity. }
    destruct (IH (fun y H => L y (or_intror H)) _ G1) as [G2 F3].
    { intros f H. apply F2 in H as [H|H]; [apply S, H|]. right. exists p, (fst x), (snd x). split; [exact Sm|]. split; [apply L; left; reflexivity|]. auto. }
    split; [exact G2|]. intros f. rewrite F3, F2. split.
    + intros [[H|H]|(y & Hy & H)]; [auto|right; exists x; split; [left; reflexivity|exact H]|right; exists y; split; [right; exact Hy|exact H]].
    + intros [H|(y & [<-|Hy] & H)]; [auto|auto|]. right. exists y. auto.
Qed.
Definition rules_of (p : eport) : list (Z * bool) :=
  map (fun v => (v, false)) (ep_tagged p) ++ match ep_native p with Some v => [(v, true)] | None => [] end.
Lemma rules_of_spec p x : In x (rules_of p) <-> carries p (fst x) (snd x).
Proof.
  unfold rules_of, carries. rewrite in_app_iff, in_map_iff. destruct x as [v b]. cbn [fst snd]. split.
  - intros [(w & E & H)|H]; [injection E as -> <-; auto|]. destruct (ep_native p); [|destruct H]. destruct H as [H|[]]. injection H as -> <-. auto.
  - intros [[H ->]|[H ->]]; [left; exists v; auto|]. right. rewrite H. left. reflexivity.
Qed.
Lemma eg_add_rules p : eg_add c p = map (fun x => egress_rule c p (fst x) (snd x)) (rules_of p).
Proof. unfold eg_add, rules_of. rewrite map_app, map_map. destruct (ep_native p); reflexivity. Qed.

(** Deleting the rules of a port *)
Lemma del_rule n p v pop : 0 < n < 4096 -> small_port p -> carries p v pop ->
  del_hits (tb_del (ec_egress c) FDelete 0 [masked Metadata (Z.land n PORT_METADATA_MASK) PORT_METADATA_MASK] OFPP_ANY) (rule_flow p v pop) = (ep_num p =? n).
Proof.
  intros Hn Sm Cr. unfold del_hits, tb_del. cbn [fm_cmd fm_table fm_match table_sel out_sel fm_out_port fm_out_group f_table rule_flow f_match].
  unfold table_sel, out_sel. cbn [f_table rule_flow fm_out_port fm_out_group]. rewrite Z.eqb_refl, orb_true_r. cbn [andb]. rewrite andb_true_r.
  unfold covers, egress_match. cbn [forallb existsb].
  assert (Ev : item_covers (masked Metadata (Z.land n PORT_METADATA_MASK) PORT_METADATA_MASK) (vlan_item v) = false).
  { unfold vlan_item. destruct (v =? OFPVID_NONE); reflexivity. }
  rewrite Ev, !orb_false_r, andb_true_r. unfold item_covers, masked, PORT_METADATA_MASK.
  change (field_eqb Metadata Metadata) with true. change (Z.land EGRESS_METADATA_MASK 0xFFF =? 0xFFF) with true. cbn [andb].
  rewrite md_port by (destruct Sm as ((? & ?) & _); lia). rewrite !land_ones12 by (try rewrite land_ones12; lia). reflexivity.
Qed.
Lemma del_miss n : del_hits (tb_del (ec_egress c) FDelete 0 [masked Metadata (Z.land n PORT_METADATA_MASK) PORT_METADATA_MASK] OFPP_ANY) miss_flow = false.
Proof. unfold del_hits, tb_del, miss_flow, covers. cbn [fm_cmd fm_match f_match forallb existsb]. cbn. rewrite andb_false_r. reflexivity. Qed.

Lemma step_inv up s e : xinv up s -> orderly_event up e -> match e with XAdd p => small_port p | XDel n => 0 < n < 4096 | XConnect => True end ->
  xinv (now_up up e) (xstep c s e).
Proof.
  intros I O Sm. destruct I as [I1 I2 I3 I4 I5]. destruct e as [p|n|]; cbn [xstep now_up].
  - rewrite eg_add_rules. destruct (add_rules p (rules_of p) Sm (fun x => proj1 (rules_of_spec p x)) s I5) as [G F].
    { intros f H. destruct (I2 f H) as [->|(n & p' & v & pop & U & Cr & ->)]; [auto|]. right. exists p', v, pop. destruct (I1 n p' U) as [N Sm'].
      split; [exact Sm'|]. split; [exact Cr|]. split; [reflexivity|]. intros E. destruct O as [O|O]; rewrite <- E, N, U in O; congruence. }
    constructor.
    + intros n q H. destruct (Z.eqb_spec n (ep_num p)) as [->|]; [injection H as <-; auto|apply I1, H].
    + intros f H. apply F in H as [H|(x & Hx & ->)].
      * destruct (I2 f H) as [->|(n & p' & v & pop & U & Cr & ->)]; [auto|]. right. exists n, p', v, pop. split; [|auto].
        destruct (Z.eqb_spec n (ep_num p)) as [->|]; [|exact U]. destruct O as [O|O]; congruence.
      * right. exists (ep_num p), p, (fst x), (snd x). rewrite Z.eqb_refl. split; [reflexivity|]. split; [apply rules_of_spec, Hx|reflexivity].
    + intros n q v pop H Cr. apply F. destruct (Z.eqb_spec n (ep_num p)) as [->|].
      * injection H as <-. right. exists (v, pop). split; [apply rules_of_spec, Cr|reflexivity].
      * left. apply (I3 n q v pop H Cr).
    + apply F. left. exact I4.
    + exact G.
  - assert (F : forall f, In f (sw_flows (apply_msgs (eg_del c n) s)) <-> In f (sw_flows s) /\
        del_hits (tb_del (ec_egress c) FDelete 0 [masked Metadata (Z.land n PORT_METADATA_MASK) PORT_METADATA_MASK] OFPP_ANY) f = false).
    { intros f. unfold eg_del, apply_msgs. cbn [fold_left apply_msg sw_flows].
      unfold apply_flowmod. change (fm_cmd (tb_del (ec_egress c) FDelete 0 [masked Metadata (Z.land n PORT_METADATA_MASK) PORT_METADATA_MASK] OFPP_ANY)) with FDelete.
      cbn iota. rewrite filter_In, negb_true_iff. reflexivity. }
    constructor.
    + intros m q H. destruct (m =? n); [discriminate|apply I1, H].
    + intros f H. apply F in H as [H D]. destruct (I2 f H) as [->|(m & p' & v & pop & U & Cr & ->)]; [auto|]. right. exists m, p', v, pop. split; [|auto].
      destruct (I1 m p' U) as [<- Sm']. rewrite del_rule in D by auto. rewrite D. exact U.
    + intros m q v pop H Cr. destruct (Z.eqb_spec m n) as [|N]; [discriminate|]. apply F. split; [apply (I3 m q v pop H Cr)|].
      destruct (I1 m q H) as [<- Sm']. rewrite del_rule by auto. apply Z.eqb_neq. exact N.
    + apply F. split; [exact I4|apply del_miss].
    + exact I5.
  - exact start_inv.
Qed.
Lemma run_inv : forall evs up s, xinv up s -> orderly up evs -> small evs -> xinv (fold_left now_up evs up) (fold_left (xstep c) evs s).
Proof.
  induction evs as [|e evs IH]; intros up s I O Sm; [exact I|]. destruct O as [O1 O2]. cbn [fold_left]. apply IH; [|exact O2|intros x H; apply Sm; right; exact H].
  apply step_inv; auto. apply (Sm e). left. reflexivity.
Qed.
Lemma xrun_inv evs : orderly (fun _ => None) evs -> small evs -> xinv (up_after evs) (xrun c evs).
Proof. intros O Sm. apply run_inv; auto. apply start_inv. Qed.

(** Matching *)
Lemma rule_matches q n v num vid : 0 < n < 4096 -> 0 < v < 4096 -> 0 < num < 4096 -> 0 < vid < 4096 ->
  (exists x, pk_hdr q Metadata = Some x /\ Z.land x EGRESS_METADATA_MASK = egress_metadata n v) -> (exists pcp r, pk_tags q = (v, pcp) :: r) ->
  matches q (egress_match num vid) = true <-> num = n /\ vid = v.
Proof.
  intros Hn Hv Hnum Hvid (x & Hx & Hm) (pcp & r & Ht). unfold egress_match, matches, vlan_item, OFPVID_NONE. rewrite (proj2 (Z.eqb_neq vid 0)) by lia.
  cbn [forallb]. unfold item_matches, masked, exact. cbn [pk_get]. rewrite Hx, Ht, Hm. rewrite md_full by lia. rewrite andb_true_r, andb_true_iff, !Z.eqb_eq, !Z.land_m1_r.
  change (Z.lor v OFPVID_PRESENT) with (vid_present v). split.
  - intros [E1 E2]. split; [symmetry; apply (md_inj n v num vid); auto; lia|]. symmetry. apply vid_present_inj_lemma; auto; lia.
  - intros [-> ->]. auto.
Qed.
Lemma written_metadata q n v : 0 < n < 4096 -> 0 < v < 4096 ->
  Z.land (match pk_hdr (write_metadata (egress_metadata n v) EGRESS_METADATA_MASK q) Metadata with Some x => x | None => 0 end) EGRESS_METADATA_MASK = egress_metadata n v.
Proof.
  intros Hn Hv. unfold write_metadata, set_field. cbn [pk_hdr]. change (field_eqb Metadata Metadata) with true. cbn iota.
  rewrite Z.land_lor_distr_l, md_full, md_full by lia. rewrite Z.ldiff_land, <- Z.land_assoc, (Z.land_comm (Z.lnot _)), Z.land_lnot_diag, Z.land_0_r. apply Z.lor_0_l.
Qed.

(** What a rule emits *)
Lemma exec_rule g live p pop q : exec_insts g live [Apply (egress_actions p pop)] q =
  (map (fun m => (m, q)) (ep_mirror p) ++ [(ep_num p, if pop then pop_vlan q else q)], (if pop then pop_vlan q else q), None).
Proof.
  cbn [exec_insts]. unfold egress_actions.
  assert (E : forall l r, exec_acts g live (map (fun m => Output m 0) l ++ r) q = (map (fun m => (m, q)) l ++ fst (exec_acts g live r q), snd (exec_acts g live r q))).
  { induction l as [|m l IH]; intros r; [cbn; apply surjective_pairing|]. cbn [map app exec_acts]. rewrite IH. reflexivity. }
  rewrite E. destruct pop; cbn [app exec_acts act_on fst snd]; rewrite app_nil_r; reflexivity.
Qed.
End Egress.
