(** * The pipeline: properties C32, C33 and C65 *)
From Coq Require Import ZArith QArith Qround Qfield Lqa List Bool Lia Permutation Sorted.
From Verif Require Import PyBase PyBaseProofs ConfProofs OpenFlow SwitchExec PipelineModel PipelineSpec.
Import ListNotations.
Open Scope Z_scope.

(** ** Positions *)
Lemma beq_refl : forall t, tname_beq t t = true.
Proof. destruct t; reflexivity. Qed.
Lemma beq_eq : forall a b, tname_beq a b = true <-> a = b.
Proof. intros a b. split; [apply internal_tname_dec_bl|intros ->; apply beq_refl]. Qed.
Lemma position_ge : forall t l i, i <= position t l i.
Proof. intros t. induction l as [|x l IH]; intros i; cbn; [lia|]. destruct (tname_beq t x); [lia|]. specialize (IH (i + 1)). lia. Qed.
Lemma position_lt : forall t l i, In t l -> position t l i < i + Z.of_nat (length l).
Proof.
  intros t. induction l as [|x l IH]; intros i I; [destruct I|]. cbn [position length]. destruct (tname_beq t x) eqn:E; [lia|].
  destruct I as [->|I]; [rewrite beq_refl in E; discriminate E|]. specialize (IH (i + 1) I). lia.
Qed.
Lemma pipeline_nodup : NoDup pipeline.
Proof. unfold pipeline. repeat (constructor; [cbn; intuition discriminate|]). constructor. Qed.
Lemma tables_nodup : forall f, NoDup (tables f).
Proof. intros f. apply NoDup_filter, pipeline_nodup. Qed.
Lemma tables_in : forall f t, In t (tables f) <-> included f t = true.
Proof. intros f t. unfold tables. rewrite filter_In. split; [intros [_ H]; auto|]. intros H. split; auto. destruct t; cbn; auto 20. Qed.
(** [before a b]: [a] comes before [b] in the pipeline *)
Definition before (a b : tname) : bool := position a pipeline 0 <? position b pipeline 0.
Lemma position_filter : forall (P : tname -> bool) a b l i j, P a = true -> P b = true -> In a l ->
  position a l i < position b l i -> position a (filter P l) j < position b (filter P l) j.
Proof.
  intros P a b. induction l as [|x l IH]; intros i j A B I H; [destruct I|]. cbn [position] in H. cbn [filter].
  destruct (tname_beq a x) eqn:Ea.
  - apply beq_eq in Ea. subst x. rewrite A. cbn [position]. rewrite beq_refl.
    destruct (tname_beq b a) eqn:Eb; [lia|]. assert (G := position_ge b (filter P l) (j + 1)). lia.
  - destruct (tname_beq b x) eqn:Eb; [assert (G := position_ge a l (i + 1)); lia|].
    assert (I' : In a l) by (destruct I as [->|I]; auto; rewrite beq_refl in Ea; discriminate Ea).
    destruct (P x); [cbn [position]; rewrite Ea, Eb|]; eapply IH; eauto.
Qed.

(** a table ahead in the pipeline has a higher number, also with fixed numbers,
    except the coprocessor and VLAN ACL tables *)
Lemma id_before : forall f a b, included f a = true -> included f b = true -> before a b = true ->
  ~ (a = Copro /\ b = VlanAcl) -> table_id f a < table_id f b.
Proof.
  intros f a b A B BF N. unfold table_id. destruct (ft_static f) eqn:S.
  - destruct a, b; cbn in BF; try discriminate BF; try (exfalso; apply N; auto; fail); cbn; lia.
  - apply Z.ltb_lt in BF. apply (position_filter (included f) a b pipeline 0 0); auto. destruct a; cbn; auto 20.
Qed.

(** ** C32 *)

(** What is to be shown of a table, as a computation over all features *)
Definition step_ok (f : features) (t u : tname) : bool :=
  included f u && before t u && negb (tname_beq t Copro && tname_beq u VlanAcl).
Definition check (f : features) (t : tname) : bool :=
  negb (included f t) ||
  (forallb (fun u => step_ok f t u && (existsb (tname_beq u) (next_tables f t) || tname_beq t Hairpin)) (code_gotos f t) &&
   forallb (step_ok f t) (next_tables f t) &&
   match miss_goto f t with Some u => step_ok f t u | None => true end).
Definition both (P : bool -> bool) : bool := P true && P false.
Lemma both_all : forall P, both P = true -> forall b, P b = true.
Proof. intros P H b. apply andb_prop in H. destruct H. destruct b; auto. Qed.
Lemma check_all : forall f t, check f t = true.
Proof.
  assert (H : both (fun a => both (fun b => both (fun c => both (fun d => both (fun e => both (fun g => both (fun h =>
    both (fun i => both (fun j => both (fun k => forallb (check (mkFeatures a b c d e g h i j k)) pipeline)))))))))) = true)
    by (vm_compute; reflexivity).
  intros [a b c d e g h i j k] t.
  apply both_all with (b := a) in H. apply both_all with (b := b) in H. apply both_all with (b := c) in H.
  apply both_all with (b := d) in H. apply both_all with (b := e) in H. apply both_all with (b := g) in H.
  apply both_all with (b := h) in H. apply both_all with (b := i) in H. apply both_all with (b := j) in H.
  apply both_all with (b := k) in H. rewrite forallb_forall in H. apply H. destruct t; cbn; auto 20.
Qed.
Lemma step_id : forall f t u, included f t = true -> step_ok f t u = true -> included f u = true /\ table_id f t < table_id f u.
Proof.
  intros f t u T H. unfold step_ok in H. apply andb_prop in H. destruct H as [H N]. apply andb_prop in H. destruct H as [A B].
  split; auto. apply id_before; auto. intros [-> ->]. discriminate N.
Qed.

(** Every table that packets are sent on to is in use and has a higher number than
    the table they come from, whatever features are in use; and the switch is told
    that packets may go there. *)
Theorem C32_forward : forall f t u, included f t = true ->
  In u (code_gotos f t) \/ miss_goto f t = Some u \/ In u (next_tables f t) ->
  included f u = true /\ table_id f t < table_id f u.
Proof.
  intros f t u T H. apply step_id; auto. assert (C := check_all f t). unfold check in C. rewrite T in C. cbn [negb orb] in C.
  apply andb_prop in C. destruct C as [C C3]. apply andb_prop in C. destruct C as [C1 C2]. rewrite forallb_forall in C1, C2.
  destruct H as [H|[H|H]]; auto.
  - apply C1 in H. apply andb_prop in H. apply H.
  - rewrite H in C3. auto.
Qed.
Print Assumptions C32_forward.
Theorem C32_declared : forall f t u, included f t = true -> t <> Hairpin ->
  In u (code_gotos f t) -> In u (next_tables f t).
Proof.
  intros f t u T N H. assert (C := check_all f t). unfold check in C. rewrite T in C. cbn [negb orb] in C.
  apply andb_prop in C. destruct C as [C C3]. apply andb_prop in C. destruct C as [C1 C2]. rewrite forallb_forall in C1.
  apply C1 in H. apply andb_prop in H. destruct H as [_ H]. apply orb_prop in H. destruct H as [H|H].
  - apply existsb_exists in H. destruct H as (x & I & E). apply beq_eq in E. subst x. auto.
  - apply beq_eq in H. contradiction.
Qed.
Print Assumptions C32_declared.

(** Table numbers are consecutive from 0 in the order of the pipeline. *)
Lemma position_seq : forall l i, NoDup l -> map (fun t => position t l i) l = map (fun n => i + Z.of_nat n) (seq 0 (length l)).
Proof.
  intros l. induction l as [|x l IH]; intros i ND; [reflexivity|]. inversion ND as [|y z N1 N2]; subst y z. cbn [map length seq position].
  rewrite beq_refl. f_equal; [lia|]. rewrite <- seq_shift, map_map. rewrite (map_ext (fun x => i + Z.of_nat (S x)) (fun n => (i + 1) + Z.of_nat n)) by lia.
  rewrite <- IH by auto. apply map_ext_in. intros t I. destruct (tname_beq t x) eqn:E; auto. apply beq_eq in E. subst. contradiction.
Qed.
Theorem C32_consecutive : forall f, ft_static f = false ->
  map (table_id f) (tables f) = map Z.of_nat (seq 0 (length (tables f))).
Proof.
  intros f S. unfold table_id. rewrite S. rewrite (position_seq (tables f) 0 (tables_nodup f)). apply map_ext. intros; lia.
Qed.
Print Assumptions C32_consecutive.
Theorem C32_distinct : forall f t u, included f t = true -> included f u = true -> t <> u ->
  ~ (ft_static f = true /\ included f Copro = true /\ included f VlanAcl = true) -> table_id f t <> table_id f u.
Proof.
  intros f t u T U N S. unfold table_id. destruct (ft_static f) eqn:E.
  - intros X. destruct t, u; cbn in X; try discriminate X; try (apply N; reflexivity); exfalso; apply S; auto.
  - intros X. assert (ND := tables_nodup f). assert (I1 := proj2 (tables_in f t) T). assert (I2 := proj2 (tables_in f u) U).
    assert (G : forall l i, In t l -> In u l -> position t l i = position u l i -> t = u).
    { clear - N. induction l as [|x l IH]; intros i A B Q; [destruct A|]. cbn in Q.
      destruct (tname_beq t x) eqn:E1, (tname_beq u x) eqn:E2.
      - apply beq_eq in E1, E2. congruence.
      - assert (Y := position_ge u l (i + 1)). lia.
      - assert (Y := position_ge t l (i + 1)). lia.
      - apply (IH (i + 1)); auto; [destruct A as [->|A]|destruct B as [->|B]]; auto; rewrite beq_refl in *; discriminate. }
    apply N. eapply G; eauto.
Qed.
Print Assumptions C32_distinct.

(** So every packet leaves the pipeline, having met every table at most once: a
    switch whose flows keep to the pipeline needs no more steps than there are
    tables. *)
Lemma exec_goto : forall g lv is_ p es p' n, exec_insts g lv is_ p = (es, p', Some n) -> In (Goto n) is_.
Proof.
  intros g lv. induction is_ as [|i is_ IH]; intros p es p' n H; cbn in H; [discriminate H|].
  destruct i as [acts|t|m|a b].
  - destruct (exec_acts g lv acts p) as [e1 p1]. destruct (exec_insts g lv is_ p1) as [[e2 p2] nx] eqn:E. injection H as _ _ ->. right. eauto.
  - destruct (exec_insts g lv is_ p) as [[e2 p2] nx] eqn:E. injection H as _ _ ->. left; auto.
  - right. eauto.
  - right. eauto.
Qed.
Lemma filter_shorter : forall (P : tname -> bool) l, (length (filter P l) <= length l)%nat.
Proof. intros P. induction l as [|x l IH]; cbn; [lia|]. destruct (P x); cbn; lia. Qed.
Theorem C32_terminates : forall f s live t p,
  (forall fl, In fl (sw_flows s) -> follows f fl) -> included f t = true ->
  exists es, walk_run (length pipeline) s live (table_id f t) p = Some es /\ walk s live (table_id f t) p es.
Proof.
  intros f s live t p F T.
  enough (G : forall k t p, included f t = true -> (length pipeline <= k + Z.to_nat (table_id f t))%nat ->
     exists es, walk_run k s live (table_id f t) p = Some es).
  { destruct (G (length pipeline) t p T) as [es H]; [lia|]. exists es. split; auto. apply walk_run_sound with (fuel := length pipeline); auto. }
  assert (B : forall t, included f t = true -> 0 <= table_id f t < 14).
  { intros u U. unfold table_id. destruct (ft_static f); [destruct u; cbn; lia|].
    split; [apply position_ge|]. assert (L := position_lt u (tables f) 0 (proj2 (tables_in f u) U)).
    assert (Q := filter_shorter (included f) pipeline). fold (tables f) in Q. change (length pipeline) with 14%nat in Q. lia. }
  induction k as [|k IH]; intros u q U L.
  - exfalso. specialize (B u U). change (length pipeline) with 14%nat in L. lia.
  - cbn [walk_run]. assert (TS := top_spec (sw_flows s) (table_id f u) q). destruct (top (sw_flows s) (table_id f u) q) as [fl|]; [|eauto].
    destruct (exec_insts (group_lookup s) live (f_inst fl) q) as [[es p'] [n|]] eqn:E; [|eauto].
    destruct TS as (I & TB & _). destruct (F fl I) as (w & W & TW & GW). apply exec_goto in E. destruct (GW n E) as (v & -> & V).
    assert (VV : included f v = true /\ table_id f w < table_id f v) by (apply C32_forward; tauto).
    destruct VV as [V1 V2]. destruct (IH v p' V1) as [es' H].
    + specialize (B u U). lia.
    + rewrite H. eexists; reflexivity.
Qed.
Print Assumptions C32_terminates.

(** All features on, and none *)
Definition all_on := mkFeatures true true true true true false true true true true.
Definition all_off := mkFeatures false false false false false false false false false false.
Example C32_example :
  map (table_id all_on) pipeline = [0;1;2;3;4;5;6;7;8;9;10;11;12;13] /\
  tables all_off = [Vlan; EthSrc; EthDst; Flood] /\ map (table_id all_off) (tables all_off) = [0;1;2;3] /\
  code_gotos all_on Vlan = [Copro; VlanAcl; Classification] /\ code_gotos all_off Vlan = [EthSrc].
Proof. vm_compute. auto. Qed.
Example C32_follows_example :
  follows all_off (mkFlow 0 4096 [] 0 [Goto 1] 0 0 0) /\ follows all_off (mkFlow 2 0 [] 0 [Goto 3] 0 0 0).
Proof.
  split.
  - exists Vlan. split; [reflexivity|split; [reflexivity|]]. intros n [H|[]]. injection H as <-. exists EthSrc. split; [reflexivity|left; cbn; auto].
  - exists EthDst. split; [reflexivity|split; [reflexivity|]]. intros n [H|[]]. injection H as <-. exists Flood. split; [reflexivity|right; reflexivity].
Qed.

(** Findings: with fixed table numbers the coprocessor and VLAN ACL tables are the
    same table; and with hairpin ports and an egress pipeline packets are sent from
    the hairpin table to a table that the switch was told it cannot send to. *)
Theorem C32_same_table_refuted : exists f t u, included f t = true /\ included f u = true /\ t <> u /\ table_id f t = table_id f u.
Proof. exists (mkFeatures false true false false false true false false false true), Copro, VlanAcl. repeat split. discriminate. Qed.
Print Assumptions C32_same_table_refuted.
Theorem C32_undeclared_refuted : exists f t u, included f t = true /\ In u (code_gotos f t) /\ ~ In u (next_tables f t) /\ miss_goto f t <> Some u.
Proof.
  exists (mkFeatures false false false false false false true false true false), Hairpin, Egress.
  repeat split; [left; reflexivity|intros []|discriminate].
Qed.
Print Assumptions C32_undeclared_refuted.

(** ** C33: sizes *)

Lemma scale_need : forall s t, (scale_factor s t == need s t)%Q.
Proof.
  intros s t. unfold scale_factor, need. rewrite ?inject_Z_mult.
  destruct t; cbn [vlan_scale vlan_port_scale tname_beq]; destruct (sz_externals s); try destruct (sz_comb s); try destruct (sz_restricted s); try ring; try field.
Qed.
Lemma Qmul_nonneg : forall a b, (0 <= a -> 0 <= b -> 0 <= a * b)%Q.
Proof. intros. apply Qmult_le_0_compat; auto. Qed.
Lemma Zinj_nonneg : forall z, 0 <= z -> (0 <= inject_Z z)%Q.
Proof. intros z H. change 0%Q with (inject_Z 0). rewrite <- Zle_Qle. auto. Qed.
Lemma need_nonneg : forall s t, sizing_ok s -> (0 <= need s t)%Q.
Proof.
  intros s t (V & P & K & _). apply Zinj_nonneg in V, P. unfold need.
  destruct t; destruct (sz_externals s), (sz_comb s), (sz_restricted s);
    repeat apply Qmul_nonneg; auto; unfold Qle; cbn; lia.
Qed.
Lemma py_int_floor : forall q, (0 <= q)%Q -> py_int q = Qfloor q.
Proof.
  intros [n d] H. unfold py_int, Qfloor. cbn [Qnum Qden]. unfold Qle in H. cbn in H. apply Z.quot_div_nonneg; lia.
Qed.

(** the computed size, before it is bounded: the least multiple of the configured
    minimum that is more than needed *)
Definition rounded (m : Z) (q : Q) (z : Z) : Prop := (m | z) /\ (q < inject_Z z)%Q /\ (inject_Z z <= q + inject_Z m)%Q.
Lemma size_rounded : forall s t, sizing_ok s ->
  rounded (sz_min s) (need s t) ((py_int (scale_factor s t / inject_Z (sz_min s)) + 1) * sz_min s).
Proof.
  intros s t OK. assert (NN := need_nonneg s t OK). destruct OK as (_ & _ & _ & M).
  set (m := inject_Z (sz_min s)).
  assert (M0 : (0 < m)%Q) by (unfold m; change 0%Q with (inject_Z 0); rewrite <- Zlt_Qlt; auto).
  assert (D : (0 <= need s t / m)%Q) by (apply Qle_shift_div_l; auto; lra).
  assert (E : (scale_factor s t / m == need s t / m)%Q) by (rewrite scale_need; reflexivity).
  rewrite py_int_floor by (rewrite E; auto). rewrite (Qfloor_comp _ _ E).
  assert (L := Qfloor_le (need s t / m)). assert (U := Qlt_floor (need s t / m)).
  set (n := Qfloor (need s t / m)) in *. clearbody n. split; [exists (n + 1); lia|].
  rewrite inject_Z_mult. fold m.
  assert (X : (need s t == (need s t / m) * m)%Q) by (field; lra).
  set (x := (need s t / m)%Q) in *. clearbody x. rewrite X. split.
  - apply Qmult_lt_compat_r; auto.
  - rewrite inject_Z_plus. setoid_replace (x * m + m)%Q with ((x + 1) * m)%Q by ring. apply Qmult_le_compat_r; [|lra].
    change (inject_Z 1) with 1%Q. lra.
Qed.

(** A table is given the size configured for it, if there is one; otherwise the least
    multiple of the configured minimum that is more than its flows need; other than
    exact match tables never more than the configured maximum. *)
Theorem C33_configured : forall s t n, sz_override s t = Some n -> table_size s t = n.
Proof. intros s t n H. unfold table_size. rewrite H. reflexivity. Qed.
Print Assumptions C33_configured.
Theorem C33_exact : forall s t, sizing_ok s -> sz_override s t = None -> exact_match s t = true ->
  rounded (sz_min s) (need s t) (table_size s t).
Proof. intros s t OK O E. unfold table_size. rewrite O, E. apply size_rounded. auto. Qed.
Print Assumptions C33_exact.
Theorem C33_wildcard : forall s t, sizing_ok s -> sz_override s t = None -> exact_match s t = false ->
  exists z, rounded (sz_min s) (need s t) z /\ table_size s t = Z.min z (sz_max s).
Proof.
  intros s t OK O E. assert (R := size_rounded s t OK). exists ((py_int (scale_factor s t / inject_Z (sz_min s)) + 1) * sz_min s).
  split; auto. unfold table_size. rewrite O, E. f_equal. apply Z.max_l.
  destruct R as ((k & K) & L & _). rewrite K in *. assert (NN := need_nonneg s t OK). destruct OK as (_ & _ & _ & M).
  assert (P : 0 < k * sz_min s) by (rewrite Zlt_Qlt; exact (Qle_lt_trans _ _ _ NN L)).
  clear - P M. assert (0 < k) by (apply (Z.mul_pos_cancel_r k (sz_min s)); auto). nia.
Qed.
Print Assumptions C33_wildcard.
(** In particular tables are big enough unless the configuration limits them. *)
Theorem C33_enough : forall s t, sizing_ok s -> sz_override s t = None ->
  (need s t < inject_Z (table_size s t))%Q \/ (exact_match s t = false /\ table_size s t = sz_max s).
Proof.
  intros s t OK O. destruct (exact_match s t) eqn:E.
  - left. apply C33_exact; auto.
  - destruct (C33_wildcard s t OK O E) as (z & (_ & L & _) & ->). destruct (Z.min_spec z (sz_max s)) as [[_ ->]|[_ ->]]; auto.
Qed.
Print Assumptions C33_enough.

(** More VLANs, ports or a larger factor never make a table smaller. *)
Lemma floor_mono : forall s s' t, (need s t <= need s' t)%Q -> sizing_ok s -> sizing_ok s' -> sz_min s = sz_min s' ->
  py_int (scale_factor s t / inject_Z (sz_min s)) <= py_int (scale_factor s' t / inject_Z (sz_min s')).
Proof.
  intros s s' t L OK OK' M. assert (N := need_nonneg s t OK). assert (N' := need_nonneg s' t OK').
  destruct OK as (_ & _ & _ & P). assert (P' : (0 < inject_Z (sz_min s))%Q) by (change 0%Q with (inject_Z 0); rewrite <- Zlt_Qlt; auto).
  rewrite <- M. assert (E := scale_need s t). assert (E' := scale_need s' t).
  rewrite !py_int_floor by (apply Qle_shift_div_l; auto; lra).
  apply Qfloor_resp_le. rewrite E, E'. unfold Qdiv. apply Qmult_le_compat_r; auto. apply Qlt_le_weak, Qinv_lt_0_compat. auto.
Qed.
Lemma need_mono : forall s s' t, sizing_ok s -> sizing_ok s' -> sz_vlans s <= sz_vlans s' -> sz_ports s <= sz_ports s' ->
  (sz_scale s <= sz_scale s')%Q -> sz_externals s = sz_externals s' -> sz_comb s = sz_comb s' -> sz_restricted s = sz_restricted s' ->
  (need s t <= need s' t)%Q.
Proof.
  intros s s' t (V & P & K & _) (V' & P' & K' & _) LV LP LK E1 E2 E3. unfold need. rewrite <- E1, <- E2, <- E3.
  apply Zinj_nonneg in V, P, V', P'. rewrite Zle_Qle in LV, LP.
  set (v := inject_Z (sz_vlans s)) in *. set (v' := inject_Z (sz_vlans s')) in *. set (p := inject_Z (sz_ports s)) in *.
  set (p' := inject_Z (sz_ports s')) in *. set (k := sz_scale s) in *. set (k' := sz_scale s') in *. clearbody v v' p p' k k'.
  assert (C : forall a b a' b' : Q, (0 <= a -> 0 <= b -> a <= a' -> b <= b' -> a * b <= a' * b')%Q).
  { intros a b a' b' A B LA LB. apply Qle_trans with (a' * b)%Q; [apply Qmult_le_compat_r; auto|].
    rewrite (Qmult_comm a' b), (Qmult_comm a' b'). apply Qmult_le_compat_r; auto. lra. }
  destruct t; destruct (sz_externals s), (sz_comb s), (sz_restricted s);
    repeat (apply C || (apply Qmul_nonneg)); auto; try lra; unfold Qle; cbn; lia.
Qed.
Theorem C33_monotone : forall s s' t, sizing_ok s -> sizing_ok s' ->
  sz_vlans s <= sz_vlans s' -> sz_ports s <= sz_ports s' -> (sz_scale s <= sz_scale s')%Q ->
  sz_externals s = sz_externals s' -> sz_comb s = sz_comb s' -> sz_restricted s = sz_restricted s' ->
  sz_min s = sz_min s' -> sz_max s = sz_max s' -> sz_exact s t = sz_exact s' t -> sz_override s t = sz_override s' t ->
  table_size s t <= table_size s' t.
Proof.
  intros s s' t OK OK' LV LP LK E1 E2 E3 M1 M2 X O.
  assert (F := floor_mono s s' t (need_mono s s' t OK OK' LV LP LK E1 E2 E3) OK OK' M1).
  unfold table_size. rewrite <- O. destruct (sz_override s t); [lia|].
  assert (EX : exact_match s' t = exact_match s t) by (destruct t; cbn; auto). rewrite EX, <- M1, <- M2 in *.
  assert (P : 0 < sz_min s) by apply OK.
  set (a := py_int (scale_factor s t / _)) in *. set (b := py_int (scale_factor s' t / _)) in *. clearbody a b.
  assert ((a + 1) * sz_min s <= (b + 1) * sz_min s) by (apply Z.mul_le_mono_nonneg_r; lia).
  destruct (exact_match s t); lia.
Qed.
Print Assumptions C33_monotone.

(** 3 VLANs, 24 ports, the default bounds: 296 flows in the destination table, 1280
    (the maximum) of the 1728 in the flood table *)
Definition ex_sizing := mkSizing false 3 24 1 true false 32 1280 (fun _ => false) (fun _ => None).
Example C33_example : sizing_ok ex_sizing /\ table_size ex_sizing EthDst = 320 /\ table_size ex_sizing Flood = 1280 /\
  table_size ex_sizing Vlan = 224 /\ table_size ex_sizing Classification = 32.
Proof. split; [|vm_compute; auto]. repeat split; cbn; try lia. unfold Qle; cbn; lia. Qed.

(** Findings: tables are not always as big as their flows need, nor as big as the
    configured minimum, and not a power of two. *)
Theorem C33_need_refuted : exists s t, sizing_ok s /\ sz_override s t = None /\ (inject_Z (table_size s t) < need s t)%Q.
Proof. exists ex_sizing, Flood. split; [apply C33_example|]. split; [reflexivity|]. vm_compute. reflexivity. Qed.
Print Assumptions C33_need_refuted.
Theorem C33_minimum_refuted : exists s t, sizing_ok s /\ sz_override s t = None /\ table_size s t < sz_min s.
Proof.
  exists (mkSizing false 1 1 1 false false 32 16 (fun _ => false) (fun _ => None)), Vlan.
  split; [|split; [reflexivity|vm_compute; reflexivity]]. repeat split; cbn; try lia. unfold Qle; cbn; lia.
Qed.
Print Assumptions C33_minimum_refuted.

(** ** C65: table features *)

Section Tfm.
  Variables (f : features) (s : sizing).
  Hypothesis ST : ft_static f = false.

  Lemma ids_inj : forall t u, In t (tables f) -> In u (tables f) -> table_id f t = table_id f u -> t = u.
  Proof.
    intros t u T U E. destruct (tname_eq_dec t u) as [|N]; auto. exfalso.
    apply (C32_distinct f t u); auto; try (apply tables_in; auto). intros (X & _). congruence.
  Qed.
  Lemma by_id : forall t, In t (tables f) -> table_by_id f (table_id f t) = Some t.
  Proof.
    intros t T. unfold table_by_id. destruct (find (fun u => table_id f u =? table_id f t) (tables f)) as [u|] eqn:E.
    - apply find_some in E. destruct E as [I E]. apply Z.eqb_eq in E. f_equal. apply ids_inj; auto.
    - apply (find_none _ _ E) in T. rewrite Z.eqb_refl in T. discriminate T.
  Qed.
End Tfm.

Definition described f s mmf t : tfm :=
  mkTfm (table_id f t) (Some t) (Z.max mmf (table_size s t)) (map (table_id f) (next_tables f t)) (option_map (table_id f) (miss_goto f t)).
Lemma perm_map_ : forall {A B} (g : A -> B) l l', Permutation l l' -> Permutation (map g l) (map g l').
Proof. intros. apply Permutation_map. auto. Qed.
Lemma load_described : forall f s mmf, ft_static f = false ->
  Permutation (flat_map (describe f s mmf) (py_sorted Z.leb (map (table_id f) (tables f)))) (map (described f s mmf) (tables f)).
Proof.
  intros f s mmf ST. eapply perm_trans.
  - apply Permutation_flat_map. apply Permutation_sym, py_sorted_perm.
  - enough (E : flat_map (describe f s mmf) (map (table_id f) (tables f)) = map (described f s mmf) (tables f)) by (rewrite E; auto).
    assert (G : forall l, incl l (tables f) -> flat_map (describe f s mmf) (map (table_id f) l) = map (described f s mmf) l).
    { induction l as [|t l IH]; intros I; [reflexivity|]. cbn [map flat_map]. unfold describe at 1. rewrite (by_id f ST) by (apply I; left; auto).
      cbn [app]. f_equal. apply IH. intros x X. apply I. right; auto. }
    apply G. intros x X. exact X.
Qed.

(** The table features message has one entry for every table of the pipeline, with
    its number, at least its size, and exactly the tables that it is to send packets
    to; all other numbers up to the switch's highest are fillers. *)
Theorem C65_described : forall f s max mmf e, ft_static f = false ->
  (In e (load_tables f s max mmf) <->
   (exists t, included f t = true /\ e = described f s mmf t) \/
   (0 <= tf_id e <= max /\ (forall t, included f t = true -> table_id f t <> tf_id e) /\ e = mkTfm (tf_id e) None mmf [] None)).
Proof.
  intros f s max mmf e ST. assert (L := load_described f s mmf ST). unfold load_tables.
  set (ds := flat_map _ _) in *. clearbody ds. rewrite in_app_iff, in_map_iff.
  assert (ID : forall id, mem Z.eqb id (map tf_id ds) = true <-> exists t, included f t = true /\ table_id f t = id).
  { intros id. rewrite memz. split.
    - intros I. apply (Permutation_in _ (Permutation_map tf_id L)) in I. rewrite map_map in I. apply in_map_iff in I.
      destruct I as (t & E & I). exists t. split; auto. apply tables_in; auto.
    - intros (t & T & <-). apply (Permutation_in _ (Permutation_sym (Permutation_map tf_id L))). rewrite map_map. apply in_map_iff.
      exists t. split; auto. apply tables_in; auto. }
  assert (RG : forall id, In id (py_range (max + 1)) <-> 0 <= id <= max).
  { intros id. unfold py_range. rewrite in_map_iff. split.
    - intros (n & <- & I). apply in_seq in I. lia.
    - intros H. exists (Z.to_nat id). split; [lia|]. apply in_seq. lia. }
  split.
  - intros [I|(id & <- & I)].
    + left. apply (Permutation_in _ L) in I. apply in_map_iff in I. destruct I as (t & <- & I). exists t. split; auto. apply tables_in; auto.
    + right. cbn [tf_id]. apply filter_In in I. destruct I as [I N]. apply RG in I. split; auto. split; auto.
      intros t T E. apply negb_true_iff in N. assert (X := proj2 (ID id) (ex_intro _ t (conj T E))). congruence.
  - intros [(t & T & ->)|(R & N & E)].
    + left. apply (Permutation_in _ (Permutation_sym L)). apply in_map. apply tables_in; auto.
    + right. exists (tf_id e). split; [auto|]. apply filter_In. split; [apply RG; auto|]. apply negb_true_iff.
      apply not_true_is_false. intros X. apply ID in X. destruct X as (t & T & X). apply (N t); auto.
Qed.
Print Assumptions C65_described.
Theorem C65_once : forall f s max mmf, ft_static f = false -> NoDup (map tf_id (load_tables f s max mmf)).
Proof.
  intros f s max mmf ST. assert (L := load_described f s mmf ST). unfold load_tables.
  set (ds := flat_map _ _) in *. clearbody ds. rewrite map_app, map_map. cbn [tf_id]. rewrite map_id.
  apply NoDup_app_iff_. repeat split.
  - eapply Permutation_NoDup; [apply Permutation_sym, Permutation_map, L|]. rewrite map_map. cbn [tf_id described].
    change (NoDup (map (table_id f) (tables f))). rewrite (C32_consecutive f ST).
    apply FinFun.Injective_map_NoDup; [intros x y; apply Nat2Z.inj|]. apply seq_NoDup.
  - apply NoDup_filter. unfold py_range. apply FinFun.Injective_map_NoDup; [intros x y; apply Nat2Z.inj|]. apply seq_NoDup.
  - intros x X Y. apply filter_In in Y. destruct Y as [_ Y]. apply negb_true_iff in Y. assert (Z0 := proj2 (memz x (map tf_id ds)) X). congruence.
Qed.
Print Assumptions C65_once.
Example C65_example : load_tables all_off ex_sizing 4 0 =
  [mkTfm 0 (Some Vlan) 224 [1] None; mkTfm 1 (Some EthSrc) 320 [2; 3] (Some 2); mkTfm 2 (Some EthDst) 320 [] (Some 3);
   mkTfm 3 (Some Flood) 1280 [] None; mkTfm 4 None 0 [] None].
Proof. vm_compute. reflexivity. Qed.
