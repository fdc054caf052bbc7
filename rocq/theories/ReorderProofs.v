(** * Proofs about batch reordering *)

From Coq Require Import ZArith List Bool Lia Permutation Sorted.
From Verif Require Import PyBase PyBaseProofs OpenFlow ReorderModel ReorderSpec.
Import ListNotations.
Open Scope Z_scope.

Lemma ofmsg_eqb_spec : forall a b, ofmsg_eqb a b = true <-> a = b.
Proof. intros a b; unfold ofmsg_eqb; destruct (ofmsg_eq_dec a b); split; congruence. Qed.
Lemma okey_eqb_spec : forall a b, okey_eqb a b = true <-> a = b.
Proof.
  intros [x|] [y|]; simpl; try (split; congruence).
  unfold fkey_eqb; destruct (fkey_eq_dec x y); split; congruence.
Qed.
Lemma fmatch_eqb_spec : forall a b, fmatch_eqb a b = true <-> a = b.
Proof. intros a b; unfold fmatch_eqb; destruct (fmatch_eq_dec a b); split; congruence. Qed.
Lemma kind_eqb_spec : forall a b, kind_eqb a b = true <-> a = b.
Proof. intros a b; unfold kind_eqb; destruct (kind_eq_dec a b); split; congruence. Qed.
Lemma item_eqb_spec : forall a b, item_eqb a b = true <-> a = b.
Proof. intros a b; unfold item_eqb; destruct (item_eq_dec a b); split; congruence. Qed.
Lemma field_eqb_spec : forall a b, field_eqb a b = true <-> a = b.
Proof. intros a b; unfold field_eqb; destruct (field_eq_dec a b); split; congruence. Qed.

Lemma is_nil_true : forall A (l : list A), is_nil l = true <-> l = [].
Proof. destruct l; simpl; split; congruence. Qed.

(** ** Membership after each stage *)

Lemma dedupe_str_in : forall l m, In m (dedupe_str l) <-> In m l.
Proof.
  intros l m. unfold dedupe_str. split.
  - apply dict_of_vals_in, ofmsg_eqb_spec.
  - intros H. destruct (dict_of_covers ofmsg_eqb ofmsg_eqb_spec (fun m => m) l m H) as [y [Hy ->]]; auto.
Qed.

Lemma simple_in : forall l m, In m (sort_flows (dedupe_str l)) <-> In m l.
Proof. intros. unfold sort_flows. rewrite py_sorted_in. apply dedupe_str_in. Qed.

Lemma adds_in : forall l m, In m (sort_flows (dedupe_key l)) -> In m l.
Proof.
  intros l m. unfold sort_flows, dedupe_key. rewrite py_sorted_in.
  apply dict_of_vals_in, okey_eqb_spec.
Qed.

Lemma of_kind_in : forall ms k m,
  In m (filter (fun m => kind_eqb (msg_kind m) k) ms) <-> In m ms /\ msg_kind m = k.
Proof. intros. rewrite filter_In, kind_eqb_spec. tauto. Qed.

Lemma with_barrier_in : forall b l m,
  In m (with_barrier b l) <-> In m l \/ (m = Barrier /\ b = true /\ l <> []).
Proof.
  intros b l m. unfold with_barrier. destruct l as [|x r]; simpl is_nil; cbv iota.
  - simpl. intuition congruence.
  - destruct b; [rewrite in_app_iff; simpl; intuition congruence|intuition congruence].
Qed.

Lemma tables_desc_in : forall l t, In t (tables_desc l) <-> exists m, In m l /\ msg_table m = Some t.
Proof.
  intros. unfold tables_desc. rewrite py_sorted_in, nodup_In, in_flat_map.
  split; intros [m [H1 H2]]; exists m; split; auto; destruct (msg_table m); simpl in *; try intuition congruence.
Qed.

(** The overlap pass keeps every delete except table-specific ones implied by a
    kept all-tables delete. *)
Lemma dedupe_overlaps_some : forall l d m,
  dedupe_overlaps l = Some d ->
  (In m d -> In m l) /\
  (In m l -> In m d \/
    exists fo fm, m = FlowMod fm /\ In (FlowMod fo) l /\ In (FlowMod fo) d /\
      fm_table fo = OFPTT_ALL /\ fm_table fm <> OFPTT_ALL /\
      items_subset (fm_match fo) (fm_match fm) = true).
Proof.
  intros l d m. unfold dedupe_overlaps.
  set (dd := sort_flows (dedupe_str l)).
  set (ov := map msg_match (filter is_overlap dd)).
  assert (Hdd : forall x, In x dd <-> In x l) by (intro; apply simple_in).
  destruct (negb (is_nil ov) && existsb is_specific dd) eqn:E1.
  2:{ intros H; inversion H; subst. rewrite Hdd. tauto. }
  destruct (existsb no_table dd) eqn:E2; [discriminate|].
  intros H; inversion H; subst; clear H. split.
  - intros Hin. apply in_flat_map in Hin as [t [_ Hf]]. apply filter_In in Hf as [Hf _].
    apply Hdd; auto.
  - intros Hin. apply Hdd in Hin.
    assert (Hkeep : forall x, In x dd -> is_implied ov x = false ->
        In x (flat_map (fun t => filter (fun m0 => has_table t m0 && negb (is_implied ov m0)) dd)
                       (tables_desc dd))).
    { intros x Hx Hk. destruct (msg_table x) as [t|] eqn:Et.
      - apply in_flat_map. exists t. split; [apply tables_desc_in; eauto|].
        apply filter_In; split; auto. unfold has_table. rewrite Et, Z.eqb_refl, Hk; auto.
      - assert (X : existsb no_table dd = true).
        { apply existsb_exists. exists x; split; auto. unfold no_table. rewrite Et; auto. }
        congruence. }
    destruct (is_implied ov m) eqn:Es; [|left; auto].
    right. unfold is_implied in Es. apply andb_true_iff in Es as [Es1 Es2].
    apply existsb_exists in Es2 as [o [Ho Hsub]].
    apply in_map_iff in Ho as [mo [<- Hmo]]. apply filter_In in Hmo as [Hmo Hp].
    unfold is_overlap in Hp. apply andb_true_iff in Hp as [Hp1 Hp2].
    destruct mo as [fo| | | | | | |]; unfold has_table in Hp1; simpl in Hp1; try discriminate.
    destruct m as [fm| | | | | | |]; unfold is_specific in Es1; simpl in Es1; try discriminate.
    simpl in Hp2, Hsub. apply Z.eqb_eq in Hp1, Hp2.
    apply negb_true_iff, Z.eqb_neq in Es1.
    exists fo, fm. repeat split; auto; [apply Hdd; auto|].
    apply Hkeep; auto. unfold is_implied, is_specific; simpl. rewrite Hp1. reflexivity.
Qed.

(** ** Effect of message lists *)

Lemma apply_msgs_app : forall a b s, apply_msgs (a ++ b) s = apply_msgs b (apply_msgs a s).
Proof. intros. unfold apply_msgs. apply fold_left_app. Qed.

Definition inert (m : ofmsg) : bool :=
  match m with
  | FlowMod _ | GroupMod _ _ | MeterMod _ _ _ => false
  | _ => true
  end.

Lemma apply_inert : forall l s, (forall m, In m l -> inert m = true) -> apply_msgs l s = s.
Proof.
  induction l as [|m l IH]; intros s H; simpl; auto.
  assert (Hm : inert m = true) by (apply H; left; auto).
  replace (apply_msg m s) with s by (destruct m; simpl in Hm; try discriminate; reflexivity).
  apply IH. intros; apply H; right; auto.
Qed.

Lemma apply_with_barrier : forall b l s, apply_msgs (with_barrier b l) s = apply_msgs l s.
Proof.
  intros b l s. unfold with_barrier. destruct (is_nil l) eqn:E.
  - apply is_nil_true in E; subst; reflexivity.
  - destruct b; auto. rewrite apply_msgs_app. reflexivity.
Qed.

Definition any_group (f : flow) : bool :=
  existsb (fun a => match a with GroupAct _ => true | _ => false end) (flow_actions f).
Definition any_meter (f : flow) : bool :=
  existsb (fun i => match i with MeterI _ => true | _ => false end) (f_inst f).

Definition del_flow (m : ofmsg) (f : flow) : bool :=
  match m with
  | FlowMod fm => del_hits fm f
  | GroupMod GDelete g => if g_id g =? OFPG_ALL then any_group f else uses_group (g_id g) f
  | MeterMod MDelete id _ => if id =? OFPM_ALL then any_meter f else uses_meter id f
  | _ => false
  end.
Definition del_group (m : ofmsg) (h : group) : bool :=
  match m with
  | GroupMod GDelete g => (g_id g =? OFPG_ALL) || (g_id h =? g_id g)
  | _ => false
  end.
Definition del_meter (m : ofmsg) (h : Z * list Z) : bool :=
  match m with
  | MeterMod MDelete id _ => (id =? OFPM_ALL) || (fst h =? id)
  | _ => false
  end.

Lemma apply_delete_one : forall m s, is_delete m = true ->
  (forall f, In f (sw_flows (apply_msg m s)) <-> In f (sw_flows s) /\ del_flow m f = false) /\
  (forall g, In g (sw_groups (apply_msg m s)) <-> In g (sw_groups s) /\ del_group m g = false) /\
  (forall h, In h (sw_meters (apply_msg m s)) <-> In h (sw_meters s) /\ del_meter m h = false).
Proof.
  intros m s H. destruct m as [fm|c g|c id b| | | | |]; simpl in H; try discriminate.
  - simpl. unfold apply_flowmod. destruct (fm_cmd fm) eqn:E; try discriminate.
    all: repeat split; intros; try tauto; repeat rewrite filter_In in *; rewrite ?negb_true_iff in *; tauto.
  - destruct c; try discriminate. simpl. unfold any_group.
    destruct (g_id g =? OFPG_ALL) eqn:E; simpl.
    all: repeat split; intros; try tauto; repeat rewrite filter_In in *; rewrite ?negb_true_iff in *; simpl in *; intuition congruence.
  - destruct c; try discriminate. simpl. unfold any_meter.
    destruct (id =? OFPM_ALL) eqn:E; simpl.
    all: repeat split; intros; try tauto; repeat rewrite filter_In in *; rewrite ?negb_true_iff in *; simpl in *; intuition congruence.
Qed.

Lemma apply_deletes : forall l s, (forall m, In m l -> is_delete m = true) ->
  (forall f, In f (sw_flows (apply_msgs l s)) <->
             In f (sw_flows s) /\ forall m, In m l -> del_flow m f = false) /\
  (forall g, In g (sw_groups (apply_msgs l s)) <->
             In g (sw_groups s) /\ forall m, In m l -> del_group m g = false) /\
  (forall h, In h (sw_meters (apply_msgs l s)) <->
             In h (sw_meters s) /\ forall m, In m l -> del_meter m h = false).
Proof.
  induction l as [|m l IH]; intros s H; simpl.
  - repeat split; intros; tauto.
  - destruct (apply_delete_one m s (H m (or_introl eq_refl))) as [A [B C]].
    destruct (IH (apply_msg m s)) as [A' [B' C']]; [intros; apply H; right; auto|].
    repeat split; intros.
    all: match goal with
      | X : In _ (sw_flows _) |- _ => apply A' in X as [X Y]; apply A in X as [X Z]
      | X : In _ (sw_groups _) |- _ => apply B' in X as [X Y]; apply B in X as [X Z]
      | X : In _ (sw_meters _) |- _ => apply C' in X as [X Y]; apply C in X as [X Z]
      | |- In _ (sw_flows _) => destruct H0 as [H0 H1]; apply A'; split; [apply A|]; auto
      | |- In _ (sw_groups _) => destruct H0 as [H0 H1]; apply B'; split; [apply B|]; auto
      | |- In _ (sw_meters _) => destruct H0 as [H0 H1]; apply C'; split; [apply C|]; auto
      end; auto.
    all: try (destruct H1 as [<-|H1]; auto).
Qed.

(** group and meter additions *)
Lemma apply_group_adds : forall l s,
  (forall m, In m l -> is_group_add m = true) ->
  (forall g1 g2, In (GroupMod GAdd g1) l -> In (GroupMod GAdd g2) l -> g_id g1 = g_id g2 -> g1 = g2) ->
  sw_flows (apply_msgs l s) = sw_flows s /\ sw_meters (apply_msgs l s) = sw_meters s /\
  forall g, In g (sw_groups (apply_msgs l s)) <->
    In g (sw_groups s) \/ (In (GroupMod GAdd g) l /\ forall h, In h (sw_groups s) -> g_id h <> g_id g).
Proof.
  induction l as [|m l IH]; intros s H Hu; [simpl; repeat split; intros; intuition|].
  assert (Hm := H m (or_introl eq_refl)).
  destruct m as [|c g0| | | | | |]; simpl in Hm; try discriminate. destruct c; try discriminate.
  change (apply_msgs (GroupMod GAdd g0 :: l) s) with (apply_msgs l (apply_msg (GroupMod GAdd g0) s)).
  destruct (IH (apply_msg (GroupMod GAdd g0) s)) as [F [M G]].
  { intros; apply H; right; auto. }
  { intros; apply Hu; auto; right; auto. }
  rewrite F, M. simpl apply_msg in *.
  destruct (existsb (fun h => g_id h =? g_id g0) (sw_groups s)) eqn:E.
  - split; [auto|split; [auto|]]. intros g. rewrite G.
    apply existsb_exists in E as [h [Hh Eh]]. apply Z.eqb_eq in Eh.
    split; (intros [X|[X Y]]; [left; auto|right]); split; auto.
    + right; auto.
    + destruct X as [X|X]; auto. inversion X; subst. exfalso; apply (Y h); auto.
  - simpl. split; [auto|split; [auto|]]. intros g. rewrite G. simpl. rewrite in_app_iff. simpl.
    assert (En : forall h, In h (sw_groups s) -> g_id h <> g_id g0).
    { intros h Hh Eh. assert (X : existsb (fun h => g_id h =? g_id g0) (sw_groups s) = true).
      { apply existsb_exists; exists h; split; auto; apply Z.eqb_eq; auto. } congruence. }
    split.
    + intros [[X|[X|[]]]|[X Y]]; [left; auto| |].
      * subst g. right; split; auto.
      * right; split; [right; auto|]. intros h Hh. apply Y. apply in_app_iff; auto.
    + intros [X|[[X|X] Y]]; [left; left; auto| |].
      * inversion X; subst. left; right; left; auto.
      * destruct (Z.eq_dec (g_id g) (g_id g0)) as [Eg|Ng].
        -- left; right; left. symmetry. apply Hu; auto; [right; auto|left; auto].
        -- right. split; auto. intros h Hh. apply in_app_iff in Hh as [Hh|[->|[]]]; auto.
Qed.

Lemma apply_meter_adds : forall l s,
  (forall m, In m l -> is_meter_add m = true) ->
  (forall i b1 b2, In (MeterMod MAdd i b1) l -> In (MeterMod MAdd i b2) l -> b1 = b2) ->
  sw_flows (apply_msgs l s) = sw_flows s /\ sw_groups (apply_msgs l s) = sw_groups s /\
  forall i b, In (i, b) (sw_meters (apply_msgs l s)) <->
    In (i, b) (sw_meters s) \/ (In (MeterMod MAdd i b) l /\ forall h, In h (sw_meters s) -> fst h <> i).
Proof.
  induction l as [|m l IH]; intros s H Hu; [simpl; repeat split; intros; intuition|].
  assert (Hm := H m (or_introl eq_refl)).
  destruct m as [| |c i0 b0| | | | |]; simpl in Hm; try discriminate. destruct c; try discriminate.
  change (apply_msgs (MeterMod MAdd i0 b0 :: l) s) with (apply_msgs l (apply_msg (MeterMod MAdd i0 b0) s)).
  destruct (IH (apply_msg (MeterMod MAdd i0 b0) s)) as [F [M G]].
  { intros; apply H; right; auto. }
  { intros i b1 b2 X Y; apply (Hu i); auto; right; auto. }
  rewrite F, M. simpl apply_msg in *.
  destruct (existsb (fun h => fst h =? i0) (sw_meters s)) eqn:E.
  - split; [auto|split; [auto|]]. intros i b. rewrite G.
    apply existsb_exists in E as [h [Hh Eh]]. apply Z.eqb_eq in Eh.
    split; (intros [X|[X Y]]; [left; auto|right]); split; auto.
    + right; auto.
    + destruct X as [X|X]; auto. inversion X; subst. exfalso; apply (Y h); auto.
  - simpl. split; [auto|split; [auto|]]. intros i b. rewrite G. simpl. rewrite in_app_iff. simpl.
    assert (En : forall h, In h (sw_meters s) -> fst h <> i0).
    { intros h Hh Eh. assert (X : existsb (fun h => fst h =? i0) (sw_meters s) = true).
      { apply existsb_exists; exists h; split; auto; apply Z.eqb_eq; auto. } congruence. }
    split.
    + intros [[X|[X|[]]]|[X Y]]; [left; auto| |].
      * inversion X; subst. right; split; auto.
      * right; split; [right; auto|]. intros h Hh. apply Y. apply in_app_iff; auto.
    + intros [X|[[X|X] Y]]; [left; left; auto| |].
      * inversion X; subst. left; right; left; auto.
      * destruct (Z.eq_dec i i0) as [->|Ng].
        -- left; right; left. f_equal. apply (Hu i0); [left; auto|right; auto].
        -- right. split; auto. intros h Hh. apply in_app_iff in Hh as [Hh|[<-|[]]]; auto.
Qed.

(** flow writes *)
Definition wslot (w : flowmod) (f : flow) : bool := same_slot (fm_table w) (fm_prio w) (fm_match w) f.
Definition slot_eq (t p : Z) (m : fmatch) (x : ofmsg) : bool :=
  match x with
  | FlowMod w => (fm_table w =? t) && (fm_prio w =? p) && fmatch_eqb (fm_match w) m
  | _ => false
  end.

Lemma wslot_spec : forall w f, wslot w f = true <->
  f_table f = fm_table w /\ f_prio f = fm_prio w /\ f_match f = fm_match w.
Proof.
  intros. unfold wslot, same_slot. rewrite !andb_true_iff, !Z.eqb_eq, fmatch_eqb_spec. tauto.
Qed.
Lemma slot_eq_spec : forall t p m x, slot_eq t p m x = true <->
  exists w, x = FlowMod w /\ fm_table w = t /\ fm_prio w = p /\ fm_match w = m.
Proof.
  intros t p m x. destruct x as [w| | | | | | |]; simpl; try (split; [discriminate|intros [w [E _]]; discriminate]).
  rewrite !andb_true_iff, !Z.eqb_eq, fmatch_eqb_spec. split.
  - intros [[A B] C]; exists w; auto.
  - intros [w' [E [A [B C]]]]; inversion E; subst; auto.
Qed.

(** the last write to a slot *)
Definition last_write (t p : Z) (m : fmatch) (l : list ofmsg) : option ofmsg :=
  find (slot_eq t p m) (rev l).

Definition uniform (l : list ofmsg) : Prop :=
  (forall m, In m l -> is_flow_write m = true) /\
  (forall w, In (FlowMod w) l -> fm_cmd w <> FModify) /\
  (forall w1 w2, In (FlowMod w1) l -> In (FlowMod w2) l -> same_flow_slot w1 w2 -> fm_cmd w1 = fm_cmd w2).

Lemma last_write_some : forall t p m l x, last_write t p m l = Some x ->
  exists w, x = FlowMod w /\ In x l /\ fm_table w = t /\ fm_prio w = p /\ fm_match w = m.
Proof.
  intros t p m l x H. unfold last_write in H. apply find_some in H as [Hin Hs].
  apply slot_eq_spec in Hs as [w [-> [A [B C]]]]. exists w. apply in_rev in Hin. auto.
Qed.

Lemma apply_writes : forall l s, uniform l ->
  sw_groups (apply_msgs l s) = sw_groups s /\ sw_meters (apply_msgs l s) = sw_meters s /\
  forall f, In f (sw_flows (apply_msgs l s)) <->
    match last_write (f_table f) (f_prio f) (f_match f) l with
    | Some (FlowMod w) =>
        if match fm_cmd w with FAdd => true | _ => false end then f = flow_of w
        else exists f0, In f0 (sw_flows s) /\ wslot w f0 = true /\ f = with_inst (fm_inst w) f0
    | _ => In f (sw_flows s)
    end.
Proof.
  induction l as [|m l IH] using rev_ind; intros s [HW [HM HU]].
  { simpl. repeat split; auto. }
  destruct (IH s) as [G [M F]].
  { repeat split; intros; [apply HW|apply HM|apply HU]; rewrite ?in_app_iff; auto. }
  rewrite apply_msgs_app. simpl.
  assert (Hm : is_flow_write m = true) by (apply HW; rewrite in_app_iff; simpl; auto).
  destruct m as [w| | | | | | |]; try discriminate. simpl.
  split; [auto|split; [auto|]]. intros f. unfold last_write. rewrite rev_app_distr. simpl.
  assert (Hin : In (FlowMod w) (l ++ [FlowMod w])) by (rewrite in_app_iff; simpl; auto).
  assert (Hslot : ((fm_table w =? f_table f) && (fm_prio w =? f_prio f) && fmatch_eqb (fm_match w) (f_match f)) = wslot w f).
  { unfold wslot, same_slot. rewrite (Z.eqb_sym (fm_table w)), (Z.eqb_sym (fm_prio w)).
    f_equal. unfold fmatch_eqb. destruct (fmatch_eq_dec (fm_match w) (f_match f)), (fmatch_eq_dec (f_match f) (fm_match w)); congruence. }
  rewrite Hslot. unfold apply_flowmod.
  specialize (HM w Hin).
  destruct (fm_cmd w) eqn:Ec; simpl in Hm; rewrite Ec in Hm; try discriminate; try congruence.
  - (* add *)
    rewrite in_app_iff, filter_In. fold (wslot w). simpl.
    fold (last_write (f_table f) (f_prio f) (f_match f) l).
    destruct (wslot w f) eqn:Ew.
    + unfold wslot in Ew. rewrite Ew. simpl. rewrite Ec. intuition congruence.
    + assert (Hne : flow_of w <> f).
      { intros <-. unfold wslot, same_slot, flow_of in Ew; simpl in Ew.
        rewrite !Z.eqb_refl in Ew. simpl in Ew.
        assert (fmatch_eqb (fm_match w) (fm_match w) = true) by (apply fmatch_eqb_spec; auto). congruence. }
      unfold wslot in Ew. rewrite Ew. simpl. rewrite F. tauto.
  - (* modify strict *)
    fold (last_write (f_table f) (f_prio f) (f_match f) l).
    rewrite in_map_iff.
    destruct (wslot w f) eqn:Ew.
    + rewrite Ec. split.
      * intros [f0 [E0 H0]]. destruct (same_slot (fm_table w) (fm_prio w) (fm_match w) f0) eqn:E1.
        -- apply F in H0. pose proof (proj1 (wslot_spec w f0) E1) as [S1 [S2 S3]].
           destruct (last_write (f_table f0) (f_prio f0) (f_match f0) l) as [x|] eqn:EL; [|eexists; eauto].
           pose proof (last_write_some _ _ _ _ _ EL) as [w' [-> [Hin' [T1 [T2 T3]]]]].
           assert (Hc : fm_cmd w' = fm_cmd w).
           { apply HU; rewrite ?in_app_iff; simpl; auto. repeat split; congruence. }
           rewrite Hc, Ec in H0. destruct H0 as [f1 [A [B C]]].
           exists f1. split; auto. split.
           ++ apply wslot_spec in B. apply wslot_spec. destruct B as [B1 [B2 B3]]. repeat split; congruence.
           ++ subst f f0. reflexivity.
        -- subst f0. unfold wslot in Ew. congruence.
      * intros [f0 [A [B ->]]]. 
        destruct (last_write (f_table f0) (f_prio f0) (f_match f0) l) as [x|] eqn:EL.
        -- pose proof (last_write_some _ _ _ _ _ EL) as [w' [-> [Hin' [T1 [T2 T3]]]]].
           pose proof (proj1 (wslot_spec w f0) B) as [S1 [S2 S3]].
           assert (Hc : fm_cmd w' = fm_cmd w).
           { apply HU; rewrite ?in_app_iff; simpl; auto. repeat split; congruence. }
           exists (with_inst (fm_inst w') f0). split.
           ++ assert (E : same_slot (fm_table w) (fm_prio w) (fm_match w) (with_inst (fm_inst w') f0) = true)
                by exact B.
              rewrite E. reflexivity.
           ++ apply F. simpl. rewrite EL, Hc, Ec. exists f0; repeat split; auto.
              apply wslot_spec; auto.
        -- exists f0. unfold wslot in B. rewrite B. split; auto. apply F. rewrite EL; auto.
    + rewrite <- F. split.
      * intros [f0 [E0 H0]]. destruct (same_slot (fm_table w) (fm_prio w) (fm_match w) f0) eqn:E1.
        -- subst f. unfold wslot in Ew. change (same_slot (fm_table w) (fm_prio w) (fm_match w) f0 = false) in Ew. congruence.
        -- subst; auto.
      * intros H0. exists f. unfold wslot in Ew. rewrite Ew. auto.
Qed.

(** the deduplicated, sorted writes have the same last write in every slot *)
Lemma last_write_dedupe : forall l t p m,
  (forall x, In x l -> is_flow_write x = true) ->
  (forall w1 w2, In (FlowMod w1) l -> In (FlowMod w2) l -> same_flow_slot w1 w2 -> fm_cookie w1 = fm_cookie w2) ->
  last_write t p m (sort_flows (dedupe_key l)) = last_write t p m l.
Proof.
  intros l t p m HW HC.
  assert (Hkey : forall x y, In x l -> In y l -> slot_eq t p m x = true ->
            okey_eqb (none_flowmodkey x) (none_flowmodkey y) = slot_eq t p m y).
  { intros x y Hx Hy Sx. apply slot_eq_spec in Sx as [wx [-> [A [B C]]]].
    assert (Wy := HW y Hy). destruct y as [wy| | | | | | |]; try discriminate.
    destruct (slot_eq t p m (FlowMod wy)) eqn:Sy.
    - apply slot_eq_spec in Sy as [w [E [A' [B' C']]]]. inversion E; subst w.
      apply okey_eqb_spec. simpl. unfold flowmodkey. f_equal.
      rewrite (HC wx wy); auto; [congruence|repeat split; congruence].
    - destruct (okey_eqb _ _) eqn:K; auto. apply okey_eqb_spec in K. simpl in K.
      unfold flowmodkey in K. inversion K. 
      assert (X : slot_eq t p m (FlowMod wy) = true) by (apply slot_eq_spec; exists wy; repeat split; congruence).
      congruence. }
  unfold last_write.
  destruct (find (slot_eq t p m) (rev l)) as [x|] eqn:EL.
  - pose proof (find_some _ _ EL) as [Hin Hs]. apply in_rev in Hin.
    assert (Hd : In x (dedupe_key l)).
    { unfold dedupe_key. apply (dict_of_vals _ okey_eqb_spec).
      rewrite <- EL. clear EL. assert (Hsub : forall y, In y (rev l) -> In y l) by (intro; rewrite <- in_rev; auto).
      induction (rev l) as [|y r IHr]; simpl; auto.
      rewrite (Hkey x y); auto; [|apply Hsub; left; auto].
      destruct (slot_eq t p m y); auto. apply IHr; intros; apply Hsub; right; auto. }
    destruct (find (slot_eq t p m) (rev (sort_flows (dedupe_key l)))) as [z|] eqn:EZ.
    + pose proof (find_some _ _ EZ) as [Hz Sz]. apply in_rev in Hz.
      unfold sort_flows in Hz. rewrite py_sorted_in in Hz.
      assert (Hzl : In z l) by (apply (dict_of_vals_in _ okey_eqb_spec none_flowmodkey); auto).
      f_equal. assert (K : none_flowmodkey x = none_flowmodkey z).
      { apply okey_eqb_spec. rewrite (Hkey x z); auto. }
      symmetry. eapply NoDup_map_inj_in; [|exact Hd|exact Hz|exact K].
      apply dict_of_vals_keys, okey_eqb_spec.
    + exfalso. assert (X : In x (rev (sort_flows (dedupe_key l)))).
      { rewrite <- in_rev. unfold sort_flows. rewrite py_sorted_in; auto. }
      pose proof (find_none _ _ EZ _ X). congruence.
  - destruct (find (slot_eq t p m) (rev (sort_flows (dedupe_key l)))) as [z|] eqn:EZ; auto.
    exfalso. pose proof (find_some _ _ EZ) as [Hz Sz]. apply in_rev in Hz.
    apply adds_in in Hz. apply in_rev in Hz. pose proof (find_none _ _ EL _ Hz). congruence.
Qed.

(** ** Kinds against the specification's classes *)

Lemma kind_flow_write : forall m, msg_kind m = KFlowAddMod <-> is_flow_write m = true.
Proof.
  intros m; destruct m as [fm|c g|c i b| | | | |]; simpl; try (split; discriminate).
  - unfold is_global_flowdel. destruct (fm_cmd fm); simpl; try (split; auto; discriminate);
      destruct ((fm_table fm =? OFPTT_ALL) && _); split; discriminate.
  - destruct c; try (split; discriminate). destruct (_ =? _); split; discriminate.
  - destruct c; try (split; discriminate). destruct (_ =? _); split; discriminate.
Qed.
Lemma kind_group_add : forall m, msg_kind m = KGroupAdd <-> is_group_add m = true.
Proof.
  intros m; destruct m as [fm|c g|c i b| | | | |]; simpl; try (split; discriminate).
  - destruct (is_global_flowdel fm), (is_flowdel_cmd (fm_cmd fm)); split; discriminate.
  - destruct c; try (split; auto; discriminate). destruct (_ =? _); split; discriminate.
  - destruct c; try (split; discriminate). destruct (_ =? _); split; discriminate.
Qed.
Lemma kind_meter_add : forall m, msg_kind m = KMeterAdd <-> is_meter_add m = true.
Proof.
  intros m; destruct m as [fm|c g|c i b| | | | |]; simpl; try (split; discriminate).
  - destruct (is_global_flowdel fm), (is_flowdel_cmd (fm_cmd fm)); split; discriminate.
  - destruct c; try (split; discriminate). destruct (_ =? _); split; discriminate.
  - destruct c; try (split; auto; discriminate). destruct (_ =? _); split; discriminate.
Qed.
Lemma kind_delete : forall m, msg_kind m = KDelGlobal \/ msg_kind m = KDelete <-> is_delete m = true.
Proof.
  intros m; destruct m as [fm|c g|c i b| | | | |]; simpl;
    try (split; [intros [?|?]|]; discriminate).
  - unfold is_global_flowdel. destruct (fm_cmd fm); simpl;
      try (split; [intros [?|?]|]; discriminate);
      destruct ((fm_table fm =? OFPTT_ALL) && _); split; auto.
  - destruct c; try (split; [intros [?|?]|]; discriminate). destruct (_ =? _); split; auto.
  - destruct c; try (split; [intros [?|?]|]; discriminate). destruct (_ =? _); split; auto.
Qed.
Lemma kind_packet_out : forall m, msg_kind m = KPacketOut <-> is_packet_out m = true.
Proof.
  intros m; destruct m as [fm|c g|c i b| | | | |]; simpl; try (split; auto; discriminate).
  - destruct (is_global_flowdel fm), (is_flowdel_cmd (fm_cmd fm)); split; discriminate.
  - destruct c; try (split; discriminate). destruct (_ =? _); split; discriminate.
  - destruct c; try (split; discriminate). destruct (_ =? _); split; discriminate.
Qed.
Lemma kind_inert : forall m,
  msg_kind m = KConfig \/ msg_kind m = KTfm \/ msg_kind m = KPacketOut -> inert m = true.
Proof.
  intros m; destruct m as [fm|c g|c i b| | | | |]; simpl; auto.
  - destruct (is_global_flowdel fm), (is_flowdel_cmd (fm_cmd fm)); intuition discriminate.
  - destruct c; try (intuition discriminate). destruct (_ =? _); intuition discriminate.
  - destruct c; try (intuition discriminate). destruct (_ =? _); intuition discriminate.
Qed.
Lemma kind_other_inert : forall m, msg_kind m = KOther ->
  inert m = true \/ (exists g, m = GroupMod GModify g) \/ (exists i b, m = MeterMod MModify i b).
Proof.
  intros m; destruct m as [fm|c g|c i b| | | | |]; simpl; auto; intros H.
  - destruct (is_global_flowdel fm), (is_flowdel_cmd (fm_cmd fm)); discriminate.
  - destruct c; try discriminate; eauto. destruct (_ =? _); discriminate.
  - destruct c; try discriminate; eauto. destruct (_ =? _); discriminate.
Qed.
Lemma kind_global_spec : forall m, msg_kind m = KDelGlobal ->
  (exists fm, m = FlowMod fm /\ is_delete m = true /\ fm_table fm = OFPTT_ALL /\ fm_match fm = []) \/
  (exists g, m = GroupMod GDelete g /\ g_id g = OFPG_ALL) \/
  (exists i b, m = MeterMod MDelete i b /\ i = OFPM_ALL).
Proof.
  intros m; destruct m as [fm|c g|c i b| | | | |]; simpl; try discriminate; intros H.
  - left. exists fm. destruct (is_global_flowdel fm) eqn:E.
    + unfold is_global_flowdel in E. apply andb_true_iff in E as [E E3]. apply andb_true_iff in E as [E1 E2].
      apply Z.eqb_eq in E2. destruct (fm_match fm); [|discriminate].
      repeat split; auto; destruct (fm_cmd fm); auto; discriminate.
    + destruct (is_flowdel_cmd (fm_cmd fm)); discriminate.
  - destruct c; try discriminate. destruct (_ =? _) eqn:E; try discriminate. apply Z.eqb_eq in E.
    right; left; eauto.
  - destruct c; try discriminate. destruct (_ =? _) eqn:E; try discriminate. apply Z.eqb_eq in E.
    right; right; eauto.
Qed.

Lemma item_covers_trans_eq : forall i j, item_eqb i j = true -> forall k, item_covers j k = true -> item_covers i k = true.
Proof. intros i j H. apply item_eqb_spec in H; subst; auto. Qed.
Lemma item_covers_refl : forall i, item_covers i i = true.
Proof.
  intros [f [v m]]. unfold item_covers. rewrite !andb_true_iff, !Z.eqb_eq, field_eqb_spec.
  rewrite Z.land_diag. auto.
Qed.
Lemma subset_covers : forall o m fm, items_subset o m = true -> covers m fm = true -> covers o fm = true.
Proof.
  intros o m fm H1 H2. unfold items_subset, covers in *. rewrite forallb_forall in *.
  intros x Hx. specialize (H1 x Hx). apply existsb_exists in H1 as [y [Hy E]].
  apply item_eqb_spec in E; subst y. auto.
Qed.
Lemma covers_refl : forall m, covers m m = true.
Proof.
  intros m. unfold covers. apply forallb_forall. intros i Hi. apply existsb_exists.
  exists i; split; auto. apply item_covers_refl.
Qed.

Lemma out_sel_any : forall fm f, fm_out_port fm = OFPP_ANY -> fm_out_group fm = OFPG_ANY -> out_sel fm f = true.
Proof. intros fm f A B. unfold out_sel. rewrite A, B, !Z.eqb_refl. reflexivity. Qed.

Lemma uses_any_group : forall g f, uses_group g f = true -> any_group f = true.
Proof.
  intros g f. unfold uses_group, any_group. rewrite !existsb_exists.
  intros [a [Ha E]]. exists a; split; auto. destruct a; auto; discriminate.
Qed.
Lemma uses_any_meter : forall g f, uses_meter g f = true -> any_meter f = true.
Proof.
  intros g f. unfold uses_meter, any_meter. rewrite !existsb_exists.
  intros [a [Ha E]]. exists a; split; auto. destruct a; auto; discriminate.
Qed.

(** ** The pieces of a reordered batch *)

Section Pieces.
  Variable ms : list ofmsg.
  Definition of_kind (k : kind) : list ofmsg := filter (fun m => kind_eqb (msg_kind m) k) ms.
  Definition p_dg : list ofmsg := sort_flows (dedupe_str (of_kind KDelGlobal)).
  Definition p_del0 : list ofmsg :=
    if is_nil (of_kind KDelGlobal) then of_kind KDelete
    else filter (fun m => negb (existsb (fun g => mtype_eqb (msg_type m) (msg_type g)) (of_kind KDelGlobal)))
                (of_kind KDelete).
  Definition p_adds : list ofmsg := sort_flows (dedupe_key (of_kind KFlowAddMod)).
  Definition p_del1 (d : list ofmsg) : list ofmsg := if is_nil d then p_del0 else d.
  Definition p_dels (d : list ofmsg) : list ofmsg :=
    if is_nil (p_del1 d) || is_nil p_adds then p_del1 d else remove_overlap (p_del1 d) p_adds.
  Definition p_simple (k : kind) : list ofmsg := sort_flows (dedupe_str (of_kind k)).
End Pieces.

Lemma reorder_pieces : forall sh ub ms out,
  valve_flowreorder sh ub ms = Some out ->
  exists d, dedupe_overlaps (p_del0 ms) = Some d /\
    out = with_barrier ub (p_simple ms KConfig) ++ with_barrier ub (p_dg ms)
          ++ with_barrier ub (p_dels ms d)
          ++ with_barrier ub (p_simple ms KTfm)
          ++ with_barrier ub (p_simple ms KGroupAdd)
          ++ with_barrier ub (p_simple ms KMeterAdd)
          ++ p_adds ms ++ p_simple ms KOther
          ++ sh (dedupe_str (of_kind ms KPacketOut)).
Proof.
  intros sh ub ms out H. unfold valve_flowreorder in H. cbv zeta in H.
  fold (of_kind ms KDelGlobal) in H. fold (of_kind ms KDelete) in H.
  fold (p_del0 ms) in H.
  destruct (dedupe_overlaps (p_del0 ms)) as [d|]; [|discriminate].
  exists d; split; auto. inversion H. reflexivity.
Qed.

Lemma p_del0_in : forall ms m, In m (p_del0 ms) <->
  In m ms /\ msg_kind m = KDelete /\
  forall g, In g ms -> msg_kind g = KDelGlobal -> msg_type g <> msg_type m.
Proof.
  intros ms m. unfold p_del0.
  assert (T : forall a b, mtype_eqb a b = true <-> a = b) by (intros [] []; simpl; split; congruence).
  destruct (is_nil (of_kind ms KDelGlobal)) eqn:E.
  - apply is_nil_true in E. unfold of_kind at 1. rewrite of_kind_in. split; [|tauto].
    intros [A B]. repeat split; auto. intros g Hg Kg. exfalso.
    assert (X : In g (of_kind ms KDelGlobal)) by (apply of_kind_in; auto). rewrite E in X; contradiction.
  - rewrite filter_In. unfold of_kind at 1. rewrite of_kind_in, negb_true_iff.
    split.
    + intros [[A B] C]. repeat split; auto. intros g Hg Kg Et.
      assert (X : existsb (fun g => mtype_eqb (msg_type m) (msg_type g)) (of_kind ms KDelGlobal) = true).
      { apply existsb_exists. exists g. split; [apply of_kind_in; auto|apply T; auto]. }
      congruence.
    + intros [A [B C]]. repeat split; auto. 
      destruct (existsb _ _) eqn:X; auto. apply existsb_exists in X as [g [Hg Et]].
      apply of_kind_in in Hg as [Hg Kg]. apply T in Et. exfalso. apply (C g); auto.
Qed.

Lemma p_dels_sub : forall ms d m, dedupe_overlaps (p_del0 ms) = Some d -> In m (p_dels ms d) -> In m (p_del0 ms).
Proof.
  intros ms d m Hd Hin.
  assert (H1 : In m (p_del1 ms d)).
  { unfold p_dels in Hin. destruct (_ || _) in Hin; auto. apply filter_In in Hin; tauto. }
  unfold p_del1 in H1. destruct (is_nil d); auto. eapply dedupe_overlaps_some; eauto.
Qed.

(** what can happen to a delete that is not global and not implied by a global one *)
Lemma p_dels_fate : forall ms d m, dedupe_overlaps (p_del0 ms) = Some d -> In m (p_del0 ms) ->
  let survives x := In x (p_dels ms d) \/
     (exists fm w, x = FlowMod fm /\ In (FlowMod w) ms /\ is_flow_write (FlowMod w) = true /\ flowmodkey w = flowmodkey fm) in
  survives m \/
  exists fo fm, m = FlowMod fm /\ In (FlowMod fo) (p_del0 ms) /\ survives (FlowMod fo) /\
      fm_table fo = OFPTT_ALL /\ fm_table fm <> OFPTT_ALL /\
      items_subset (fm_match fo) (fm_match fm) = true.
Proof.
  intros ms d m Hd Hin survives.
  assert (S : forall x, In x (p_del1 ms d) -> survives x).
  { intros x Hx. unfold survives, p_dels.
    destruct (is_nil (p_del1 ms d) || is_nil (p_adds ms)); [left; auto|].
    destruct (none_flowmodkey x) as [k|] eqn:Ek.
    - destruct (existsb (fun a => okey_eqb (none_flowmodkey a) (Some k)) (p_adds ms)) eqn:Ea.
      + right. apply existsb_exists in Ea as [a [Ha Ka]]. apply okey_eqb_spec in Ka.
        destruct x as [fm| | | | | | |]; try discriminate. destruct a as [w| | | | | | |]; try discriminate.
        simpl in Ka, Ek. apply adds_in in Ha. apply of_kind_in in Ha as [Ha Kw].
        exists fm, w. apply kind_flow_write in Kw. repeat split; auto. congruence.
      + left. unfold remove_overlap. apply filter_In; split; auto. rewrite Ek, Ea; auto.
    - left. unfold remove_overlap. apply filter_In; split; auto. rewrite Ek; auto. }
  destruct (dedupe_overlaps_some _ _ m Hd) as [_ H2]. specialize (H2 Hin).
  assert (Sd : forall x, In x d -> In x (p_del1 ms d)).
  { intros x Hx. unfold p_del1. destruct (is_nil d) eqn:E; auto. apply is_nil_true in E; subst; contradiction. }
  destruct H2 as [H2|[fo [fm [-> [A [B [C [D E]]]]]]]].
  - left. auto.
  - right. exists fo, fm. repeat split; auto.
Qed.

Section Effect.
  Variables (ms : list ofmsg) (d : list ofmsg).
  Hypothesis CB : clean_batch ms.
  Hypothesis Hd : dedupe_overlaps (p_del0 ms) = Some d.

  Let outdels := p_dg ms ++ p_dels ms d.

  Lemma outdels_sub : forall m, In m outdels -> In m (filter is_delete ms).
  Proof.
    intros m Hm. apply in_app_iff in Hm as [Hm|Hm].
    - unfold p_dg in Hm. apply simple_in, of_kind_in in Hm as [A B].
      apply filter_In; split; auto. apply kind_delete; auto.
    - apply (p_dels_sub _ _ _ Hd) in Hm. apply p_del0_in in Hm as [A [B _]].
      apply filter_In; split; auto. apply kind_delete; auto.
  Qed.

  Lemma dg_in : forall m, In m ms -> msg_kind m = KDelGlobal -> In m outdels.
  Proof.
    intros m A B. apply in_app_iff. left. apply simple_in, of_kind_in; auto.
  Qed.

  Lemma del_flow_kept : forall f,
    (exists m, In m (filter is_delete ms) /\ del_flow m f = true) ->
    (exists m, In m outdels /\ del_flow m f = true) \/
    (exists w, In (FlowMod w) ms /\ fm_cmd w = FAdd /\ wslot w f = true).
  Proof.
    intros f [m [Hm Hf]]. apply filter_In in Hm as [Hm Hdel].
    destruct (proj2 (kind_delete m) Hdel) as [K|K].
    { left. exists m. split; auto. apply dg_in; auto. }
    (* suppressed by a global delete of the same type? *)
    assert (Hsup : (exists g, In g ms /\ msg_kind g = KDelGlobal /\ msg_type g = msg_type m) \/
                   In m (p_del0 ms)).
    { destruct (existsb (fun g => mtype_eqb (msg_type g) (msg_type m)) (of_kind ms KDelGlobal)) eqn:E.
      - left. apply existsb_exists in E as [g [Hg E]]. apply of_kind_in in Hg as [A B].
        exists g; repeat split; auto. destruct (msg_type g), (msg_type m); auto; discriminate.
      - right. apply p_del0_in. repeat split; auto. intros g Hg Kg Et.
        assert (X : existsb (fun g => mtype_eqb (msg_type g) (msg_type m)) (of_kind ms KDelGlobal) = true).
        { apply existsb_exists. exists g. split; [apply of_kind_in; auto|].
          rewrite Et. destruct (msg_type m); auto. }
        congruence. }
    destruct Hsup as [[g [Hg [Kg Tg]]]|Hm0].
    - left. exists g. split; [apply dg_in; auto|].
      destruct (kind_global_spec g Kg) as [[fm [-> [D [T M]]]]|[[gr [-> G]]|[i [b [-> I]]]]].
      + simpl. destruct (cb_all_tables ms CB fm Hg D T) as [C [O1 O2]].
        unfold del_hits. rewrite C, T, M. unfold table_sel. rewrite Z.eqb_refl. simpl.
        apply out_sel_any; auto.
      + destruct m as [|c g0| | | | | |]; simpl in Tg; try discriminate.
        simpl. rewrite G, Z.eqb_refl. destruct c; try discriminate.
        simpl in Hf. destruct (g_id g0 =? OFPG_ALL); auto. eapply uses_any_group; eauto.
      + destruct m as [| |c i0 b0| | | | |]; simpl in Tg; try discriminate.
        simpl. rewrite I, Z.eqb_refl. destruct c; try discriminate.
        simpl in Hf. destruct (i0 =? OFPM_ALL); auto. eapply uses_any_meter; eauto.
    - (* the surviving delete, or the write replacing its slot *)
      assert (Key : forall fm w, In (FlowMod fm) ms -> is_delete (FlowMod fm) = true ->
                In (FlowMod w) ms -> is_flow_write (FlowMod w) = true ->
                flowmodkey w = flowmodkey fm -> del_hits fm f = true ->
                fm_cmd fm = FDeleteStrict /\ fm_cmd w = FAdd /\ wslot w f = true).
      { intros fm w Hfm Dfm Hw Ww Ek Hh. unfold flowmodkey in Ek. inversion Ek as [[E1 E2 E3 E4]].
        simpl in Dfm. destruct (fm_cmd fm) eqn:Ec; try discriminate.
        - exfalso. apply (cb_wildcard ms CB fm w); auto. repeat split; auto.
        - split; auto.
          assert (Hw2 : fm_cmd w <> FModifyStrict).
          { intros X. apply (cb_strict ms CB fm w); auto. repeat split; auto. }
          assert (Hw3 := cb_no_modify ms CB w Hw).
          split; [simpl in Ww; destruct (fm_cmd w); auto; try discriminate; congruence|].
          assert (Tn : fm_table fm <> OFPTT_ALL).
          { intros T. destruct (cb_all_tables ms CB fm Hfm) as [X _]; auto; simpl; rewrite ?Ec; auto. congruence. }
          unfold del_hits in Hh. rewrite Ec in Hh. rewrite !andb_true_iff in Hh.
          destruct Hh as [[[H1 H2] H3] _]. unfold table_sel in H1.
          apply orb_true_iff in H1 as [H1|H1]; [apply Z.eqb_eq in H1; contradiction|].
          apply Z.eqb_eq in H1, H2. apply fmatch_eqb_spec in H3.
          apply wslot_spec. repeat split; congruence. }
      destruct (p_dels_fate ms d m Hd Hm0) as [[S|[fm [w [-> [Hw [Ww Ek]]]]]]|[fo [fm [-> [Ho [S [T1 [T2 Sub]]]]]]]].
      + left. exists m. split; auto. apply in_app_iff; auto.
      + right. exists w. destruct (Key fm w) as [_ [A B]]; auto.
      + apply p_del0_in in Ho as [Ho [Ko _]].
        assert (Do : is_delete (FlowMod fo) = true) by (apply kind_delete; auto).
        destruct (cb_all_tables ms CB fo Ho Do T1) as [Co [O1 O2]].
        destruct S as [S|[fm' [w [E [Hw [Ww Ek]]]]]].
        * left. exists (FlowMod fo). split; [apply in_app_iff; auto|].
          simpl. unfold del_hits. rewrite Co, T1. unfold table_sel at 1. rewrite Z.eqb_refl. simpl.
          rewrite out_sel_any by auto. rewrite andb_true_r.
          simpl in Hf. unfold del_hits in Hf. destruct (fm_cmd fm); try discriminate.
          -- rewrite !andb_true_iff in Hf. eapply subset_covers; eauto; tauto.
          -- rewrite !andb_true_iff in Hf. destruct Hf as [[_ Hf] _]. apply fmatch_eqb_spec in Hf.
             rewrite Hf. eapply subset_covers; eauto. apply covers_refl.
        * exfalso. inversion E; subst fm'. unfold flowmodkey in Ek. inversion Ek as [[E1 E2 E3 E4]].
          apply (cb_wildcard ms CB fo w); auto. repeat split; auto.
  Qed.

  Lemma del_group_kept : forall g,
    (exists m, In m (filter is_delete ms) /\ del_group m g = true) <->
    (exists m, In m outdels /\ del_group m g = true).
  Proof.
    intros g; split; intros [m [Hm Hg]].
    2:{ exists m; split; auto. apply outdels_sub; auto. }
    apply filter_In in Hm as [Hm Hdel].
    destruct m as [|c g0| | | | | |]; simpl in Hdel; try discriminate. destruct c; try discriminate.
    assert (D := proj2 (kind_delete (GroupMod GDelete g0)) eq_refl).
    destruct D as [K|K]; [exists (GroupMod GDelete g0); split; auto; apply dg_in; auto|].
    destruct (existsb (fun h => mtype_eqb (msg_type h) TGroup) (of_kind ms KDelGlobal)) eqn:E.
    - apply existsb_exists in E as [h [Hh Th]]. apply of_kind_in in Hh as [Hh Kh].
      exists h. split; [apply dg_in; auto|].
      destruct (kind_global_spec h Kh) as [[fm [-> _]]|[[gr [-> G]]|[i [b [-> _]]]]]; try discriminate.
      simpl. rewrite G. reflexivity.
    - exists (GroupMod GDelete g0). split; auto. apply in_app_iff. right.
      assert (H0 : In (GroupMod GDelete g0) (p_del0 ms)).
      { apply p_del0_in. repeat split; auto. intros h Hh Kh Th.
        assert (X : existsb (fun h => mtype_eqb (msg_type h) TGroup) (of_kind ms KDelGlobal) = true).
        { apply existsb_exists. exists h; split; [apply of_kind_in; auto|]. simpl in Th. rewrite Th; auto. }
        congruence. }
      destruct (p_dels_fate ms d _ Hd H0) as [[S|[fm [w [X _]]]]|[fo [fm [X _]]]]; auto; discriminate.
  Qed.

  Lemma del_meter_kept : forall g,
    (exists m, In m (filter is_delete ms) /\ del_meter m g = true) <->
    (exists m, In m outdels /\ del_meter m g = true).
  Proof.
    intros g; split; intros [m [Hm Hg]].
    2:{ exists m; split; auto. apply outdels_sub; auto. }
    apply filter_In in Hm as [Hm Hdel].
    destruct m as [| |c i0 b0| | | | |]; simpl in Hdel; try discriminate. destruct c; try discriminate.
    assert (D := proj2 (kind_delete (MeterMod MDelete i0 b0)) eq_refl).
    destruct D as [K|K]; [exists (MeterMod MDelete i0 b0); split; auto; apply dg_in; auto|].
    destruct (existsb (fun h => mtype_eqb (msg_type h) TMeter) (of_kind ms KDelGlobal)) eqn:E.
    - apply existsb_exists in E as [h [Hh Th]]. apply of_kind_in in Hh as [Hh Kh].
      exists h. split; [apply dg_in; auto|].
      destruct (kind_global_spec h Kh) as [[fm [-> _]]|[[gr [-> G]]|[i [b [-> I]]]]]; try discriminate.
      simpl. rewrite I. reflexivity.
    - exists (MeterMod MDelete i0 b0). split; auto. apply in_app_iff. right.
      assert (H0 : In (MeterMod MDelete i0 b0) (p_del0 ms)).
      { apply p_del0_in. repeat split; auto. intros h Hh Kh Th.
        assert (X : existsb (fun h => mtype_eqb (msg_type h) TMeter) (of_kind ms KDelGlobal) = true).
        { apply existsb_exists. exists h; split; [apply of_kind_in; auto|]. simpl in Th. rewrite Th; auto. }
        congruence. }
      destruct (p_dels_fate ms d _ Hd H0) as [[S|[fm [w [X _]]]]|[fo [fm [X _]]]]; auto; discriminate.
  Qed.

  Lemma uniform_writes : uniform (filter is_flow_write ms).
  Proof.
    repeat split.
    - intros m H. apply filter_In in H; tauto.
    - intros w H. apply filter_In in H as [H _]. apply (cb_no_modify ms CB); auto.
    - intros w1 w2 H1 H2 S. apply filter_In in H1 as [H1 W1]. apply filter_In in H2 as [H2 W2].
      apply (cb_writes ms CB w1 w2); auto.
  Qed.

  Lemma of_kind_writes : of_kind ms KFlowAddMod = filter is_flow_write ms.
  Proof.
    unfold of_kind. apply filter_ext. intros m.
    destruct (kind_eqb (msg_kind m) KFlowAddMod) eqn:E.
    - apply kind_eqb_spec, kind_flow_write in E; auto.
    - destruct (is_flow_write m) eqn:W; auto. apply kind_flow_write in W. rewrite W in E. discriminate.
  Qed.
End Effect.

Lemma reorder_effect_lemma : forall sh ub ms out s,
  clean_batch ms ->
  (forall l x, In x (sh l) -> In x l) ->
  valve_flowreorder sh ub ms = Some out ->
  same_switch (apply_msgs out s) (intended ms s).
Proof.
  intros sh ub ms out s CB Hsh Hout.
  apply reorder_pieces in Hout as [d [Hd ->]].
  rewrite !apply_msgs_app, !apply_with_barrier.
  rewrite (apply_inert (p_simple ms KConfig)).
  2:{ intros m Hm. apply simple_in, of_kind_in in Hm as [_ K]. apply kind_inert; auto. }
  rewrite (apply_inert (p_simple ms KTfm)).
  2:{ intros m Hm. apply simple_in, of_kind_in in Hm as [_ K]. apply kind_inert; auto. }
  rewrite (apply_inert (sh _)).
  2:{ intros m Hm. apply Hsh, dedupe_str_in, of_kind_in in Hm as [_ K]. apply kind_inert; auto. }
  rewrite (apply_inert (p_simple ms KOther)).
  2:{ intros m Hm. apply simple_in, of_kind_in in Hm as [Hin K].
      apply kind_other_inert in K as [K|[[g ->]|[i [b ->]]]]; auto; exfalso.
      - eapply cb_no_group_modify; eauto.
      - eapply cb_no_meter_modify; eauto. }
  rewrite <- (apply_msgs_app (p_dg ms) (p_dels ms d)). unfold intended.
  set (od := p_dg ms ++ p_dels ms d).
  assert (Hod : forall m, In m od -> is_delete m = true).
  { intros m Hm. apply (outdels_sub ms d Hd) in Hm. apply filter_In in Hm; tauto. }
  destruct (apply_deletes od s Hod) as [F1 [G1 M1]].
  assert (Hid : forall m, In m (filter is_delete ms) -> is_delete m = true) by (intros m Hm; apply filter_In in Hm; tauto).
  destruct (apply_deletes (filter is_delete ms) s Hid) as [F2 [G2 M2]].
  set (s1 := apply_msgs od s) in *. set (s2 := apply_msgs (filter is_delete ms) s) in *.
  (* after the deletes *)
  assert (Neg : forall (P : ofmsg -> bool) l, (forall m, In m l -> P m = false) <-> ~ (exists m, In m l /\ P m = true)).
  { intros P l; split.
    - intros H [m [A B]]. rewrite H in B; auto; discriminate.
    - intros H m Hm. destruct (P m) eqn:E; auto. exfalso; apply H; eauto. }
  assert (EG : forall g, In g (sw_groups s1) <-> In g (sw_groups s2)).
  { intros g. rewrite G1, G2, (Neg (fun m => del_group m g)), (Neg (fun m => del_group m g)).
    pose proof (del_group_kept ms d Hd g) as X. fold od in X. tauto. }
  assert (EM : forall g, In g (sw_meters s1) <-> In g (sw_meters s2)).
  { intros g. rewrite M1, M2, (Neg (fun m => del_meter m g)), (Neg (fun m => del_meter m g)).
    pose proof (del_meter_kept ms d Hd g) as X. fold od in X. tauto. }
  assert (EF : forall f, (forall w, In (FlowMod w) ms -> fm_cmd w = FAdd -> wslot w f = false) ->
            (In f (sw_flows s1) <-> In f (sw_flows s2))).
  { intros f Hno. rewrite F1, F2, (Neg (fun m => del_flow m f)), (Neg (fun m => del_flow m f)).
    assert (X : (exists m, In m od /\ del_flow m f = true) <-> (exists m, In m (filter is_delete ms) /\ del_flow m f = true)).
    { split.
      - intros [m [A B]]. exists m; split; auto. apply (outdels_sub ms d Hd); auto.
      - intros Y. destruct (del_flow_kept ms d CB Hd f Y) as [Z|[w [A [B C]]]]; auto.
        rewrite Hno in C; auto; discriminate. }
    tauto. }
  (* group additions *)
  set (ga := p_simple ms KGroupAdd). set (ma := p_simple ms KMeterAdd).
  assert (Iga : forall m, In m ga <-> In m (filter is_group_add ms)).
  { intros m. unfold ga, p_simple, of_kind. rewrite simple_in, of_kind_in, filter_In, kind_group_add. tauto. }
  assert (Ima : forall m, In m ma <-> In m (filter is_meter_add ms)).
  { intros m. unfold ma, p_simple, of_kind. rewrite simple_in, of_kind_in, filter_In, kind_meter_add. tauto. }
  assert (Uga : forall g1 g2, In (GroupMod GAdd g1) (filter is_group_add ms) ->
            In (GroupMod GAdd g2) (filter is_group_add ms) -> g_id g1 = g_id g2 -> g1 = g2).
  { intros g1 g2 A B. apply filter_In in A as [A _]. apply filter_In in B as [B _]. apply (cb_groups ms CB); auto. }
  assert (Uma : forall i b1 b2, In (MeterMod MAdd i b1) (filter is_meter_add ms) ->
            In (MeterMod MAdd i b2) (filter is_meter_add ms) -> b1 = b2).
  { intros i b1 b2 A B. apply filter_In in A as [A _]. apply filter_In in B as [B _]. apply (cb_meters ms CB i); auto. }
  destruct (apply_group_adds ga s1) as [GF1 [GM1 GG1]].
  { intros m Hm. apply Iga, filter_In in Hm; tauto. }
  { intros g1 g2 A B. apply Uga; apply Iga; auto. }
  destruct (apply_group_adds (filter is_group_add ms) s2) as [GF2 [GM2 GG2]]; auto.
  { intros m Hm. apply filter_In in Hm; tauto. }
  set (t1 := apply_msgs ga s1) in *. set (t2 := apply_msgs (filter is_group_add ms) s2) in *.
  destruct (apply_meter_adds ma t1) as [MF1 [MG1 MM1]].
  { intros m Hm. apply Ima, filter_In in Hm; tauto. }
  { intros i b1 b2 A B. apply (Uma i); apply Ima; auto. }
  destruct (apply_meter_adds (filter is_meter_add ms) t2) as [MF2 [MG2 MM2]]; auto.
  { intros m Hm. apply filter_In in Hm; tauto. }
  set (u1 := apply_msgs ma t1) in *. set (u2 := apply_msgs (filter is_meter_add ms) t2) in *.
  assert (U := uniform_writes ms CB).
  assert (Ua : uniform (p_adds ms)).
  { assert (Sub : forall m, In m (p_adds ms) -> In m (filter is_flow_write ms)).
    { intros m Hm. apply adds_in in Hm. rewrite <- of_kind_writes; auto. }
    destruct U as [U1 [U2 U3]]. split; [|split].
    - intros m Hm. apply U1, Sub, Hm.
    - intros w Hw. apply U2, Sub, Hw.
    - intros w1 w2 Hw1 Hw2. apply U3; apply Sub; auto. }
  destruct (apply_writes (p_adds ms) u1 Ua) as [WG1 [WM1 WF1]].
  destruct (apply_writes (filter is_flow_write ms) u2 U) as [WG2 [WM2 WF2]].
  split; [|split].
  - intros f. rewrite WF1, WF2.
    unfold p_adds. rewrite of_kind_writes, last_write_dedupe.
    2:{ intros x Hx. apply filter_In in Hx; tauto. }
    2:{ intros w1 w2 H1 H2 S. apply filter_In in H1 as [H1 W1]. apply filter_In in H2 as [H2 W2].
        apply (cb_writes ms CB w1 w2); auto. }
    rewrite MF1, MF2, GF1, GF2.
    destruct (last_write (f_table f) (f_prio f) (f_match f) (filter is_flow_write ms)) as [x|] eqn:EL.
    + pose proof (last_write_some _ _ _ _ _ EL) as [w [-> [Hin [T1 [T2 T3]]]]].
      destruct (fm_cmd w) eqn:Ec; simpl; try tauto.
      all: apply filter_In in Hin as [Hin Wr].
      all: assert (Q : forall f0, wslot w f0 = true -> (In f0 (sw_flows s1) <-> In f0 (sw_flows s2))).
      all: try (intros f0 S0; apply EF; intros w' Hw' Cw';
        destruct (wslot w' f0) eqn:E; auto; exfalso;
        apply wslot_spec in S0; apply wslot_spec in E;
        assert (X : fm_cmd w = fm_cmd w') by
          (apply (cb_writes ms CB w w'); auto; [simpl; rewrite Cw'; auto|repeat split; intuition congruence]);
        congruence).
      all: split; intros [f0 [A [B C]]]; exists f0; split; auto; apply Q; auto.
    + apply EF. intros w Hw Cw. destruct (wslot w f) eqn:E; auto. exfalso.
      apply wslot_spec in E as [E1 [E2 E3]]. unfold last_write in EL.
      assert (X : In (FlowMod w) (rev (filter is_flow_write ms))).
      { apply in_rev. rewrite rev_involutive. apply filter_In; split; auto. simpl; rewrite Cw; auto. }
      pose proof (find_none _ _ EL _ X) as Y.
      assert (Z : slot_eq (f_table f) (f_prio f) (f_match f) (FlowMod w) = true)
        by (apply slot_eq_spec; exists w; auto).
      congruence.
  - intros g. rewrite WG1, WG2, MG1, MG2, GG1, GG2, EG, Iga.
    assert (X : (forall h, In h (sw_groups s1) -> g_id h <> g_id g) <-> (forall h, In h (sw_groups s2) -> g_id h <> g_id g))
      by (split; intros Y h Hh; apply Y; apply EG; auto).
    tauto.
  - intros [i b]. rewrite WM1, WM2, MM1, MM2, GM1, GM2, EM, Ima.
    assert (X : (forall h, In h (sw_meters s1) -> fst h <> i) <-> (forall h, In h (sw_meters s2) -> fst h <> i))
      by (split; intros Y h Hh; apply Y; apply EM; auto).
    tauto.
Qed.

(** ** Order *)

Lemma stage_kind : forall m, m <> Barrier -> stage m =
  Some (match msg_kind m with
        | KConfig => 0 | KDelGlobal => 1 | KDelete => 1 | KTfm => 2 | KGroupAdd => 3
        | KMeterAdd => 4 | KFlowAddMod => 5 | KOther => 6 | KPacketOut => 7 end)%nat.
Proof.
  intros m Hb; destruct m as [fm|c g|c i b| | | | |]; simpl; auto; try congruence.
  - unfold is_global_flowdel. destruct (fm_cmd fm); simpl; auto; destruct (_ && _); auto.
  - destruct c; auto. destruct (_ =? _); auto.
  - destruct c; auto. destruct (_ =? _); auto.
Qed.

(** The stages of a segment of the output. *)
Definition seg (n : nat) (l : list ofmsg) : Prop :=
  forall m r, In m l -> stage m = Some r -> r = n.

Fixpoint segs (n : nat) (ls : list (list ofmsg)) : Prop :=
  match ls with
  | [] => True
  | l :: r => (exists k, (n <= k)%nat /\ seg k l /\ segs k r)
  end.

Lemma segs_le : forall ls n b r, segs n ls -> In b (concat ls) -> stage b = Some r -> (n <= r)%nat.
Proof.
  induction ls as [|l ls IH]; intros n b r H Hin Hs; simpl in *; [contradiction|].
  destruct H as [k [Hk [S R]]]. apply in_app_iff in Hin as [Hin|Hin].
  - rewrite (S b r Hin Hs); auto.
  - specialize (IH k b r R Hin Hs). lia.
Qed.

Lemma segs_order : forall ls n, segs n ls -> in_stage_order (concat ls).
Proof.
  induction ls as [|l ls IH]; intros n H; unfold in_stage_order; intros l1 a l2 b ra rb E Hb Ha Hrb.
  - simpl in E. destruct l1; discriminate.
  - simpl in *. destruct H as [k [Hk [S R]]].
    destruct (le_lt_dec (length l) (length l1)) as [Hl|Hl].
    + (* a is in the rest *)
      assert (X : exists l1', concat ls = l1' ++ a :: l2).
      { exists (skipn (length l) l1). 
        assert (Y : skipn (length l) (l ++ concat ls) = skipn (length l) (l1 ++ a :: l2)) by (rewrite E; auto).
        rewrite skipn_app, skipn_all, Nat.sub_diag in Y. simpl in Y.
        rewrite Y, skipn_app. replace (length l - length l1)%nat with 0%nat by lia. reflexivity. }
      destruct X as [l1' X]. eapply (IH k R); eauto.
    + (* a is in l *)
      assert (Ial : In a l).
      { assert (Y : nth_error (l ++ concat ls) (length l1) = Some a)
          by (rewrite E, nth_error_app2, Nat.sub_diag; auto).
        rewrite nth_error_app1 in Y by auto. eapply nth_error_In; eauto. }
      rewrite (S a ra Ial Ha).
      assert (Ib : In b (l ++ concat ls)) by (rewrite E; apply in_app_iff; right; right; auto).
      apply in_app_iff in Ib as [Ib|Ib].
      * rewrite (S b rb Ib Hrb). auto.
      * eapply segs_le; eauto.
Qed.

Lemma seg_with_barrier : forall ub n l, seg n l -> seg n (with_barrier ub l).
Proof.
  intros ub n l H m r Hm Hs. apply with_barrier_in in Hm as [Hm|[-> _]]; [eapply H; eauto|discriminate].
Qed.

Lemma seg_kind : forall k l, (forall m, In m l -> msg_kind m = k) ->
  seg (match k with
        | KConfig => 0 | KDelGlobal => 1 | KDelete => 1 | KTfm => 2 | KGroupAdd => 3
        | KMeterAdd => 4 | KFlowAddMod => 5 | KOther => 6 | KPacketOut => 7 end)%nat l.
Proof.
  intros k l H m r Hm Hs. assert (m <> Barrier) by (intros ->; discriminate).
  rewrite stage_kind in Hs by auto. rewrite (H m Hm) in Hs. congruence.
Qed.

Lemma p_simple_kind : forall ms k m, In m (p_simple ms k) <-> In m ms /\ msg_kind m = k.
Proof. intros. unfold p_simple. rewrite simple_in. apply of_kind_in. Qed.
Lemma p_adds_sub : forall ms m, In m (p_adds ms) -> In m ms /\ msg_kind m = KFlowAddMod.
Proof. intros ms m H. apply adds_in in H. apply of_kind_in; auto. Qed.
Lemma p_dels_kind : forall ms d m, dedupe_overlaps (p_del0 ms) = Some d ->
  In m (p_dels ms d) -> In m ms /\ msg_kind m = KDelete.
Proof. intros ms d m Hd H. apply (p_dels_sub _ _ _ Hd), p_del0_in in H. tauto. Qed.

Section Order.
  Variables (sh : list ofmsg -> list ofmsg) (ub : bool) (ms out d : list ofmsg).
  Hypothesis Hsh : forall l, Permutation (sh l) l.
  Hypothesis Hd : dedupe_overlaps (p_del0 ms) = Some d.

  Let parts : list (list ofmsg) :=
    [with_barrier ub (p_simple ms KConfig); with_barrier ub (p_dg ms);
     with_barrier ub (p_dels ms d); with_barrier ub (p_simple ms KTfm);
     with_barrier ub (p_simple ms KGroupAdd); with_barrier ub (p_simple ms KMeterAdd);
     p_adds ms; p_simple ms KOther; sh (dedupe_str (of_kind ms KPacketOut))].

  Lemma pkt_kind : forall m, In m (sh (dedupe_str (of_kind ms KPacketOut))) <-> In m ms /\ msg_kind m = KPacketOut.
  Proof.
    intros m. pose proof (of_kind_in ms KPacketOut m) as A. fold (of_kind ms KPacketOut) in A.
    pose proof (dedupe_str_in (of_kind ms KPacketOut) m) as B. rewrite <- A, <- B.
    split; apply Permutation_in; [|symmetry]; apply Hsh.
  Qed.

  Lemma parts_segs : segs 0 parts.
  Proof.
    unfold parts. simpl.
    exists 0%nat; split; [lia|]; split.
    { apply seg_with_barrier, (seg_kind KConfig). intros m H. apply p_simple_kind in H; tauto. }
    exists 1%nat; split; [lia|]; split.
    { apply seg_with_barrier, (seg_kind KDelGlobal). intros m H. apply (p_simple_kind ms KDelGlobal) in H; tauto. }
    exists 1%nat; split; [lia|]; split.
    { apply seg_with_barrier, (seg_kind KDelete). intros m H. apply (p_dels_kind ms d m Hd) in H; tauto. }
    exists 2%nat; split; [lia|]; split.
    { apply seg_with_barrier, (seg_kind KTfm). intros m H. apply p_simple_kind in H; tauto. }
    exists 3%nat; split; [lia|]; split.
    { apply seg_with_barrier, (seg_kind KGroupAdd). intros m H. apply p_simple_kind in H; tauto. }
    exists 4%nat; split; [lia|]; split.
    { apply seg_with_barrier, (seg_kind KMeterAdd). intros m H. apply p_simple_kind in H; tauto. }
    exists 5%nat; split; [lia|]; split.
    { apply (seg_kind KFlowAddMod). intros m H. apply p_adds_sub in H; tauto. }
    exists 6%nat; split; [lia|]; split.
    { apply (seg_kind KOther). intros m H. apply p_simple_kind in H; tauto. }
    exists 7%nat; split; [lia|]; split; auto.
    { apply (seg_kind KPacketOut). intros m H. apply pkt_kind in H; tauto. }
  Qed.
End Order.

Lemma reorder_concat : forall sh ub ms out, valve_flowreorder sh ub ms = Some out ->
  exists d, dedupe_overlaps (p_del0 ms) = Some d /\
  out = concat [with_barrier ub (p_simple ms KConfig); with_barrier ub (p_dg ms);
     with_barrier ub (p_dels ms d); with_barrier ub (p_simple ms KTfm);
     with_barrier ub (p_simple ms KGroupAdd); with_barrier ub (p_simple ms KMeterAdd);
     p_adds ms; p_simple ms KOther; sh (dedupe_str (of_kind ms KPacketOut))].
Proof.
  intros sh ub ms out H. apply reorder_pieces in H as [d [Hd ->]]. exists d; split; auto.
  simpl. rewrite app_nil_r. reflexivity.
Qed.

Lemma reorder_order_lemma : forall sh ub ms out,
  (forall l, Permutation (sh l) l) -> valve_flowreorder sh ub ms = Some out -> in_stage_order out.
Proof.
  intros sh ub ms out Hsh H. apply reorder_concat in H as [d [Hd ->]].
  eapply segs_order, parts_segs; eauto.
Qed.

(** ** Barriers *)

(** a list of segments with strictly increasing stages whose segments up to stage 4
    end with a barrier *)
Fixpoint bsegs (n : nat) (ls : list (list ofmsg)) : Prop :=
  match ls with
  | [] => True
  | l :: r => (exists k, (n <= k)%nat /\ seg k l /\ ((k <= 4)%nat -> l = [] \/ exists l', l = l' ++ [Barrier]) /\ bsegs k r)
  end.

Lemma bsegs_segs : forall ls n, bsegs n ls -> segs n ls.
Proof.
  induction ls; simpl; auto. intros n [k [A [B [C D]]]]. exists k; auto.
Qed.

Lemma bsegs_barriers : forall ls n, bsegs n ls -> barriers_separate (concat ls).
Proof.
  induction ls as [|l ls IH]; intros n H; unfold barriers_separate; intros l1 a l2 b l3 ra rb E Ha Hb Hlt H4.
  - simpl in E. destruct l1; discriminate.
  - simpl in *. destruct H as [k [Hk [S [B R]]]].
    destruct (le_lt_dec (length l) (length l1)) as [Hl|Hl].
    + assert (X : exists l1', concat ls = l1' ++ a :: l2 ++ b :: l3).
      { exists (skipn (length l) l1). 
        assert (Y : skipn (length l) (l ++ concat ls) = skipn (length l) (l1 ++ a :: l2 ++ b :: l3)) by (rewrite E; auto).
        rewrite skipn_app, skipn_all, Nat.sub_diag in Y. simpl in Y.
        rewrite Y, skipn_app. replace (length l - length l1)%nat with 0%nat by lia. reflexivity. }
      destruct X as [l1' X]. eapply (IH k R); eauto.
    + assert (Ial : In a l).
      { assert (Y : nth_error (l ++ concat ls) (length l1) = Some a)
          by (rewrite E, nth_error_app2, Nat.sub_diag; auto).
        rewrite nth_error_app1 in Y by auto. eapply nth_error_In; eauto. }
      assert (ra = k) by (apply (S a ra Ial Ha)). subst ra.
      destruct (B H4) as [->|[l' ->]]; [contradiction|].
      (* the barrier is at position length l'; b is after it *)
      assert (Hbar : nth_error ((l' ++ [Barrier]) ++ concat ls) (length l') = Some Barrier).
      { rewrite <- app_assoc, nth_error_app2, Nat.sub_diag; auto. }
      rewrite app_length in Hl; simpl in Hl.
      assert (Hne : length l1 <> length l').
      { intros X. rewrite E, <- X, nth_error_app2, Nat.sub_diag in Hbar by auto. simpl in Hbar.
        inversion Hbar; subst a. discriminate. }
      rewrite E in Hbar. rewrite nth_error_app2 in Hbar by lia.
      destruct (length l' - length l1)%nat as [|j] eqn:Ej; [lia|]. simpl in Hbar.
      destruct (le_lt_dec (length l2) j) as [Hj|Hj].
      2:{ rewrite nth_error_app1 in Hbar by auto. eapply nth_error_In; eauto. }
      (* b would be before the barrier, in l *)
      exfalso. assert (Ib : In b (l' ++ [Barrier])).
      { assert (Y : nth_error ((l' ++ [Barrier]) ++ concat ls) (length l1 + (Datatypes.S (length l2))) = Some b).
        { rewrite E, nth_error_app2 by lia. replace (length l1 + Datatypes.S (length l2) - length l1)%nat with (Datatypes.S (length l2)) by lia.
          simpl. rewrite nth_error_app2, Nat.sub_diag; auto. }
        rewrite nth_error_app1 in Y by (rewrite app_length; simpl; lia). eapply nth_error_In; eauto. }
      rewrite (S b rb Ib Hb) in Hlt. lia.
Qed.

Lemma with_barrier_end : forall l, with_barrier true l = [] \/ exists l', with_barrier true l = l' ++ [Barrier].
Proof. intros [|x r]; unfold with_barrier; simpl; [left; auto|right; exists (x :: r); auto]. Qed.

Lemma reorder_barriers_lemma : forall sh ms out,
  (forall l, Permutation (sh l) l) -> valve_flowreorder sh true ms = Some out -> barriers_separate out.
Proof.
  intros sh ms out Hsh H. apply reorder_concat in H as [d [Hd ->]].
  pose proof (parts_segs sh true ms d Hsh Hd) as S.
  apply (bsegs_barriers _ 0%nat). simpl in *.
  destruct S as [k0 [A0 [B0 [k1 [A1 [B1 [k2 [A2 [B2 [k3 [A3 [B3 [k4 [A4 [B4 [k5 [A5 [B5 _]]]]]]]]]]]]]]]]]].
  clear A0 B0 A1 B1 A2 B2 A3 B3 A4 B4 A5 B5 k0 k1 k2 k3 k4 k5.
  exists 0%nat; split; [lia|]; split; [|split; [intros _; apply with_barrier_end|]].
  { apply seg_with_barrier, (seg_kind KConfig). intros m H. apply p_simple_kind in H; tauto. }
  exists 1%nat; split; [lia|]; split; [|split; [intros _; apply with_barrier_end|]].
  { apply seg_with_barrier, (seg_kind KDelGlobal). intros m H. apply (p_simple_kind ms KDelGlobal) in H; tauto. }
  exists 1%nat; split; [lia|]; split; [|split; [intros _; apply with_barrier_end|]].
  { apply seg_with_barrier, (seg_kind KDelete). intros m H. apply (p_dels_kind ms d m Hd) in H; tauto. }
  exists 2%nat; split; [lia|]; split; [|split; [intros _; apply with_barrier_end|]].
  { apply seg_with_barrier, (seg_kind KTfm). intros m H. apply p_simple_kind in H; tauto. }
  exists 3%nat; split; [lia|]; split; [|split; [intros _; apply with_barrier_end|]].
  { apply seg_with_barrier, (seg_kind KGroupAdd). intros m H. apply p_simple_kind in H; tauto. }
  exists 4%nat; split; [lia|]; split; [|split; [intros _; apply with_barrier_end|]].
  { apply seg_with_barrier, (seg_kind KMeterAdd). intros m H. apply p_simple_kind in H; tauto. }
  exists 5%nat; split; [lia|]; split; [|split; [lia|]].
  { apply (seg_kind KFlowAddMod). intros m H. apply p_adds_sub in H; tauto. }
  exists 6%nat; split; [lia|]; split; [|split; [lia|]].
  { apply (seg_kind KOther). intros m H. apply p_simple_kind in H; tauto. }
  exists 7%nat; split; [lia|]; split; [|split; [lia|auto]].
  { apply (seg_kind KPacketOut). intros m H. apply pkt_kind in H; tauto. }
Qed.

(** ** Contents *)

Lemma reorder_invents_nothing_lemma : forall sh ub ms out m,
  (forall l, Permutation (sh l) l) -> valve_flowreorder sh ub ms = Some out ->
  In m out -> m = Barrier \/ In m ms.
Proof.
  intros sh ub ms out m Hsh H Hin. apply reorder_concat in H as [d [Hd ->]].
  simpl in Hin. rewrite app_nil_r in Hin. rewrite !in_app_iff, !with_barrier_in in Hin.
  repeat destruct Hin as [Hin|Hin]; try tauto.
  all: try (right; eapply p_simple_kind; eauto; fail).
  - right. apply (p_dels_kind ms d m Hd) in Hin; tauto.
  - right. apply p_adds_sub in Hin; tauto.
  - right. apply pkt_kind in Hin; auto; tauto.
Qed.

Lemma reorder_keeps_lemma : forall sh ub ms out m,
  (forall l, Permutation (sh l) l) -> valve_flowreorder sh ub ms = Some out ->
  In m ms -> is_delete m = false -> is_flow_write m = false -> In m out.
Proof.
  intros sh ub ms out m Hsh H Hin D W. apply reorder_concat in H as [d [Hd ->]].
  simpl. rewrite app_nil_r, !in_app_iff, !with_barrier_in.
  assert (ND : msg_kind m <> KDelGlobal /\ msg_kind m <> KDelete /\ msg_kind m <> KFlowAddMod).
  { repeat split; intros K.
    - assert (is_delete m = true) by (apply kind_delete; auto). congruence.
    - assert (is_delete m = true) by (apply kind_delete; auto). congruence.
    - apply kind_flow_write in K. congruence. }
  rewrite !p_simple_kind, pkt_kind by auto.
  destruct (msg_kind m) eqn:E; tauto.
Qed.

Lemma find_rev_last_writer : forall ms w,
  (exists l1 l2, ms = l1 ++ FlowMod w :: l2 /\ is_flow_write (FlowMod w) = true /\
    forall w', In (FlowMod w') l2 -> is_flow_write (FlowMod w') = true ->
      same_flow_slot w w' -> fm_cookie w <> fm_cookie w') <->
  find (fun y => okey_eqb (Some (flowmodkey w)) (none_flowmodkey y)) (rev (filter is_flow_write ms)) = Some (FlowMod w).
Proof.
  intros ms w.
  assert (K : forall y, okey_eqb (Some (flowmodkey w)) (none_flowmodkey y) = true <->
            exists w', y = FlowMod w' /\ same_flow_slot w w' /\ fm_cookie w = fm_cookie w').
  { intros y. rewrite okey_eqb_spec. destruct y as [w'| | | | | | |]; simpl;
      try (split; [discriminate|intros [w' [E _]]; discriminate]).
    unfold flowmodkey, same_flow_slot. split.
    - intros E; inversion E. exists w'; auto.
    - intros [w'' [E [[A [B C]] D]]]; inversion E; subst w''. congruence. }
  split.
  - intros [l1 [l2 [-> [Ww H]]]]. rewrite filter_app. cbn [filter]. rewrite Ww.
    rewrite rev_app_distr. cbn [rev app]. rewrite <- app_assoc. cbn [app].
    assert (N : forall y, In y (rev (filter is_flow_write l2)) -> okey_eqb (Some (flowmodkey w)) (none_flowmodkey y) = false).
    { intros y Hy. apply in_rev in Hy. apply filter_In in Hy as [Hy Wy].
      destruct (okey_eqb _ _) eqn:E; auto. apply K in E as [w' [-> [S C]]]. exfalso. eapply H; eauto. }
    induction (rev (filter is_flow_write l2)) as [|y r IHr].
    + simpl. assert (X : fkey_eqb (flowmodkey w) (flowmodkey w) = true)
        by (unfold fkey_eqb; destruct (fkey_eq_dec _ _); congruence).
      rewrite X; auto.
    + cbn [app find]. rewrite (N y) by (left; auto). apply IHr. intros; apply N; right; auto.
  - induction ms as [|m ms IH] using rev_ind; [simpl; discriminate|].
    rewrite filter_app. cbn [filter]. destruct (is_flow_write m) eqn:Wm.
    + rewrite rev_app_distr. cbn [rev app find]. destruct (okey_eqb (Some (flowmodkey w)) (none_flowmodkey m)) eqn:E.
      * intros X; injection X as ->. exists ms, []. repeat split; auto.
      * intros X. destruct (IH X) as [l1 [l2 [-> [Ww H]]]].
        exists l1, (l2 ++ [m]). repeat split; auto.
        { rewrite <- app_assoc; auto. }
        intros w' Hin W' S C. apply in_app_iff in Hin as [Hin|[->|[]]].
        -- apply (H w' Hin W' S C).
        -- assert (Y : okey_eqb (Some (flowmodkey w)) (none_flowmodkey (FlowMod w')) = true) by (apply K; eauto).
           congruence.
    + rewrite app_nil_r. intros X. destruct (IH X) as [l1 [l2 [-> [Ww H]]]].
      exists l1, (l2 ++ [m]). repeat split; auto.
      { rewrite <- app_assoc; auto. }
      intros w' Hin W' S C. apply in_app_iff in Hin as [Hin|[->|[]]]; [apply (H w' Hin W' S C)|congruence].
Qed.

Lemma reorder_last_writer_lemma : forall sh ub ms out w,
  (forall l, Permutation (sh l) l) -> valve_flowreorder sh ub ms = Some out ->
  (In (FlowMod w) out /\ is_flow_write (FlowMod w) = true <-> last_writer ms w).
Proof.
  intros sh ub ms out w Hsh H. unfold last_writer. rewrite find_rev_last_writer.
  assert (A : In (FlowMod w) (p_adds ms) <->
     find (fun y => okey_eqb (Some (flowmodkey w)) (none_flowmodkey y)) (rev (filter is_flow_write ms)) = Some (FlowMod w)).
  { unfold p_adds, sort_flows, dedupe_key. rewrite py_sorted_in, of_kind_writes.
    apply (dict_of_vals _ okey_eqb_spec none_flowmodkey). }
  rewrite <- A. apply reorder_concat in H as [d [Hd ->]].
  simpl. rewrite app_nil_r, !in_app_iff, !with_barrier_in. split.
  - intros [Hin W]. assert (K := proj2 (kind_flow_write (FlowMod w)) W). fold (is_flow_write (FlowMod w)) in W.
    rewrite !p_simple_kind, pkt_kind in Hin by auto.
    assert (N1 : ~ In (FlowMod w) (p_dg ms)).
    { intros X. apply (p_simple_kind ms KDelGlobal) in X as [_ X]. congruence. }
    assert (N2 : ~ In (FlowMod w) (p_dels ms d)).
    { intros X. apply (p_dels_kind ms d _ Hd) in X as [_ X]. congruence. }
    rewrite K in Hin.
    repeat destruct Hin as [Hin|Hin]; try tauto; try (destruct Hin; congruence).
  - intros Hin. split; [tauto|]. apply p_adds_sub in Hin as [_ K]. apply kind_flow_write in K. exact K.
Qed.

Lemma reorder_total_lemma : forall sh ub ms,
  (forall fm, In (FlowMod fm) ms -> is_delete (FlowMod fm) = true -> fm_table fm = OFPTT_ALL -> fm_match fm = []) ->
  exists out, valve_flowreorder sh ub ms = Some out.
Proof.
  intros sh ub ms H. unfold valve_flowreorder. cbv zeta.
  fold (of_kind ms KDelGlobal). fold (of_kind ms KDelete). fold (p_del0 ms).
  assert (X : exists d, dedupe_overlaps (p_del0 ms) = Some d).
  { unfold dedupe_overlaps.
    assert (E : filter is_overlap (sort_flows (dedupe_str (p_del0 ms))) = []).
    { destruct (filter is_overlap _) as [|m r] eqn:E; auto. exfalso.
      assert (Hm : In m (filter is_overlap (sort_flows (dedupe_str (p_del0 ms))))) by (rewrite E; left; auto).
      apply filter_In in Hm as [Hm Ho]. apply simple_in, p_del0_in in Hm as [Hm [K _]].
      unfold is_overlap, has_table in Ho. destruct m as [fm| | | | | | |]; simpl in Ho; try discriminate.
      apply andb_true_iff in Ho as [Ho _]. apply Z.eqb_eq in Ho.
      assert (D : is_delete (FlowMod fm) = true) by (apply kind_delete; auto).
      specialize (H fm Hm D Ho). simpl in K. unfold is_global_flowdel in K. rewrite Ho, H in K. simpl in K.
      simpl in D. destruct (fm_cmd fm); simpl in K; try discriminate. }
    rewrite E. simpl. eexists; reflexivity. }
  destruct X as [d ->]. eexists; reflexivity.
Qed.

(** ** Deletes are effective *)

Lemma removes_del_flow : forall m f, removes m f -> is_delete m = true -> del_flow m f = true.
Proof.
  intros m f R D. unfold removes in R.
  destruct (apply_delete_one m (mkSwitch [f] [] []) D) as [A _].
  destruct (del_flow m f) eqn:E; auto. exfalso. apply R, A. split; auto. simpl; auto.
Qed.

Lemma removes_is_delete : forall m f, removes m f -> 
  is_delete m = true \/ exists w, m = FlowMod w /\ is_flow_write m = true.
Proof.
  intros m f R. destruct m as [fm|c g|c i b| | | | |]; simpl in *.
  - destruct (fm_cmd fm) eqn:E; auto; right; exists fm; auto.
  - destruct c; auto; exfalso; apply R; simpl; auto.
  - destruct c; auto; exfalso; apply R; simpl; auto.
  - exfalso; apply R; simpl; auto.
  - exfalso; apply R; simpl; auto.
  - exfalso; apply R; simpl; auto.
  - exfalso; apply R; simpl; auto.
  - exfalso; apply R; simpl; auto.
Qed.

Lemma deletes_effective_lemma : forall sh ub ms out s m f,
  clean_batch ms -> (forall l, Permutation (sh l) l) ->
  valve_flowreorder sh ub ms = Some out ->
  In m ms -> is_delete m = true -> removes m f ->
  In f (sw_flows (apply_msgs out s)) ->
  exists w, In (FlowMod w) ms /\ is_flow_write (FlowMod w) = true /\
    fm_table w = f_table f /\ fm_prio w = f_prio f /\ fm_match w = f_match f.
Proof.
  intros sh ub ms out s m f CB Hsh Hout Hm Dm R Hf.
  assert (E : same_switch (apply_msgs out s) (intended ms s)).
  { eapply reorder_effect_lemma; eauto. intros l x; apply Permutation_in; auto. }
  destruct E as [E _]. apply E in Hf. unfold intended in Hf.
  destruct (apply_writes (filter is_flow_write ms) 
     (apply_msgs (filter is_meter_add ms)
        (apply_msgs (filter is_group_add ms) (apply_msgs (filter is_delete ms) s))) (uniform_writes ms CB)) as [_ [_ F]].
  apply F in Hf. clear F.
  destruct (last_write (f_table f) (f_prio f) (f_match f) (filter is_flow_write ms)) as [x|] eqn:EL.
  - apply last_write_some in EL as [w [-> [Hin [A [B C]]]]]. apply filter_In in Hin as [Hin W].
    exists w; auto.
  - exfalso.
    destruct (apply_meter_adds (filter is_meter_add ms) (apply_msgs (filter is_group_add ms) (apply_msgs (filter is_delete ms) s))) as [MF _].
    { intros x Hx. apply filter_In in Hx; tauto. }
    { intros i b1 b2 X Y. apply filter_In in X as [X _]. apply filter_In in Y as [Y _]. apply (cb_meters ms CB i); auto. }
    rewrite MF in Hf.
    destruct (apply_group_adds (filter is_group_add ms) (apply_msgs (filter is_delete ms) s)) as [GF _].
    { intros x Hx. apply filter_In in Hx; tauto. }
    { intros i b1 X Y. apply filter_In in X as [X _]. apply filter_In in Y as [Y _]. apply (cb_groups ms CB); auto. }
    rewrite GF in Hf.
    destruct (apply_deletes (filter is_delete ms) s) as [DF _].
    { intros x Hx. apply filter_In in Hx; tauto. }
    apply DF in Hf as [_ Hf]. specialize (Hf m).
    rewrite (removes_del_flow m f R Dm) in Hf. discriminate Hf. apply filter_In; auto.
Qed.

(** ** Order of the flow writes *)

Lemma sort_le_total : forall a b, sort_le a b = true \/ sort_le b a = true.
Proof.
  intros a b. unfold sort_le. destruct (sort_key a) as [ta pa], (sort_key b) as [tb pb].
  destruct (Z.lt_trichotomy ta tb) as [L|[L|L]].
  - right. apply orb_true_iff. left. apply Z.ltb_lt. exact L.
  - subst tb. destruct (Z.le_ge_cases pa pb) as [P|P].
    + right. apply orb_true_iff. right. rewrite Z.eqb_refl. apply Z.leb_le in P. rewrite P. reflexivity.
    + left. apply orb_true_iff. right. rewrite Z.eqb_refl. apply Z.leb_le in P. rewrite P. reflexivity.
  - left. apply orb_true_iff. left. apply Z.ltb_lt. exact L.
Qed.

Lemma sort_le_trans : forall a b c, sort_le a b = true -> sort_le b c = true -> sort_le a c = true.
Proof.
  intros a b c. unfold sort_le.
  destruct (sort_key a) as [ta pa], (sort_key b) as [tb pb], (sort_key c) as [tc pc].
  rewrite !orb_true_iff, !andb_true_iff, !Z.ltb_lt, !Z.eqb_eq, !Z.leb_le. lia.
Qed.

Lemma filter_none : forall A (f : A -> bool) l, (forall x, In x l -> f x = false) -> filter f l = [].
Proof.
  induction l as [|a r IH]; simpl; intros H; [reflexivity|].
  rewrite (H a) by auto. apply IH. intros x Hx. apply H. auto.
Qed.

Lemma filter_all : forall A (f : A -> bool) l, (forall x, In x l -> f x = true) -> filter f l = l.
Proof.
  induction l as [|a r IH]; simpl; intros H; [reflexivity|].
  rewrite (H a) by auto. f_equal. apply IH. intros x Hx. apply H. auto.
Qed.

Lemma sorted_filter_split : forall A (R : A -> A -> Prop) f l1 a l2 b,
  StronglySorted R (filter f (l1 ++ a :: l2)) -> f a = true -> f b = true -> In b l2 -> R a b.
Proof.
  intros A R f l1 a l2 b H Ha Hb Hin. rewrite filter_app in H. simpl in H. rewrite Ha in H.
  induction (filter f l1) as [|x r IH]; simpl in H.
  - inversion H as [|? ? _ F]; subst. rewrite Forall_forall in F. apply F. apply filter_In. auto.
  - inversion H; subst. auto.
Qed.

Lemma not_write_kind : forall m k, msg_kind m = k -> k <> KFlowAddMod -> is_flow_write m = false.
Proof.
  intros m k E N. destruct (is_flow_write m) eqn:W; [|reflexivity].
  apply kind_flow_write in W. congruence.
Qed.

Lemma reorder_writes : forall sh ub ms out,
  (forall l, Permutation (sh l) l) -> valve_flowreorder sh ub ms = Some out ->
  filter is_flow_write out = p_adds ms.
Proof.
  intros sh ub ms out Hsh H. apply reorder_pieces in H as (d & Hd & ->).
  assert (S : forall k, k <> KFlowAddMod -> filter is_flow_write (p_simple ms k) = []).
  { intros k N. apply filter_none. intros x Hx. apply p_simple_kind in Hx as [_ Hk].
    exact (not_write_kind x k Hk N). }
  assert (B : forall l, filter is_flow_write l = [] -> filter is_flow_write (with_barrier ub l) = []).
  { intros l Hl. unfold with_barrier. destruct (is_nil l); [reflexivity|].
    destruct ub; [|exact Hl]. rewrite filter_app, Hl. reflexivity. }
  rewrite !filter_app.
  rewrite (B (p_simple ms KConfig)) by (apply S; discriminate).
  rewrite (B (p_simple ms KTfm)) by (apply S; discriminate).
  rewrite (B (p_simple ms KGroupAdd)) by (apply S; discriminate).
  rewrite (B (p_simple ms KMeterAdd)) by (apply S; discriminate).
  rewrite (B (p_dg ms)) by (apply (S KDelGlobal); discriminate).
  rewrite (B (p_dels ms d)).
  2: { apply filter_none. intros x Hx. apply (p_dels_sub ms d x Hd) in Hx.
       apply p_del0_in in Hx as (_ & Hk & _). apply (not_write_kind x KDelete Hk). discriminate. }
  rewrite (S KOther) by discriminate.
  rewrite (filter_none _ is_flow_write (sh _)).
  2: { intros x Hx. apply (Permutation_in x (Hsh _)) in Hx. apply dedupe_str_in, of_kind_in in Hx as [_ Hk].
       apply (not_write_kind x KPacketOut Hk). discriminate. }
  cbn [app]. rewrite app_nil_r. apply filter_all. intros x Hx. apply p_adds_sub in Hx as [_ Hk].
  apply kind_flow_write. exact Hk.
Qed.

Lemma reorder_tables_lemma : forall sh ub ms out,
  (forall l, Permutation (sh l) l) -> valve_flowreorder sh ub ms = Some out -> later_tables_first out.
Proof.
  intros sh ub ms out Hsh H l1 a l2 b E Hin Ha Hb.
  pose proof (reorder_writes sh ub ms out Hsh H) as W.
  assert (Ss : StronglySorted (fun x y => sort_le x y = true) (filter is_flow_write out)).
  { rewrite W. apply py_sorted_sorted; [exact sort_le_total|exact sort_le_trans]. }
  rewrite E in Ss. pose proof (sorted_filter_split _ _ _ _ _ _ _ Ss Ha Hb Hin) as R.
  cbn in R. unfold sort_le in R. cbn in R.
  apply orb_true_iff in R as [R|R].
  - apply Z.ltb_lt in R. lia.
  - apply andb_true_iff in R as [R1 R2]. apply Z.eqb_eq in R1. apply Z.leb_le in R2. lia.
Qed.
