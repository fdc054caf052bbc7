(** * Proofs about Gauge *)

From Coq Require Import ZArith List Bool Lia.
From Verif Require Import PyBase PyBaseProofs GaugeModel GaugeSpec.
Import ListNotations.
Open Scope Z_scope.

Lemma wtype_eqb_eq a b : wtype_eqb a b = true <-> a = b.
Proof. destruct a, b; cbn; split; congruence. Qed.

(** ** Threads and objects agree *)
Record agree (s : gstate) : Prop := {
  ag_ids : NoDup (map fst (g_live s));
  ag_next : forall t o, In (t, o) (g_live s) -> t < g_next_thread s;
  ag_live : forall t o, In (t, o) (g_live s) <-> o_thread (g_objs s o) = Some t;
  ag_type : forall o t, o_thread (g_objs s o) = Some t -> threaded (wc_type (o_conf (g_objs s o))) = true;
  ag_obj : forall o t, o_thread (g_objs s o) = Some t -> o < g_next_obj s }.
Record frame (s s' : gstate) : Prop := {
  fr_w : g_watchers s' = g_watchers s;
  fr_n : g_next_obj s' = g_next_obj s;
  fr_d : g_dpset s' = g_dpset s;
  fr_q : g_queue s' = g_queue s;
  fr_c : forall x, o_conf (g_objs s' x) = o_conf (g_objs s x) }.
Lemma frame_refl s : frame s s.
Proof. constructor; reflexivity. Qed.
Lemma frame_trans a b c : frame a b -> frame b c -> frame a c.
Proof. intros [A1 A2 A3 A4 A5] [B1 B2 B3 B4 B5]. constructor; congruence. Qed.

Lemma nodup_filter_fst {V} f (l : list (Z * V)) : NoDup (map fst l) -> NoDup (map fst (filter f l)).
Proof.
  induction l as [|[a b] l IH]; intros N; [constructor|]. inversion N as [|? ? N1 N2]; subst. cbn [filter].
  destruct (f (a, b)); [|apply IH, N2]. cbn [map fst]. constructor; [|apply IH, N2].
  intros X. apply N1. apply in_map_iff in X as (q & <- & X). apply filter_In in X as [X _]. apply in_map. exact X.
Qed.
Lemma unique_fst {V} (l : list (Z * V)) t a b : NoDup (map fst l) -> In (t, a) l -> In (t, b) l -> a = b.
Proof.
  induction l as [|[c d] l IH]; intros N H1 H2; [destruct H1|]. inversion N as [|? ? N1 N2]; subst.
  destruct H1 as [H1|H1], H2 as [H2|H2].
  - congruence.
  - injection H1 as -> ->. exfalso. apply N1. apply (in_map fst) in H2. exact H2.
  - injection H2 as -> ->. exfalso. apply N1. apply (in_map fst) in H1. exact H1.
  - apply IH; assumption.
Qed.

Definition stopped (w : wobj) : wobj := mkWobj (o_conf w) false (o_conn w) None.
Lemma stop_spec s o : agree s -> agree (stop s o) /\ frame s (stop s o) /\
  (forall x, g_objs (stop s o) x = if x =? o then stopped (g_objs s o) else g_objs s x) /\
  g_next_thread (stop s o) = g_next_thread s.
Proof.
  intros [A1 A2 A3 A4 A5].
  assert (O : forall x, g_objs (stop s o) x = if x =? o then stopped (g_objs s o) else g_objs s x).
  { intros x. unfold stop. cbn zeta. destruct (threaded _) eqn:T.
    - destruct (o_thread (g_objs s o)) as [t|] eqn:E; cbn; destruct (x =? o); try reflexivity.
    - cbn. destruct (x =? o); [|reflexivity]. unfold stopped. destruct (o_thread (g_objs s o)) as [t|] eqn:E; [|reflexivity].
      rewrite (A4 o t E) in T. discriminate. }
  assert (F : frame s (stop s o)).
  { assert (C : forall x, o_conf (g_objs (stop s o) x) = o_conf (g_objs s x)).
    { intros x. rewrite O. destruct (Z.eqb_spec x o) as [->|]; reflexivity. }
    constructor; try exact C; unfold stop; cbn zeta; destruct (threaded _); try reflexivity; destruct (o_thread (g_objs s o)); reflexivity. }
  assert (N : g_next_thread (stop s o) = g_next_thread s).
  { unfold stop. cbn zeta. destruct (threaded _); [|reflexivity]. destruct (o_thread (g_objs s o)); reflexivity. }
  assert (L : g_live (stop s o) = filter (fun q => negb match o_thread (g_objs s o) with Some t => fst q =? t | None => false end) (g_live s)).
  { unfold stop. cbn zeta. assert (H : forall l : list (Z * Z), filter (fun q => negb false) l = l) by (induction l as [|? l IH]; [reflexivity|cbn in *; rewrite IH; reflexivity]).
    destruct (threaded _) eqn:T; destruct (o_thread (g_objs s o)) as [t|] eqn:E; cbn; try rewrite H; try reflexivity.
    rewrite (A4 o t E) in T. discriminate. }
  split; [|split; [exact F|split; [exact O|exact N]]]. constructor.
  - rewrite L. apply nodup_filter_fst, A1.
  - intros t x. rewrite L, N. intros H. apply filter_In in H as [H _]. eapply A2, H.
  - intros t x. rewrite L, O, filter_In, A3. cbn [fst]. destruct (Z.eqb_spec x o) as [->|Ne]; cbn [stopped o_thread].
    + split; [|discriminate]. intros [E H]. rewrite E, Z.eqb_refl in H. discriminate.
    + split; [tauto|]. intros E. split; [exact E|]. destruct (o_thread (g_objs s o)) as [t'|] eqn:E'; [|reflexivity].
      destruct (Z.eqb_spec t t') as [<-|]; [|reflexivity]. apply A3 in E, E'. exfalso. apply Ne. exact (unique_fst _ t x o A1 E E').
  - intros x t. rewrite O. destruct (Z.eqb_spec x o) as [->|Ne]; [discriminate|apply A4].
  - intros x t. rewrite O, (fr_n _ _ F). destruct (Z.eqb_spec x o) as [->|Ne]; [discriminate|apply A5].
Qed.

(** [w'] is [w] started on a connection, by a thread if [act]. *)
Record started (c : Z) (act : Prop) (w w' : wobj) : Prop := {
  sd_run : o_running w' = true;
  sd_conn : o_conn w' = Some c;
  sd_thread : o_thread w' <> None <-> threaded (wc_type (o_conf w)) = true /\ act }.
Lemma start_spec s o c (a : bool) : agree s -> o < g_next_obj s -> agree (start s o c a) /\ frame s (start s o c a) /\
  started c (a = true) (g_objs s o) (g_objs (start s o c a) o) /\ (forall x, x <> o -> g_objs (start s o c a) x = g_objs s x).
Proof.
  intros A Lt. unfold start. set (s0 := if threaded (wc_type (o_conf (g_objs s o))) then stop s o else s).
  assert (H : agree s0 /\ frame s s0 /\ o_thread (g_objs s0 o) = None /\ (forall x, x <> o -> g_objs s0 x = g_objs s x)).
  { unfold s0. destruct (threaded _) eqn:T.
    - destruct (stop_spec s o A) as (B & F & O & _). split; [exact B|]. split; [exact F|]. split; [rewrite O, Z.eqb_refl; reflexivity|].
      intros x N. rewrite O. destruct (Z.eqb_spec x o); [contradiction|reflexivity].
    - split; [exact A|]. split; [apply frame_refl|]. split; [|reflexivity]. destruct (o_thread (g_objs s o)) as [t|] eqn:E; [|reflexivity].
      rewrite (ag_type _ A o t E) in T. discriminate. }
  destruct H as (A0 & F0 & T0 & R0). clearbody s0. cbn zeta. rewrite (fr_c _ _ F0 o), T0. clear A.
  destruct A0 as [A1 A2 A3 A4 A5]. cbn [set_obj g_next_thread g_objs g_live g_watchers g_next_obj g_dpset g_queue].
  assert (No : forall t, ~ In (t, o) (g_live s0)) by (intros t X; apply A3 in X; congruence).
  destruct (threaded (wc_type (o_conf (g_objs s o)))) eqn:T; destruct a; cbn [andb].
  2-4: split; [|split; [|split]].
  2,6,10: constructor; cbn [g_live g_objs g_next_thread g_next_obj set_obj];
    [exact A1|exact A2|intros t x; destruct (Z.eqb_spec x o) as [->|N]; cbn [o_thread];
       [split; [intros X; exfalso; exact (No t X)|discriminate]|apply A3]
    |intros x t; destruct (Z.eqb_spec x o) as [->|N]; cbn [o_thread]; [discriminate|apply A4]
    |intros x t; destruct (Z.eqb_spec x o) as [->|N]; cbn [o_thread]; [discriminate|apply A5]].
  2,5,8: destruct F0 as [F1 F2 F3 F4 F5]; constructor; cbn [g_watchers g_next_obj g_dpset g_queue set_obj g_objs]; try assumption;
    intros x; destruct (Z.eqb_spec x o) as [->|N]; [reflexivity|apply F5].
  2,4,6: cbn [g_objs set_obj]; rewrite Z.eqb_refl; constructor; cbn [o_running o_conn o_thread]; try reflexivity;
    (split; [intros X; exfalso; apply X; reflexivity|intros [X Y]; congruence]).
  2-4: intros x N; cbn [g_objs set_obj]; destruct (Z.eqb_spec x o); [contradiction|apply R0, N].
  split; [|split; [|split]].
  - constructor; cbn [g_live g_objs g_next_thread g_next_obj].
    + cbn [map fst]. constructor; [|exact A1]. intros X. apply in_map_iff in X as ([t x] & E & X). cbn in E. subst t.
      apply A2 in X. lia.
    + intros t x [E|X]; [injection E as <- <-; lia|]. apply A2 in X. lia.
    + intros t x. destruct (Z.eqb_spec x o) as [->|N]; cbn [o_thread].
      * split; [intros [E|X]; [congruence|exfalso; exact (No t X)]|]. intros E. injection E as ->. left. reflexivity.
      * rewrite <- A3. split; [intros [E|X]; [congruence|exact X]|intros X; right; exact X].
    + intros x t. destruct (Z.eqb_spec x o) as [->|N]; cbn [o_thread o_conf]; [intros _; exact T|apply A4].
    + intros x t. rewrite (fr_n _ _ F0). destruct (Z.eqb_spec x o) as [->|N]; cbn [o_thread]; [intros _; exact Lt|].
      rewrite <- (fr_n _ _ F0). apply A5.
  - destruct F0 as [F1 F2 F3 F4 F5]; constructor; cbn [g_watchers g_next_obj g_dpset g_queue g_objs]; try assumption.
    intros x. destruct (Z.eqb_spec x o) as [->|N]; [reflexivity|]. apply F5.
  - cbn [g_objs]. rewrite Z.eqb_refl. constructor; cbn [o_running o_conn o_thread]; try reflexivity. split; [auto|discriminate].
  - intros x N. cbn [g_objs]. destruct (Z.eqb_spec x o); [contradiction|apply R0, N].
Qed.

(** ** Lists of watchers *)
Lemma start_more_spec c l : forall s, agree s -> NoDup l -> (forall x, In x l -> x < g_next_obj s) ->
  let s' := fold_left (fun s o => start s o c false) l s in
  agree s' /\ frame s s' /\ (forall x, In x l -> started c False (g_objs s x) (g_objs s' x)) /\ (forall x, ~ In x l -> g_objs s' x = g_objs s x).
Proof.
  induction l as [|o l IH]; intros s A N Lt; [cbn; split; [exact A|]; split; [apply frame_refl|]; split; [intros x []|reflexivity]|].
  inversion N as [|? ? N1 N2]; subst. cbn [fold_left].
  destruct (start_spec s o c false A (Lt o (or_introl eq_refl))) as (B & F & S & R).
  destruct (IH (start s o c false) B N2) as (A' & F' & S' & R').
  { intros x H. rewrite (fr_n _ _ F). apply Lt. right. exact H. }
  cbn zeta. split; [exact A'|]. split; [eapply frame_trans; eassumption|]. split.
  - intros x [<-|H].
    + rewrite (R' o N1). destruct S as [S1 S2 S3]. constructor; [exact S1|exact S2|]. rewrite S3. split; [intros [_ X]; discriminate X|intros [_ []]].
    + assert (x <> o) by (intros ->; exact (N1 H)). rewrite <- (R x) by assumption. apply S', H.
  - intros x H. rewrite (R' x) by (intros X; apply H; right; exact X). apply R. intros ->. apply H. left. reflexivity.
Qed.
Lemma start_list_spec c l s : agree s -> NoDup l -> (forall x, In x l -> x < g_next_obj s) ->
  let s' := start_list c s l in
  agree s' /\ frame s s' /\ (forall x, In x l -> started c (hd_error l = Some x) (g_objs s x) (g_objs s' x)) /\ (forall x, ~ In x l -> g_objs s' x = g_objs s x).
Proof.
  intros A N Lt. destruct l as [|o l]; [cbn; split; [exact A|]; split; [apply frame_refl|]; split; [intros x []|reflexivity]|].
  inversion N as [|? ? N1 N2]; subst. cbn [start_list hd_error].
  destruct (start_spec s o c true A (Lt o (or_introl eq_refl))) as (B & F & S & R).
  destruct (start_more_spec c l (start s o c true) B N2) as (A' & F' & S' & R').
  { intros x H. rewrite (fr_n _ _ F). apply Lt. right. exact H. }
  cbn zeta. split; [exact A'|]. split; [eapply frame_trans; eassumption|]. split.
  - intros x [<-|H].
    + rewrite (R' o N1). destruct S as [S1 S2 S3]. constructor; [exact S1|exact S2|]. rewrite S3. tauto.
    + assert (Ne : x <> o) by (intros ->; exact (N1 H)). rewrite <- (R x Ne). destruct (S' x H) as [S1 S2 S3].
      constructor; [exact S1|exact S2|]. rewrite S3. split; [tauto|]. intros [_ X]. injection X as X. congruence.
  - intros x H. rewrite (R' x) by (intros X; apply H; right; exact X). apply R. intros ->. apply H. left. reflexivity.
Qed.

Definition listed (ws : list (wtype * list Z)) (x : Z) : Prop := exists t l, In (t, l) ws /\ In x l.
Record tidy (s : gstate) (dp : Z) (ws : list (wtype * list Z)) : Prop := {
  ti_keys : NoDup (map fst ws);
  ti_nodup : forall t l, In (t, l) ws -> NoDup l;
  ti_conf : forall t l x, In (t, l) ws -> In x l ->
    wc_dp (o_conf (g_objs s x)) = dp /\ wc_type (o_conf (g_objs s x)) = t /\ x < g_next_obj s }.
Lemma tidy_frame s s' dp ws : frame s s' -> tidy s dp ws -> tidy s' dp ws.
Proof. intros F [A B C]. constructor; try assumption. intros t l x H1 H2. rewrite (fr_c _ _ F), (fr_n _ _ F). exact (C t l x H1 H2). Qed.
Lemma tidy_tail s dp q ws : tidy s dp (q :: ws) -> tidy s dp ws.
Proof.
  intros [A B C]. cbn in A. inversion A; subst. constructor; [assumption| |].
  - intros t l H. apply (B t l). right. exact H.
  - intros t l x H. apply (C t l x). right. exact H.
Qed.
Lemma listed_first s dp t l ws x : tidy s dp ((t, l) :: ws) -> In x l -> ~ listed ws x.
Proof.
  intros [A B C] H (t' & l' & H1 & H2). cbn in A. inversion A as [|? ? A1 A2]; subst.
  destruct (C t l x (or_introl eq_refl) H) as (_ & E & _). destruct (C t' l' x (or_intror H1) H2) as (_ & E' & _).
  apply A1. rewrite <- E, E'. apply (in_map fst) in H1. exact H1.
Qed.
Lemma start_watchers_spec c dp ws : forall s, agree s -> tidy s dp ws ->
  let s' := start_watchers c ws s in
  agree s' /\ frame s s' /\ (forall t l x, In (t, l) ws -> In x l -> started c (hd_error l = Some x) (g_objs s x) (g_objs s' x)) /\
  (forall x, ~ listed ws x -> g_objs s' x = g_objs s x).
Proof.
  unfold start_watchers. induction ws as [|[t l] ws IH]; intros s A T.
  - cbn. split; [exact A|]. split; [apply frame_refl|]. split; [intros ? ? ? []|reflexivity].
  - cbn [fold_left snd].
    destruct (start_list_spec c l s A) as (B & F & S & R).
    { apply (ti_nodup _ _ _ T t l). left. reflexivity. }
    { intros x H. apply (ti_conf _ _ _ T t l x); [left; reflexivity|exact H]. }
    destruct (IH (start_list c s l) B) as (A' & F' & S' & R').
    { eapply tidy_frame; [exact F|]. eapply tidy_tail, T. }
    cbn zeta. split; [exact A'|]. split; [eapply frame_trans; eassumption|]. split.
    + intros t' l' x [E|H] H'.
      * injection E as <- <-. rewrite (R' x) by (eapply listed_first; eassumption). apply S, H'.
      * rewrite <- (R x); [exact (S' t' l' x H H')|]. intros X. apply (listed_first s dp t l ws x T X). exists t', l'. auto.
    + intros x H. rewrite (R' x), (R x); [reflexivity| |].
      * intros X. apply H. exists t, l. split; [left; reflexivity|exact X].
      * intros (t' & l' & X & Y). apply H. exists t', l'. split; [right; exact X|exact Y].
Qed.

Definition unthreaded (w w' : wobj) : Prop := o_thread w' = None.
Lemma stop_one_spec s o : agree s -> let s' := if is_active (g_objs s o) then stop s o else s in
  agree s' /\ frame s s' /\ o_thread (g_objs s' o) = None /\ (forall x, x <> o -> g_objs s' x = g_objs s x).
Proof.
  intros A. unfold is_active. destruct (o_thread (g_objs s o)) eqn:E.
  - destruct (stop_spec s o A) as (B & F & O & _). split; [exact B|]. split; [exact F|]. split; [rewrite O, Z.eqb_refl; reflexivity|].
    intros x N. rewrite O. destruct (Z.eqb_spec x o); [contradiction|reflexivity].
  - split; [exact A|]. split; [apply frame_refl|]. split; [exact E|reflexivity].
Qed.
Lemma stop_list_spec l : forall s, agree s ->
  let s' := fold_left (fun s o => if is_active (g_objs s o) then stop s o else s) l s in
  agree s' /\ frame s s' /\ (forall x, o_thread (g_objs s x) = None -> o_thread (g_objs s' x) = None) /\
  (forall x, In x l -> o_thread (g_objs s' x) = None) /\ (forall x, ~ In x l -> g_objs s' x = g_objs s x).
Proof.
  induction l as [|o l IH]; intros s A.
  - cbn. split; [exact A|]. split; [apply frame_refl|]. split; [auto|]. split; [intros x []|reflexivity].
  - cbn [fold_left]. destruct (stop_one_spec s o A) as (B & F & S & R).
    destruct (IH _ B) as (A' & F' & K' & S' & R'). cbn zeta. split; [exact A'|]. split; [eapply frame_trans; eassumption|].
    split; [|split].
    + intros x H. apply K'. destruct (Z.eq_dec x o) as [->|N]; [exact S|]. rewrite R by exact N. exact H.
    + intros x [<-|H]; [apply K', S|apply S', H].
    + intros x H. rewrite R' by (intros X; apply H; right; exact X). apply R. intros ->. apply H. left. reflexivity.
Qed.
Lemma stop_watchers_spec ws : forall s, agree s ->
  let s' := stop_watchers ws s in
  agree s' /\ frame s s' /\ (forall x, o_thread (g_objs s x) = None -> o_thread (g_objs s' x) = None) /\
  (forall x, listed ws x -> o_thread (g_objs s' x) = None) /\ (forall x, ~ listed ws x -> g_objs s' x = g_objs s x).
Proof.
  unfold stop_watchers. induction ws as [|[t l] ws IH]; intros s A.
  - cbn. split; [exact A|]. split; [apply frame_refl|]. split; [auto|]. split; [intros x (? & ? & [] & _)|reflexivity].
  - cbn [fold_left snd]. destruct (stop_list_spec l s A) as (B & F & K & S & R).
    destruct (IH _ B) as (A' & F' & K' & S' & R'). cbn zeta. split; [exact A'|]. split; [eapply frame_trans; eassumption|].
    split; [|split].
    + intros x H. apply K', K, H.
    + intros x (t' & l' & [E|H] & H'); [injection E as <- <-; apply K', S, H'|apply S'; exists t', l'; auto].
    + intros x H. rewrite (R' x), (R x); [reflexivity| |].
      * intros X. apply H. exists t, l. split; [left; reflexivity|exact X].
      * intros (t' & l' & X & Y). apply H. exists t', l'. split; [right; exact X|exact Y].
Qed.

(** ** All datapaths *)
Lemma stop_all_spec (W : list (Z * list (wtype * list Z))) : forall s, agree s ->
  let s' := fold_left (fun s q => stop_watchers (snd q) s) W s in
  agree s' /\ frame s s' /\ (forall x, o_thread (g_objs s x) = None -> o_thread (g_objs s' x) = None) /\
  (forall x dp ws, In (dp, ws) W -> listed ws x -> o_thread (g_objs s' x) = None) /\
  (forall x, (forall dp ws, In (dp, ws) W -> ~ listed ws x) -> g_objs s' x = g_objs s x).
Proof.
  induction W as [|[dp ws] W IH]; intros s A.
  - cbn. split; [exact A|]. split; [apply frame_refl|]. split; [auto|]. split; [intros ? ? ? []|reflexivity].
  - cbn [fold_left snd]. destruct (stop_watchers_spec ws s A) as (B & F & K & S & R).
    destruct (IH _ B) as (A' & F' & K' & S' & R'). cbn zeta. split; [exact A'|]. split; [eapply frame_trans; eassumption|].
    split; [|split].
    + intros x H. apply K', K, H.
    + intros x dp' ws' [E|H] H'; [injection E as <- <-; apply K', S, H'|exact (S' x dp' ws' H H')].
    + intros x H. rewrite (R' x), (R x); [reflexivity| |].
      * exact (H dp ws (or_introl eq_refl)).
      * intros dp' ws' X. apply (H dp' ws'). right. exact X.
Qed.
Lemma start_all_spec (W : list (Z * list (wtype * list Z))) : forall s, agree s -> NoDup (map fst W) ->
  (forall dp ws, In (dp, ws) W -> tidy s dp ws) ->
  let s' := fold_left (fun s q => match g_dpset s (fst q) with Some conn => start_watchers conn (snd q) s | None => s end) W s in
  agree s' /\ frame s s' /\
  (forall dp ws c t l x, In (dp, ws) W -> g_dpset s dp = Some c -> In (t, l) ws -> In x l -> started c (hd_error l = Some x) (g_objs s x) (g_objs s' x)) /\
  (forall x, (forall dp ws c, In (dp, ws) W -> g_dpset s dp = Some c -> ~ listed ws x) -> g_objs s' x = g_objs s x).
Proof.
  induction W as [|[dp ws] W IH]; intros s A N T.
  - cbn. split; [exact A|]. split; [apply frame_refl|]. split; [intros ? ? ? ? ? ? []|reflexivity].
  - inversion N as [|? ? N1 N2]; subst. cbn [fold_left fst snd].
    set (s1 := match g_dpset s dp with Some conn => start_watchers conn ws s | None => s end).
    assert (H : agree s1 /\ frame s s1 /\ (forall c t l x, g_dpset s dp = Some c -> In (t, l) ws -> In x l -> started c (hd_error l = Some x) (g_objs s x) (g_objs s1 x)) /\
                (forall x, (g_dpset s dp = None \/ ~ listed ws x) -> g_objs s1 x = g_objs s x)).
    { unfold s1. destruct (g_dpset s dp) as [c|] eqn:E.
      - destruct (start_watchers_spec c dp ws s A (T dp ws (or_introl eq_refl))) as (B & F & S & R). split; [exact B|]. split; [exact F|].
        split; [intros c' t l x Ec; injection Ec as <-; apply S|]. intros x [X|X]; [discriminate|apply R, X].
      - split; [exact A|]. split; [apply frame_refl|]. split; [discriminate|reflexivity]. }
    clearbody s1. destruct H as (B & F & S & R).
    destruct (IH s1 B N2) as (A' & F' & S' & R').
    { intros dp' ws' H. eapply tidy_frame; [exact F|]. apply T. right. exact H. }
    assert (Dis : forall x dp' ws', In (dp', ws') W -> listed ws' x -> ~ listed ws x).
    { intros x dp' ws' H (t & l & H1 & H2) (t' & l' & H3 & H4).
      destruct (ti_conf _ _ _ (T dp' ws' (or_intror H)) t l x H1 H2) as (E1 & _).
      destruct (ti_conf _ _ _ (T dp ws (or_introl eq_refl)) t' l' x H3 H4) as (E2 & _).
      apply N1. rewrite <- E2, E1. apply (in_map fst) in H. exact H. }
    cbn zeta. split; [exact A'|]. split; [eapply frame_trans; eassumption|]. rewrite (fr_d _ _ F) in S', R'. split.
    + intros dp' ws' c t l x [E|H] Hc H1 H2.
      * injection E as <- <-. rewrite R'; [apply S with (t := t); assumption|]. intros dp' ws' c' H _ X. apply (Dis x dp' ws' H X). exists t, l. auto.
      * rewrite <- (R x); [exact (S' dp' ws' c t l x H Hc H1 H2)|]. right. apply (Dis x dp' ws' H). exists t, l. auto.
    + intros x H. rewrite R'; [apply R|].
      * destruct (g_dpset s dp) as [c|] eqn:E; [right; exact (H dp ws c (or_introl eq_refl) E)|left; reflexivity].
      * intros dp' ws' c X Y. apply (H dp' ws' c); [right; exact X|exact Y].
Qed.

(** ** The watchers by datapath and type *)
Definition look (W : list (Z * list (wtype * list Z))) (dp : Z) (t : wtype) : list Z :=
  match dict_get Z.eqb dp W with
  | Some ws => match dict_get wtype_eqb t ws with Some l => l | None => [] end
  | None => []
  end.
Definition of_dp_type (dp : Z) (t : wtype) (c : wconf) : bool := (dp =? wc_dp c) && wtype_eqb t (wc_type c).
Fixpoint pick (o : Z) (cs : list wconf) (dp : Z) (t : wtype) : list Z :=
  match cs with
  | [] => []
  | c :: r => (if of_dp_type dp t c then [o] else []) ++ pick (o + 1) r dp t
  end.
Definition shape (W : list (Z * list (wtype * list Z))) : Prop :=
  NoDup (map fst W) /\ forall dp ws, In (dp, ws) W -> NoDup (map fst ws).
Lemma in_put_z {V} k (v : V) l k' v' : In (k', v') (dict_put Z.eqb k v l) -> (k' = k /\ v' = v) \/ In (k', v') l.
Proof.
  induction l as [|[a b] l IH]; cbn; [intros [H|[]]; injection H as <- <-; left; split; reflexivity|].
  destruct (Z.eqb_spec k a) as [->|E]; cbn.
  - intros [H|H]; [injection H as <- <-; left; split; reflexivity|right; right; exact H].
  - intros [H|H]; [right; left; exact H|]. destruct (IH H) as [X|X]; [left; exact X|right; right; exact X].
Qed.
Lemma file_spec cs : forall o acc, shape acc ->
  shape (file o cs acc) /\ forall dp t, look (file o cs acc) dp t = look acc dp t ++ pick o cs dp t.
Proof.
  induction cs as [|c r IH]; intros o acc Sh; [split; [exact Sh|]; intros; cbn; symmetry; apply app_nil_r|].
  cbn [file].
  set (of_dp := match dict_get Z.eqb (wc_dp c) acc with Some x => x | None => [] end).
  set (of_type := match dict_get wtype_eqb (wc_type c) of_dp with Some x => x | None => [] end).
  set (acc1 := dict_put Z.eqb (wc_dp c) (dict_put wtype_eqb (wc_type c) (of_type ++ [o]) of_dp) acc).
  assert (S1 : shape acc1).
  { destruct Sh as [S1 S2]. split.
    - apply (dict_put_nodup Z.eqb Z.eqb_eq), S1.
    - intros dp ws H. apply in_put_z in H as [[-> ->]|H]; [|exact (S2 dp ws H)].
      apply (dict_put_nodup wtype_eqb wtype_eqb_eq). unfold of_dp. destruct (dict_get Z.eqb (wc_dp c) acc) as [x|] eqn:E; [|constructor].
      apply (S2 (wc_dp c)). apply (dict_get_in Z.eqb Z.eqb_eq). exact E. }
  destruct (IH (o + 1) acc1 S1) as [S2 L]. split; [exact S2|]. intros dp t. rewrite L. cbn [pick]. rewrite app_assoc. f_equal.
  unfold look at 1. unfold acc1. rewrite (dict_get_put Z.eqb Z.eqb_eq). unfold of_dp_type.
  destruct (Z.eqb_spec dp (wc_dp c)) as [->|N]; cbn [andb]; [|rewrite app_nil_r; reflexivity].
  rewrite (dict_get_put wtype_eqb wtype_eqb_eq).
  assert (E : look acc (wc_dp c) t = match dict_get wtype_eqb t of_dp with Some l => l | None => [] end).
  { unfold look, of_dp. destruct (dict_get Z.eqb (wc_dp c) acc); reflexivity. }
  rewrite E. destruct (wtype_eqb t (wc_type c)) eqn:Et; [|rewrite app_nil_r; reflexivity].
  apply wtype_eqb_eq in Et as ->. reflexivity.
Qed.
Lemma pick_spec cs dp t : forall o,
  NoDup (pick o cs dp t) /\
  (forall x, In x (pick o cs dp t) -> o <= x < o + Z.of_nat (length cs) /\
     exists c, nth_error cs (Z.to_nat (x - o)) = Some c /\ of_dp_type dp t c = true) /\
  (forall f, (forall i c, nth_error cs i = Some c -> f (o + Z.of_nat i) = c) -> map f (pick o cs dp t) = filter (of_dp_type dp t) cs).
Proof.
  induction cs as [|c r IH]; intros o; cbn [pick length filter].
  - split; [constructor|]. split; [intros x []|reflexivity].
  - destruct (IH (o + 1)) as (N & H & M). split; [|split].
    + destruct (of_dp_type dp t c); [|exact N]. cbn [app]. constructor; [|exact N]. intros X. apply H in X as [X _]. lia.
    + intros x X. apply in_app_iff in X as [X|X].
      * destruct (of_dp_type dp t c) eqn:E; [|destruct X]. destruct X as [<-|[]]. split; [lia|]. exists c. rewrite Z.sub_diag. split; [reflexivity|exact E].
      * apply H in X as [X (c' & Y & Z)]. split; [lia|]. exists c'. split; [|exact Z].
        replace (Z.to_nat (x - o)) with (S (Z.to_nat (x - (o + 1)))) by lia. exact Y.
    + intros f Hf. rewrite map_app, M.
      * destruct (of_dp_type dp t c); [|reflexivity]. cbn [map app]. f_equal. rewrite <- (Hf O c eq_refl). f_equal. lia.
      * intros i c' E. rewrite <- (Hf (S i) c' E). f_equal. lia.
Qed.
Lemma shape_look W dp ws t l : shape W -> In (dp, ws) W -> In (t, l) ws -> look W dp t = l.
Proof.
  intros [S1 S2] H1 H2. unfold look. rewrite (dict_in_get Z.eqb Z.eqb_eq dp ws W S1 H1), (dict_in_get wtype_eqb wtype_eqb_eq t l ws (S2 dp ws H1) H2). reflexivity.
Qed.
Lemma look_in W dp t x : In x (look W dp t) -> exists ws l, In (dp, ws) W /\ In (t, l) ws /\ In x l /\ look W dp t = l.
Proof.
  unfold look. destruct (dict_get Z.eqb dp W) as [ws|] eqn:E; [|intros []]. destruct (dict_get wtype_eqb t ws) as [l|] eqn:E'; [|intros []].
  intros H. exists ws, l. split; [apply (dict_get_in Z.eqb Z.eqb_eq), E|]. split; [apply (dict_get_in wtype_eqb wtype_eqb_eq), E'|]. split; [exact H|reflexivity].
Qed.

(** ** The invariant.  [b]: the connections that Gauge was told of. *)
Record ginv (b : Z -> option Z) (cs : list wconf) (s : gstate) : Prop := {
  gi_agree : agree s;
  gi_shape : shape (g_watchers s);
  gi_nodup : forall dp t, NoDup (look (g_watchers s) dp t);
  gi_conf : forall dp t x, In x (look (g_watchers s) dp t) ->
    wc_dp (o_conf (g_objs s x)) = dp /\ wc_type (o_conf (g_objs s x)) = t /\ x < g_next_obj s;
  gi_cs : forall dp t, map (fun x => o_conf (g_objs s x)) (look (g_watchers s) dp t) = filter (of_dp_type dp t) cs;
  gi_thread : forall x, o_thread (g_objs s x) <> None -> exists dp t, hd_error (look (g_watchers s) dp t) = Some x /\ b dp <> None;
  gi_on : forall dp c t x, b dp = Some c -> In x (look (g_watchers s) dp t) ->
    o_running (g_objs s x) = true /\ o_conn (g_objs s x) = Some c /\
    (threaded t = true -> hd_error (look (g_watchers s) dp t) = Some x -> o_thread (g_objs s x) <> None) }.
Lemma ginv_tidy b cs s dp ws : ginv b cs s -> In (dp, ws) (g_watchers s) -> tidy s dp ws.
Proof.
  intros I H. constructor.
  - apply (proj2 (gi_shape _ _ _ I) dp ws H).
  - intros t l X. rewrite <- (shape_look _ dp ws t l (gi_shape _ _ _ I) H X). apply (gi_nodup _ _ _ I).
  - intros t l x X Y. rewrite <- (shape_look _ dp ws t l (gi_shape _ _ _ I) H X) in Y. exact (gi_conf _ _ _ I dp t x Y).
Qed.
Lemma look_listed b cs s dp ws dp' t x : ginv b cs s -> In (dp, ws) (g_watchers s) -> In x (look (g_watchers s) dp' t) -> (listed ws x <-> dp' = dp).
Proof.
  intros I H X. split.
  - intros (t' & l & H1 & H2). rewrite <- (shape_look _ dp ws t' l (gi_shape _ _ _ I) H H1) in H2.
    rewrite <- (proj1 (gi_conf _ _ _ I dp' t x X)). apply (gi_conf _ _ _ I dp t' x H2).
  - intros ->. destruct (look_in _ _ _ _ X) as (ws' & l & H1 & H2 & H3 & _).
    assert (ws' = ws).
    { pose proof (dict_in_get Z.eqb Z.eqb_eq dp ws _ (proj1 (gi_shape _ _ _ I)) H). pose proof (dict_in_get Z.eqb Z.eqb_eq dp ws' _ (proj1 (gi_shape _ _ _ I)) H1). congruence. }
    subst ws'. exists t, l. auto.
Qed.
Lemma hd_in {A} (l : list A) x : hd_error l = Some x -> In x l.
Proof. destruct l; [discriminate|]. intros H. injection H as ->. left. reflexivity. Qed.
Definition tell (b : Z -> option Z) (dp : Z) (c : option Z) : Z -> option Z := fun x => if x =? dp then c else b x.
Lemma ginv_handle b cs s dp c : ginv b cs s -> ginv (tell b dp c) cs (fst (handle dp c s)) /\
  g_dpset (fst (handle dp c s)) = g_dpset s /\ g_queue (fst (handle dp c s)) = g_queue s.
Proof.
  intros I. unfold handle. destruct (dict_get Z.eqb dp (g_watchers s)) as [ws|] eqn:E.
  2:{ split; [|split; reflexivity]. cbn [fst]. destruct I as [I1 I2 I3 I4 I5 I6 I7].
      assert (No : forall t, look (g_watchers s) dp t = []) by (intros t; unfold look; rewrite E; reflexivity).
      constructor; try assumption.
      - intros x H. destruct (I6 x H) as (dp' & t & H1 & H2). exists dp', t. split; [exact H1|]. unfold tell.
        destruct (Z.eqb_spec dp' dp) as [->|]; [rewrite No in H1; discriminate|exact H2].
      - intros dp' c' t x. unfold tell. destruct (Z.eqb_spec dp' dp) as [->|]; [rewrite No; intros _ []|apply I7]. }
  pose proof (dict_get_in Z.eqb Z.eqb_eq _ _ _ E) as Hin. cbn [fst].
  destruct c as [c|].
  - destruct (start_watchers_spec c dp ws s (gi_agree _ _ _ I) (ginv_tidy _ _ _ _ _ I Hin)) as (A & F & S & R).
    split; [|split; [apply (fr_d _ _ F)|apply (fr_q _ _ F)]].
    constructor; try rewrite (fr_w _ _ F).
    + exact A.
    + exact (gi_shape _ _ _ I).
    + exact (gi_nodup _ _ _ I).
    + intros dp' t x H. rewrite (fr_c _ _ F), (fr_n _ _ F). exact (gi_conf _ _ _ I dp' t x H).
    + intros dp' t. rewrite <- (gi_cs _ _ _ I dp' t). apply map_ext. intros x. apply (fr_c _ _ F).
    + intros x H. destruct (in_dec Z.eq_dec x (concat (map snd ws))) as [L|L].
      * apply in_concat in L as (l & L1 & L2). apply in_map_iff in L1 as ([t l'] & <- & L1). cbn [snd] in L2.
        apply (sd_thread _ _ _ _ (S t l' x L1 L2)) in H as [_ H]. exists dp, t.
        rewrite (shape_look _ dp ws t l' (gi_shape _ _ _ I) Hin L1). split; [exact H|]. unfold tell. rewrite Z.eqb_refl. discriminate.
      * rewrite R in H.
        2:{ intros (t & l & L1 & L2). apply L. apply in_concat. exists l. split; [apply (in_map snd) in L1; exact L1|exact L2]. }
        destruct (gi_thread _ _ _ I x H) as (dp' & t & H1 & H2). exists dp', t. split; [exact H1|]. unfold tell.
        destruct (dp' =? dp); [discriminate|exact H2].
    + intros dp' c' t x. unfold tell. destruct (Z.eqb_spec dp' dp) as [->|N].
      * intros Ec H. injection Ec as <-. destruct (look_in _ _ _ _ H) as (ws' & l & H1 & H2 & H3 & H4).
        assert (ws' = ws) by (pose proof (dict_in_get Z.eqb Z.eqb_eq dp ws' _ (proj1 (gi_shape _ _ _ I)) H1); congruence). subst ws'.
        destruct (S t l x H2 H3) as [S1 S2 S3]. split; [exact S1|]. split; [exact S2|]. rewrite H4. intros T Hd. apply S3. split; [|exact Hd].
        rewrite (proj1 (proj2 (gi_conf _ _ _ I dp t x H))). exact T.
      * intros Ec H. rewrite R; [exact (gi_on _ _ _ I dp' c' t x Ec H)|]. intros L. apply N. apply (look_listed _ _ _ _ _ _ _ _ I Hin H). exact L.
  - destruct (stop_watchers_spec ws s (gi_agree _ _ _ I)) as (A & F & K & S & R).
    split; [|split; [apply (fr_d _ _ F)|apply (fr_q _ _ F)]].
    constructor; try rewrite (fr_w _ _ F).
    + exact A.
    + exact (gi_shape _ _ _ I).
    + exact (gi_nodup _ _ _ I).
    + intros dp' t x H. rewrite (fr_c _ _ F), (fr_n _ _ F). exact (gi_conf _ _ _ I dp' t x H).
    + intros dp' t. rewrite <- (gi_cs _ _ _ I dp' t). apply map_ext. intros x. apply (fr_c _ _ F).
    + intros x H.
      assert (L : ~ listed ws x) by (intros L; exact (H (S x L))). rewrite (R x L) in H.
      destruct (gi_thread _ _ _ I x H) as (dp' & t & H1 & H2). exists dp', t. split; [exact H1|]. unfold tell.
      destruct (Z.eqb_spec dp' dp) as [->|]; [|exact H2]. exfalso. apply L. apply (look_listed _ _ _ _ _ dp t x I Hin (hd_in _ _ H1)). reflexivity.
    + intros dp' c' t x. unfold tell. destruct (Z.eqb_spec dp' dp) as [->|N]; [discriminate|].
      intros Ec H. rewrite R; [exact (gi_on _ _ _ I dp' c' t x Ec H)|]. intros L. apply N. apply (look_listed _ _ _ _ _ _ _ _ I Hin H). exact L.
Qed.
Lemma ginv_load b cs s new : ginv b cs s -> ginv (g_dpset s) new (load_config (Some new) s) /\
  g_dpset (load_config (Some new) s) = g_dpset s /\ g_queue (load_config (Some new) s) = g_queue s.
Proof.
  intros I. unfold load_config.
  set (s0 := mkGstate (g_watchers s) (objects s new) (g_live s) (g_next_obj s + Z.of_nat (length new)) (g_next_thread s) (g_dpset s) (g_queue s)).
  assert (Old : forall x, x < g_next_obj s -> objects s new x = g_objs s x).
  { intros x H. unfold objects. destruct (nth_error _ _); [|reflexivity]. destruct (Z.leb_spec (g_next_obj s) x); [lia|reflexivity]. }
  assert (New : forall i c, nth_error new i = Some c -> objects s new (g_next_obj s + Z.of_nat i) = mkWobj c false None None).
  { intros i c H. unfold objects. replace (Z.to_nat _) with i by lia. rewrite H. destruct (Z.leb_spec (g_next_obj s) (g_next_obj s + Z.of_nat i)); [reflexivity|lia]. }
  assert (Thr : forall x t, o_thread (objects s new x) = Some t <-> o_thread (g_objs s x) = Some t).
  { intros x t. destruct (Z.ltb_spec x (g_next_obj s)) as [L|L]; [rewrite Old by exact L; reflexivity|].
    split; intros H.
    - exfalso. unfold objects in H. destruct (nth_error _ _).
      + destruct (Z.leb_spec (g_next_obj s) x); [discriminate|lia].
      + apply (ag_obj _ (gi_agree _ _ _ I)) in H. lia.
    - exfalso. apply (ag_obj _ (gi_agree _ _ _ I)) in H. lia. }
  assert (A0 : agree s0).
  { destruct (gi_agree _ _ _ I) as [A1 A2 A3 A4 A5]. constructor; cbn [s0 g_live g_next_thread g_objs g_next_obj].
    - exact A1.
    - exact A2.
    - intros t o. rewrite Thr. apply A3.
    - intros o t H. apply Thr in H. rewrite Old by (eapply A5, H). eapply A4, H.
    - intros o t H. apply Thr in H. apply A5 in H. lia. }
  destruct (stop_all_spec (g_watchers s) s0 A0) as (A1 & F1 & K1 & S1 & R1).
  set (s1 := fold_left _ (g_watchers s) s0) in *.
  assert (Quiet : forall x, o_thread (g_objs s1 x) = None).
  { intros x. destruct (o_thread (g_objs s0 x)) as [t|] eqn:E; [|apply K1, E].
    change (o_thread (objects s new x) = Some t) in E. apply Thr in E.
    destruct (gi_thread _ _ _ I x ltac:(congruence)) as (dp & t' & H & _). apply hd_in in H.
    destruct (look_in _ _ _ _ H) as (ws & l & H1 & H2 & H3 & _). apply (S1 x dp ws H1). exists t', l. auto. }
  destruct (file_spec new (g_next_obj s) []) as [Sh L]; [split; [constructor|intros ? ? []]|].
  set (W := file (g_next_obj s) new []) in *.
  assert (L' : forall dp t, look W dp t = pick (g_next_obj s) new dp t) by (intros; rewrite L; reflexivity).
  assert (Cf : forall dp t x, In x (look W dp t) -> wc_dp (o_conf (g_objs s1 x)) = dp /\ wc_type (o_conf (g_objs s1 x)) = t /\ x < g_next_obj s1).
  { intros dp t x H. rewrite L' in H. apply (proj1 (proj2 (pick_spec new dp t (g_next_obj s)))) in H as [H (c & H1 & H2)].
    rewrite (fr_c _ _ F1), (fr_n _ _ F1). change (g_objs s0 x) with (objects s new x).
    replace x with (g_next_obj s + Z.of_nat (Z.to_nat (x - g_next_obj s))) at 1 2 by lia. rewrite (New _ _ H1). cbn [o_conf].
    unfold of_dp_type in H2. apply andb_true_iff in H2 as [H2 H3]. apply Z.eqb_eq in H2. apply wtype_eqb_eq in H3. split; [auto|]. split; [auto|]. cbn [s0 g_next_obj]. lia. }
  assert (Nd : forall dp t, NoDup (look W dp t)) by (intros; rewrite L'; apply pick_spec).
  destruct (start_all_spec W s1 A1 (proj1 Sh)) as (A2 & F2 & S2 & R2).
  { intros dp ws H. constructor.
    - exact (proj2 Sh dp ws H).
    - intros t l X. rewrite <- (shape_look _ dp ws t l Sh H X). apply Nd.
    - intros t l x X Y. rewrite <- (shape_look _ dp ws t l Sh H X) in Y. exact (Cf dp t x Y). }
  set (s2 := fold_left _ W s1) in *.
  cbn [g_dpset g_queue]. split; [|split; [rewrite (fr_d _ _ F2), (fr_d _ _ F1); reflexivity|rewrite (fr_q _ _ F2), (fr_q _ _ F1); reflexivity]].
  constructor; cbn [g_watchers g_objs g_next_obj].
  - destruct A2 as [X1 X2 X3 X4 X5]. constructor; assumption.
  - exact Sh.
  - exact Nd.
  - intros dp t x H. rewrite (fr_c _ _ F2), (fr_n _ _ F2). exact (Cf dp t x H).
  - intros dp t. rewrite L'. rewrite (proj2 (proj2 (pick_spec new dp t (g_next_obj s)))); [reflexivity|].
    intros i c H. rewrite (fr_c _ _ F2), (fr_c _ _ F1). change (g_objs s0) with (objects s new). rewrite (New i c H). reflexivity.
  - intros x H.
    destruct (in_dec Z.eq_dec x (concat (map (fun q => match g_dpset s1 (fst q) with Some _ => concat (map snd (snd q)) | None => [] end) W))) as [Y|Y].
    + apply in_concat in Y as (l0 & Y1 & Y2). apply in_map_iff in Y1 as ([dp ws] & <- & Y1). cbn [fst snd] in Y2.
      destruct (g_dpset s1 dp) as [c|] eqn:Ed; [|destruct Y2].
      apply in_concat in Y2 as (l & Y2 & Y3). apply in_map_iff in Y2 as ([t l'] & <- & Y2). cbn [snd] in Y3.
      apply (sd_thread _ _ _ _ (S2 dp ws c t l' x Y1 Ed Y2 Y3)) in H as [_ H]. exists dp, t. rewrite (shape_look _ dp ws t l' Sh Y1 Y2).
      split; [exact H|]. rewrite (fr_d _ _ F1) in Ed. change (g_dpset s dp = Some c) in Ed. congruence.
    + rewrite R2 in H; [rewrite Quiet in H; congruence|]. intros dp ws c H1 H2 (t & l & H3 & H4). apply Y. apply in_concat.
      exists (concat (map snd ws)). split.
      * apply in_map_iff. exists (dp, ws). cbn [fst snd]. rewrite H2. split; [reflexivity|exact H1].
      * apply in_concat. exists l. split; [apply (in_map snd) in H3; exact H3|exact H4].
  - intros dp c t x Ec H. destruct (look_in _ _ _ _ H) as (ws & l & H1 & H2 & H3 & H4).
    assert (Ed : g_dpset s1 dp = Some c) by (rewrite (fr_d _ _ F1); exact Ec).
    destruct (S2 dp ws c t l x H1 Ed H2 H3) as [Y1 Y2 Y3]. split; [exact Y1|]. split; [exact Y2|]. rewrite H4. intros T Hd. apply Y3. split; [|exact Hd].
    rewrite (proj1 (proj2 (Cf dp t x H))). exact T.
Qed.

(** ** Histories *)
Definition replay (dp : Z) (q : list (Z * option Z)) (b : option Z) : option Z :=
  fold_left (fun a e => if fst e =? dp then snd e else a) q b.
Lemma replay_again dp q : forall x, replay dp q (replay dp q x) = replay dp q x.
Proof.
  assert (G : forall q, (forall x y, replay dp q x = replay dp q y) \/ (forall x, replay dp q x = x)).
  { clear q. induction q as [|[d e] q [IH|IH]]; [right; reflexivity| |]; unfold replay in *; cbn [fold_left fst snd].
    - left. intros x y. apply IH.
    - destruct (d =? dp); [left; reflexivity|right; exact IH]. }
  intros x. destruct (G q) as [H|H]; [apply H|rewrite !H; reflexivity].
Qed.
Record hinv (evs : list gevent) (b : Z -> option Z) (cs : list wconf) (s : gstate) : Prop := {
  hi_inv : ginv b cs s;
  hi_cs : configured_with evs cs;
  hi_conn : forall dp, connected dp evs (g_dpset s dp);
  hi_queue : forall dp, replay dp (g_queue s) (b dp) = g_dpset s dp;
  hi_said : forall dp c, b dp = Some c \/ In (dp, Some c) (g_queue s) -> In (GConnect dp c) evs }.
Lemma in_sub {A} (x y : A) l : In x l -> In x (y :: l).
Proof. intros H. right. exact H. Qed.
Lemma greach_inv evs s : greach evs s -> exists b cs, hinv evs b cs s.
Proof.
  intros R. induction R as [|evs s ev R (b & cs & [I C N Q S])].
  - exists (fun _ => None), []. constructor.
    + constructor; try discriminate.
      * constructor; [constructor|intros ? ? []|intros t o; split; [intros []|discriminate]|intros ? ? H; discriminate H|intros ? ? H; discriminate H].
      * split; [constructor|intros ? ? []].
      * intros; constructor.
      * intros ? ? ? [].
      * reflexivity.
      * intros x H. exfalso. apply H. reflexivity.
    + constructor.
    + intros; constructor.
    + reflexivity.
    + intros dp c [H|[]]. discriminate.
  - assert (Same : forall s', ginv b cs s' -> g_dpset s' = g_dpset s -> g_queue s' = g_queue s ->
               (forall cs', ev <> GReload (Some cs')) -> (forall dp c, ev <> GConnect dp c) -> (forall dp c, ev = GLost dp c -> g_dpset s dp <> Some c) ->
               exists b cs, hinv (ev :: evs) b cs s').
    { intros s' I' E1 E2 H1 H2 H3. exists b, cs. constructor.
      - exact I'.
      - apply cw_before; assumption.
      - intros dp. rewrite E1. apply cn_before; [apply N|intros c'; apply H2|intros c' E; exact (H3 dp c' E)].
      - intros dp. rewrite E1, E2. apply Q.
      - intros dp c. rewrite E2. intros H. right. exact (S dp c H). }
    assert (Reg : forall dp c, ginv b cs (set_reg s dp c)).
    { intros dp c. destruct I as [X1 X2 X3 X4 X5 X6 X7]. constructor; try assumption. destruct X1. constructor; assumption. }
    assert (Rep : forall dp c dp', replay dp' (g_queue s ++ [(dp, c)]) (b dp') = if dp' =? dp then c else g_dpset s dp').
    { intros dp c dp'. unfold replay. rewrite fold_left_app. cbn [fold_left fst snd]. fold (replay dp' (g_queue s) (b dp')). rewrite Q, Z.eqb_sym. reflexivity. }
    destruct ev as [dp c|dp c| |confs|dp c t m|t]; cbn [gstep fst].
    + exists b, cs. constructor.
      * apply Reg.
      * apply cw_before; [exact C|discriminate].
      * intros dp'. cbn [set_reg g_dpset]. destruct (Z.eqb_spec dp' dp) as [->|Ne]; [apply cn_now|].
        apply cn_before; [apply N|congruence|discriminate].
      * intros dp'. cbn [set_reg g_dpset g_queue]. apply Rep.
      * intros dp' c'. cbn [set_reg g_queue]. intros [H|H]; [right; apply (S dp' c'); left; exact H|]. apply in_app_iff in H as [H|[H|[]]].
        -- right. apply (S dp' c'). right. exact H.
        -- injection H as <- <-. left. reflexivity.
    + destruct (match g_dpset s dp with Some c0 => c0 =? c | None => false end) eqn:E; cbn [fst].
      * destruct (g_dpset s dp) as [c0|] eqn:Ed; [|discriminate]. apply Z.eqb_eq in E as ->. exists b, cs. constructor.
        -- apply Reg.
        -- apply cw_before; [exact C|discriminate].
        -- intros dp'. cbn [set_reg g_dpset]. destruct (Z.eqb_spec dp' dp) as [->|Ne].
           ++ apply cn_lost. rewrite <- Ed. apply N.
           ++ apply cn_before; [apply N|discriminate|congruence].
        -- intros dp'. cbn [set_reg g_dpset g_queue]. apply Rep.
        -- intros dp' c'. cbn [set_reg g_queue]. intros [H|H]; [right; apply (S dp' c'); left; exact H|]. apply in_app_iff in H as [H|[H|[]]].
           ++ right. apply (S dp' c'). right. exact H.
           ++ discriminate.
      * apply Same; try assumption; try reflexivity; try discriminate. intros dp' c' X Y. injection X as <- <-. rewrite Y, Z.eqb_refl in E. discriminate.
    + destruct (g_queue s) as [|[dp c] q] eqn:Eq; [cbn [fst]; apply Same; try assumption; try reflexivity; discriminate|].
      assert (Ip : ginv b cs (pop s)).
      { destruct I as [X1 X2 X3 X4 X5 X6 X7]. constructor; try assumption. destruct X1. constructor; assumption. }
      destruct (ginv_handle b cs (pop s) dp c Ip) as (I' & E1 & E2). exists (tell b dp c), cs. constructor.
      * exact I'.
      * apply cw_before; [exact C|discriminate].
      * intros dp'. rewrite E1. apply cn_before; [apply N|discriminate|discriminate].
      * intros dp'. rewrite E1, E2. cbn [pop g_queue g_dpset]. rewrite Eq. cbn [tl]. rewrite <- Q. unfold replay. cbn [fold_left fst snd]. unfold tell.
        rewrite Z.eqb_sym. reflexivity.
      * intros dp' c'. rewrite E2. cbn [pop g_queue]. rewrite Eq. cbn [tl]. unfold tell. intros H. right. apply S.
        destruct H as [H|H]; [|right; right; exact H]. destruct (Z.eqb_spec dp' dp) as [->|]; [right; left; congruence|left; exact H].
    + destruct confs as [new|]; [|apply Same; try assumption; try reflexivity; discriminate].
      destruct (ginv_load b cs s new I) as (I' & E1 & E2). exists (g_dpset s), new. constructor.
      * exact I'.
      * apply cw_now.
      * intros dp. rewrite E1. apply cn_before; [apply N|discriminate|discriminate].
      * intros dp. rewrite E1, E2, <- (Q dp). apply replay_again.
      * intros dp c. rewrite E2. intros [H|H]; [|right; apply S; right; exact H]. right. rewrite <- Q in H.
        assert (G : forall q x, replay dp q x = Some c -> x = Some c \/ In (dp, Some c) q).
        { induction q as [|[d e] q IH]; intros x X; [left; exact X|]. unfold replay in X. cbn [fold_left fst snd] in X.
          destruct (Z.eqb_spec d dp) as [->|]; fold (replay dp q) in X.
          - destruct (IH _ X) as [->|Y]; [right; left; reflexivity|right; right; exact Y].
          - destruct (IH _ X) as [Y|Y]; [left; exact Y|right; right; exact Y]. }
        apply S. exact (G _ _ H).
    + apply Same; try assumption; try reflexivity; discriminate.
    + apply Same; try assumption; try reflexivity; discriminate.
Qed.
