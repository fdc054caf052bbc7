(** * LLDP beacons: property C41 *)
From Coq Require Import ZArith List Bool Lia Permutation.
From Verif Require Import PyBase PyBaseProofs ConfProofs BeaconModel BeaconSpec.
Import ListNotations.
Open Scope Z_scope.

Fixpoint final (c : config) (s : state) (calls : list call) : state :=
  match calls with
  | [] => s
  | k :: r => final c (fst (fast_advertise c s (ca_running k) (ca_shuffle k) (ca_now k))) r
  end.
Definition outs (c : config) (s : state) (k : call) : list Z := snd (fast_advertise c s (ca_running k) (ca_shuffle k) (ca_now k)).
Lemma run_cons : forall c s k r, run c s (k :: r) = (k, outs c s k) :: run c (fst (fast_advertise c s (ca_running k) (ca_shuffle k) (ca_now k))) r.
Proof. intros. unfold outs. cbn [run]. destruct (fast_advertise _ _ _ _ _); auto. Qed.
Lemma run_split : forall c calls s h1 k out h2, run c s calls = h1 ++ (k, out) :: h2 ->
  exists r1 r2, calls = r1 ++ k :: r2 /\ h1 = run c s r1 /\ out = outs c (final c s r1) k /\
                h2 = run c (final c s (r1 ++ [k])) r2.
Proof.
  intros c calls. induction calls as [|a calls IH]; intros s h1 k out h2 H; [destruct h1; discriminate H|].
  rewrite run_cons in H. destruct h1 as [|x h1].
  - injection H as <- <- <-. exists [], calls. auto.
  - injection H as <- H. apply IH in H. destruct H as (r1 & r2 & -> & -> & -> & ->). exists (a :: r1), r2. rewrite run_cons. auto.
Qed.
Lemma final_snoc : forall c r s k, final c s (r ++ [k]) = fst (fast_advertise c (final c s r) (ca_running k) (ca_shuffle k) (ca_now k)).
Proof. intros c r. induction r as [|a r IH]; intros s k; cbn [app final]; auto. Qed.
Lemma run_snoc : forall c r s k, run c s (r ++ [k]) = run c s r ++ [(k, outs c (final c s r) k)].
Proof. intros c r. induction r as [|a r IH]; intros s k; cbn [app]; rewrite run_cons; [reflexivity|]. rewrite run_cons, IH. reflexivity. Qed.
Lemma last_snoc : forall h k out n, last_sent (h ++ [(k, out)]) n = if existsb (Z.eqb n) out then Some (ca_now k) else last_sent h n.
Proof.
  induction h as [|[k' o'] h IH]; intros k out n; cbn [app last_sent]; [destruct (existsb (Z.eqb n) out); auto|].
  rewrite IH. destruct (existsb (Z.eqb n) out); auto.
Qed.
Lemma calls_app : forall r1 r2 t, calls_ok t (r1 ++ r2) -> calls_ok t r1 /\ exists t', t <= t' /\ (forall k, In k r1 -> ca_now k <= t') /\ calls_ok t' r2 /\ (t' = t \/ In t' (map ca_now r1)).
Proof.
  induction r1 as [|a r1 IH]; intros r2 t H; cbn [app calls_ok] in *.
  - split; auto. exists t. split; [lia|]. split; [intros k []|auto].
  - destruct H as (A & B & C). apply IH in C. destruct C as (C & t' & D & E & F & G). split; auto. exists t'. split; [lia|]. split; [|split; auto].
    + intros k [<-|I]; auto.
    + cbn. destruct G as [->|G]; auto.
Qed.

(** ** The ports of a cycle *)
Lemma puts_get : forall ports (d : list (Z * Z)) now n, dict_get Z.eqb n (fold_left (fun d p => dict_put Z.eqb p now d) ports d) =
  if existsb (Z.eqb n) ports then Some now else dict_get Z.eqb n d.
Proof.
  induction ports as [|p ports IH]; intros d now n; cbn [fold_left existsb]; auto. rewrite IH, (dict_get_put Z.eqb zspec).
  destruct (n =? p); cbn; destruct (existsb (Z.eqb n) ports); auto.
Qed.
Lemma state_sent : forall c r n, dict_get Z.eqb n (last_beacon (final c init r)) = last_sent (run c init r) n.
Proof.
  intros c r n. induction r as [|k r IH] using rev_ind; auto. rewrite final_snoc, run_snoc, last_snoc, <- IH. unfold outs, fast_advertise.
  destruct ((c_fast_interval c =? 0) || _); [auto|]. destruct (match c_beacon c with None => true | Some (i, _) => _ end); auto.
  cbn [fst snd last_beacon]. apply puts_get.
Qed.
Section Cycle.
Variables (c : config) (i m : Z) (s : state) (k : call).
Hypothesis OK : config_ok c.
Hypothesis B : c_beacon c = Some (i, m).
Hypothesis SH : forall l, Permutation l (ca_shuffle k l).
Let ports := send_ports c s (ca_running k) (ca_shuffle k) (ca_now k).
Let due_ n := match dict_get Z.eqb n (last_beacon s) with None => True | Some t => t + i < ca_now k end.
Let prio := map p_num (filter (fun p => p_stack p && (ca_running k (p_num p) && p_beacon p)) (c_ports c)).
Let elig := filter (fun n => negb (mem Z.eqb n prio)) (map p_num (filter (fun p => p_beacon p && (ca_running k (p_num p) &&
        match dict_get Z.eqb (p_num p) (last_beacon s) with None => true | Some t => t <? ca_now k - i end)) (c_ports c))).
Lemma ports_eq : ports = prio ++ firstn (Z.to_nat m) (ca_shuffle k elig).
Proof.
  unfold ports, send_ports. rewrite B. cbv zeta. fold prio. fold elig. unfold py_slice. destruct OK as [_ OK2]. destruct (OK2 _ _ B) as [_ OK3].
  destruct (Z.leb_spec 0 m); [auto|lia].
Qed.
Lemma prio_in : forall n, In n prio <-> is_stack c n /\ ca_running k n = true.
Proof.
  intros n. unfold prio. rewrite in_map_iff. split.
  - intros (p & <- & I). apply filter_In in I. destruct I as [I F]. rewrite !andb_true_iff in F. destruct F as (F1 & F2 & F3). split; auto. exists p. auto.
  - intros [(p & I & <- & S & P) R]. exists p. split; auto. apply filter_In. rewrite S, R, P. auto.
Qed.
Lemma elig_in : forall n, In n elig <-> is_other c n /\ ca_running k n = true /\ due_ n.
Proof.
  intros n. unfold elig. rewrite filter_In, in_map_iff, negb_true_iff, memz_false. split.
  - intros [(p & <- & I) N]. apply filter_In in I. destruct I as [I F]. rewrite !andb_true_iff in F. destruct F as (F1 & F2 & F3). split; [|split; auto].
    + exists p. split; [auto|split; [auto|split; [|auto]]]. destruct (p_stack p) eqn:S; auto. exfalso. apply N. apply prio_in. split; auto. exists p. auto.
    + unfold due_. destruct (dict_get Z.eqb (p_num p) (last_beacon s)); auto. apply Z.ltb_lt in F3. lia.
  - intros ((p & I & <- & S & P) & R & D). split.
    + exists p. split; auto. apply filter_In. rewrite P, R. split; auto. unfold due_ in D. destruct (dict_get Z.eqb (p_num p) (last_beacon s)); auto. cbn. apply Z.ltb_lt. lia.
    + rewrite prio_in. intros [(q & J & E & S' & _) _]. destruct OK as [N1 _]. assert (p = q) by (apply (NoDup_map_inj_in _ _ p_num (c_ports c)); auto). subst. congruence.
Qed.
Lemma nodup_nums : forall f, NoDup (map p_num (filter f (c_ports c))).
Proof.
  intros f. destruct OK as [N _]. revert N. generalize (c_ports c). induction l as [|p l IH]; intros N; cbn; [constructor|]. inversion N as [|x y M1 M2]; subst x y.
  destruct (f p); cbn; auto. constructor; auto. intros I. apply M1. apply in_map_iff in I. destruct I as (q & E & I). apply filter_In in I. rewrite <- E. apply in_map. apply I.
Qed.
Lemma elig_nodup : NoDup elig.
Proof. unfold elig. apply NoDup_filter. apply nodup_nums. Qed.
Lemma firstn_in : forall {A} n (l : list A) x, In x (firstn n l) -> In x l.
Proof. intros A n l x I. rewrite <- (firstn_skipn n l). apply in_or_app; auto. Qed.
Lemma ports_in : forall n, In n ports -> ca_running k n = true /\ (is_stack c n \/ is_other c n /\ due_ n).
Proof.
  intros n I. rewrite ports_eq in I. apply in_app_or in I. destruct I as [I|I].
  - apply prio_in in I. destruct I. auto.
  - apply firstn_in in I. apply (Permutation_in n (Permutation_sym (SH elig))) in I. apply elig_in in I. destruct I as (A & R & D). auto.
Qed.
Lemma apart : forall n, is_stack c n -> is_other c n -> False.
Proof.
  intros n (p & I & E & S & _) (q & J & E' & S' & _). destruct OK as [N _].
  assert (p = q) by (apply (NoDup_map_inj_in _ _ p_num (c_ports c)); auto; congruence). subst. congruence.
Qed.
Lemma ports_nodup : NoDup ports.
Proof.
  rewrite ports_eq. apply NoDup_app_iff_. split; [apply nodup_nums|]. assert (N : NoDup (ca_shuffle k elig)) by (eapply Permutation_NoDup; [apply SH|apply elig_nodup]).
  split.
  - rewrite <- (firstn_skipn (Z.to_nat m)) in N. apply NoDup_app_iff_ in N. apply N.
  - intros x X Y. apply firstn_in in Y. apply (Permutation_in x (Permutation_sym (SH elig))) in Y. apply prio_in in X. apply elig_in in Y.
    apply (apart x); tauto.
Qed.
Lemma ports_others : forall l, NoDup l -> (forall n, In n l -> In n ports /\ is_other c n) -> Z.of_nat (length l) <= m.
Proof.
  intros l N H. assert (L : (length l <= Z.to_nat m)%nat).
  { transitivity (length (firstn (Z.to_nat m) (ca_shuffle k elig))); [|apply firstn_le_length].
    apply NoDup_incl_length; auto. intros n I. apply H in I. destruct I as [I O]. rewrite ports_eq in I. apply in_app_or in I. destruct I as [I|I]; auto.
    apply prio_in in I. exfalso. apply (apart n); tauto. }
  destruct OK as [_ OK2]. destruct (OK2 _ _ B). lia.
Qed.
Lemma ports_stack : forall n, is_stack c n -> ca_running k n = true -> In n ports.
Proof. intros n S R. rewrite ports_eq. apply in_or_app. left. apply prio_in. auto. Qed.
(** a port left out although due was left out for [m] others *)
Lemma ports_left : forall n, is_other c n -> ca_running k n = true -> due_ n -> ~ In n ports ->
  exists l, NoDup l /\ Z.of_nat (length l) = m /\ forall x, In x l -> In x ports /\ is_other c x.
Proof.
  intros n O R D N. exists (firstn (Z.to_nat m) (ca_shuffle k elig)). assert (ND : NoDup (ca_shuffle k elig)) by (eapply Permutation_NoDup; [apply SH|apply elig_nodup]).
  split; [rewrite <- (firstn_skipn (Z.to_nat m)) in ND; apply NoDup_app_iff_ in ND; apply ND|]. split.
  - rewrite firstn_length. destruct OK as [_ OK2]. destruct (OK2 _ _ B). destruct (Nat.le_gt_cases (Z.to_nat m) (length (ca_shuffle k elig))); [lia|].
    exfalso. apply N. rewrite ports_eq. rewrite firstn_all2 by lia. apply in_or_app. right. eapply Permutation_in; [apply SH|]. apply elig_in. auto.
  - intros x X. split; [rewrite ports_eq; apply in_or_app; auto|]. apply firstn_in in X. apply (Permutation_in x (Permutation_sym (SH elig))) in X. apply elig_in in X. tauto.
Qed.
End Cycle.

(** ** Cycles *)
Definition cycle (c : config) (i : Z) (s : state) (k : call) : Prop :=
  c_fast_interval c <> 0 /\ c_fast_interval c <= ca_now k - last_fast s /\ i <= ca_now k - last_lldp s.
Lemma advertise_cases : forall c i m s k, config_ok c -> c_beacon c = Some (i, m) ->
  (cycle c i s k /\ outs c s k = send_ports c s (ca_running k) (ca_shuffle k) (ca_now k) /\
   last_fast (final c s [k]) = ca_now k /\ last_lldp (final c s [k]) = ca_now k) \/
  (~ cycle c i s k /\ outs c s k = [] /\ last_lldp (final c s [k]) = last_lldp s /\
   (last_fast (final c s [k]) = last_fast s \/ last_fast (final c s [k]) = ca_now k /\ ca_now k - last_lldp s < i)).
Proof.
  intros c i m s k [_ OK] B. destruct (OK _ _ B) as [OI _]. unfold outs, cycle. cbn [final]. unfold fast_advertise. rewrite B.
  destruct (Z.eqb_spec (c_fast_interval c) 0) as [E|NE]; [right; cbn; split; [tauto|auto]|].
  destruct (Z.ltb_spec (ca_now k - last_fast s) (c_fast_interval c)) as [L|L]; [right; cbn; split; [lia|auto]|].
  cbn [orb]. destruct (Z.eqb_spec i 0) as [|_]; [lia|]. cbn [orb]. destruct (Z.leb_spec i (ca_now k - last_lldp s)) as [D|D]; cbn [fst snd last_fast last_lldp].
  - left. auto.
  - right. split; [lia|]. auto.
Qed.
Lemma calls_shuffle : forall calls t k, calls_ok t calls -> In k calls -> forall l, Permutation l (ca_shuffle k l).
Proof. induction calls as [|a calls IH]; intros t k H I; [destruct I|]. destruct H as (_ & H & H2). destruct I as [<-|I]; eauto. Qed.

Theorem C41_beacons : forall c i m calls h1 k out h2, config_ok c -> c_beacon c = Some (i, m) -> calls_ok 0 calls ->
  run c init calls = h1 ++ (k, out) :: h2 ->
  (* at most one beacon per port, on running ports only, and on other than stack
     ports only after the interval *)
  NoDup out /\ (forall n, In n out -> ca_running k n = true /\ (is_stack c n \/ is_other c n /\ waiting i h1 (ca_now k) n)) /\
  (* at most [m] on other than stack ports *)
  (forall l, NoDup l -> (forall n, In n l -> In n out /\ is_other c n) -> Z.of_nat (length l) <= m) /\
  (* if any are sent, then on all running stack ports and as many others as allowed *)
  (out <> [] ->
   (forall n, is_stack c n -> ca_running k n = true -> In n out) /\
   (forall n, is_other c n -> ca_running k n = true -> waiting i h1 (ca_now k) n -> In n out \/
      exists l, NoDup l /\ Z.of_nat (length l) = m /\ forall x, In x l -> In x out /\ is_other c x)).
Proof.
  intros c i m calls h1 k out h2 OK B C H. apply run_split in H. destruct H as (r1 & r2 & -> & -> & -> & _).
  assert (SH : forall l, Permutation l (ca_shuffle k l)) by (eapply calls_shuffle; eauto; apply in_or_app; right; left; auto).
  assert (W : forall n, waiting i (run c init r1) (ca_now k) n <-> match dict_get Z.eqb n (last_beacon (final c init r1)) with None => True | Some t => t + i < ca_now k end).
  { intros n. unfold waiting. rewrite state_sent. reflexivity. }
  destruct (advertise_cases c i m (final c init r1) k OK B) as [(_ & -> & _)|(_ & -> & _)].
  - split; [eapply ports_nodup; eauto|]. split; [|split; [|intros _; split]].
    + intros n I. eapply ports_in in I; eauto. setoid_rewrite W. exact I.
    + intros l N I. eapply ports_others; eauto.
    + intros n S R. eapply ports_stack; eauto.
    + intros n O R D. apply W in D. destruct (in_dec Z.eq_dec n (send_ports c (final c init r1) (ca_running k) (ca_shuffle k) (ca_now k))) as [I|I]; auto.
      right. eapply ports_left; eauto.
  - split; [constructor|]. split; [intros n []|]. split; [|congruence]. intros l N I. destruct l as [|x l]; [destruct OK as [_ OK]; destruct (OK _ _ B); cbn; lia|].
    destruct (I x (or_introl eq_refl)) as [[] _].
Qed.
Print Assumptions C41_beacons.

Lemma lldp_bound : forall c i m r2 s t, config_ok c -> c_beacon c = Some (i, m) -> calls_ok t r2 -> last_lldp s <= t ->
  last_lldp s <= last_lldp (final c s r2).
Proof.
  intros c i m. induction r2 as [|a r2 IH]; intros s t OK B C L; cbn [final]; [lia|]. destruct C as (A & _ & C).
  destruct (advertise_cases c i m s a OK B) as [(_ & _ & _ & E)|(_ & _ & E & _)]; cbn [final] in E;
    (etransitivity; [|eapply IH; eauto; rewrite E; lia]); rewrite E; lia.
Qed.
Lemma state_bound : forall c i m r t s, config_ok c -> c_beacon c = Some (i, m) -> calls_ok t r -> last_fast s <= t -> last_lldp s <= t ->
  forall t', t <= t' -> (forall k, In k r -> ca_now k <= t') -> last_fast (final c s r) <= t' /\ last_lldp (final c s r) <= t'.
Proof.
  intros c i m. induction r as [|a r IH]; intros t s OK B C F L t' T A; cbn [final]; [lia|]. destruct C as (C1 & _ & C2).
  destruct (advertise_cases c i m s a OK B) as [(_ & _ & E1 & E2)|(_ & _ & E2 & E1)]; cbn [final] in E1, E2.
  - eapply IH; eauto; try lia; [|intros; apply A; right; auto]. apply A. left; auto.
  - eapply IH; eauto; try lia; [|intros; apply A; right; auto]. apply A. left; auto.
Qed.
(** Calls that send beacons are at least the interval apart. *)
Theorem C41_apart : forall c i m calls h1 k1 o1 h2 k2 o2 h3, config_ok c -> c_beacon c = Some (i, m) -> calls_ok 0 calls ->
  run c init calls = h1 ++ (k1, o1) :: h2 ++ (k2, o2) :: h3 -> o1 <> [] -> o2 <> [] -> ca_now k1 + i <= ca_now k2.
Proof.
  intros c i m calls h1 k1 o1 h2 k2 o2 h3 OK B C H N1 N2. apply run_split in H. destruct H as (r1 & r2 & -> & -> & -> & H).
  symmetry in H. apply run_split in H. destruct H as (q1 & q2 & -> & -> & -> & _).
  set (s := final c init r1) in *. assert (S1 : final c init (r1 ++ [k1]) = final c s [k1]) by (rewrite final_snoc; reflexivity). rewrite S1 in *.
  destruct (advertise_cases c i m s k1 OK B) as [(_ & _ & _ & E)|(_ & E & _)]; [|congruence].
  apply calls_app in C. destruct C as (_ & t' & _ & _ & C & _). destruct C as (_ & _ & C). apply calls_app in C. destruct C as (C & _).
  assert (X := lldp_bound c i m q1 (final c s [k1]) (ca_now k1) OK B C ltac:(lia)).
  destruct (advertise_cases c i m (final c (final c s [k1]) q1) k2 OK B) as [((_ & _ & Y) & _)|(_ & E2 & _)]; [|congruence]. lia.
Qed.
Print Assumptions C41_apart.

Lemma cycle_comes : forall c i m T seg k2 s t, config_ok c -> c_beacon c = Some (i, m) -> 0 < c_fast_interval c -> calls_ok t (seg ++ [k2]) ->
  last_lldp s <= T -> last_fast s < T + i -> T + i + c_fast_interval c <= ca_now k2 ->
  exists a k b, seg ++ [k2] = a ++ k :: b /\ cycle c i (final c s a) k.
Proof.
  intros c i m T. induction seg as [|k seg IH]; intros k2 s t OK B F C L1 L2 E.
  - exists [], k2, []. split; auto. unfold cycle. cbn [final]. lia.
  - cbn [app] in *. destruct C as (C1 & _ & C2). destruct (advertise_cases c i m s k OK B) as [(Y & _)|(N & _ & E1 & E2)].
    + exists [], k, (seg ++ [k2]). auto.
    + destruct (IH k2 (final c s [k]) (ca_now k)) as (a & k' & b & H1 & H2); auto; [lia|lia|].
      exists (k :: a), k', b. cbn [app]. rewrite H1. auto.
Qed.
Lemma last_sent_in : forall h n t, last_sent h n = Some t -> exists k out, In (k, out) h /\ ca_now k = t /\ In n out.
Proof.
  induction h as [|[k out] h IH]; intros n t H; cbn [last_sent] in H; [discriminate H|]. destruct (last_sent h n) as [t'|] eqn:L.
  - injection H as ->. destruct (IH _ _ L) as (k' & o' & A & C). exists k', o'. split; [right; auto|auto].
  - destruct (existsb (Z.eqb n) out) eqn:E; [|discriminate H]. injection H as <-. apply existsb_exists in E. destruct E as (x & I & E). apply Z.eqb_eq in E. subst x.
    exists k, out. split; [left; auto|auto].
Qed.
Lemma run_calls : forall c r s, map fst (run c s r) = r.
Proof. intros c r. induction r as [|k r IH]; intros s; auto. rewrite run_cons. cbn. rewrite IH. auto. Qed.
(** After any call, before the interval and the time between advertisements have both
    passed again, every running stack port has had a beacon, and every other running
    port as well, or at most the interval before, if their number is within the
    limit. *)
Theorem C41_served : forall c i m r1 k1 seg k2, config_ok c -> c_beacon c = Some (i, m) -> 0 < c_fast_interval c ->
  calls_ok 0 (r1 ++ k1 :: seg ++ [k2]) -> ca_now k1 + i + c_fast_interval c <= ca_now k2 ->
  forall n, (forall k, In k (seg ++ [k2]) -> ca_running k n = true) ->
  (is_stack c n -> exists k out, In (k, out) (run c init (r1 ++ k1 :: seg ++ [k2])) /\ ca_now k1 <= ca_now k <= ca_now k2 /\ In n out) /\
  (is_other c n -> (forall l, NoDup l -> (forall x, In x l -> is_other c x) -> Z.of_nat (length l) <= m) ->
   exists k out, In (k, out) (run c init (r1 ++ k1 :: seg ++ [k2])) /\ ca_now k1 - i <= ca_now k <= ca_now k2 /\ In n out).
Proof.
  intros c i m r1 k1 seg k2 OK B F C E n R.
  assert (C' := C). change (r1 ++ k1 :: seg ++ [k2]) with (r1 ++ [k1] ++ seg ++ [k2]) in *. rewrite app_assoc in *.
  assert (C2 := C'). apply calls_app in C'. destruct C' as (C1 & t' & T0 & T1 & C3 & _).
  assert (TK : ca_now k1 <= t') by (apply T1; apply in_or_app; right; left; auto).
  assert (ST : last_fast (final c init (r1 ++ [k1])) <= ca_now k1 /\ last_lldp (final c init (r1 ++ [k1])) <= ca_now k1).
  { apply calls_app in C1. destruct C1 as (C0 & u & U0 & U1 & U2 & _). destruct U2 as (U2 & _). eapply (state_bound c i m _ 0); eauto; cbn; try lia.
    - destruct (calls_app _ _ _ C2) as (X & _). exact X.
    - intros k K. apply in_app_or in K. destruct K as [K|[<-|[]]]; [apply U1 in K|]; lia. }
  destruct (cycle_comes c i m (ca_now k1) seg k2 (final c init (r1 ++ [k1])) t' OK B F C3) as (a & k & b & H1 & H2); try lia.
  { destruct OK as [_ OK]. destruct (OK _ _ B). lia. }
  assert (KI : In k (seg ++ [k2])) by (rewrite H1; apply in_or_app; right; left; auto).
  assert (KB : ca_now k1 <= ca_now k <= ca_now k2).
  { assert (C3' := C3). rewrite H1 in C3'. destruct (calls_app _ _ _ C3') as (_ & u & U0 & _ & U2 & _). destruct U2 as (U2 & _). split; [lia|].
    clear - C3 KI. destruct (calls_app _ _ _ C3) as (_ & u & _ & U1 & U2 & _). destruct U2 as (U2 & _).
    apply in_app_or in KI. destruct KI as [KI|[<-|[]]]; [apply U1 in KI; lia|lia]. }
  rewrite H1 in *. assert (EQ : (r1 ++ [k1]) ++ a ++ k :: b = (((r1 ++ [k1]) ++ a) ++ [k]) ++ b) by (rewrite <- !app_assoc; auto).
  assert (FA : final c (final c init (r1 ++ [k1])) a = final c init ((r1 ++ [k1]) ++ a)).
  { generalize (r1 ++ [k1]). intros z. generalize init. induction z as [|y z IHz]; intros s0; cbn [app final]; auto. }
  rewrite FA in H2. rewrite EQ in *.
  assert (RUN : forall r r', incl (run c init r) (run c init (r ++ r'))).
  { clear. intros r r'. generalize init. induction r as [|y r IHr]; intros s0; [intros x []|]. cbn [app]. rewrite !run_cons. intros x [<-|X]; [left; auto|right]. apply IHr; auto. }
  set (r := (r1 ++ [k1]) ++ a) in *.
  assert (HK : In (k, outs c (final c init r) k) (run c init ((r ++ [k]) ++ b))).
  { apply RUN. rewrite run_snoc. apply in_or_app. right. left. auto. }
  assert (SH : forall l, Permutation l (ca_shuffle k l)) by (eapply calls_shuffle; [exact C2|]; apply in_or_app; left; apply in_or_app; right; left; auto).
  destruct (advertise_cases c i m (final c init r) k OK B) as [(_ & O & _)|(N & _)]; [|contradiction].
  split.
  - intros S. exists k, (outs c (final c init r) k). split; auto. split; auto. rewrite O. eapply ports_stack; eauto.
  - intros S M. assert (OI : 1 <= i) by (destruct OK as [_ OK']; destruct (OK' _ _ B); lia).
    destruct (in_dec Z.eq_dec n (outs c (final c init r) k)) as [I|I].
    + exists k, (outs c (final c init r) k). split; auto. split; auto. lia.
    + assert (W : match dict_get Z.eqb n (last_beacon (final c init r)) with None => True | Some t => t + i < ca_now k end -> False).
      { intros D. assert (I' := I). rewrite O in I. eapply ports_left in I; eauto. destruct I as (l & L1 & L2 & L3).
        assert (X : Z.of_nat (length (n :: l)) <= m); [|cbn [length] in X; lia]. apply M.
        - constructor; auto. intros J. apply I'. rewrite O. apply L3. auto.
        - intros x [<-|X]; auto. apply L3. auto. }
      rewrite state_sent in W. destruct (last_sent (run c init r) n) as [t|] eqn:D; [|exfalso; auto].
      apply last_sent_in in D. destruct D as (k' & out & D1 & D2 & D3). exists k', out. split; [apply RUN; rewrite run_snoc; apply in_or_app; auto|]. split; auto.
      assert (ca_now k' <= ca_now k).
      { assert (C4 := C2). rewrite <- app_assoc in C4. destruct (calls_app _ _ _ C4) as (_ & u & _ & U1 & U2 & _). destruct U2 as (U2 & _).
        assert (In k' r); [|assert (ca_now k' <= u) by auto; lia]. apply (in_map fst) in D1. rewrite run_calls in D1. exact D1. }
      subst t. destruct (Z.lt_ge_cases (ca_now k' + i) (ca_now k)); [exfalso; auto|lia].
Qed.
Print Assumptions C41_served.

(** ** Example and findings *)
Definition ex_ports := [mkPort 1 true true; mkPort 2 false true; mkPort 3 false true; mkPort 4 false false].
Definition ex_config := mkConfig ex_ports 5 (Some (5, 1)).
Definition ex_call (t : Z) : call := mkCall t (fun _ => true) (fun l => l).
Example C41_example : config_ok ex_config /\ calls_ok 0 (map ex_call [100; 103; 105; 112]) /\
  map snd (run ex_config init (map ex_call [100; 103; 105; 112])) = [[1; 2]; []; [1; 3]; [1; 2]] /\ is_stack ex_config 1 /\ is_other ex_config 3.
Proof.
  split; [split; [repeat constructor; cbn; intuition lia|intros i m E; injection E as <- <-; lia]|].
  split; [cbn; repeat split; auto; lia|]. split; [vm_compute; reflexivity|]. split.
  - exists (mkPort 1 true true). cbn. auto.
  - exists (mkPort 3 false true). cbn. auto.
Qed.
(** Finding: ports do not take turns.  With more ports than the limit one may wait for
    ever, if the shuffles are unlucky. *)
Definition two := mkConfig [mkPort 1 false true; mkPort 2 false true] 5 (Some (5, 1)).
Theorem C41_starved_refuted : exists c n, config_ok c /\ is_other c n /\ (exists m, c_beacon c = Some (5, m) /\ 0 < m) /\
  forall N, exists calls, length calls = N /\ calls_ok 0 calls /\ (forall k, In k calls -> ca_running k n = true) /\
  forall k out, In (k, out) (run c init calls) -> out <> [] /\ ~ In n out.
Proof.
  exists two, 2. split; [split; [repeat constructor; cbn; intuition lia|intros i m E; injection E as <- <-; lia]|].
  split; [exists (mkPort 2 false true); cbn; auto|]. split; [exists 1; split; [reflexivity|lia]|].
  intros N. exists (map (fun j => ex_call (10 * Z.of_nat (S j))) (seq 0 N)).
  split; [rewrite map_length, seq_length; auto|]. split; [|split].
  - assert (G : forall a t, t <= 10 * Z.of_nat (S a) -> calls_ok t (map (fun j => ex_call (10 * Z.of_nat (S j))) (seq a N))).
    { induction N as [|N IH]; intros a t L; [exact I|]. cbn [seq map calls_ok ex_call ca_now ca_shuffle]. split; [lia|]. split; auto. apply IH. lia. }
    apply G. lia.
  - intros k K. apply in_map_iff in K. destruct K as (j & <- & _). reflexivity.
  - assert (G : forall a s, last_fast s <= 10 * Z.of_nat a -> last_lldp s <= 10 * Z.of_nat a -> last_beacon s = [] \/ (exists t, last_beacon s = [(1, t)] /\ t <= 10 * Z.of_nat a) ->
      forall k out, In (k, out) (run two s (map (fun j => ex_call (10 * Z.of_nat (S j))) (seq a N))) -> out = [1]).
    { induction N as [|N IH]; intros a s L1 L2 L3 k out K; [destruct K|]. cbn [seq map] in K. rewrite run_cons in K.
      set (t := 10 * Z.of_nat (S a)) in *.
      assert (Y : outs two s (ex_call t) = [1] /\ fst (fast_advertise two s (ca_running (ex_call t)) (ca_shuffle (ex_call t)) (ca_now (ex_call t))) = mkState t t [(1, t)]).
      { unfold outs, fast_advertise. cbn [two c_fast_interval c_beacon ex_call ca_now ca_running ca_shuffle]. cbn [Z.eqb orb].
        destruct (Z.ltb_spec (t - last_fast s) 5); [lia|]. cbn [orb]. destruct (Z.leb_spec 5 (t - last_lldp s)); [|lia]. cbn [fst snd].
        assert (P : send_ports two s (fun _ => true) (fun l => l) t = [1]).
        { unfold send_ports. cbn [two c_beacon c_ports]. destruct L3 as [->|(u & -> & U)]; [reflexivity|].
          cbn [filter p_beacon p_num p_stack andb map dict_get Z.eqb Pos.eqb]. destruct (Z.ltb_spec u (t - 5)); [reflexivity|lia]. }
        rewrite P. split; auto. cbn [fold_left]. destruct L3 as [->|(u & -> & U)]; reflexivity. }
      destruct Y as [Y1 Y2]. rewrite Y1, Y2 in K. destruct K as [K|K]; [injection K as _ <-; auto|].
      apply (IH (S a) (mkState t t [(1, t)]) (Z.le_refl _) (Z.le_refl _) (or_intror (ex_intro _ t (conj eq_refl (Z.le_refl _)))) k out K). }
    intros k out K. assert (E : out = [1]) by (eapply (G 0%nat init); eauto; cbn; lia). subst out. split; [discriminate|].
    intros [X|[]]. discriminate X.
Qed.
Print Assumptions C41_starved_refuted.
(** Finding: even with few ports a port misses every other cycle if cycles come
    exactly at the interval, because its last beacon must be older than that. *)
Theorem C41_every_cycle_refuted : exists c calls k out n m, config_ok c /\ calls_ok 0 calls /\ c_beacon c = Some (5, m) /\
  Z.of_nat (length (c_ports c)) <= m /\ is_other c n /\ In (k, out) (run c init calls) /\ out <> [] /\ ca_running k n = true /\ ~ In n out.
Proof.
  exists (mkConfig [mkPort 1 true true; mkPort 2 false true] 5 (Some (5, 5))), (map ex_call [100; 105]), (ex_call 105), [1], 2, 5.
  split; [split; [repeat constructor; cbn; intuition lia|intros i m E; injection E as <- <-; lia]|].
  split; [cbn; repeat split; auto; lia|]. split; [reflexivity|]. split; [cbn; lia|]. split; [exists (mkPort 2 false true); cbn; auto|].
  split; [right; left; reflexivity|]. split; [discriminate|]. split; [reflexivity|]. intros [X|[]]. discriminate X.
Qed.
Print Assumptions C41_every_cycle_refuted.
