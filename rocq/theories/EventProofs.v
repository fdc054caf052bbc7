(** * Proofs about the event socket *)

From Coq Require Import ZArith List Bool Lia Sorted.
From Verif Require Import EventModel EventSpec.
Import ListNotations.
Open Scope Z_scope.

Section Events.
Variable E : Type.
Notation numbered := (numbered E).
Notation happened := (happened E).

(** The queue is the latest events, from number [a] on. *)
Definition run_from (evs : list (eevent E)) (q : list (Z * E)) (a : Z) : Prop :=
  a + Z.of_nat (length q) = Z.of_nat (length (happened evs)) + 1 /\
  forall i x, nth_error q i = Some x -> fst x = a + Z.of_nat i /\ numbered evs (fst x) (snd x).
Record einv (evs : list (eevent E)) (s : estate E) (out : list (eout E)) (a : Z) : Prop := {
  ei_id : ev_id E s = Z.of_nat (length (happened evs));
  ei_q : run_from evs (ev_q E s) a;
  ei_a : 0 < a;
  ei_len : (length (ev_q E s) <= capacity)%nat;
  ei_sending : forall id e, ev_sending E s = Some (id, e) -> id < a /\ 0 < id /\ numbered evs id e /\ Forall (fun x => x < id) (ids E out);
  ei_client : ev_sending E s <> None -> ev_client E s <> None;
  ei_sorted : StronglySorted Z.lt (ids E out);
  ei_below : Forall (fun x => x < a) (ids E out);
  ei_out : forall c id e, In (Received E c id e) out -> numbered evs id e;
  ei_gone : forall id, 0 < id < a -> In id (ids E out) \/ (exists e, ev_sending E s = Some (id, e)) \/ cut_off E evs id \/ overtaken E evs id }.

Lemma numbered_more evs e id x : numbered evs id x -> numbered (ENotify E e :: evs) id x.
Proof.
  intros [H1 H2]. split; [exact H1|]. cbn [EventSpec.happened]. rewrite nth_error_app1; [exact H2|].
  apply nth_error_Some. congruence.
Qed.
Lemma ids_app a b : ids E (a ++ b) = ids E a ++ ids E b.
Proof. induction a as [|[c|c id e] a IH]; cbn; [reflexivity|exact IH|]. rewrite IH. reflexivity. Qed.
Lemma sorted_snoc l x : StronglySorted Z.lt l -> Forall (fun y => y < x) l -> StronglySorted Z.lt (l ++ [x]).
Proof.
  induction l as [|y l IH]; intros S F; [repeat constructor|]. inversion S; subst. inversion F; subst. cbn. constructor; [apply IH; assumption|].
  apply Forall_app. split; [assumption|]. constructor; [assumption|constructor].
Qed.
Lemma ereach_inv evs s out : ereach E evs s out -> exists a, einv evs s out a.
Proof.
  intros R. induction R as [|evs s out ev R0 (a & I)].
  - exists 1. constructor; cbn; try discriminate; try lia; try constructor; try (intros ? ? ? []); try reflexivity; try lia.
    + intros [|i] x H; discriminate.
    + intros H. exfalso. apply H. reflexivity.
  - assert (Same : forall s' ev, (forall e, ev <> ENotify E e) -> ev_id E s' = ev_id E s -> ev_q E s' = ev_q E s -> ev_sending E s' = ev_sending E s ->
              (ev_sending E s <> None -> ev_client E s' <> None) -> forall o, ids E o = [] -> (forall c id e, ~ In (Received E c id e) o) -> einv (ev :: evs) s' (out ++ o) a).
    { intros s' ev' Hn E1 E2 E3 E4 o Ho No. destruct I as [I1 I2 I3 I4 I5 I6 I7 I8 I9 I10].
      assert (Hh : happened (ev' :: evs) = happened evs) by (destruct ev' as [e| | | |]; [exfalso; exact (Hn e eq_refl)|reflexivity..]).
      assert (Hnb : forall id e, numbered evs id e -> numbered (ev' :: evs) id e) by (intros id e; unfold EventSpec.numbered; rewrite Hh; auto).
      assert (Hi : ids E (out ++ o) = ids E out) by (rewrite ids_app, Ho; apply app_nil_r).
      constructor; try rewrite Hi; try rewrite E2; try rewrite E3.
      - rewrite E1, Hh. exact I1.
      - destruct I2 as [J1 J2]. split; [rewrite Hh; exact J1|]. intros i x H. destruct (J2 i x H). auto.
      - exact I3.
      - exact I4.
      - intros id e H. destruct (I5 id e H) as (J1 & J2 & J3 & J4). auto.
      - exact E4.
      - exact I7.
      - exact I8.
      - intros c id e H. apply in_app_iff in H as [H|H]; [apply Hnb, (I9 c id e H)|]. exfalso. exact (No c id e H).
      - intros id H. destruct (I10 id H) as [J|[J|[J|J]]]; [left; exact J|right; left; exact J|right; right; left; apply co_before, J|].
        right; right; right. unfold overtaken in *. rewrite Hh. exact J. }
    assert (Same0 : forall ev, (forall e, ev <> ENotify E e) -> einv (ev :: evs) s (out ++ []) a).
    { intros ev' Hn. apply Same; try reflexivity; try exact Hn; [apply (ei_client _ _ _ _ I)|auto]. }
    destruct ev as [e|c| | |]; cbn [estep].
    + cbn [fst snd]. rewrite app_nil_r. destruct I as [I1 I2 I3 I4 I5 I6 I7 I8 I9 I10]. destruct I2 as [J1 J2].
      assert (Len : length (happened (ENotify E e :: evs)) = S (length (happened evs))) by (cbn [EventSpec.happened]; rewrite app_length; cbn; lia).
      assert (New : numbered (ENotify E e :: evs) (ev_id E s + 1) e).
      { split; [lia|]. cbn [EventSpec.happened]. rewrite nth_error_app2 by lia. replace (Z.to_nat _ - _)%nat with O by lia. reflexivity. }
      unfold notify. destruct (Nat.leb_spec capacity (length (ev_q E s))) as [F|F].
      * destruct (ev_q E s) as [|[i0 e0] q] eqn:Eq; [cbn in F; unfold capacity in F; lia|]. cbn [tl length] in *.
        exists (a + 1). constructor; cbn [ev_id ev_q ev_sending ev_client].
        -- rewrite Len. lia.
        -- split; [rewrite app_length, Len; cbn; lia|]. intros i x H. destruct (Nat.ltb_spec i (length q)) as [L|L].
           ++ rewrite nth_error_app1 in H by exact L. destruct (J2 (S i) x H) as [K1 K2]. split; [lia|apply numbered_more, K2].
           ++ rewrite nth_error_app2 in H by exact L. destruct (i - length q)%nat as [|k] eqn:Ek; [|destruct k; discriminate H].
              injection H as <-. cbn [fst snd]. split; [lia|exact New].
        -- lia.
        -- rewrite app_length. cbn. lia.
        -- intros id e' H. destruct (I5 id e' H) as (K1 & K2 & K3 & K4). split; [lia|]. split; [exact K2|]. split; [apply numbered_more, K3|exact K4].
        -- exact I6.
        -- exact I7.
        -- eapply Forall_impl; [|exact I8]. cbn. lia.
        -- intros c id e' H. apply numbered_more, (I9 c id e' H).
        -- intros id H. destruct (Z.eq_dec id a) as [->|N].
           ++ right; right; right. unfold overtaken. rewrite Len. unfold capacity in *. lia.
           ++ destruct (I10 id ltac:(lia)) as [K|[K|[K|K]]]; [left; exact K|right; left; exact K|right; right; left; apply co_before, K|].
              right; right; right. unfold overtaken in *. rewrite Len. lia.
      * exists a. constructor; cbn [ev_id ev_q ev_sending ev_client].
        -- rewrite Len. lia.
        -- split; [rewrite app_length, Len; cbn; lia|]. intros i x H. destruct (Nat.ltb_spec i (length (ev_q E s))) as [L|L].
           ++ rewrite nth_error_app1 in H by exact L. destruct (J2 i x H) as [K1 K2]. split; [lia|apply numbered_more, K2].
           ++ rewrite nth_error_app2 in H by exact L. destruct (i - length (ev_q E s))%nat as [|k] eqn:Ek; [|destruct k; discriminate H].
              injection H as <-. cbn [fst snd]. split; [lia|exact New].
        -- exact I3.
        -- rewrite app_length. cbn. lia.
        -- intros id e' H. destruct (I5 id e' H) as (K1 & K2 & K3 & K4). split; [lia|]. split; [exact K2|]. split; [apply numbered_more, K3|exact K4].
        -- exact I6.
        -- exact I7.
        -- exact I8.
        -- intros c id e' H. apply numbered_more, (I9 c id e' H).
        -- intros id H. destruct (I10 id H) as [K|[K|[K|K]]]; [left; exact K|right; left; exact K|right; right; left; apply co_before, K|].
           right; right; right. unfold overtaken in *. rewrite Len. lia.
    + exists a. destruct (ev_client E s) as [c0|] eqn:Ec; cbn [fst snd].
      * apply Same; try reflexivity; [discriminate|rewrite Ec; discriminate|]. intros c' id e [H|[]]. discriminate H.
      * assert (Sn : ev_sending E s = None).
        { destruct (ev_sending E s) as [x|] eqn:Es; [|reflexivity]. exfalso. apply (ei_client _ _ _ _ I); congruence. }
        apply Same; try reflexivity; try discriminate; try (cbn; congruence).
    + exists a. destruct (ev_client E s) as [c0|] eqn:Ec; [|apply Same0; discriminate]. cbn [fst snd].
      apply Same; try reflexivity; try discriminate; auto.
    + destruct (ev_client E s) as [c0|] eqn:Ec; [|exists a; apply Same0; discriminate].
      destruct (ev_sending E s) as [x|] eqn:Es; [exists a; apply Same0; discriminate|].
      destruct (ev_q E s) as [|[i0 e0] q] eqn:Eq; [exists a; apply Same0; discriminate|]. cbn [fst snd]. rewrite app_nil_r.
      exists (a + 1). destruct I as [I1 I2 I3 I4 I5 I6 I7 I8 I9 I10]. rewrite Eq in I2, I4. destruct I2 as [J1 J2]. cbn [length] in *.
      destruct (J2 O (i0, e0) eq_refl) as [K1 K2]. cbn [fst snd] in K1, K2.
      constructor; cbn [ev_id ev_q ev_sending ev_client].
      * exact I1.
      * split; [change (happened (ETake E :: evs)) with (happened evs); lia|]. intros i x H. destruct (J2 (S i) x H) as [L1 L2]. split; [lia|exact L2].
      * lia.
      * lia.
      * intros id e H. injection H as <- <-. split; [lia|]. split; [lia|]. split; [exact K2|]. eapply Forall_impl; [|exact I8]. cbn. lia.
      * discriminate.
      * exact I7.
      * eapply Forall_impl; [|exact I8]. cbn. lia.
      * exact I9.
      * intros id H. destruct (Z.eq_dec id a) as [->|N].
        -- right; left. exists e0. f_equal. f_equal. lia.
        -- destruct (I10 id ltac:(lia)) as [K|[[e' K]|[K|K]]]; [left; exact K|congruence|right; right; left; apply co_before, K|right; right; right; exact K].
    + destruct (ev_client E s) as [c0|] eqn:Ec; [|exists a; apply Same0; discriminate].
      destruct (ev_sending E s) as [[i0 e0]|] eqn:Es; [|exists a; apply Same0; discriminate].
      exists a. destruct (ev_here E s) eqn:Eh; cbn [fst snd].
      2: { rewrite app_nil_r. destruct I as [I1 I2 I3 I4 I5 I6 I7 I8 I9 I10].
      constructor; cbn [ev_id ev_q ev_sending ev_client]; try assumption; try discriminate.
        - intros H. exfalso. apply H. reflexivity.
        - intros id H. destruct (I10 id H) as [K|[[e' K]|[K|K]]]; [left; exact K| |right; right; left; apply co_before, K|right; right; right; exact K].
          right; right; left. eapply co_now; [exact R0|exact K|exact Eh].  }
      destruct I as [I1 I2 I3 I4 I5 I6 I7 I8 I9 I10]. destruct (I5 i0 e0 Es) as (K1 & K2 & K3 & K4).
      constructor; cbn [ev_id ev_q ev_sending ev_client]; try rewrite ids_app; cbn [ids].
      * exact I1.
      * exact I2.
      * exact I3.
      * exact I4.
      * discriminate.
      * intros H. exfalso. apply H. reflexivity.
      * apply sorted_snoc; assumption.
      * apply Forall_app. split; [exact I8|]. constructor; [exact K1|constructor].
      * intros c id e H. apply in_app_iff in H as [H|[H|[]]]; [exact (I9 c id e H)|]. injection H as <- <- <-. exact K3.
      * intros id H. destruct (I10 id H) as [K|[[e' K]|[K|K]]]; [left; apply in_app_iff; left; exact K| |right; right; left; apply co_before, K|right; right; right; exact K].
        rewrite Es in K. injection K as -> ->. left. apply in_app_iff. right. left. reflexivity.
Qed.
End Events.
