(** * Port ranges: property C38 *)
From Coq Require Import ZArith List Bool Lia.
From Verif Require Import PyBase PyBaseProofs ConfProofs RangeModel RangeSpec.
Import ListNotations.
Open Scope Z_scope.

(** ** Text *)
Lemma ch_eqb_spec : forall a b, ch_eqb a b = true <-> a = b.
Proof. intros [x| |x] [y| |y]; cbn; rewrite ?Z.eqb_eq; split; intros H; try discriminate H; try (inversion H; auto); subst; auto. Qed.
Lemma prefixb_spec : forall p s, prefixb p s = true <-> exists r, s = p ++ r.
Proof.
  induction p as [|x p IH]; intros s; cbn; [split; eauto|]. destruct s as [|y s].
  - split; [discriminate|intros (r & H); discriminate H].
  - rewrite andb_true_iff, ch_eqb_spec, IH. split.
    + intros (-> & r & ->). exists r. reflexivity.
    + intros (r & H). injection H as -> ->. eauto.
Qed.
(** a text that does not go on with a digit or a hyphen *)
Definition stops (s : list ch) : Prop := match s with [] => True | Oth _ :: _ => True | _ => False end.

Lemma digits_app : forall a b, digits (a ++ b) = digits a ++ digits b.
Proof. intros. apply map_app. Qed.
Lemma digits_dash : forall a a' u v, digits a ++ Dash :: u = digits a' ++ Dash :: v -> a = a' /\ u = v.
Proof.
  induction a as [|x a IH]; intros [|y a'] u v H; cbn in H.
  - injection H as ->. auto.
  - discriminate H.
  - discriminate H.
  - injection H as -> H. apply IH in H. destruct H as [-> ->]. auto.
Qed.
Lemma digits_stop : forall b' b r rest, stops rest -> digits b ++ rest = digits b' ++ r -> exists b0, b = b' ++ b0 /\ r = digits b0 ++ rest.
Proof.
  induction b' as [|y b' IH]; intros b r rest S H; cbn in H.
  - exists b. auto.
  - destruct b as [|x b]; cbn in H.
    + subst rest. destruct S.
    + injection H as -> H. destruct (IH _ _ _ S H) as (b0 & -> & ->). exists b0. auto.
Qed.
Lemma digits_no_dash : forall ds rest a u, stops rest -> digits ds ++ rest <> digits a ++ Dash :: u.
Proof.
  induction ds as [|x ds IH]; intros rest a u S H; cbn in H.
  - subst rest. destruct a; destruct S.
  - destruct a as [|y a]; [discriminate H|]. injection H as -> H. apply (IH _ _ _ S H).
Qed.

(** ** re.sub *)
Lemma sub_skip : forall pat l s, re_sub pat (length l) (l ++ s) = re_sub pat 0 s.
Proof. intros pat. induction l as [|x l IH]; intros s; cbn; auto. Qed.

Section Sub.
  Variable x : list Z * list Z.
  Hypothesis X0 : fst x <> [].
  Let pat := range_text x.

  Lemma pat_first : exists d r, pat = Dig d :: r.
  Proof. unfold pat, range_text. destruct (fst x) as [|d a]; [congruence|]. cbn. eauto. Qed.

  Lemma sub_oth : forall s rest, re_sub pat 0 (map Oth s ++ rest) = map Oth s ++ re_sub pat 0 rest.
  Proof.
    destruct pat_first as (d & r & E). induction s as [|c s IH]; intros rest; [reflexivity|]. cbn [map app re_sub].
    rewrite E at 1. cbn [prefixb ch_eqb andb]. rewrite IH. reflexivity.
  Qed.
  Lemma sub_digits : forall ds rest, stops rest -> re_sub pat 0 (digits ds ++ rest) = digits ds ++ re_sub pat 0 rest.
  Proof.
    induction ds as [|d ds IH]; intros rest S; [reflexivity|]. cbn [digits map app re_sub]. fold (digits ds).
    assert (P : prefixb pat (Dig d :: digits ds ++ rest) = false).
    { apply not_true_is_false. rewrite prefixb_spec. intros (r & H). unfold pat, range_text in H.
      rewrite <- app_assoc in H. cbn [app] in H. apply (digits_no_dash (d :: ds) rest (fst x) _ S H). }
    rewrite P, IH by auto. reflexivity.
  Qed.

  (** what becomes of an item *)
  Inductive becomes : item -> item -> Prop :=
  | be_single : forall ds, becomes (Single ds) (Single ds)
  | be_same : forall a b, (forall a0 b0, ~ (a = a0 ++ fst x /\ b = snd x ++ b0)) -> becomes (Range a b) (Range a b)
  | be_cut : forall a0 b0, becomes (Range (a0 ++ fst x) (snd x ++ b0)) (Single (a0 ++ b0)).

  Lemma sub_range : forall a b rest, stops rest ->
    (exists a0 b0, a = a0 ++ fst x /\ b = snd x ++ b0 /\
       re_sub pat 0 (digits a ++ Dash :: digits b ++ rest) = digits (a0 ++ b0) ++ re_sub pat 0 rest) \/
    ((forall a0 b0, ~ (a = a0 ++ fst x /\ b = snd x ++ b0)) /\
       re_sub pat 0 (digits a ++ Dash :: digits b ++ rest) = digits a ++ Dash :: digits b ++ re_sub pat 0 rest).
  Proof.
    intros a b rest S. induction a as [|d a IH].
    - right. split.
      + intros a0 b0 [H _]. destruct a0; cbn in H; [congruence|discriminate H].
      + destruct pat_first as (d & r & E). cbn [digits map app re_sub]. rewrite E at 1. cbn [prefixb ch_eqb andb].
        rewrite sub_digits by auto. reflexivity.
    - cbn [digits map app re_sub]. fold (digits a). destruct (prefixb pat (Dig d :: digits a ++ Dash :: digits b ++ rest)) eqn:P.
      + left. apply prefixb_spec in P. destruct P as (r & P). assert (P' := P). unfold pat, range_text in P. rewrite <- app_assoc in P. cbn [app] in P.
        apply (digits_dash (d :: a)) in P. destruct P as [P1 P2]. apply digits_stop in P2; auto. destruct P2 as (b0 & -> & ->).
        exists [], b0. split; [auto|split; [auto|]]. cbn [app].
        rewrite <- (sub_digits b0 rest S).
        assert (Q : digits a ++ Dash :: digits (snd x ++ b0) ++ rest = (digits a ++ Dash :: digits (snd x)) ++ digits b0 ++ rest).
        { rewrite digits_app, <- !app_assoc. reflexivity. }
        rewrite Q.
        assert (L : (length pat - 1)%nat = length (digits a ++ Dash :: digits (snd x))).
        { unfold pat, range_text. rewrite <- P1. unfold digits. rewrite !app_length. cbn [length]. rewrite !map_length. cbn [length]. lia. }
        rewrite L. apply sub_skip.
      + destruct IH as [(a0 & b0 & -> & -> & IH)|[N IH]].
        * left. exists (d :: a0), b0. split; [reflexivity|split; [reflexivity|]]. rewrite IH. reflexivity.
        * right. split; [|rewrite IH; reflexivity]. intros [|d' a0] b0 [E1 E2].
          -- cbn in E1. apply not_true_iff_false in P. apply P, prefixb_spec. exists (digits b0 ++ rest).
             unfold pat, range_text. rewrite <- E1, E2, digits_app, <- !app_assoc. reflexivity.
          -- cbn in E1. injection E1 as <- E1. apply (N a0 b0). auto.
  Qed.

  Lemma sub_item : forall i rest, stops rest -> exists i', becomes i i' /\
    re_sub pat 0 (item_text i ++ rest) = item_text i' ++ re_sub pat 0 rest.
  Proof.
    intros [ds|a b] rest S.
    - exists (Single ds). split; [constructor|]. apply sub_digits; auto.
    - cbn [item_text]. rewrite <- app_assoc. cbn [app]. destruct (sub_range a b rest S) as [(a0 & b0 & -> & -> & E)|[N E]].
      + exists (Single (a0 ++ b0)). split; [constructor|]. exact E.
      + exists (Range a b). split; [constructor; auto|]. rewrite E. cbn [item_text]. rewrite <- app_assoc. reflexivity.
  Qed.
End Sub.

(** ** Keys *)
Definition items_text (l : list (list Z * item)) (e : list Z) : list ch :=
  concat (map (fun y => map Oth (fst y) ++ item_text (snd y)) l) ++ map Oth e.
Definition seps_ok (l : list (list Z * item)) : Prop := Forall (fun y => fst y <> []) l.
Lemma items_cons : forall s i l e, items_text ((s, i) :: l) e = map Oth s ++ item_text i ++ items_text l e.
Proof. intros. unfold items_text. cbn. rewrite <- !app_assoc. reflexivity. Qed.
Lemma items_stop : forall l e, seps_ok l -> stops (items_text l e).
Proof.
  intros [|[s i] l] e H.
  - unfold items_text. cbn. destruct e; exact I.
  - rewrite items_cons. inversion H as [|y z Y1 Y2]; subst y z. cbn in Y1. destruct s; [congruence|exact I].
Qed.
(** separators after the first item *)
Definition tail_ok (l : list (list Z * item)) : Prop := match l with [] => True | _ :: r => seps_ok r end.
Lemma seps_tail : forall l, seps_ok l -> tail_ok l.
Proof. intros [|y l] H; cbn; auto. inversion H; auto. Qed.

Lemma sub_items : forall x l e, fst x <> [] -> tail_ok l -> exists l',
  Forall2 (fun y y' => fst y = fst y' /\ becomes x (snd y) (snd y')) l l' /\
  re_sub (range_text x) 0 (items_text l e) = items_text l' e.
Proof.
  intros x l e X. induction l as [|[s i] l IH]; intros T.
  - exists []. split; auto. unfold items_text. cbn. rewrite <- (app_nil_r (map Oth e)) at 1. rewrite (sub_oth x X e []). cbn. apply app_nil_r.
  - cbn in T. destruct (IH (seps_tail _ T)) as (l' & F & E). rewrite items_cons, (sub_oth x X).
    destruct (sub_item x X i (items_text l e) (items_stop _ _ T)) as (i' & B & E'). exists ((s, i') :: l'). split.
    + constructor; auto.
    + rewrite E', E, items_cons. reflexivity.
Qed.
Lemma seps_same : forall (R : item -> item -> Prop) l l', Forall2 (fun y y' => fst y = fst y' /\ R (snd y) (snd y')) l l' -> tail_ok l -> tail_ok l'.
Proof.
  intros R l l' F. assert (G : forall l l', Forall2 (fun y y' => fst y = fst y' /\ R (snd y) (snd y')) l l' -> seps_ok l -> seps_ok l').
  { clear. induction 1 as [|y y' l l' [E _] F IH]; intros H; constructor; inversion H; subst; auto; [congruence|apply IH; auto]. }
  destruct F as [|y y' l l' _ F]; cbn; auto. apply G. auto.
Qed.

(** ** findall *)
Definition ranges_of (l : list (list Z * item)) : list (list Z * list Z) :=
  flat_map (fun y => match snd y with Range a b => [(a, b)] | Single _ => [] end) l.
Definition runs_of (l : list (list Z * item)) : list (list Z) :=
  flat_map (fun y => match snd y with Range a b => [a; b] | Single [] => [] | Single ds => [ds] end) l.

Lemma fr_start : forall ds a rest, findall_ranges (RStart a) (digits ds ++ rest) = findall_ranges (RStart (a ++ ds)) rest.
Proof. induction ds as [|d ds IH]; intros a rest; cbn [digits map app]; [rewrite app_nil_r; auto|]. cbn. fold (digits ds). rewrite IH, <- app_assoc. reflexivity. Qed.
Lemma fr_end : forall ds a b rest, findall_ranges (REnd a b) (digits ds ++ rest) = findall_ranges (REnd a (b ++ ds)) rest.
Proof. induction ds as [|d ds IH]; intros a b rest; cbn [digits map app]; [rewrite app_nil_r; auto|]. cbn. fold (digits ds). rewrite IH, <- app_assoc. reflexivity. Qed.
Lemma fr_oth : forall s rest, findall_ranges RIdle (map Oth s ++ rest) = findall_ranges RIdle rest.
Proof. induction s as [|c s IH]; intros rest; cbn; auto. Qed.
Lemma fr_stop : forall st rest, stops rest -> findall_ranges st rest = match st with REnd a b => [(a, b)] | _ => [] end ++ findall_ranges RIdle rest.
Proof. intros st [|[d| |c] rest] S; try destruct S; destruct st; reflexivity. Qed.
Lemma fr_item : forall i rest, item_ok i -> stops rest ->
  findall_ranges RIdle (item_text i ++ rest) = match i with Range a b => [(a, b)] | Single _ => [] end ++ findall_ranges RIdle rest.
Proof.
  intros [ds|a b] rest K S; cbn [item_text].
  - cbn in K. destruct ds as [|d ds]; [congruence|]. cbn [digits map app findall_ranges]. fold (digits ds). rewrite fr_start, fr_stop by auto. reflexivity.
  - destruct K as [A B]. destruct a as [|d a]; [congruence|]. cbn [digits map app findall_ranges]. fold (digits a). rewrite <- app_assoc, fr_start.
    cbn [app findall_ranges]. destruct b as [|c b]; [congruence|]. cbn [digits map app findall_ranges]. fold (digits b). rewrite fr_end, fr_stop by auto. reflexivity.
Qed.
Lemma fr_items : forall l e, Forall (fun y => item_ok (snd y)) l -> tail_ok l -> findall_ranges RIdle (items_text l e) = ranges_of l.
Proof.
  induction l as [|[s i] l IH]; intros e K T.
  - unfold items_text. cbn. rewrite <- (app_nil_r (map Oth e)), fr_oth. reflexivity.
  - inversion K as [|y z K1 K2]; subst y z. rewrite items_cons, fr_oth, fr_item; auto; [|apply items_stop; auto].
    rewrite IH by (auto using seps_tail). reflexivity.
Qed.

Lemma fd_digits : forall ds cur rest, findall_digits cur (digits ds ++ rest) = findall_digits (cur ++ ds) rest.
Proof. induction ds as [|d ds IH]; intros cur rest; cbn [digits map app]; [rewrite app_nil_r; auto|]. cbn. fold (digits ds). rewrite IH, <- app_assoc. reflexivity. Qed.
Definition run (ds : list Z) : list (list Z) := match ds with [] => [] | _ => [ds] end.
Lemma fd_stop : forall cur rest, stops rest -> findall_digits cur rest = run cur ++ findall_digits [] rest.
Proof. intros cur [|[d| |c] rest] S; try destruct S; destruct cur; reflexivity. Qed.
Lemma fd_oth : forall s rest, findall_digits [] (map Oth s ++ rest) = findall_digits [] rest.
Proof. induction s as [|c s IH]; intros rest; cbn; auto. Qed.
Lemma fd_items : forall l e, tail_ok l -> findall_digits [] (items_text l e) =
  flat_map (fun y => match snd y with Range a b => run a ++ run b | Single ds => run ds end) l.
Proof.
  induction l as [|[s i] l IH]; intros e T.
  - unfold items_text. cbn. rewrite <- (app_nil_r (map Oth e)), fd_oth. reflexivity.
  - assert (S := items_stop l e T). rewrite items_cons, fd_oth. cbn [flat_map snd]. rewrite <- (IH e (seps_tail _ T)). destruct i as [ds|a b]; cbn [item_text].
    + rewrite fd_digits. cbn [app]. apply fd_stop; auto.
    + rewrite <- app_assoc, fd_digits. cbn [app]. rewrite <- app_assoc.
      assert (D : findall_digits a (Dash :: digits b ++ items_text l e) = run a ++ findall_digits [] (digits b ++ items_text l e)).
      { destruct a; reflexivity. }
      rewrite D, fd_digits. cbn [app]. rewrite (fd_stop b) by auto. reflexivity.
Qed.

(** ** All substitutions *)
Lemma sub_all : forall rs l e, Forall (fun x => fst x <> []) rs -> tail_ok l -> exists l',
  Forall2 (fun y y' => match snd y with Single ds => snd y' = Single ds | Range _ _ => True end) l l' /\ tail_ok l' /\
  fold_left (fun s x => re_sub (range_text x) 0 s) rs (items_text l e) = items_text l' e /\
  (* with clear ranges *)
  ((forall x y a b a0 b0, In x rs -> In y l -> snd y = Range a b -> a = a0 ++ fst x -> b = snd x ++ b0 -> a0 = [] /\ b0 = []) ->
   Forall2 (fun y y' => match snd y with
                        | Single ds => snd y' = Single ds
                        | Range a b => (In (a, b) rs /\ snd y' = Single []) \/ (~ In (a, b) rs /\ snd y' = Range a b)
                        end) l l').
Proof.
  induction rs as [|x rs IH]; intros l e R T.
  - exists l. split; [|split; [auto|split; [auto|]]].
    + clear. induction l as [|[s [ds|a b]] l IH]; constructor; cbn; auto.
    + intros _. clear. induction l as [|[s [ds|a b]] l IH]; constructor; cbn; auto.
  - inversion R as [|y z R1 R2]; subst y z. cbn [fold_left].
    destruct (sub_items x l e R1 T) as (l1 & F1 & ->). assert (T1 := seps_same _ _ _ F1 T).
    destruct (IH l1 e R2 T1) as (l2 & F2 & T2 & E2 & C2). exists l2. split; [|split; [auto|split; [auto|]]].
    + clear - F1 F2. revert l2 F2. induction F1 as [|y y1 l l1 [_ B] F1 IH]; intros l2 F2; inversion F2 as [|a b c d A B']; subst; constructor; auto.
      inversion B as [ds E1 E2|a0 b0 _ E1 E2|a0 b0 E1 E2]; auto. rewrite <- E2 in A. auto.
    + intros CL.
      assert (CL1 : forall x0 y a b a0 b0, In x0 rs -> In y l1 -> snd y = Range a b -> a = a0 ++ fst x0 -> b = snd x0 ++ b0 -> a0 = [] /\ b0 = []).
      { intros x0 y1 a b a0 b0 X Y E Ea Eb.
        assert (Y' : exists y, In y l /\ snd y = Range a b).
        { clear - F1 Y E. induction F1 as [|y y' l l1 [_ B] F1 IH]; [destruct Y|]. destruct Y as [->|Y].
          - exists y. split; [left; auto|]. rewrite E in B. inversion B; auto.
          - destruct (IH Y) as (z & Z1 & Z2). exists z. split; [right; auto|auto]. }
        destruct Y' as (y & Y1 & Y2). apply (CL x0 y a b a0 b0); auto. right; auto. }
      specialize (C2 CL1).
      assert (CX : forall y a b a0 b0, In y l -> snd y = Range a b -> a = a0 ++ fst x -> b = snd x ++ b0 -> a0 = [] /\ b0 = []).
      { intros y a b a0 b0 Y E Ea Eb. apply (CL x y a b a0 b0); auto. left; auto. }
      clear - F1 C2 CX. revert l2 C2 CX. induction F1 as [|y y1 l l1 [_ B] F1 IH]; intros l2 C2 CX; inversion C2 as [|p q r u A D]; subst; constructor.
      * inversion B as [ds E1 E2|a0 b0 N E1 E2|a0 b0 E1 E2].
        -- rewrite <- E2 in A. auto.
        -- rewrite <- E2 in A. destruct A as [[A1 A2]|[A1 A2]].
           ++ left. split; auto. right; auto.
           ++ right. split; auto. intros [H|H]; auto. subst x. apply (N [] []). cbn. rewrite app_nil_r. auto.
        -- destruct (CX y (a0 ++ fst x) (snd x ++ b0) a0 b0) as [-> ->]; auto; [left; auto|].
           rewrite <- E2 in A. cbn in A. left. split; auto. left. cbn. rewrite app_nil_r. destruct x; reflexivity.
      * apply IH; auto. intros y0 a b a0 b0 I. apply CX. right; auto.
Qed.

Lemma span_in : forall a b n, In n (span a b) <-> a <= n <= b.
Proof.
  intros a b n. unfold span. rewrite in_map_iff. split.
  - intros (k & <- & I). apply in_seq in I. lia.
  - intros H. exists (Z.to_nat (n - a)). split; [lia|]. apply in_seq. lia.
Qed.
Lemma ranges_in : forall l a b, In (a, b) (ranges_of l) <-> exists s, In (s, Range a b) l.
Proof.
  intros l a b. unfold ranges_of. rewrite in_flat_map. split.
  - intros ([s i] & I & H). cbn in H. destruct i as [ds|a' b']; [destruct H|]. destruct H as [H|[]]. injection H as -> ->. eauto.
  - intros (s & I). exists (s, Range a b). split; auto. left; auto.
Qed.

(** The ports of a key: every port it names, and if no range's text is part of
    another's no others.  Keys whose ranges do not go up are rejected. *)
Theorem C38_named : forall k nums, key_ok k -> port_nums (key_text k) = Some nums ->
  ranges_up k /\ forall n, named k n -> In n nums.
Proof.
  intros k nums [KI KS] H. unfold port_nums in H. change (key_text k) with (items_text (k_items k) (k_end k)) in H.
  rewrite fr_items in H by auto. destruct (existsb _ (ranges_of (k_items k))) eqn:X; [discriminate H|].
  assert (UP : ranges_up k).
  { intros s a b I. apply not_true_iff_false in X. apply Z.nle_gt. intros L. apply X. apply existsb_exists. exists (a, b).
    split; [apply ranges_in; eauto|]. cbn. apply Z.leb_le. auto. }
  split; auto. intros n (s & i & I & N).
  assert (R : Forall (fun x => fst x <> []) (ranges_of (k_items k))).
  { apply Forall_forall. intros [a b] J. apply ranges_in in J. destruct J as (s' & J). rewrite Forall_forall in KI. apply KI in J. apply J. }
  destruct (sub_all (ranges_of (k_items k)) (k_items k) (k_end k) R KS) as (l' & F & T & E & _). rewrite E in H. rewrite fd_items in H by auto.
  assert (Q : In n (flat_map (fun x => span (int_of (fst x)) (int_of (snd x))) (ranges_of (k_items k)) ++
    map int_of (flat_map (fun y => match snd y with Range a b => run a ++ run b | Single ds => run ds end) l'))).
  { apply in_or_app. destruct i as [ds|a b]; cbn in N.
    - right. subst n. apply in_map. apply in_flat_map.
      assert (G : exists y', In y' l' /\ snd y' = Single ds).
      { clear - F I. induction F as [|y y' l l' B F IH]; [destruct I|]. destruct I as [->|I]; [exists y'; split; [left; auto|exact B]|].
        destruct (IH I) as (z & Z1 & Z2). exists z. split; [right; auto|auto]. }
      destruct G as (y' & G1 & G2). exists y'. split; auto. rewrite G2. rewrite Forall_forall in KI. apply KI in I. cbn in I. destruct ds; [congruence|left; auto].
    - left. apply in_flat_map. exists (a, b). split; [apply ranges_in; eauto|]. cbn. apply span_in. auto. }
  destruct (flat_map _ _ ++ _) eqn:Y; [destruct Q|]. injection H as <-. exact Q.
Qed.
Print Assumptions C38_named.

Theorem C38_exact : forall k, key_ok k -> clear_ranges k ->
  (ranges_up k /\ (exists n, named k n) ->
   exists nums, port_nums (key_text k) = Some nums /\ forall n, In n nums <-> named k n) /\
  (~ (ranges_up k /\ exists n, named k n) -> port_nums (key_text k) = None).
Proof.
  intros k [KI KS] CL. unfold port_nums. change (key_text k) with (items_text (k_items k) (k_end k)). rewrite fr_items by auto.
  assert (R : Forall (fun x => fst x <> []) (ranges_of (k_items k))).
  { apply Forall_forall. intros [a b] J. apply ranges_in in J. destruct J as (s' & J). rewrite Forall_forall in KI. apply KI in J. apply J. }
  destruct (sub_all (ranges_of (k_items k)) (k_items k) (k_end k) R KS) as (l' & _ & T & E & C). rewrite E, fd_items by auto.
  assert (F : Forall2 (fun y y' => match snd y with
                        | Single ds => snd y' = Single ds
                        | Range a b => snd y' = Single [] end) (k_items k) l').
  { assert (C' : forall x y a b a0 b0, In x (ranges_of (k_items k)) -> In y (k_items k) -> snd y = Range a b -> a = a0 ++ fst x -> b = snd x ++ b0 -> a0 = [] /\ b0 = []).
    { intros [xa xb] [s i] a b a0 b0 X Y Ey Ea Eb. cbn in Ey, Ea, Eb. subst i. apply ranges_in in X. destruct X as (s' & X).
      destruct (CL s' (Range xa xb) xa xb s (Range a b) a b (digits a0) (digits b0) X eq_refl Y eq_refl) as [L1 L2].
      - cbn [item_text]. rewrite Ea, Eb, !digits_app, <- !app_assoc. cbn [app]. reflexivity.
      - unfold digits in L1, L2. apply map_eq_nil in L1, L2. auto. }
    specialize (C C').
    assert (G : forall y a b, In y (k_items k) -> snd y = Range a b -> In (a, b) (ranges_of (k_items k))).
    { intros [s i] a b I Ei. cbn in Ei. subst i. apply ranges_in. eauto. }
    clear - C G. revert G. set (rs := ranges_of (k_items k)) in *. clearbody rs. induction C as [|y y' l l' B F IH]; intros G; constructor; auto.
    - destruct (snd y) as [ds|a b] eqn:Ey; auto. destruct B as [[_ B]|[B _]]; auto. exfalso. apply B. apply (G y); auto. left; auto.
    - apply IH. intros z a b I. apply G. right; auto. }
  assert (Q : forall n, In n (flat_map (fun x => span (int_of (fst x)) (int_of (snd x))) (ranges_of (k_items k)) ++
    map int_of (flat_map (fun y => match snd y with Range a b => run a ++ run b | Single ds => run ds end) l')) <-> named k n).
  { intros n. rewrite in_app_iff, in_flat_map, in_map_iff. split.
    - intros [([a b] & I & H)|(ds & <- & I)].
      + apply ranges_in in I. destruct I as (s & I). apply span_in in H. exists s, (Range a b). auto.
      + apply in_flat_map in I. destruct I as (y' & I & H). clear - F I H.
        assert (G : exists y, In y (k_items k) /\ match snd y with Single ds => snd y' = Single ds | Range a b => snd y' = Single [] end).
        { clear H. induction F as [|y z l l' B F IH]; [destruct I|]. destruct I as [->|I]; [exists y; split; [left; auto|exact B]|].
          destruct (IH I) as (w & W1 & W2). exists w. split; [right; auto|auto]. }
        destruct G as ([s i] & G1 & G2). cbn in G2. destruct i as [ds'|a b].
        * rewrite G2 in H. exists s, (Single ds'). split; auto. cbn. destruct ds'; [destruct H|]. destruct H as [->|[]]. reflexivity.
        * rewrite G2 in H. destruct H.
    - intros (s & i & I & N). destruct i as [ds|a b]; cbn in N.
      + right. exists ds. split; auto. apply in_flat_map.
        assert (G : exists y', In y' l' /\ snd y' = Single ds).
        { clear - F I. induction F as [|y y' l l' B F IH]; [destruct I|]. destruct I as [->|I]; [exists y'; split; [left; auto|exact B]|].
          destruct (IH I) as (z & Z1 & Z2). exists z. split; [right; auto|auto]. }
        destruct G as (y' & G1 & G2). exists y'. split; auto. rewrite G2. rewrite Forall_forall in KI. apply KI in I. cbn in I. destruct ds; [congruence|left; auto].
      + left. exists (a, b). split; [apply ranges_in; eauto|]. apply span_in. auto. }
  assert (UP : existsb (fun x => int_of (snd x) <=? int_of (fst x)) (ranges_of (k_items k)) = false <-> ranges_up k).
  { rewrite <- not_true_iff_false, existsb_exists. split.
    - intros X s a b I. apply Z.nle_gt. intros L. apply X. exists (a, b). split; [apply ranges_in; eauto|]. apply Z.leb_le. auto.
    - intros X ([a b] & I & L). apply ranges_in in I. destruct I as (s & I). apply X in I. apply Z.leb_le in L. cbn [fst snd] in L. lia. }
  split.
  - intros [U (n & N)]. apply UP in U. rewrite U. apply Q in N. destruct (flat_map _ _ ++ _) as [|z zs] eqn:Y; [destruct N|].
    exists (z :: zs). split; auto.
  - intros N. destruct (existsb _ _) eqn:U; auto. pose proof (proj1 UP eq_refl) as U2. destruct (flat_map _ _ ++ _) as [|z zs] eqn:Y; auto.
    exfalso. apply N. split; [exact U2|]. exists z. apply Q. left; auto.
Qed.
Print Assumptions C38_exact.

(** ** Configuration of the ports *)
Lemma setdefaults_get : forall r c a, NoDup (map fst r) ->
  dict_get Z.eqb a (setdefaults c r) = match dict_get Z.eqb a c with Some v => Some v | None => dict_get Z.eqb a r end.
Proof.
  induction r as [|[k v] r IH]; intros c a ND; [cbn; destruct (dict_get Z.eqb a c); auto|]. inversion ND as [|x y N1 N2]; subst x y.
  change (setdefaults c ((k, v) :: r)) with (setdefaults (match dict_get Z.eqb k c with Some _ => c | None => dict_put Z.eqb k v c end) r).
  rewrite IH by auto. cbn [dict_get fst snd]. destruct (dict_get Z.eqb k c) as [w|] eqn:K.
  - destruct (dict_get Z.eqb a c) eqn:A; auto. destruct (Z.eqb_spec a k) as [->|]; auto. congruence.
  - rewrite (dict_get_put Z.eqb zspec). destruct (Z.eqb_spec a k) as [->|]; auto. rewrite K. reflexivity.
Qed.
Lemma combines_set : forall c r, NoDup (map fst r) -> combines c r (setdefaults c (dict_del Z.eqb NUMBER r)).
Proof.
  intros c r ND a. rewrite setdefaults_get by (apply dict_del_nodup; auto). rewrite (dict_get_del Z.eqb zspec). reflexivity.
Qed.
Lemma combines_nil : forall r, combines [] r (dict_del Z.eqb NUMBER r).
Proof. intros r a. cbn. rewrite (dict_get_del Z.eqb zspec). reflexivity. Qed.
Lemma combines_twice : forall c r c1 c2, combines c r c1 -> combines c1 r c2 -> combines c r c2.
Proof. intros c r c1 c2 H1 H2 a. rewrite H2, H1. destruct (dict_get Z.eqb a c); auto. destruct (a =? NUMBER); auto. destruct (dict_get Z.eqb a r); auto. Qed.

Lemma put_get : forall r d n m, dict_get Z.eqb m (put_port r d n) =
  if m =? n then Some (match dict_get Z.eqb n d with Some (k, c) => (k, setdefaults c r) | None => (n, r) end) else dict_get Z.eqb m d.
Proof.
  intros r d n m. unfold put_port. destruct (dict_get Z.eqb n d) as [[k c]|]; rewrite (dict_get_put Z.eqb zspec); destruct (m =? n); auto.
Qed.
Lemma after_again : forall r n o o1, after_range r n o o1 -> NoDup (map fst r) ->
  after_range r n o (Some (match o1 with Some (k, c) => (k, setdefaults c (dict_del Z.eqb NUMBER r)) | None => (n, dict_del Z.eqb NUMBER r) end)).
Proof.
  intros r n o o1 H ND. destruct o as [[k c]|]; destruct H as (c1 & -> & H); cbn; eexists; (split; [reflexivity|]);
    eapply combines_twice; eauto; apply combines_set; auto.
Qed.
Lemma puts_get : forall r nums d n, NoDup (map fst r) ->
  let d' := fold_left (put_port (dict_del Z.eqb NUMBER r)) nums d in
  (In n nums -> after_range r n (dict_get Z.eqb n d) (dict_get Z.eqb n d')) /\
  (~ In n nums -> dict_get Z.eqb n d' = dict_get Z.eqb n d).
Proof.
  intros r nums d n ND. cbn zeta. induction nums as [|m nums IH] using rev_ind; [split; [intros []|auto]|].
  rewrite fold_left_app. cbn [fold_left]. rewrite put_get. destruct IH as [IH1 IH2].
  set (d' := fold_left _ nums d) in *. clearbody d'. split.
  - intros I. destruct (Z.eqb_spec n m) as [->|NE].
    + destruct (in_dec Z.eq_dec m nums) as [J|J].
      * specialize (IH1 J). apply after_again; auto.
      * rewrite (IH2 J). unfold after_range. destruct (dict_get Z.eqb m d) as [[k c]|].
        -- eexists. split; [reflexivity|]. apply combines_set; auto.
        -- eexists. split; [reflexivity|]. apply combines_nil.
    + apply IH1. apply in_app_or in I. destruct I as [I|[->|[]]]; auto. congruence.
  - intros I. destruct (Z.eqb_spec n m) as [->|NE]; [exfalso; apply I; apply in_or_app; right; left; auto|]. apply IH2. intros J. apply I. apply in_or_app; auto.
Qed.

(** Configurations with ranges are accepted exactly when every key is and no port is
    in two keys; then every port in a key has the configuration of the key's range
    for what it does not configure itself, and other ports are left alone. *)
Theorem C38_config : forall ranges d d', (forall k r, In (k, r) ranges -> NoDup (map fst r)) -> parse_ranges ranges [] d = Some d' ->
  exists numss, Forall2 (fun kr nums => port_nums (fst kr) = Some nums) ranges numss /\ disjoint_keys numss /\
  forall n,
    (forall k r nums, In (k, r) ranges -> port_nums k = Some nums -> In n nums -> after_range r n (dict_get Z.eqb n d) (dict_get Z.eqb n d')) /\
    ((forall k r nums, In (k, r) ranges -> port_nums k = Some nums -> ~ In n nums) -> dict_get Z.eqb n d' = dict_get Z.eqb n d).
Proof.
  intros ranges d d' ND H.
  enough (G : forall seen d, parse_ranges ranges seen d = Some d' ->
    exists numss, Forall2 (fun kr nums => port_nums (fst kr) = Some nums) ranges numss /\ disjoint_keys numss /\
    (forall l n, In l numss -> In n l -> ~ In n seen) /\
    forall n,
    (forall k r nums, In (k, r) ranges -> port_nums k = Some nums -> In n nums -> after_range r n (dict_get Z.eqb n d) (dict_get Z.eqb n d')) /\
    ((forall k r nums, In (k, r) ranges -> port_nums k = Some nums -> ~ In n nums) -> dict_get Z.eqb n d' = dict_get Z.eqb n d)).
  { destruct (G [] d H) as (numss & A & B & _ & C). exists numss. auto. }
  clear d H. induction ranges as [|[k r] ranges IH]; intros seen d H.
  - injection H as <-. exists []. split; [auto|split; [exact I|split; [intros l n []|]]]. intros n. split; [intros k r nums []|auto].
  - cbn [parse_ranges] in H. destruct (port_nums k) as [nums|] eqn:K; [|discriminate H].
    destruct (existsb (fun n => mem Z.eqb n seen) nums) eqn:X; [discriminate H|].
    destruct (IH (fun k r I => ND k r (or_intror I)) _ _ H) as (numss & F & D & S & C). exists (nums :: numss).
    split; [constructor; auto|]. split; [|split].
    + cbn. split; auto. intros l' n I J J'. apply (S l' n I J'). apply in_or_app. auto.
    + intros l n [<-|I] J.
      * intros J'. apply not_true_iff_false in X. apply X. apply existsb_exists. exists n. split; auto. apply memz. auto.
      * intros J'. apply (S l n I J). apply in_or_app; auto.
    + intros n. destruct (puts_get r nums d n (ND k r (or_introl eq_refl))) as [P1 P2]. set (d1 := fold_left _ nums d) in *. clearbody d1. destruct (C n) as [C1 C2].
      assert (OUT : In n nums -> forall k' r' nums', In (k', r') ranges -> port_nums k' = Some nums' -> ~ In n nums').
      { intros J k' r' nums' I' K' J'. apply (S nums' n); auto; [|apply in_or_app; auto].
        clear - F I' K'. induction F as [|y l ys ls E F IH]; [destruct I'|]. destruct I' as [->|I']; [left; cbn in E; congruence|right; auto]. }
      split.
      * intros k' r' nums' [E|I'] K' J.
        -- injection E as <- <-. rewrite K in K'. injection K' as <-. rewrite C2; [|apply OUT; auto]. apply P1; auto.
        -- assert (NJ : ~ In n nums) by (intros J'; apply (OUT J' k' r' nums'); auto).
           rewrite <- (P2 NJ). apply (C1 k' r' nums'); auto.
      * intros N. rewrite C2; [apply P2; apply (N k r nums (or_introl eq_refl) K)|].
        intros k' r' nums' I'. apply (N k' r' nums'). right; auto.
Qed.
Print Assumptions C38_config.
Theorem C38_accepted : forall ranges d,
  (exists numss, Forall2 (fun kr nums => port_nums (fst kr) = Some nums) ranges numss /\ disjoint_keys numss) ->
  parse_ranges ranges [] d <> None.
Proof.
  intros ranges d (numss & F & D).
  enough (G : forall seen d, (forall l n, In l numss -> In n l -> ~ In n seen) -> parse_ranges ranges seen d <> None) by (apply G; intros; intros []).
  clear d. induction F as [|[k r] nums ranges numss E F IH]; intros seen d S; cbn [parse_ranges]; [discriminate|].
  cbn in E. rewrite E. destruct D as [D1 D2]. destruct (existsb (fun n => mem Z.eqb n seen) nums) eqn:X.
  - apply existsb_exists in X. destruct X as (n & I & M). apply memz in M. exfalso. apply (S nums n); auto. left; auto.
  - apply IH; auto. intros l n I J J'. apply in_app_or in J'. destruct J' as [J'|J'].
    + apply (S l n); auto. right; auto.
    + apply (D1 l n I J' J).
Qed.
Print Assumptions C38_accepted.

(** "1-3,5, 7-9": ports 1, 2, 3, 5, 7, 8 and 9 *)
Definition comma := 44.
Definition ex_key : key := mkKey [([], Range [1] [3]); ([comma], Single [5]); ([comma; 32], Range [7] [9])] [].
Example C38_example : key_ok ex_key /\ clear_ranges ex_key /\ ranges_up ex_key /\ port_nums (key_text ex_key) = Some [1; 2; 3; 7; 8; 9; 5] /\
  add_ports [(2, [(1, 100)])] [(key_text ex_key, [(1, 200); (2, 300)])] =
  Some [(2, (2, [(1, 100); (2, 300)])); (1, (1, [(1, 200); (2, 300)])); (3, (3, [(1, 200); (2, 300)])); (7, (7, [(1, 200); (2, 300)]));
        (8, (8, [(1, 200); (2, 300)])); (9, (9, [(1, 200); (2, 300)])); (5, (5, [(1, 200); (2, 300)]))].
Proof.
  split; [split; [repeat constructor; discriminate|repeat constructor; discriminate]|]. split; [|split; [|split; vm_compute; reflexivity]].
  - intros s i a b s' i' a' b' l r I1 E1 I2 E2 H. cbn in I1, I2.
    repeat match goal with H : _ \/ _ |- _ => destruct H as [H|H] | H : False |- _ => destruct H end;
      try (injection I1 as <- <-); try (injection I2 as <- <-); try discriminate E1; try discriminate E2; cbn in H;
      (destruct l as [|c [|c1 [|c2 [|c3 l]]]]; cbn in H; try discriminate H; (destruct r as [|x r]; [auto; try discriminate H|exfalso; try discriminate H])).
  - intros s a b I. cbn in I. repeat match goal with H : _ \/ _ |- _ => destruct H as [H|H] | H : False |- _ => destruct H end;
      try discriminate I; injection I as <- <- <-; reflexivity.
Qed.

(** Finding: "1-2,11-20" configures port 10 as well, because the text of the first
    range is removed from the second. *)
Theorem C38_extra_port_refuted : exists k nums n, key_ok k /\ port_nums (key_text k) = Some nums /\ In n nums /\ ~ named k n.
Proof.
  exists (mkKey [([], Range [1] [2]); ([comma], Range [1; 1] [2; 0])] []).
  eexists. exists 10. split; [split; repeat constructor; discriminate|]. split; [vm_compute; reflexivity|]. split; [cbn; auto 20|].
  intros (s & i & I & N). cbn in I. destruct I as [I|[I|[]]]; injection I as <- <-; vm_compute in N; destruct N as [N1 N2]; congruence.
Qed.
Print Assumptions C38_extra_port_refuted.
(** Finding: of two ports configured with the same number only the last is kept, and
    nothing is reported. *)
Theorem C38_same_number_refuted : exists ports d, add_ports ports [] = Some d /\
  (exists k1 k2 c1 c2, k1 <> k2 /\ In (k1, c1) ports /\ In (k2, c2) ports /\ forall n c, ~ In (n, (k1, c)) d).
Proof.
  exists [(101, [(NUMBER, 1)]); (102, [(NUMBER, 1)])], [(1, (102, [(NUMBER, 1)]))]. split; [vm_compute; reflexivity|].
  exists 101, 102, [(NUMBER, 1)], [(NUMBER, 1)]. split; [discriminate|]. split; [left; auto|]. split; [right; left; auto|].
  intros n c [H|[]]. discriminate H.
Qed.
Print Assumptions C38_same_number_refuted.
