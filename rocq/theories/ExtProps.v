(** * C82, C83: external networks and stacks *)
From Coq Require Import ZArith List Bool Permutation Lia Arith.
From Verif Require Import PyBase PyBaseProofs StackModel StackSpec StackProofs StackFloodProofs StackRoleProofs StackOnceProofs StackNextProofs StackExamples StackProps
  ExtModel ExtSpec ExtProofs.
Import ListNotations.
Open Scope Z_scope.

(** ** C83: exactly where floods go *)
Section General.
  Variables (f : fabric) (root : Z) (xs : Z -> xswitch) (group : bool) (x p : Z).
  Hypothesis AG : agreed f root.
  Hypothesis NUM : numbered xs.
  Hypothesis MODE : group = true \/ no_parallel f.
  Hypothesis JR : joined f x root.
  Hypothesis ALONE : not_alone f x.
  Hypothesis SENDER : inside xs x p \/ outside xs x p.

  Lemma sender_member : exists e, In (mkMember p e true) (x_members (xs x)) /\ (e = false <-> inside xs x p) /\ (e = true -> outside xs x p).
  Proof.
    destruct SENDER as [I|I]; [exists false|exists true]; (split; [exact I|]); (split; [|auto; discriminate]); [tauto|]. split; [discriminate|]. intros J.
    assert (E := same_member (xs x) _ _ (NUM x) J I eq_refl). discriminate.
  Qed.
  Lemma entry_node : exists me, In me f /\ sn_name me = x.
  Proof. destruct (joined_node f x root JR) as (s & I & N). eauto. Qed.

  Lemma down_way : forall me y, In me f -> joined f y root -> (down root xs me y = true <-> forall z, on_way f y z -> ~ has_outside xs z).
  Proof.
    intros me y ME JY. destruct (joined_node f y root JY) as (s & I & N). subst y.
    assert (P := fun i z => C28_path f root s me i z AG I ME JY). unfold down. rewrite forallb_forall.
    change (path root me (sn_name s)) with (shortest_path (sn_graph me) (sn_name s) root) in *. destruct (shortest_path (sn_graph me) (sn_name s) root) as [|a l] eqn:E.
    - cbn [tl]. split; [|intros _ z []]. intros _ z (n & W). apply P in W. destruct n; discriminate.
    - cbn [tl]. split.
      + intros H z (n & W) O. apply P in W. cbn in W. apply nth_error_In in W. specialize (H z W). apply has_external_spec in O. rewrite O in H. discriminate.
      + intros H z J. apply In_nth_error in J as (n & J). assert (W := proj1 (P (S n) z) J). destruct (has_external (x_members (xs z))) eqn:O; [|reflexivity].
        apply has_external_spec in O. exfalso. exact (H z (ex_intro _ n W) O).
  Qed.
  Lemma cutn_false : forall y, cutn root xs y = false <-> y = root \/ x_candidate (xs y) = false.
  Proof.
    intros y. unfold cutn. rewrite andb_false_iff, negb_false_iff, Z.eqb_eq. reflexivity.
  Qed.

  (** With reflection (stacks with switches two links or more from the root): every
      inside port gets the frame once, but for the sender's if it is at the root; and
      the first external port of these switches: the root, if the frame came from
      inside; and any other that is no candidate for root, if no switch on its way to
      the root has external ports. *)
  Theorem C83_reflected_partial : reaches true group f xs x p (fun y q => joined f x y /\
    (inside xs y q /\ ~ (x = root /\ y = x /\ q = p) \/
     first_outside xs y q /\
       (y = root /\ inside xs x p \/
        y <> root /\ x_candidate (xs y) = false /\ forall z, on_way f y z -> ~ has_outside xs z))).
  Proof.
    destruct sender_member as (e & MI & EI & _). destruct entry_node as (me & ME & NX).
    assert (R := fun JR ALONE MI => reflected_reach f root AG xs NUM group MODE me ME JR ALONE (mkMember p e true) MI eq_refl). rewrite NX in R. specialize (R JR ALONE MI).
    eapply reaches_ext; [|exact R]. intros y q. cbn [m_no m_ext]. rewrite !given_in by apply NUM. split; (intros [J H]; split; [exact J|]); assert (JY := joined_trans f y x root (joined_sym f x y J) JR).
    - destruct H as [(XR & -> & _ & NP & [H|(CU & NE & H1 & H2)])|(NX' & _ & _ & [H|(EX & _ & H1 & H2)])].
      + left. split; [exact H|]. intros (_ & _ & ->). exact (NP _ eq_refl eq_refl).
      + right. split; [split; assumption|]. left. split; [exact XR|]. apply EI. exact (NE _ eq_refl).
      + left. split; [exact H|]. tauto.
      + right. split; [split; assumption|]. apply orb_false_iff in EX as [E1 E2]. apply negb_false_iff in E1. destruct (Z.eqb_spec y root) as [E|NE].
        * left. split; [exact E|]. apply EI. destruct e; [discriminate|reflexivity].
        * right. split; [exact NE|]. split; [apply cutn_false in E2; tauto|]. exact (proj1 (down_way me y ME JY) E1).
    - destruct H as [[H NS]|[H1 H]].
      + destruct (Z.eq_dec x root) as [XR|XR]; [destruct (Z.eq_dec y x) as [->|NE]|].
        * left. split; [exact XR|]. split; [reflexivity|]. split; [reflexivity|]. split; [|left; exact H]. intros h [= <-]. cbn. tauto.
        * right. split; [tauto|]. split; [reflexivity|]. split; [discriminate|]. left. exact H.
        * right. split; [tauto|]. split; [reflexivity|]. split; [discriminate|]. left. exact H.
      + destruct H as [[-> I]|(NR & CA & W)].
        * destruct (Z.eq_dec x root) as [XR|XR].
          -- left. split; [exact XR|]. split; [congruence|]. split; [congruence|]. rewrite XR in *. split.
             ++ intros h [= <-]. cbn. intros ->. assert (E := same_member (xs root) _ _ (NUM root) I (proj1 H1) eq_refl). discriminate.
             ++ right. split; [apply cutn_false; auto|]. split; [intros h [= <-]; apply EI; exact I|]. exact H1.
          -- right. split; [tauto|]. split; [reflexivity|]. split; [discriminate|]. right. rewrite Z.eqb_refl. split; [|split; [discriminate|exact H1]].
             rewrite (proj2 EI I). cbn. apply cutn_false. auto.
        * right. split; [intros [-> ->]; contradiction|]. split; [reflexivity|]. split; [discriminate|]. right. split; [|split; [discriminate|exact H1]].
          rewrite (proj2 (Z.eqb_neq _ _) NR), (proj2 (down_way me y ME JY) W). cbn. apply cutn_false. auto.
  Qed.

  (** Without reflection: every inside port but the sender's gets the frame once; and
      if it came from inside, the first external port of these switches that are the
      root or no candidate for root: the switch it came in at, and all others if that
      has no external ports. *)
  Theorem C83_plain_partial : reaches false group f xs x p (fun y q => joined f x y /\ ~ (y = x /\ q = p) /\
    (inside xs y q \/
     first_outside xs y q /\ inside xs x p /\ (y = root \/ x_candidate (xs y) = false) /\ (y = x \/ ~ has_outside xs x))).
  Proof.
    destruct sender_member as (e & MI & EI & EO). destruct entry_node as (me & ME & NX).
    assert (R := fun JR ALONE MI => plain_reach f root AG xs NUM group MODE me ME JR ALONE (mkMember p e true) MI eq_refl). rewrite NX in R. specialize (R JR ALONE MI).
    assert (HX : negb (has_external (x_members (xs x))) = true <-> ~ has_outside xs x).
    { rewrite <- has_external_spec. destruct (has_external _); cbn; split; congruence. }
    eapply reaches_ext; [|exact R]. intros y q. cbn [m_no m_ext]. rewrite !given_in by apply NUM. split; (intros [J H]; split; [exact J|]).
    - destruct H as [(-> & _ & NP & [H|(CU & NE & H1 & H2)])|(NX' & _ & _ & [H|(EX & _ & H1 & H2)])].
      + split; [intros [_ ->]; exact (NP _ eq_refl eq_refl)|]. auto.
      + split; [intros [_ ->]; exact (NP _ eq_refl eq_refl)|]. right. split; [split; assumption|]. split; [apply EI; exact (NE _ eq_refl)|]. split; [apply cutn_false; exact CU|auto].
      + split; [tauto|auto].
      + split; [tauto|]. right. apply orb_false_iff in EX as [E1 E2]. apply negb_false_iff in E1. apply HX in E1. split; [split; assumption|].
        split; [|split; [apply cutn_false; exact E2|auto]]. destruct SENDER as [S|S]; [exact S|]. exfalso. apply E1. exists p, true. exact S.
    - destruct H as (NS & H). destruct (Z.eq_dec y x) as [->|NE].
      + left. split; [reflexivity|]. split; [reflexivity|]. split; [intros h [= <-]; cbn; tauto|]. destruct H as [H|(H1 & I & C & _)]; [auto|right].
        split; [apply cutn_false; exact C|]. split; [intros h [= <-]; apply EI; exact I|exact H1].
      + right. split; [exact NE|]. split; [reflexivity|]. split; [discriminate|]. destruct H as [H|(H1 & I & C & [E|O])]; [auto|contradiction|right].
        apply HX in O. rewrite O. cbn. split; [apply cutn_false; exact C|]. split; [discriminate|exact H1].
  Qed.
End General.
Print Assumptions C83_reflected_partial.
Print Assumptions C83_plain_partial.

(** ** C82: when the root has the external ports *)

(** What comes in from outside stays inside: it reaches all inside ports of the stack,
    once, and no external port - in stacks with reflection, if the root has an external
    port. *)
Theorem C82_kept_in : forall f root xs group x p, agreed f root -> numbered xs -> group = true \/ no_parallel f ->
  joined f x root -> not_alone f x -> has_outside xs root -> outside xs x p ->
  reaches true group f xs x p (fun y q => joined f x y /\ inside xs y q).
Proof.
  intros f root xs group x p AG NUM MODE JR AL HO OU.
  assert (NI : ~ inside xs x p) by (intros I; assert (E := same_member (xs x) _ _ (NUM x) I OU eq_refl); discriminate).
  eapply reaches_ext; [|exact (C83_reflected_partial f root xs group x p AG NUM MODE JR AL (or_intror OU))].
  intros y q. split; (intros [J H]; split; [exact J|]).
  - destruct H as [[H _]|[_ [[_ I]|(NR & _ & W)]]]; [exact H|contradiction|]. exfalso.
    destruct (C28_to_root f root y AG (joined_trans f y x root (joined_sym f x y J) JR)) as (n & _ & FO & _). destruct n as [|n].
    + inversion FO. subst. contradiction.
    + exact (W root (ex_intro _ n FO) HO).
  - left. split; [exact H|]. intros (_ & -> & ->). contradiction.
Qed.
Print Assumptions C82_kept_in.

(** What a host sends gets outside by one port, the first external port of the root
    that is up, if there is one. *)
Theorem C82_one_way_out : forall f root xs group x p, agreed f root -> numbered xs -> group = true \/ no_parallel f ->
  joined f x root -> not_alone f x -> has_outside xs root -> inside xs x p ->
  reaches true group f xs x p (fun y q => joined f x y /\
    (inside xs y q /\ ~ (x = root /\ y = x /\ q = p) \/ y = root /\ first_outside xs root q)).
Proof.
  intros f root xs group x p AG NUM MODE JR AL HO IN.
  eapply reaches_ext; [|exact (C83_reflected_partial f root xs group x p AG NUM MODE JR AL (or_introl IN))].
  intros y q. split; (intros [J H]; split; [exact J|]).
  - destruct H as [H|[H1 [[-> _]|(NR & _ & W)]]]; [auto|auto|]. exfalso.
    destruct (C28_to_root f root y AG (joined_trans f y x root (joined_sym f x y J) JR)) as (n & _ & FO & _). destruct n as [|n].
    + inversion FO. subst. contradiction.
    + exact (W root (ex_intro _ n FO) HO).
  - destruct H as [H|[-> H]]; auto.
Qed.
Print Assumptions C82_one_way_out.

(** In stacks without reflection what comes in from outside always stays inside. *)
Theorem C82_small_kept_in : forall f root xs group x p, agreed f root -> numbered xs -> group = true \/ no_parallel f ->
  joined f x root -> not_alone f x -> outside xs x p ->
  reaches false group f xs x p (fun y q => joined f x y /\ inside xs y q).
Proof.
  intros f root xs group x p AG NUM MODE JR AL OU.
  assert (NI : ~ inside xs x p) by (intros I; assert (E := same_member (xs x) _ _ (NUM x) I OU eq_refl); discriminate).
  eapply reaches_ext; [|exact (C83_plain_partial f root xs group x p AG NUM MODE JR AL (or_intror OU))].
  intros y q. split; (intros [J H]; split; [exact J|]).
  - destruct H as [_ [H|(_ & I & _)]]; [exact H|contradiction].
  - split; [|auto]. intros [-> ->]. contradiction.
Qed.
Print Assumptions C82_small_kept_in.

(** What a host sends gets outside by one port, the first external port of the root
    that is up, if all switches with external ports are candidates for root and the
    host's is the root or has none. *)
Theorem C82_small_one_way_out : forall f root xs group x p, agreed f root -> numbered xs -> group = true \/ no_parallel f ->
  joined f x root -> not_alone f x -> (forall y, y <> root -> has_outside xs y -> x_candidate (xs y) = true) ->
  x = root \/ ~ has_outside xs x -> inside xs x p ->
  reaches false group f xs x p (fun y q => joined f x y /\
    (inside xs y q /\ ~ (y = x /\ q = p) \/ y = root /\ first_outside xs root q)).
Proof.
  intros f root xs group x p AG NUM MODE JR AL CA XO IN.
  eapply reaches_ext; [|exact (C83_plain_partial f root xs group x p AG NUM MODE JR AL (or_introl IN))].
  intros y q. split; (intros [J H]; split; [exact J|]).
  - destruct H as [NS [H|(H & _ & [->|C] & _)]]; [auto|auto|]. right. destruct (Z.eq_dec y root) as [->|NR]; [auto|]. exfalso.
    rewrite (CA y NR) in C; [discriminate|]. exists q, true. apply H.
  - destruct H as [[H NS]|[-> H]]; [auto|]. split.
    + intros [<- ->]. assert (E := same_member (xs root) _ _ (NUM root) IN (proj1 H) eq_refl). discriminate.
    + right. split; [exact H|]. split; [exact IN|]. split; [auto|]. destruct XO as [->|XO]; auto.
Qed.
Print Assumptions C82_small_one_way_out.

(** ** Examples *)
Fixpoint xrun_flood (refl group : bool) (f : fabric) (xs : Z -> xswitch) (fuel : nat) (s : xstate) : xstate :=
  match fuel, s with
  | S k, (pk :: rest, d) => let '(gv, sent) := xhandle refl group f xs pk in xrun_flood refl group f xs k (sent ++ rest, d ++ gv)
  | _, _ => s
  end.
Lemma xrun_flood_hops : forall refl group f xs fuel s, exists n, xhops refl group f xs n s (xrun_flood refl group f xs fuel s).
Proof.
  intros refl group f xs. induction fuel as [|k IH]; intros s; [exists O; constructor|]. destruct s as [[|pk rest] d]; [exists O; constructor|].
  cbn [xrun_flood]. destruct (xhandle refl group f xs pk) as [gv sent] eqn:H. destruct (IH (sent ++ rest, d ++ gv)) as (n & R). exists (S n).
  eapply xhops_more; [|exact R]. exact (xhop_one refl group f xs [] pk rest d gv sent H).
Qed.
(** Switches, each with a list of ports and whether it is a candidate for root. *)
Definition fitted (l : list (Z * (list member * bool))) (y : Z) : xswitch :=
  match dict_get Z.eqb y l with Some (ms, c) => mkXswitch ms c false | None => mkXswitch [] false false end.
Lemma fitted_numbered : forall l, forallb (fun e => nodupb (map m_no (fst (snd e)))) l = true -> numbered (fitted l).
Proof.
  intros l H y. unfold fitted. destruct (dict_get Z.eqb y l) as [[ms c]|] eqn:E; [|constructor]. cbn [x_members].
  rewrite forallb_forall in H. apply nodupb_spec. assert (I : exists k, In (k, (ms, c)) l).
  { clear H. induction l as [|[k v] l IH]; [discriminate|]. cbn in E. destruct (y =? k); [injection E as ->; exists k; left; reflexivity|]. destruct (IH E) as (k' & I). exists k'. right. exact I. }
  destruct I as (k & I). exact (H _ I).
Qed.
Definition hp (n : Z) : member := mkMember n false true.
Definition ep (n : Z) : member := mkMember n true true.
Definition dp_ (n : Z) : member := mkMember n true false.

(** The five switches of [ex_stack]; external ports at 1 (the first is down) and at 3. *)
Definition ex_fit := fitted [(1, ([hp 11; dp_ 12; ep 13; ep 14], true)); (2, ([hp 11], false)); (3, ([hp 11; ep 12], true)); (5, ([hp 11; hp 12], false))].
Example C82_case : agreed ex_stack 1 /\ numbered ex_fit /\ joined ex_stack 5 1 /\ joined ex_stack 3 1 /\ not_alone ex_stack 5 /\ not_alone ex_stack 3 /\ has_outside ex_fit 1 /\
  inside ex_fit 5 12 /\ outside ex_fit 3 12 /\ first_outside ex_fit 1 13 /\
  xrun_flood true true ex_stack ex_fit 100 (came_in 5 12) = ([], [(1, 11); (1, 13); (2, 11); (3, 11); (5, 11); (5, 12)]) /\
  xrun_flood true true ex_stack ex_fit 100 (came_in 3 12) = ([], [(1, 11); (2, 11); (3, 11); (5, 11); (5, 12)]).
Proof.
  split; [exact ex_agreed|]. split; [apply fitted_numbered; reflexivity|]. split; [apply ex_joined; cbn; auto 10|]. split; [apply ex_joined; cbn; auto 10|].
  split; [exists 1; split; [discriminate|]; apply ex_joined; cbn; auto 10|]. split; [exists 1; split; [discriminate|]; apply ex_joined; cbn; auto 10|].
  split; [exists 12, false; cbn; auto|]. split; [cbn; auto|]. split; [cbn; auto|]. split.
  - split; [cbn; auto|]. intros q I. cbn in I. repeat destruct I as [I|I]; try discriminate; try (injection I as <-; lia). destruct I.
  - split; vm_compute; reflexivity.
Qed.
(** A root with two switches at it, one of them a candidate for root. *)
Definition star : fabric := wired [1; 2; 3] 1 [(1, 1, (2, 1), true); (1, 2, (3, 1), true)].
Lemma star_agreed : agreed star 1.
Proof. apply agreed_check; vm_compute; reflexivity. Qed.
Lemma star_joined : forall x, In x [1; 2; 3] -> joined star x 1.
Proof. intros x I. repeat (destruct I as [<-|I]); [constructor; vm_compute; auto|apply joined_one; vm_compute; auto..|destruct I]. Qed.
Lemma star_not_alone : forall x, In x [1; 2; 3] -> not_alone star x.
Proof.
  intros x I. destruct (Z.eq_dec x 1) as [->|NE]; [exists 2; split; [discriminate|]; apply joined_sym; apply star_joined; cbn; auto|]. exists 1. split; [congruence|]. apply star_joined. exact I.
Qed.
Definition star_fit := fitted [(1, ([hp 11; ep 12], true)); (2, ([hp 11; ep 12; ep 13], true)); (3, ([hp 11; hp 12], false))].
Example C82_small_case : agreed star 1 /\ numbered star_fit /\ joined star 3 1 /\ joined star 2 1 /\ not_alone star 3 /\ not_alone star 2 /\
  (forall y, y <> 1 -> has_outside star_fit y -> x_candidate (star_fit y) = true) /\ ~ has_outside star_fit 3 /\ inside star_fit 3 12 /\ outside star_fit 2 13 /\
  xrun_flood false true star star_fit 100 (came_in 3 12) = ([], [(3, 11); (1, 11); (1, 12); (2, 11)]) /\
  xrun_flood false true star star_fit 100 (came_in 2 13) = ([], [(2, 11); (1, 11); (3, 11); (3, 12)]).
Proof.
  split; [exact star_agreed|]. split; [apply fitted_numbered; reflexivity|]. split; [apply star_joined; cbn; auto|]. split; [apply star_joined; cbn; auto|].
  split; [apply star_not_alone; cbn; auto|]. split; [apply star_not_alone; cbn; auto|]. split.
  - intros y NE (p & u & I). unfold star_fit, fitted in *. cbn [dict_get] in *. destruct (Z.eqb_spec y 1); [contradiction|]. destruct (y =? 2); [reflexivity|].
    destruct (y =? 3); cbn in I; [|destruct I]. repeat destruct I as [I|I]; try discriminate. destruct I.
  - split; [intros (p & u & I); cbn in I; repeat destruct I as [I|I]; try discriminate; destruct I|]. split; [cbn; auto|]. split; [cbn; auto|]. split; vm_compute; reflexivity.
Qed.

(** ** C83: what is not so *)

(** The root has no external ports: a frame that comes in from outside at another
    switch goes out of the port it came in on. *)
Theorem C83_returns_refuted : exists f root xs x p n s, agreed f root /\ numbered xs /\ joined f x root /\ not_alone f x /\ outside xs x p /\
  xhops true true f xs n (came_in x p) s /\ In (x, p) (snd s).
Proof.
  set (xs := fitted [(1, ([hp 11], true)); (2, ([hp 11; ep 12], false)); (3, ([hp 11], false))]).
  destruct (xrun_flood_hops true true star xs 100 (came_in 2 12)) as (n & H). exists star, 1, xs, 2, 12, n, (xrun_flood true true star xs 100 (came_in 2 12)).
  split; [exact star_agreed|]. split; [apply fitted_numbered; reflexivity|]. split; [apply star_joined; cbn; auto|]. split; [apply star_not_alone; cbn; auto|].
  split; [cbn; auto|]. split; [exact H|]. vm_compute. auto.
Qed.
Print Assumptions C83_returns_refuted.
(** And what a host sends goes outside twice. *)
Theorem C83_two_ways_refuted : exists f root xs x p n s y q y' q', agreed f root /\ numbered xs /\ joined f x root /\ not_alone f x /\ inside xs x p /\
  xhops true true f xs n (came_in x p) s /\ y <> y' /\ outside xs y q /\ outside xs y' q' /\ In (y, q) (snd s) /\ In (y', q') (snd s).
Proof.
  set (xs := fitted [(1, ([hp 11], true)); (2, ([hp 11; ep 12], false)); (3, ([hp 11; ep 12], false))]).
  destruct (xrun_flood_hops true true star xs 100 (came_in 1 11)) as (n & H). exists star, 1, xs, 1, 11, n, (xrun_flood true true star xs 100 (came_in 1 11)), 2, 12, 3, 12.
  split; [exact star_agreed|]. split; [apply fitted_numbered; reflexivity|]. split; [apply star_joined; cbn; auto|]. split; [apply star_not_alone; cbn; auto|].
  split; [cbn; auto|]. split; [exact H|]. split; [discriminate|]. split; [cbn; auto|]. split; [cbn; auto|]. vm_compute. auto 10.
Qed.
Print Assumptions C83_two_ways_refuted.
(** The external ports of the root are down and another switch has one that is up:
    what hosts send does not get outside. *)
Theorem C83_root_down_refuted : exists f root xs x p n s y q, agreed f root /\ numbered xs /\ joined f x root /\ not_alone f x /\ has_outside xs root /\ inside xs x p /\
  xhops true true f xs n (came_in x p) s /\ fst s = [] /\ joined f x y /\ outside xs y q /\ x_candidate (xs y) = false /\ forall z r, In (z, r) (snd s) -> inside xs z r.
Proof.
  set (xs := fitted [(1, ([hp 11; dp_ 12], true)); (2, ([hp 11; ep 12], false)); (3, ([hp 11], false))]).
  destruct (xrun_flood_hops true true star xs 100 (came_in 1 11)) as (n & H). exists star, 1, xs, 1, 11, n, (xrun_flood true true star xs 100 (came_in 1 11)), 2, 12.
  split; [exact star_agreed|]. split; [apply fitted_numbered; reflexivity|]. split; [apply star_joined; cbn; auto|]. split; [apply star_not_alone; cbn; auto|].
  split; [exists 12, false; cbn; auto|]. split; [cbn; auto|]. split; [exact H|]. split; [vm_compute; reflexivity|]. split; [apply joined_sym; apply star_joined; cbn; auto|].
  split; [cbn; auto|]. split; [reflexivity|]. intros z r I. vm_compute in I. repeat destruct I as [I|I]; try (injection I as <- <-; cbn; auto). destruct I.
Qed.
Print Assumptions C83_root_down_refuted.
(** Without reflection: what a host sends whose switch has external ports and is a
    candidate for root, but not the root, does not get outside, even though the root
    has an external port that is up. *)
Theorem C83_candidate_refuted : exists f root xs x p n s q, agreed f root /\ numbered xs /\ joined f x root /\ not_alone f x /\ inside xs x p /\ outside xs root q /\
  xhops false true f xs n (came_in x p) s /\ fst s = [] /\ forall z r, In (z, r) (snd s) -> inside xs z r.
Proof.
  destruct (xrun_flood_hops false true star star_fit 100 (came_in 2 11)) as (n & H). exists star, 1, star_fit, 2, 11, n, (xrun_flood false true star star_fit 100 (came_in 2 11)), 12.
  split; [exact star_agreed|]. split; [apply fitted_numbered; reflexivity|]. split; [apply star_joined; cbn; auto|]. split; [apply star_not_alone; cbn; auto|].
  split; [cbn; auto|]. split; [cbn; auto|]. split; [exact H|]. split; [vm_compute; reflexivity|].
  intros z r I. vm_compute in I. repeat destruct I as [I|I]; try (injection I as <- <-; cbn; auto). destruct I.
Qed.
Print Assumptions C83_candidate_refuted.
(** Without reflection: if a switch that is no candidate has an external port like the
    root, what hosts of a third one send gets outside twice. *)
Theorem C83_small_two_ways_refuted : exists f root xs x p n s y q y' q', agreed f root /\ numbered xs /\ joined f x root /\ not_alone f x /\ inside xs x p /\
  xhops false true f xs n (came_in x p) s /\ y <> y' /\ outside xs y q /\ outside xs y' q' /\ In (y, q) (snd s) /\ In (y', q') (snd s).
Proof.
  set (xs := fitted [(1, ([hp 11; ep 12], true)); (2, ([hp 11; ep 12], false)); (3, ([hp 11], false))]).
  destruct (xrun_flood_hops false true star xs 100 (came_in 3 11)) as (n & H). exists star, 1, xs, 3, 11, n, (xrun_flood false true star xs 100 (came_in 3 11)), 1, 12, 2, 12.
  split; [exact star_agreed|]. split; [apply fitted_numbered; reflexivity|]. split; [apply star_joined; cbn; auto|]. split; [apply star_not_alone; cbn; auto|].
  split; [cbn; auto|]. split; [exact H|]. split; [discriminate|]. split; [cbn; auto|]. split; [cbn; auto|]. vm_compute. auto 10.
Qed.
Print Assumptions C83_small_two_ways_refuted.
(** The root alone, with nothing but external ports: what comes in from one goes out
    of another. *)
Theorem C83_alone_refuted : exists f root xs x p q n s, agreed f root /\ numbered xs /\ joined f x root /\ has_outside xs root /\ outside xs x p /\ outside xs x q /\ p <> q /\
  xhops true true f xs n (came_in x p) s /\ In (x, q) (snd s).
Proof.
  set (f := wired [1; 2; 3] 1 [(1, 1, (2, 1), false); (2, 2, (3, 1), true)]). set (xs := fitted [(1, ([ep 11; ep 12], true)); (2, ([hp 11], false)); (3, ([hp 11], false))]).
  destruct (xrun_flood_hops true true f xs 100 (came_in 1 12)) as (n & H). exists f, 1, xs, 1, 12, 11, n, (xrun_flood true true f xs 100 (came_in 1 12)).
  split; [apply agreed_check; vm_compute; reflexivity|]. split; [apply fitted_numbered; reflexivity|]. split; [constructor; vm_compute; auto|].
  split; [exists 11, true; cbn; auto|]. split; [cbn; auto|]. split; [cbn; auto|]. split; [discriminate|]. split; [exact H|]. vm_compute. auto.
Qed.
Print Assumptions C83_alone_refuted.
