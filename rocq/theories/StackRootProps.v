(** * Choosing the root of a stack: the properties *)
From Coq Require Import ZArith QArith List Bool Lia Lqa Permutation.
From Verif Require Import PyBase StackRootModel StackRootSpec StackRootProofs.
Import ListNotations.
Open Scope Z_scope.

(** ** C31: health *)

(** A switch is found healthy exactly when it was in contact recently and enough of
    its stack and LACP ports are up. *)
Theorem C31_healthy : forall n live now update_time, NoDup (map fst live) ->
  (nd_healthy (update_health n now live update_time) = true <-> well live now update_time n).
Proof. intros n live now ut ND. apply upd_well; auto. Qed.
Print Assumptions C31_healthy.

(** After any history, when the root has been looked at, the noted health of every
    switch that can be root is right. *)
Theorem C31_history : forall es now update_time n, well_configured es ->
  let m := mstep (mrun es minit) (MMaintain now update_time) in
  In n (mg_nodes m) -> can_be_root n ->
  (nd_healthy n = true <-> well (mg_live m) now update_time n).
Proof. intros es now ut n W m. apply maintain_health. apply mrun_sound; auto. Qed.
Print Assumptions C31_history.

(** The time a switch is taken to have been last running is that of the last event
    at which the controller saw it. *)
Theorem C31_contact : forall es x t, well_configured es ->
  (In (x, t) (mg_live (mrun es minit)) <-> last_contact es x t).
Proof.
  intros es x t W. rewrite <- live_last. apply dict_some_in. apply (mrun_sound es W).
Qed.
Print Assumptions C31_contact.

Lemma enough_more : forall l1 l2 q, (q <= 1)%Q -> enough (l1 ++ l2) q -> enough (l1 ++ true :: l2) q.
Proof.
  intros l1 l2 q Q E. right. unfold total, ups in *. rewrite app_length in *. cbn [length] in *.
  rewrite count_occ_app in *. cbn [count_occ]. destruct (bool_dec true true) as [_|N]; [|congruence].
  set (u := (count_occ bool_dec l1 true + count_occ bool_dec l2 true)%nat) in *.
  replace (count_occ bool_dec l1 true + S (count_occ bool_dec l2 true))%nat with (S u) by (unfold u; lia).
  rewrite Nat.add_succ_r, !Nat2Z.inj_succ. unfold Z.succ. rewrite !inject_Z_plus.
  assert (I : inject_Z 1 == 1) by reflexivity. rewrite I.
  destruct E as [E|E].
  - apply app_eq_nil in E as [-> ->]. unfold u. cbn [app length count_occ Nat.add Z.of_nat]. change (inject_Z 0) with 0%Q. lra.
  - unfold total, ups in E. rewrite app_length, count_occ_app in E. fold u in E. lra.
Qed.

(** Another port that is up, stack or LACP, does not make a healthy switch
    unhealthy as long as the minima are at most 1. *)
Theorem C31_more_ports : forall n live now update_time s1 s2 l1 l2,
  (nd_min_stack n <= 1)%Q -> (nd_min_lacp n <= 1)%Q ->
  well live now update_time (set_ports (nd_running n) (s1 ++ s2) (l1 ++ l2) n) ->
  well live now update_time (set_ports (nd_running n) (s1 ++ true :: s2) (l1 ++ l2) n) /\
  well live now update_time (set_ports (nd_running n) (s1 ++ s2) (l1 ++ true :: l2) n).
Proof.
  intros n live now ut s1 s2 l1 l2 QS QL (C & S & L).
  split; (split; [exact C|]); (split; [|try exact L]); cbn [nd_stack nd_lacp nd_min_stack nd_min_lacp set_ports] in *;
    try exact S; apply enough_more; auto.
Qed.
Print Assumptions C31_more_ports.

(** Neither does a port that comes up, whatever the minima. *)
Lemma enough_up : forall l1 l2 q, enough (l1 ++ false :: l2) q -> enough (l1 ++ true :: l2) q.
Proof.
  intros l1 l2 q [E|E]; [destruct l1; discriminate E|]. right.
  unfold total, ups in *. rewrite app_length, count_occ_app in *. cbn [length count_occ] in *.
  destruct (bool_dec true true) as [_|N]; [|congruence]. destruct (bool_dec false true) as [N|_]; [discriminate N|].
  eapply Qle_trans; [exact E|]. rewrite <- Zle_Qle. lia.
Qed.

Theorem C31_port_up : forall n live now update_time s1 s2 l1 l2 b c,
  well live now update_time (set_ports (nd_running n) (s1 ++ b :: s2) (l1 ++ c :: l2) n) ->
  well live now update_time (set_ports (nd_running n) (s1 ++ true :: s2) (l1 ++ true :: l2) n).
Proof.
  intros n live now ut s1 s2 l1 l2 b c (C & S & L). split; [exact C|].
  cbn [nd_stack nd_lacp nd_min_stack nd_min_lacp set_ports] in *.
  split; [destruct b; [exact S|apply enough_up; exact S]|destruct c; [exact L|apply enough_up; exact L]].
Qed.
Print Assumptions C31_port_up.

(** ** C30: the choice *)

(** After any history, looking at the root makes the right choice, and all switches
    are told the root that was chosen. *)
Theorem C30_choice : forall es now update_time, well_configured es ->
  let m := mrun es minit in
  let m' := mstep m (MMaintain now update_time) in
  exists current res, current_root m current /\
    right_choice (mg_nodes m) (mg_live m') now update_time current res /\
    match res with
    | Some r => mg_root m' = Some r /\ forall n, In n (mg_nodes m') -> nd_root n = r
    | None => mg_root m' = mg_root m /\ map nd_root (mg_nodes m') = map nd_root (mg_nodes m)
    end.
Proof. intros es now ut W m m'. apply maintain_spec. apply mrun_sound; auto. Qed.
Print Assumptions C30_choice.

(** There is no more than one right choice. *)
Theorem C30_one_choice : forall nodes live now update_time current a b,
  right_choice nodes live now update_time current a ->
  right_choice nodes live now update_time current b -> a = b.
Proof. exact right_unique. Qed.
Print Assumptions C30_one_choice.

(** The order in which the switches are listed makes no difference. *)
Theorem C30_order : forall nodes nodes' current now live update_time,
  distinct nodes -> NoDup (map fst live) -> Permutation nodes nodes' ->
  fst (nominate_root nodes current now live update_time) =
  fst (nominate_root nodes' current now live update_time).
Proof.
  intros nodes nodes' current now live ut D ND P.
  assert (D' : distinct nodes').
  { destruct D as [A B]. split; [refine (Permutation_NoDup _ A)|refine (Permutation_NoDup _ B)]; apply Permutation_map; auto. }
  eapply right_unique; [|apply nominate_root_right; auto].
  eapply right_perm; [|apply nominate_root_right; auto].
  intros n. split; apply Permutation_in; [|symmetry]; auto.
Qed.
Print Assumptions C30_order.

(** A current root that is well stays root, whatever the others are like. *)
Theorem C30_kept : forall es now update_time n, well_configured es ->
  let m := mrun es minit in
  let m' := mstep m (MMaintain now update_time) in
  In n (mg_nodes m) -> can_be_root n -> well (mg_live m') now update_time n -> mg_root m = Some (nd_name n) ->
  mg_root m' = Some (nd_name n).
Proof.
  intros es now ut n W m m' I C H R.
  destruct (C30_choice es now ut W) as (c & res & CR & RC & E). fold m m' in CR, RC, E.
  assert (X : res = Some (nd_name n)).
  { eapply right_unique; [exact RC|]. apply keep_well; auto. apply CR. split; auto. apply in_map; auto. }
  subst res. apply E.
Qed.
Print Assumptions C30_kept.

(** Once there is a root there always is one, and only looking at the root changes
    it. *)
Theorem C30_always_one : forall es e r, well_configured (es ++ [e]) ->
  mg_root (mrun es minit) = Some r ->
  exists r', mg_root (mrun (es ++ [e]) minit) = Some r' /\
    (r' = r \/ exists now update_time, e = MMaintain now update_time).
Proof.
  intros es e r W R. rewrite mrun_snoc.
  destruct e as [x s l k|x now|nodes|now ut]; try (exists r; split; auto; fail).
  assert (W' : well_configured es) by (intros ns I; apply W; apply in_or_app; auto).
  destruct (C30_choice es now ut W') as (c & res & _ & _ & E).
  destruct res as [r'|]; [exists r'|exists r]; split; eauto; try apply E. destruct E as [-> _]; auto.
Qed.
Print Assumptions C30_always_one.

(** The first configuration that is loaded makes the switch with the lowest
    priority, and of those with the lowest identifier, the root everywhere. *)
Theorem C30_first_load : forall nodes, distinct nodes -> (exists n, In n nodes /\ can_be_root n) ->
  exists r, In r nodes /\ can_be_root r /\
    (forall o, In o nodes -> can_be_root o -> o <> r -> configured_before r o) /\
    forall n, In n (mg_nodes (mstep minit (MConfig nodes))) -> nd_root n = nd_name r.
Proof.
  intros nodes D E. destruct (resolve_first nodes D E) as (r & I & C & R & B).
  exists r. split; auto. split; auto. split; auto. cbn [mstep mg_nodes minit mg_root]. unfold reload_root. rewrite R.
  intros n J. apply in_map_iff in J as (o & <- & _). reflexivity.
Qed.
Print Assumptions C30_first_load.

(** Loading configuration in which the current root can still be root keeps it. *)
Theorem C30_reload_keeps : forall es nodes n,
  mg_root (mrun es minit) = Some (nd_name n) -> In n nodes -> can_be_root n ->
  forall o, In o (mg_nodes (mstep (mrun es minit) (MConfig nodes))) -> nd_root o = nd_name n.
Proof.
  intros es nodes n R I C. cbn [mstep mg_nodes]. rewrite R. exact (reload_told nodes (nd_name n) n I eq_refl C).
Qed.
Print Assumptions C30_reload_keeps.

(** ** Cases *)

Definition ex_node (id prio : Z) (running : bool) (stack lacp : list bool) : node :=
  mkNode id (10 * id) prio 3 (1 # 2) (1 # 2) running stack lacp (false, 0%Q, 0%Q) false 0.

Definition ex_nodes : list node :=
  [ex_node 1 1 true [true; true] [true; false];
   ex_node 2 2 true [true; false] [true];
   ex_node 3 3 true [true; true] [true; true];
   ex_node 4 0 true [true; true] []].

Lemma ex_distinct : distinct ex_nodes.
Proof. split; cbn; repeat (constructor; [cbn; intuition discriminate|]); constructor. Qed.

(** The first load makes switch 1 root; the first look keeps nobody and picks switch
    3, which has most ports up; when its ports fail, switch 1 is next; when it
    recovers nothing changes; when all fail, the root stays. *)
Definition ex_history : list mevent :=
  [MConfig ex_nodes; MMaintain 1000 5;
   MState 30 true [false; false] [true; true]; MMaintain 1005 5;
   MState 30 true [true; true] [true; true]; MMaintain 1010 5;
   MState 10 false [false; false] []; MState 20 false [] []; MState 30 false [false] [];
   MMaintain 1015 5; MMaintain 1100 5].
Example ex_roots : map (fun k => mg_root (mrun (firstn k ex_history) minit)) [1; 2; 4; 6; 10; 11]%nat =
  [None; Some 30; Some 10; Some 10; Some 20; Some 20].
Proof. vm_compute. reflexivity. Qed.
Example ex_history_ok : well_configured ex_history.
Proof.
  intros nodes I. repeat (destruct I as [I|I]; [try discriminate I|]); [|contradiction].
  injection I as <-. exact ex_distinct.
Qed.
Example ex_first_roots : map nd_root (mg_nodes (mstep minit (MConfig ex_nodes))) = [10; 10; 10; 10].
Proof. vm_compute. reflexivity. Qed.
Example ex_well : forall n, In n ex_nodes -> well [(10, 990); (20, 990); (30, 990); (40, 990)] 1000 5 n.
Proof.
  intros n I. apply C31_healthy; [cbn; repeat (constructor; [cbn; intuition discriminate|]); constructor|].
  repeat (destruct I as [<-|I]; [vm_compute; reflexivity|]). contradiction.
Qed.

(** ** What does not hold *)

(** Priority does not decide between healthy switches: switch 1 has the better
    priority, is running and has every port up, but no LACP ports.  That counts as
    none of them being up (stack.py 220-223, although the comment there says
    otherwise), so that a switch with half of its LACP ports down is preferred. *)
Theorem C30_priority_refuted : exists nodes live now update_time a b,
  distinct nodes /\ In a nodes /\ In b nodes /\ can_be_root a /\ can_be_root b /\
  well live now update_time a /\ well live now update_time b /\
  configured_before a b /\ (forall p, In p (nd_stack a ++ nd_lacp a) -> p = true) /\
  (exists p, In p (nd_stack b ++ nd_lacp b) /\ p = false) /\
  fst (nominate_root nodes None now live update_time) = Some (nd_name b).
Proof.
  set (a := ex_node 1 1 true [true; true] []). set (b := ex_node 2 2 true [true; true] [true; false]).
  exists [a; b], [(10, 1000); (20, 1000)], 1000, 5, a, b.
  split; [split; cbn; repeat (constructor; [cbn; intuition discriminate|]); constructor|].
  assert (N : NoDup (map fst [(10, 1000); (20, 1000)])) by (cbn; repeat (constructor; [cbn; intuition discriminate|]); constructor).
  split; [left; auto|]. split; [right; left; auto|]. split; [intros X; discriminate X|]. split; [intros X; discriminate X|].
  split; [apply C31_healthy; [exact N|vm_compute; reflexivity]|].
  split; [apply C31_healthy; [exact N|vm_compute; reflexivity]|].
  split; [left; reflexivity|].
  split; [cbn; intuition|]. split; [exists false; cbn; intuition|]. vm_compute. reflexivity.
Qed.
Print Assumptions C30_priority_refuted.

(** It is not so that some root is chosen whenever there is a candidate: none of
    them may have been in contact. *)
Theorem C30_somebody_refuted : exists nodes live now update_time n,
  distinct nodes /\ In n nodes /\ can_be_root n /\ fst (nominate_root nodes None now live update_time) = None.
Proof.
  exists ex_nodes, [], 1000, 5, (ex_node 1 1 true [true; true] [true; false]).
  split; [exact ex_distinct|]. split; [left; auto|]. split; [intros X; discriminate X|]. vm_compute. reflexivity.
Qed.
Print Assumptions C30_somebody_refuted.

(** A minimum above 1 is accepted, and then the first port of a switch makes it
    unhealthy although it is up. *)
Theorem C31_more_ports_refuted : exists n live now update_time,
  well live now update_time (set_ports true [] [] n) /\ ~ well live now update_time (set_ports true [true] [] n).
Proof.
  exists (mkNode 1 10 1 3 2 1 true [] [] (false, 0%Q, 0%Q) false 10), [(10, 1000)], 1000, 5.
  assert (N : NoDup (map fst [(10, 1000)])) by (cbn; repeat (constructor; [cbn; intuition discriminate|]); constructor).
  split; [apply C31_healthy; [exact N|vm_compute; reflexivity]|].
  intros W. apply (proj2 (C31_healthy _ _ _ _ N)) in W. vm_compute in W. discriminate W.
Qed.
Print Assumptions C31_more_ports_refuted.
