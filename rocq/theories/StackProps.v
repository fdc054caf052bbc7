(** * C28, C29, C58, C59: paths, floods and next hops in a stack *)
From Coq Require Import ZArith List Bool Permutation Lia Arith.
From Verif Require Import PyBase PyBaseProofs StackModel StackSpec StackProofs StackFloodProofs StackRoleProofs StackOnceProofs StackNextProofs StackExamples.
Import ListNotations.
Open Scope Z_scope.

(** Five switches: a ring 1-2-3-4 with a double link 1-2 and a double link 3-4
    (one of them down), and switch 5 hanging off switch 3. *)
Definition ex_wires : list wire :=
  [(1, 1, (2, 2), true); (1, 2, (2, 1), true); (2, 3, (3, 1), true); (3, 2, (4, 1), true); (3, 3, (4, 2), false);
   (4, 3, (1, 3), true); (3, 4, (5, 1), true)].
Definition ex_stack : fabric := wired [1; 2; 3; 4; 5] 1 ex_wires.
Lemma ex_agreed : agreed ex_stack 1.
Proof. apply agreed_check; vm_compute; reflexivity. Qed.
Lemma ex_joined : forall x, In x [1; 2; 3; 4; 5] -> joined ex_stack x 1.
Proof.
  intros x I. repeat (destruct I as [<-|I]); [..|destruct I].
  - constructor. vm_compute. auto.
  - apply joined_one; vm_compute; auto.
  - apply (joined_trans _ 3 2 1); apply joined_one; vm_compute; auto 10.
  - apply joined_one; vm_compute; auto.
  - apply (joined_trans _ 5 3 1); [apply joined_one; vm_compute; auto 10|]. apply (joined_trans _ 3 2 1); apply joined_one; vm_compute; auto 10.
Qed.

(** ** C28 *)

(** The path between two switches is a shortest one, the first by name among
    those; there is none exactly when the switches are not connected. *)
Theorem C28_shortest : forall g x y, graph_ok g ->
  (connected g x y -> chosen_path g x y (shortest_path g x y)) /\ (~ connected g x y -> shortest_path g x y = []).
Proof.
  intros g x y OK. split.
  - intros C. destruct (connected_path g OK x y C) as (r & E). rewrite E. apply (shortest_path_chosen g OK); [exact E|discriminate].
  - intros N. destruct (shortest_path g x y) as [|w r] eqn:E; [reflexivity|]. exfalso. apply N. exists (w :: r).
    apply (shortest_path_chosen g OK x y _ E). discriminate.
Qed.
Print Assumptions C28_shortest.
(** Only one path can be chosen. *)
Theorem C28_unique : forall g x y p q, chosen_path g x y p -> chosen_path g x y q -> p = q.
Proof. exact chosen_unique. Qed.
Print Assumptions C28_unique.
Example C28_shortest_case : graph_ok (wired_graph [1; 2; 3; 4; 5] ex_wires) /\ shortest_path (wired_graph [1; 2; 3; 4; 5] ex_wires) 3 1 = [3; 2; 1] /\
  shortest_path (wired_graph [1; 2; 3; 4; 5; 6] ex_wires) 6 1 = [].
Proof.
  split; [|split; vm_compute; reflexivity]. assert (I : In (hd (mkSnode 0 [] 0 (mkGraph [] [])) ex_stack) ex_stack) by (left; reflexivity).
  exact (graph_ok_of ex_stack 1 ex_agreed _ I).
Qed.

(** The switches agree on all paths. *)
Theorem C28_agree : forall f root s t x y, agreed f root -> In s f -> In t f ->
  shortest_path (sn_graph s) x y = shortest_path (sn_graph t) x y.
Proof. intros f root s t x y AG I J. exact (shortest_same f root AG t J s I x y). Qed.
Print Assumptions C28_agree.

(** Following the port each switch has chosen towards the root leads to the root,
    in as many hops as the distance and through no switch twice. *)
Theorem C28_to_root : forall f root x, agreed f root -> joined f x root ->
  exists n, distance f x root n /\ arrives (fun s => ro_chosen_port (reset_peer_distances f s)) f x root n.
Proof.
  intros f root x AG J. destruct (joined_node f x root J) as (s & I & N). subst x. assert (C := proj2 (conn_joined f root AG s I _) J).
  exists (length (path root s (sn_name s)) - 1)%nat. split; [exact (shortest_distance f root AG s I _ _ _ eq_refl C)|].
  assert (P := conn_pos root s _ C). destruct (joined_node f root (sn_name s) (joined_sym f _ _ J)) as (t & It & Nt).
  apply (arrives_intro f root AG _ _ _ _ t It Nt (root_none f root AG t It Nt)).
  apply (follow_root f root AG s I (length (path root s (sn_name s)) - 1) s); [lia|exact I|].
  (* the last switch of the path is the root *)
  assert (LAST : forall n x, conn root s x -> (length (path root s x) <= S n)%nat -> nth_error (path root s x) (length (path root s x) - 1) = Some root).
  { clear - AG I. induction n as [|n IH]; intros x CX L; destruct (path_cases f root AG s I x CX) as [[E1 E2]|[NE (z & E & A & CZ)]].
    - rewrite E2. cbn. congruence.
    - rewrite E in L. cbn in L. assert (P := conn_pos root s z CZ). lia.
    - rewrite E2. cbn. congruence.
    - rewrite E in L |- *. cbn [length] in L |- *. assert (P := conn_pos root s z CZ). specialize (IH z CZ ltac:(lia)).
      rewrite Nat.sub_succ, Nat.sub_0_r. destruct (length (path root s z)) as [|k] eqn:EL; [lia|]. cbn [nth_error]. rewrite Nat.sub_succ, Nat.sub_0_r in IH. exact IH. }
  apply (LAST (length (path root s (sn_name s)))); [exact C|lia].
Qed.
Print Assumptions C28_to_root.

(** The switches passed are those of the path the switch computes for itself, and
    of the path any other switch computes for it. *)
Theorem C28_path : forall f root s t i y, agreed f root -> In s f -> In t f -> joined f (sn_name s) root ->
  (nth_error (shortest_path (sn_graph t) (sn_name s) root) i = Some y <->
   follows (fun s => ro_chosen_port (reset_peer_distances f s)) f i (sn_name s) y).
Proof.
  intros f root s t i y AG I J JO. assert (C := proj2 (conn_joined f root AG t J _) JO). assert (P := conn_pos root t _ C).
  rewrite (follow_root f root AG t J (length (path root t (sn_name s)) - 1) s) by (lia || exact I). reflexivity.
Qed.
Print Assumptions C28_path.

Example C28_case : agreed ex_stack 1 /\ joined ex_stack 5 1 /\ distance ex_stack 5 1 3 /\
  map (fun s => (sn_name s, option_map sp_no (ro_chosen_port (reset_peer_distances ex_stack s)))) ex_stack
  = [(1, None); (2, Some 1); (3, Some 1); (4, Some 3); (5, Some 1)].
Proof.
  split; [exact ex_agreed|]. split; [apply ex_joined; cbn; auto 10|]. split; [|vm_compute; reflexivity].
  set (s := hd (mkSnode 0 [] 0 (mkGraph [] [])) ex_stack). assert (I : In s ex_stack) by (left; reflexivity).
  assert (E : shortest_path (sn_graph s) 5 1 = [5; 3; 2; 1]) by (vm_compute; reflexivity).
  exact (shortest_distance ex_stack 1 ex_agreed s I 5 1 _ E ltac:(discriminate)).
Qed.

(** ** C29 *)

(** A packet to a group address that a host sends into any switch connected to the
    root is handed to the hosts of every switch connected to it exactly once, after
    which nothing is in flight any more - with and without reflection by the root,
    and whatever the order in which the copies travel. *)
Theorem C29_broadcast : forall f root reflection x, agreed f root -> joined f x root -> floods_once reflection true f x.
Proof. intros f root refl x AG J. apply (once f root); auto. Qed.
Print Assumptions C29_broadcast.

Example C29_case : agreed ex_stack 1 /\ joined ex_stack 5 1 /\
  run_flood true true ex_stack 100 (sent_from 5) = ([], [1; 4; 2; 3; 5]) /\ run_flood false true ex_stack 100 (sent_from 4) = ([], [4; 1; 2; 3; 5]).
Proof. split; [exact ex_agreed|]. split; [apply ex_joined; cbn; auto 10|]. split; vm_compute; reflexivity. Qed.

(** A switch may be configured as stacked to itself.  Its hosts then get a
    broadcast twice. *)
Theorem C29_self_link_refuted : exists f root x n s, agreeing f root /\ joined f x root /\
  hops true true f n (sent_from x) s /\ ~ NoDup (snd s).
Proof.
  set (f := wired [1] 1 [(1, 1, (1, 2), true)]). destruct (run_flood_hops true true f 10 (sent_from 1)) as (n & H).
  exists f, 1, 1, n, (run_flood true true f 10 (sent_from 1)). split; [apply agreeing_check; vm_compute; reflexivity|].
  split; [constructor; vm_compute; auto|]. split; [exact H|]. vm_compute. intros N. inversion N as [|? ? A _]; subst. apply A. left. reflexivity.
Qed.
Print Assumptions C29_self_link_refuted.

(** Switches cut off from the root do not reach all of each other: with reflection
    the hosts of the switch a broadcast enters do not get it. *)
Theorem C29_cut_off_refuted : exists f root x y n s, agreed f root /\ joined f x y /\
  hops true true f n (sent_from x) s /\ fst s = [] /\ ~ In y (snd s).
Proof.
  set (f := wired [1; 2; 3] 1 [(1, 1, (2, 1), false); (2, 2, (3, 1), true)]). destruct (run_flood_hops true true f 10 (sent_from 2)) as (n & H).
  exists f, 1, 2, 2, n, (run_flood true true f 10 (sent_from 2)). split; [apply agreed_check; vm_compute; reflexivity|].
  split; [constructor; vm_compute; auto|]. split; [exact H|]. split; [vm_compute; reflexivity|]. vm_compute. intros [E|[]]. discriminate E.
Qed.
Print Assumptions C29_cut_off_refuted.
(** Without reflection, not even every other switch is reached. *)
Theorem C29_cut_off_plain_refuted : exists f root x y n s, agreed f root /\ joined f x y /\ x <> y /\
  hops false true f n (sent_from x) s /\ fst s = [] /\ ~ In y (snd s).
Proof.
  set (f := wired [1; 2; 3; 4] 1 [(1, 1, (2, 1), false); (2, 2, (3, 1), true); (3, 2, (4, 1), true)]).
  destruct (run_flood_hops false true f 10 (sent_from 2)) as (n & H).
  exists f, 1, 2, 4, n, (run_flood false true f 10 (sent_from 2)). split; [apply agreed_check; vm_compute; reflexivity|].
  split; [apply (joined_trans _ 2 3 4); apply joined_one; vm_compute; auto 10|]. split; [discriminate|]. split; [exact H|].
  split; [vm_compute; reflexivity|]. vm_compute. intros I. repeat destruct I as [I|I]; try discriminate I; contradiction.
Qed.
Print Assumptions C29_cut_off_plain_refuted.

(** ** C59 *)

(** The same for unicast packets to unknown destinations, if no two switches have
    more than one link between them. *)
Theorem C59_unicast_partial : forall f root reflection x, agreed f root -> no_parallel f -> joined f x root -> floods_once reflection false f x.
Proof. intros f root refl x AG NP J. apply (once f root); auto. Qed.
Print Assumptions C59_unicast_partial.

Definition ex_line : fabric := wired [1; 2; 3] 2 [(1, 1, (2, 1), true); (2, 2, (3, 1), true); (3, 2, (1, 2), true)].
Example C59_case : agreed ex_line 2 /\ no_parallel ex_line /\ run_flood true false ex_line 50 (sent_from 3) = ([], [2; 1; 3]).
Proof.
  split; [apply agreed_check; vm_compute; reflexivity|]. split; [|vm_compute; reflexivity].
  intros x y p q p' q' (s & t & Is & Ns & Ip & Up & It & Nt & Iq & Uq & E1 & E2 & _) (s' & t' & Is' & Ns' & Ip' & Up' & It' & Nt' & Iq' & Uq' & E1' & E2' & _).
  vm_compute in Is, Is'. repeat (destruct Is as [Is|Is]; [subst s|]); try contradiction; cbn in Ns; subst x;
    repeat (destruct Is' as [Is'|Is']; [subst s'|]); try contradiction; cbn in Ns'; try discriminate Ns'; cbn in Ip, Ip';
    repeat (destruct Ip as [Ip|Ip]; [subst p|]); try contradiction; repeat (destruct Ip' as [Ip'|Ip']; [subst p'|]); try contradiction; try reflexivity;
    cbn in E1, E1'; exfalso; lia.
Qed.

(** With two links between the same switches, unicast packets to unknown
    destinations arrive more than once: only group addresses are kept off the
    second link. *)
Theorem C59_parallel_refuted : exists f root x n s, agreed f root /\ joined f x root /\
  hops true false f n (sent_from x) s /\ fst s = [] /\ ~ NoDup (snd s).
Proof.
  set (f := wired [1; 2] 1 [(1, 1, (2, 1), true); (1, 2, (2, 2), true)]). destruct (run_flood_hops true false f 50 (sent_from 1)) as (n & H).
  exists f, 1, 1, n, (run_flood true false f 50 (sent_from 1)). split; [apply agreed_check; vm_compute; reflexivity|].
  split; [constructor; vm_compute; auto|]. split; [exact H|]. split; [vm_compute; reflexivity|].
  vm_compute. intros N. repeat (match goal with H : NoDup (_ :: _) |- _ => inversion H; subst; clear H end). cbn in *. tauto.
Qed.
Print Assumptions C59_parallel_refuted.

(** ** C58 *)

(** Packets for a host on another switch, sent along the tree (up to the first
    switch that has the destination below it and down from there), get there
    through no switch twice. *)
Theorem C58_along_tree : forall f root x d, agreed f root -> joined f x root -> joined f d root ->
  exists n, arrives (fun s => relative_port_towards f s d) f x d n /\
    forall i j, distance f x root i -> distance f d root j -> (n <= i + j)%nat.
Proof.
  intros f root x d AG J JD. destruct (joined_node f x root J) as (s & I & N). subst x. assert (C := proj2 (conn_joined f root AG s I _) J).
  assert (CD := proj2 (conn_joined f root AG s I _) JD). destruct (joined_node f d root JD) as (t & It & Nt).
  destruct (follow_to f root AG s I d CD (length (path root s (sn_name s))) s (le_n _) I C) as (k & F & B). exists k. split.
  - exact (arrives_intro f root AG _ k _ _ t It Nt (rel_here f root AG s I d CD t It Nt) F).
  - intros i j [CI MI] [CJ MJ]. assert (DS := shortest_distance f root AG s I _ _ _ eq_refl C). assert (DD := shortest_distance f root AG s I _ _ _ eq_refl CD).
    destruct DS as [_ DS], DD as [_ DD]. specialize (DS i CI). specialize (DD j CJ).
    change (shortest_path (sn_graph s) (sn_name s) root) with (path root s (sn_name s)) in DS.
    change (shortest_path (sn_graph s) d root) with (path root s d) in DD. lia.
Qed.
Print Assumptions C58_along_tree.
(** Sent along shortest paths, they get there in as many hops as the distance. *)
Theorem C58_shortest_partial : forall f root x d, agreed f root -> joined f x d ->
  (forall s p, In s f -> In p (sn_ports s) -> sp_running p = sp_up p) ->
  exists n, distance f x d n /\ arrives (fun s => default_port_towards s d) f x d n.
Proof.
  intros f root x d AG J RUN. destruct (joined_node f x d J) as (s & I & N). subst x.
  destruct (joined_node f d (sn_name s) (joined_sym f _ _ J)) as (t & It & Nt).
  apply (joined_path f root AG s I) in J. destruct (connected_path (sn_graph s) (graph_ok_of f root AG s I) _ _ J) as (r & E).
  exists (length (sn_name s :: r) - 1)%nat. split; [exact (shortest_distance f root AG s I _ _ _ E ltac:(discriminate))|].
  apply (arrives_intro f root AG _ _ _ _ t It Nt (default_here f root AG s I d t It Nt)).
  exact (follow_default f root AG s I RUN d _ s I E ltac:(discriminate)).
Qed.
Print Assumptions C58_shortest_partial.
Example C58_case : map (fun s => (option_map sp_no (relative_port_towards ex_stack s 4), option_map sp_no (default_port_towards s 4))) ex_stack
  = [(Some 3, Some 3); (Some 1, Some 1); (Some 1, Some 2); (None, None); (Some 1, Some 1)] /\
  (forall s p, In s ex_stack -> In p (sn_ports s) -> sp_running p = sp_up p).
Proof.
  split; [vm_compute; reflexivity|]. intros s p I P. vm_compute in I. repeat (destruct I as [I|I]; [subst s|]); try contradiction;
    cbn in P; repeat (destruct P as [P|P]; [subst p; reflexivity|]); contradiction.
Qed.

(** A link whose ports have carrier but that is down for stacking (its peer is
    gone, or it is plugged into another switch) is still used for unicast when it
    has the lowest port number, although another link to the same switch is up. *)
Theorem C58_carrier_refuted : exists f root s p d, agreed f root /\ joined f (sn_name s) d /\ sn_name s <> d /\ In s f /\
  default_port_towards s d = Some p /\ sp_up p = false /\ exists q, In q (sn_ports s) /\ sp_up q = true /\ sp_dp q = d.
Proof.
  set (g := wired_graph [1; 2] [(1, 2, (2, 2), true)]).
  set (s := mkSnode 1 [mkSport 1 2 1 false true; mkSport 2 2 2 true true] 1 g).
  set (f := [s; mkSnode 2 [mkSport 1 1 1 false true; mkSport 2 1 2 true true] 1 g]).
  exists f, 1, s, (mkSport 1 2 1 false true), 2. split; [apply agreed_check; vm_compute; reflexivity|].
  split.
  { destruct (up_between_link f 1 2 ltac:(vm_compute; reflexivity)) as (p & q & L). apply (joined_link f 1 p 2 q 2 L). constructor. vm_compute. auto. }
  split; [discriminate|]. split; [left; reflexivity|]. split; [vm_compute; reflexivity|]. split; [reflexivity|].
  exists (mkSport 2 2 2 true true). split; [right; left; reflexivity|]. split; reflexivity.
Qed.
Print Assumptions C58_carrier_refuted.
