(** * Concrete stacks, and a check that their switches agree *)
From Coq Require Import ZArith List Bool Permutation Lia Arith.
From Verif Require Import PyBase PyBaseProofs StackModel StackSpec StackProofs StackFloodProofs.
Import ListNotations.
Open Scope Z_scope.

(** A link: two ends, and whether it is up. *)
Definition wire := (Z * Z * (Z * Z) * bool)%type.
Definition ends_of (ws : list wire) (x : Z) : list sport :=
  flat_map (fun w => let '(a, pa, (b, pb), up) := w in
    (if a =? x then [mkSport pa b pb up up] else []) ++ (if b =? x then [mkSport pb a pa up up] else [])) ws.
Definition wired_graph (ns : list Z) (ws : list wire) : graph :=
  mkGraph ns (flat_map (fun w => let '(a, pa, (b, pb), up) := w in if up : bool then [canonical_edge (a, pa) (b, pb)] else []) ws).
Definition wired (ns : list Z) (root : Z) (ws : list wire) : fabric :=
  map (fun x => mkSnode x (ends_of ws x) root (wired_graph ns ws)) ns.

(** ** Checking *)
Fixpoint nodupb (l : list Z) : bool := match l with [] => true | x :: r => negb (mem Z.eqb x r) && nodupb r end.
Definition matching (s : snode) (p : sport) (t : snode) (q : sport) : bool :=
  sp_up p && sp_up q && (sp_dp p =? sn_name t) && (sp_peer p =? sp_no q) && (sp_dp q =? sn_name s) && (sp_peer q =? sp_no p).
Definition up_between (f : fabric) (x y : Z) : bool :=
  existsb (fun s => (sn_name s =? x) && existsb (fun p => existsb (fun t => (sn_name t =? y) && existsb (matching s p t) (sn_ports t)) f) (sn_ports s)) f.
Definition agreeing_b (f : fabric) (root : Z) : bool :=
  nodupb (names f) && forallb (fun s => nodupb (map sp_no (sn_ports s))) f && forallb (fun s => sn_root s =? root) f && mem Z.eqb root (names f) &&
  forallb (fun s => nodupb (g_nodes (sn_graph s))) f &&
  forallb (fun s => forallb (fun x => mem Z.eqb x (names f)) (g_nodes (sn_graph s)) && forallb (fun x => mem Z.eqb x (g_nodes (sn_graph s))) (names f)) f &&
  forallb (fun s => forallb (fun e => up_between f (fst (fst e)) (fst (snd e)) && up_between f (fst (snd e)) (fst (fst e))) (g_edges (sn_graph s))) f &&
  forallb (fun s => forallb (fun p => negb (sp_up p) || forallb (fun u => adjacent (sn_graph u) (sn_name s) (sp_dp p)) f) (sn_ports s)) f &&
  forallb (fun s => forallb (fun p => negb (sp_up p) || existsb (fun t => existsb (matching s p t) (sn_ports t)) f) (sn_ports s)) f.
Definition no_self_b (f : fabric) : bool := forallb (fun s => forallb (fun p => negb (sp_dp p =? sn_name s)) (sn_ports s)) f.

Lemma nodupb_spec : forall l, nodupb l = true -> NoDup l.
Proof.
  induction l as [|x l IH]; intros H; [constructor|]. cbn in H. apply andb_true_iff in H as [A B]. apply negb_true_iff, memz_false in A. constructor; auto.
Qed.
Lemma matching_link : forall f s p t q, In s f -> In t f -> In p (sn_ports s) -> In q (sn_ports t) -> matching s p t q = true -> link_up f (sn_name s) p (sn_name t) q.
Proof.
  intros f s p t q Is It Ip Iq M. unfold matching in M. rewrite !andb_true_iff, !Z.eqb_eq in M. exists s, t. intuition.
Qed.
Lemma up_between_link : forall f x y, up_between f x y = true -> exists p q, link_up f x p y q.
Proof.
  intros f x y H. unfold up_between in H. apply existsb_exists in H as (s & Is & H). apply andb_true_iff in H as [Ns H]. apply Z.eqb_eq in Ns.
  apply existsb_exists in H as (p & Ip & H). apply existsb_exists in H as (t & It & H). apply andb_true_iff in H as [Nt H]. apply Z.eqb_eq in Nt.
  apply existsb_exists in H as (q & Iq & H). exists p, q. rewrite <- Ns, <- Nt. apply matching_link; assumption.
Qed.
Lemma agreeing_check : forall f root, agreeing_b f root = true -> agreeing f root.
Proof.
  intros f root H. unfold agreeing_b in H. rewrite !andb_true_iff in H. destruct H as [[[[[[[[H1 H2] H3] H4] H5] H6] H7] H8] H9].
  rewrite forallb_forall in H2, H3, H5, H6, H7, H8, H9. constructor.
  - apply nodupb_spec. exact H1.
  - intros s I. apply nodupb_spec. exact (H2 s I).
  - intros s I. apply Z.eqb_eq. exact (H3 s I).
  - apply memz. exact H4.
  - intros s I. apply nodupb_spec. exact (H5 s I).
  - intros s I x. specialize (H6 s I). apply andb_true_iff in H6 as [A B]. rewrite forallb_forall in A, B. split; intros J; apply memz; auto.
  - intros s I x y. split.
    + specialize (H7 s I). rewrite forallb_forall in H7. intros (a & b & [J|J]); specialize (H7 _ J); apply andb_true_iff in H7 as [A B]; apply up_between_link; assumption.
    + intros (p & q & u & t & Iu & Nu & Ip & Up & It & Nt & Iq & Uq & E1 & E2 & E3 & E4). specialize (H8 u Iu). rewrite forallb_forall in H8.
      specialize (H8 p Ip). rewrite Up in H8. cbn [negb orb] in H8. rewrite forallb_forall in H8. specialize (H8 s I). apply adjacent_spec in H8.
      rewrite <- Nu, <- E1. exact H8.
  - intros s p I P U. specialize (H9 s I). rewrite forallb_forall in H9. specialize (H9 p P). rewrite U in H9. cbn [negb orb] in H9.
    apply existsb_exists in H9 as (t & It & H9). apply existsb_exists in H9 as (q & Iq & M). exists q.
    assert (L := matching_link f s p t q I It P Iq M). unfold matching in M. rewrite !andb_true_iff, !Z.eqb_eq in M.
    replace (sp_dp p) with (sn_name t); [exact L|]. symmetry. tauto.
Qed.
Lemma agreed_check : forall f root, agreeing_b f root = true -> no_self_b f = true -> agreed f root.
Proof.
  intros f root A B. split; [apply agreeing_check; exact A|]. intros s p I P _. unfold no_self_b in B. rewrite forallb_forall in B. specialize (B s I).
  rewrite forallb_forall in B. specialize (B p P). apply negb_true_iff, Z.eqb_neq in B. exact B.
Qed.

(** ** Running a flood, first packet first *)
Fixpoint run_flood (refl group : bool) (f : fabric) (fuel : nat) (s : flood_state) : flood_state :=
  match fuel, s with
  | S k, (pk :: rest, d) => let '(given, sent) := handle refl group f pk in run_flood refl group f k (sent ++ rest, d ++ given)
  | _, _ => s
  end.
Lemma run_flood_hops : forall refl group f fuel s, exists n, hops refl group f n s (run_flood refl group f fuel s).
Proof.
  intros refl group f. induction fuel as [|k IH]; intros s; [exists O; constructor|]. destruct s as [[|pk rest] d]; [exists O; constructor|].
  cbn [run_flood]. destruct (handle refl group f pk) as [given sent] eqn:H. destruct (IH (sent ++ rest, d ++ given)) as (n & R). exists (S n).
  eapply hops_more; [|exact R]. exact (hop_one refl group f [] pk rest d given sent H).
Qed.
Lemma joined_one : forall ns root ws x y, up_between (wired ns root ws) x y = true -> In y (names (wired ns root ws)) -> joined (wired ns root ws) x y.
Proof. intros ns root ws x y H I. apply up_between_link in H as (p & q & L). apply (joined_link _ x p y q y L). constructor. exact I. Qed.
