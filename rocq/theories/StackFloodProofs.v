(** * Proofs about flooding in a stack *)
From Coq Require Import ZArith List Bool Permutation Lia Sorted Arith.
From Verif Require Import PyBase PyBaseProofs StackModel StackSpec StackProofs.
Import ListNotations.
Open Scope Z_scope.

Lemma minimum_spec : forall l, match minimum l with Some m => In m l /\ forall x, In x l -> m <= x | None => l = [] end.
Proof.
  induction l as [|x r IH]; [reflexivity|]. cbn [minimum]. destruct (minimum r) as [y|].
  - destruct IH as [I M]. split.
    + destruct (Z.min_spec x y) as [[_ ->]|[_ ->]]; [left; reflexivity|right; exact I].
    + intros z [<-|J]; [lia|specialize (M z J); lia].
  - subst r. split; [left; reflexivity|]. intros z [<-|[]]. lia.
Qed.

Lemma canonical_in : forall l p, In p (canonical l) <-> In p l.
Proof. intros. unfold canonical. apply py_sorted_in. Qed.
Lemma up_ports_in : forall l p, In p (up_ports l) <-> In p l /\ sp_up p = true.
Proof. intros. unfold up_ports. apply filter_In. Qed.
Lemma canonical_nodup : forall l, NoDup l -> NoDup (canonical l).
Proof. intros l N. unfold canonical. eapply Permutation_NoDup; [apply py_sorted_perm|exact N]. Qed.
Lemma canonical_hd : forall l p r, canonical l = p :: r -> In p l /\ forall q, In q l -> sp_no p <= sp_no q.
Proof.
  intros l p r E. assert (S : StronglySorted (fun a b => (sp_no a <=? sp_no b) = true) (canonical l)).
  { apply (py_sorted_sorted (fun a b => sp_no a <=? sp_no b)).
    - intros a b. destruct (Z.leb_spec (sp_no a) (sp_no b)); [auto|right; apply Z.leb_le; lia].
    - intros a b c H1 H2. apply Z.leb_le in H1, H2. apply Z.leb_le. lia. }
  rewrite E in S. apply StronglySorted_inv in S as [_ F]. rewrite Forall_forall in F. split.
  - apply canonical_in. rewrite E. left. reflexivity.
  - intros q I. apply canonical_in in I. rewrite E in I. destruct I as [<-|I]; [lia|]. apply Z.leb_le. exact (F q I).
Qed.

Lemma find_unique : forall {A} (k : A -> Z) l n, NoDup (map k l) -> forall s,
  (find (fun x => k x =? n) l = Some s <-> In s l /\ k s = n).
Proof.
  intros A k l n. induction l as [|x l IH]; intros N s; [split; [discriminate|intros [[] _]]|].
  cbn [map] in N. apply NoDup_cons_iff in N as [NI N]. cbn [find]. destruct (Z.eqb_spec (k x) n) as [E|NE].
  - split; [intros [= <-]; split; [left; reflexivity|exact E]|]. intros [[<-|I] K]; [reflexivity|].
    exfalso. apply NI. rewrite E, <- K. apply in_map. exact I.
  - rewrite (IH N s). split; intros [I K]; (split; [|exact K]); [right; exact I|]. destruct I as [<-|I]; [contradiction|exact I].
Qed.

(** ** Rounds of a flood *)
Section Big.
  Variables (refl group : bool) (f : fabric).

  (** [bigs fl d n]: the packets in [fl] are handled in [n] hops, delivering to [d]. *)
  Inductive bigs : list flying -> list Z -> nat -> Prop :=
  | bigs_nil : bigs [] [] 0
  | bigs_cons : forall pk rest loc outs d1 n1 d2 n2, handle refl group f pk = (loc, outs) ->
      bigs outs d1 n1 -> bigs rest d2 n2 -> bigs (pk :: rest) (loc ++ d1 ++ d2) (S (n1 + n2)).

  Lemma bigs_app : forall a d n, bigs a d n -> forall b e m, bigs b e m -> bigs (a ++ b) (d ++ e) (n + m).
  Proof.
    intros a d n B. induction B as [|pk rest loc outs d1 n1 d2 n2 H B1 IH1 B2 IH2]; intros b e m C; [exact C|].
    cbn [app]. replace ((loc ++ d1 ++ d2) ++ e) with (loc ++ d1 ++ (d2 ++ e)) by (rewrite !app_assoc; reflexivity).
    replace (S (n1 + n2) + m)%nat with (S (n1 + (n2 + m))) by lia.
    exact (bigs_cons pk (rest ++ b) loc outs d1 n1 (d2 ++ e) (n2 + m) H B1 (IH2 b e m C)).
  Qed.
  Lemma bigs_split : forall a b d n, bigs (a ++ b) d n -> exists d1 n1 d2 n2, bigs a d1 n1 /\ bigs b d2 n2 /\ d = d1 ++ d2 /\ n = (n1 + n2)%nat.
  Proof.
    induction a as [|pk a IH]; intros b d n B; [exists [], O, d, n; repeat split; [constructor|exact B]|].
    cbn [app] in B. inversion B as [|pk' rest loc outs d1 n1 d2 n2 H B1 B2]; subst. destruct (IH b d2 n2 B2) as (e1 & m1 & e2 & m2 & C1 & C2 & -> & ->).
    exists (loc ++ d1 ++ e1), (S (n1 + m1)), e2, m2. split; [exact (bigs_cons pk a loc outs d1 n1 e1 m1 H B1 C1)|]. split; [exact C2|].
    split; [rewrite !app_assoc; reflexivity|lia].
  Qed.

  (** Every schedule does the same hops in some order. *)
  Lemma hop_bigs : forall s t, hop refl group f s t -> forall d n, bigs (fst s) d n ->
    exists e m, bigs (fst t) e m /\ n = S m /\ Permutation (snd s ++ d) (snd t ++ e).
  Proof.
    intros s t H d n B. destruct H as [a pk b d0 loc outs H]. cbn [fst snd] in *.
    apply bigs_split in B as (d1 & n1 & d2 & n2 & B1 & B2 & -> & ->). inversion B2 as [|pk' rest loc' outs' e1 m1 e2 m2 H' C1 C2]; subst.
    rewrite H in H'. injection H' as <- <-. exists (d1 ++ e1 ++ e2), (n1 + (m1 + m2))%nat. split; [|split; [lia|]].
    - apply bigs_app; [exact B1|]. apply bigs_app; assumption.
    - rewrite <- !app_assoc. apply Permutation_app_head. rewrite !app_assoc. do 2 apply Permutation_app_tail. apply Permutation_app_comm.
  Qed.
  Lemma hops_bigs : forall k s t, hops refl group f k s t -> forall d n, bigs (fst s) d n ->
    exists e m, bigs (fst t) e m /\ n = (k + m)%nat /\ Permutation (snd s ++ d) (snd t ++ e).
  Proof.
    intros k s t H. induction H as [s|k s t u H HS IH]; intros d n B; [exists d, n; auto|].
    destruct (hop_bigs s t H d n B) as (e & m & C & -> & P). destruct (IH e m C) as (e' & m' & C' & -> & P').
    exists e', m'. split; [exact C'|]. split; [lia|]. rewrite P. exact P'.
  Qed.

  Definition gives (fl : list flying) (S : Z -> Prop) : Prop := exists d n, bigs fl d n /\ NoDup d /\ forall x, In x d <-> S x.

  Lemma gives_ext : forall fl (S T : Z -> Prop), (forall x, S x <-> T x) -> gives fl S -> gives fl T.
  Proof. intros fl S T E (d & n & B & N & M). exists d, n. split; [exact B|]. split; [exact N|]. intros x. rewrite M. apply E. Qed.
  Lemma gives_nil : gives [] (fun _ => False).
  Proof. exists [], O. split; [constructor|]. split; [constructor|]. intros x. reflexivity. Qed.
  Lemma gives_app : forall a b (S T : Z -> Prop), gives a S -> gives b T -> (forall x, S x -> T x -> False) -> gives (a ++ b) (fun x => S x \/ T x).
  Proof.
    intros a b S T (d & n & B & N & M) (e & m & C & K & L) D. exists (d ++ e), (n + m)%nat. split; [apply bigs_app; assumption|]. split.
    - apply NoDup_app_iff_. split; [exact N|]. split; [exact K|]. intros x I J. apply (D x); [apply M|apply L]; assumption.
    - intros x. rewrite in_app_iff, M, L. reflexivity.
  Qed.
  Lemma gives_handle : forall pk loc outs (S : Z -> Prop), handle refl group f pk = (loc, outs) -> gives outs S -> NoDup loc ->
    (forall x, In x loc -> S x -> False) -> gives [pk] (fun x => In x loc \/ S x).
  Proof.
    intros pk loc outs S H (d & n & B & N & M) NL D. exists (loc ++ d ++ []), (Datatypes.S (n + 0)). split; [|split].
    - exact (bigs_cons pk [] loc outs d n [] O H B bigs_nil).
    - rewrite app_nil_r. apply NoDup_app_iff_. split; [exact NL|]. split; [exact N|]. intros x I J. apply (D x I). apply M. exact J.
    - intros x. rewrite app_nil_r, in_app_iff, M. reflexivity.
  Qed.
  Lemma gives_map : forall {A} (pkt : A -> flying) (S : A -> Z -> Prop) l, NoDup l -> (forall p, In p l -> gives [pkt p] (S p)) ->
    (forall p q x, In p l -> In q l -> S p x -> S q x -> p = q) -> gives (map pkt l) (fun x => exists p, In p l /\ S p x).
  Proof.
    intros A pkt S l. induction l as [|p l IH]; intros N G D.
    - eapply gives_ext; [|exact gives_nil]. intros x. split; [intros []|intros (p & [] & _)].
    - apply NoDup_cons_iff in N as [NI N]. eapply gives_ext; [|apply (gives_app [pkt p] (map pkt l) (S p) (fun x => exists q, In q l /\ S q x))].
      + intros x. cbn beta. split.
        * intros [H|(q & I & H)]; [exists p; split; [left; reflexivity|exact H]|exists q; split; [right; exact I|exact H]].
        * intros (q & [<-|I] & H); [left; exact H|right; exists q; auto].
      + apply G. left. reflexivity.
      + apply IH; [exact N|intros q I; apply G; right; exact I|]. intros q r x I J. apply D; right; assumption.
      + intros x H (q & I & K). assert (E := D p q x (or_introl eq_refl) (or_intror I) H K). subst q. contradiction.
  Qed.
End Big.

(** ** Paths in an agreed stack *)
Section Agreed.
  Variables (f : fabric) (root : Z).
  Hypothesis AG : agreed f root.

  Lemma node_spec : forall n s, node f n = Some s <-> In s f /\ sn_name s = n.
  Proof. intros n s. apply (find_unique sn_name). exact (ag_names f root (proj1 AG)). Qed.
  Lemma same_name : forall s t, In s f -> In t f -> sn_name s = sn_name t -> s = t.
  Proof.
    intros s t I J E. assert (A := proj2 (node_spec (sn_name s) s) (conj I eq_refl)).
    assert (B := proj2 (node_spec (sn_name s) t) (conj J (eq_sym E))). congruence.
  Qed.
  Lemma sport_spec : forall s no p, In s f -> (sport_of s no = Some p <-> In p (sn_ports s) /\ sp_no p = no).
  Proof. intros s no p I. apply (find_unique sp_no). exact (ag_numbers f root (proj1 AG) s I). Qed.
  Lemma same_no : forall s p q, In s f -> In p (sn_ports s) -> In q (sn_ports s) -> sp_no p = sp_no q -> p = q.
  Proof.
    intros s p q I P Q E. assert (A := proj2 (sport_spec s (sp_no p) p I) (conj P eq_refl)).
    assert (B := proj2 (sport_spec s (sp_no p) q I) (conj Q (eq_sym E))). congruence.
  Qed.
  Lemma ports_nodup : forall s, In s f -> NoDup (sn_ports s).
  Proof. intros s I. apply (NoDup_map_inv sp_no). exact (ag_numbers f root (proj1 AG) s I). Qed.
  Lemma port_in_spec : forall s p l, In s f -> In p (sn_ports s) -> incl l (sn_ports s) -> (port_in p l = true <-> In p l).
  Proof.
    intros s p l I P L. unfold port_in, numbers. rewrite memz, in_map_iff. split.
    - intros (q & E & J). rewrite <- (same_no s q p I (L q J) P E). exact J.
    - intros J. exists p. auto.
  Qed.

  Lemma link_sym : forall x p y q, link_up f x p y q -> link_up f y q x p.
  Proof. intros x p y q (s & t & H). exists t, s. intuition. Qed.
  Lemma link_unique : forall x p y q y' q', link_up f x p y q -> link_up f x p y' q' -> y = y' /\ q = q'.
  Proof.
    intros x p y q y' q' (s & t & _ & _ & _ & _ & It & Nt & Iq & _ & E1 & E2 & _) (s' & t' & _ & _ & _ & _ & It' & Nt' & Iq' & _ & E1' & E2' & _).
    assert (y = y') by congruence. split; [assumption|]. assert (t = t') by (apply same_name; congruence). subst t'.
    apply (same_no t); [assumption..|congruence].
  Qed.
  Lemma remote_spec : forall x p y q, link_up f x p y q -> remote f p = [q].
  Proof.
    intros x p y q (s & t & Is & Ns & Ip & Up & It & Nt & Iq & Uq & E1 & E2 & E3 & E4). unfold remote.
    rewrite (proj2 (node_spec (sp_dp p) t)) by (split; congruence). rewrite (proj2 (sport_spec t (sp_peer p) q It)) by (split; congruence). reflexivity.
  Qed.
  (** The far end of a port of [s]. *)
  Lemma far_end : forall s p, In s f -> In p (sn_ports s) -> sp_up p = true -> exists t q, In t f /\ sn_name t = sp_dp p /\
    In q (sn_ports t) /\ sp_up q = true /\ sp_no q = sp_peer p /\ sp_dp q = sn_name s /\ sp_peer q = sp_no p /\ remote f p = [q].
  Proof.
    intros s p I P U. destruct (ag_ends f root (proj1 AG) s p I P U) as (q & L). assert (R := remote_spec _ _ _ _ L).
    destruct L as (s' & t & Is & Ns & Ip & Up & It & Nt & Iq & Uq & E1 & E2 & E3 & E4). exists t, q. intuition congruence.
  Qed.

  Lemma graph_ok_of : forall s, In s f -> graph_ok (sn_graph s).
  Proof.
    intros s I. constructor; [exact (ag_nodup f root (proj1 AG) s I)|]. intros x y L. apply (ag_links f root (proj1 AG) s I) in L as (p & q & L).
    destruct L as (s' & t & Is & Ns & _ & _ & It & Nt & _). rewrite !(ag_nodes f root (proj1 AG) s I). unfold names. split; [rewrite <- Ns|rewrite <- Nt]; apply in_map; assumption.
  Qed.

  Variable s0 : snode.
  Hypothesis S0 : In s0 f.
  Let G := sn_graph s0.

  Lemma path_same : forall s, In s f -> forall x y p, is_path (sn_graph s) x y p -> is_path G x y p.
  Proof.
    intros s I x y p P. induction P as [x J|x y z p L P IH].
    - constructor. apply (ag_nodes f root (proj1 AG) s0 S0). apply (ag_nodes f root (proj1 AG) s I). exact J.
    - apply (path_step G x y z p); [|exact IH]. apply (ag_links f root (proj1 AG) s0 S0). apply (ag_links f root (proj1 AG) s I). exact L.
  Qed.
  Lemma path_same' : forall s, In s f -> forall x y p, is_path G x y p -> is_path (sn_graph s) x y p.
  Proof.
    intros s I x y p P. induction P as [x J|x y z p L P IH].
    - constructor. apply (ag_nodes f root (proj1 AG) s I). apply (ag_nodes f root (proj1 AG) s0 S0). exact J.
    - apply (path_step (sn_graph s) x y z p); [|exact IH]. apply (ag_links f root (proj1 AG) s I). apply (ag_links f root (proj1 AG) s0 S0). exact L.
  Qed.
  Lemma shortest_same : forall s, In s f -> forall x y, shortest_path (sn_graph s) x y = shortest_path G x y.
  Proof.
    intros s I x y. assert (OK := graph_ok_of s I). assert (OK0 := graph_ok_of s0 S0). fold G in OK0.
    assert (C : forall p, chosen_path G x y p -> chosen_path (sn_graph s) x y p).
    { intros p [P M]. split; [exact (path_same' s I x y p P)|]. intros q Q. apply M. exact (path_same s I x y q Q). }
    destruct (shortest_path G x y) as [|w r] eqn:E.
    - destruct (shortest_path (sn_graph s) x y) as [|w r] eqn:E'; [reflexivity|]. exfalso. apply (shortest_path_none G OK0 x y E).
      exists (w :: r). apply (path_same s I). apply (shortest_path_chosen (sn_graph s) OK x y (w :: r) E'). discriminate.
    - apply (chosen_shortest (sn_graph s) OK). apply C. apply (shortest_path_chosen G OK0 x y (w :: r) E). discriminate.
  Qed.

  Definition path (x : Z) : list Z := shortest_path G x root.
  Definition conn (x : Z) : Prop := path x <> [].
  Definition adj (x y : Z) : Prop := linked G x y.
  Let OKG : graph_ok G := graph_ok_of s0 S0.

  Lemma path_to_root_path : forall s, In s f -> path_to_root s = path (sn_name s).
  Proof. intros s I. unfold path_to_root, path. rewrite (ag_root f root (proj1 AG) s I). apply (shortest_same s I). Qed.
  Lemma path_chosen : forall x, conn x -> chosen_path G x root (path x).
  Proof. intros x C. apply (shortest_path_chosen G OKG); [reflexivity|exact C]. Qed.
  Lemma path_eq : forall x p, chosen_path G x root p -> path x = p.
  Proof. intros x p C. apply (chosen_shortest G OKG) in C. apply C. Qed.
  Lemma conn_path : forall x p, is_path G x root p -> conn x.
  Proof. intros x p P E. apply (shortest_path_none G OKG x root E). exists p. exact P. Qed.
  Lemma path_is : forall x, conn x -> is_path G x root (path x).
  Proof. intros x C. apply (path_chosen x C). Qed.
  Lemma path_least : forall x p, is_path G x root p -> (length (path x) <= length p)%nat.
  Proof.
    intros x p P. assert (C := conn_path x p P). destruct (proj2 (path_chosen x C) p P) as [H|[H _]]; lia.
  Qed.
  Lemma adj_link : forall x y, adj x y <-> exists p q, link_up f x p y q.
  Proof. intros. apply (ag_links f root (proj1 AG) s0 S0). Qed.
  Lemma adj_sym : forall x y, adj x y -> adj y x.
  Proof. intros x y. apply linked_sym. Qed.
  Lemma adj_ne : forall x y, adj x y -> x <> y.
  Proof.
    intros x y A E. apply adj_link in A as (p & q & s & t & Is & Ns & Ip & Up & _ & _ & _ & _ & E1 & _).
    apply (proj2 AG s p Is Ip Up). congruence.
  Qed.
  Lemma conn_adj : forall x y, conn x -> adj x y -> conn y /\ (length (path y) <= S (length (path x)))%nat.
  Proof.
    intros x y C A. assert (P : is_path G y root (y :: path x)).
    { apply (path_step G y root x); [apply adj_sym; exact A|apply path_is; exact C]. }
    split; [exact (conn_path y _ P)|exact (path_least y _ P)].
  Qed.
  Lemma path_root : path root = [root].
  Proof.
    assert (P : is_path G root root [root]) by (constructor; apply (ag_nodes f root (proj1 AG) s0 S0); exact (ag_known f root (proj1 AG))).
    apply path_eq. split; [exact P|]. intros q Q. destruct (path_shape G _ _ _ Q) as (r & ->). destruct r as [|z r]; [right|left; cbn; lia].
    split; [reflexivity|apply earlier_refl].
  Qed.
  Lemma conn_root : conn root.
  Proof. unfold conn. rewrite path_root. discriminate. Qed.
  Lemma path_cases : forall x, conn x -> (x = root /\ path x = [x]) \/
    (x <> root /\ exists z, path x = x :: path z /\ adj x z /\ conn z).
  Proof.
    intros x C. destruct (Z.eq_dec x root) as [->|NE]; [left; split; [reflexivity|exact path_root]|right]. split; [exact NE|].
    assert (CH := path_chosen x C). assert (P := path_is x C). destruct (path_inv G x root _ P NE) as (z & r & EP & L).
    rewrite EP in CH |- *. apply (chosen_suffix G) in CH. assert (E := path_eq z _ CH).
    exists z. rewrite E. split; [reflexivity|]. split; [exact L|]. unfold conn. rewrite E. discriminate.
  Qed.
  Lemma path_hd : forall x, conn x -> exists r, path x = x :: r.
  Proof. intros x C. apply (path_shape G x root). exact (path_is x C). Qed.
  Lemma path_suffix_of : forall n x v, (length (path x) <= n)%nat -> In v (path x) -> conn v /\ exists pre, path x = pre ++ path v /\ (pre = [] -> x = v).
  Proof.
    induction n as [|n IH]; intros x v L I; [destruct (path x); [destruct I|cbn in L; lia]|].
    assert (C : conn x) by (unfold conn; intros E; rewrite E in I; destruct I).
    destruct (path_cases x C) as [[E1 E2]|[NE (z & E & A & CZ)]].
    - rewrite E2 in I. destruct I as [<-|[]]. split; [exact C|]. exists []. auto.
    - rewrite E in I. destruct I as [<-|I]; [split; [exact C|exists []; auto]|].
      destruct (IH z v) as (CV & pre & EP & _); [rewrite E in L; cbn in L; lia|exact I|]. split; [exact CV|].
      exists (x :: pre). split; [rewrite E, EP; reflexivity|discriminate].
  Qed.
  Lemma in_path_conn : forall x v, In v (path x) -> conn x.
  Proof. intros x v I E. rewrite E in I. destruct I. Qed.

  Definition sub (v x : Z) : Prop := In v (path x).
  Definition child (c v : Z) : Prop := conn v /\ path c = c :: path v.

  Lemma child_conn : forall c v, child c v -> conn c.
  Proof. intros c v [_ E]. unfold conn. rewrite E. discriminate. Qed.
  Lemma child_adj : forall c v, child c v -> adj c v.
  Proof.
    intros c v [C E]. assert (P := path_is c ltac:(unfold conn; rewrite E; discriminate)). rewrite E in P. destruct (path_hd v C) as (r & ER). rewrite ER in P.
    apply (path_inv2 G c root v r P).
  Qed.
  Lemma child_root : forall c v, child c v -> c <> root.
  Proof.
    intros c v [C E] ->. rewrite path_root in E. injection E as E. unfold conn in C. congruence.
  Qed.
  Lemma child_parent : forall c v w, child c v -> child c w -> v = w.
  Proof.
    intros c v w [C E] [D F]. rewrite E in F. injection F as F. destruct (path_hd v C) as (r & ER). destruct (path_hd w D) as (r' & ER').
    rewrite ER, ER' in F. congruence.
  Qed.
  Lemma child_of : forall c v, adj c v -> In v (path c) -> child c v.
  Proof.
    intros c v A I. destruct (path_suffix_of (length (path c)) c v (le_n _) I) as (CV & pre & E & EN). split; [exact CV|].
    destruct (conn_adj v c CV (adj_sym _ _ A)) as [CC L]. rewrite E in L. rewrite app_length in L.
    destruct pre as [|a [|b pre]]; [exfalso; apply (adj_ne c v A); auto| |cbn in L; lia].
    destruct (path_hd c CC) as (r & ER). rewrite E in ER. injection ER as -> _. exact E.
  Qed.
  Lemma nonroot_child : forall x, conn x -> x <> root -> exists v, child x v.
  Proof. intros x C NE. destruct (path_cases x C) as [[E _]|[_ (z & E & A & CZ)]]; [contradiction|]. exists z. split; assumption. Qed.
  Lemma child_dist : forall c v, child c v -> length (path c) = S (length (path v)).
  Proof. intros c v [_ E]. rewrite E. reflexivity. Qed.
  Lemma sub_child : forall v x, conn v -> (sub v x <-> x = v \/ exists c, child c v /\ sub c x).
  Proof.
    intros v x CV. unfold sub. split.
    - remember (length (path x)) as n eqn:EN. revert x EN. induction n as [n IH] using lt_wf_ind. intros x -> I.
      destruct (Z.eq_dec x v) as [->|NE]; [left; reflexivity|right]. assert (C := in_path_conn x v I).
      destruct (path_cases x C) as [[E1 E2]|[_ (z & E & A & CZ)]]; [rewrite E2 in I; destruct I as [<-|[]]; congruence|].
      assert (CH : child x z) by (split; assumption). rewrite E in I. destruct I as [I|I]; [congruence|].
      destruct (IH (length (path z))) with (x := z) as [->|(c & CC & SC)]; try reflexivity; try assumption; [rewrite E; cbn; lia| |].
      + exists x. split; [exact CH|]. rewrite E. left. reflexivity.
      + exists c. split; [exact CC|]. rewrite E. right. exact SC.
    - intros [->|(c & [_ E] & I)]; [destruct (path_hd v CV) as (r & ->); left; reflexivity|].
      destruct (path_suffix_of (length (path x)) x c (le_n _) I) as (CC & pre & EP & _). rewrite EP, E. apply in_or_app. right. right.
      destruct (path_hd v CV) as (r & ->). left. reflexivity.
  Qed.
  Lemma sub_disjoint : forall v c c' x, child c v -> child c' v -> sub c x -> sub c' x -> c = c'.
  Proof.
    intros v c c' x H H' I I'. unfold sub in *.
    destruct (path_suffix_of (length (path x)) x c (le_n _) I) as (_ & pre & E & _).
    destruct (path_suffix_of (length (path x)) x c' (le_n _) I') as (_ & pre' & E' & _).
    assert (L := child_dist c v H). assert (L' := child_dist c' v H'). rewrite E in E'.
    assert (LP : length pre = length pre') by (apply (f_equal (@length Z)) in E'; rewrite !app_length in E'; lia).
    assert (EQ : path c = path c').
    { apply (f_equal (skipn (length pre))) in E'. rewrite skipn_app, skipn_all, Nat.sub_diag in E'.
      rewrite LP, skipn_app, skipn_all, Nat.sub_diag in E'. exact E'. }
    destruct H as [_ H], H' as [_ H']. rewrite H, H' in EQ. congruence.
  Qed.
  Lemma sub_not_up : forall c v, child c v -> ~ sub c v.
  Proof.
    intros c v H I. assert (L := child_dist c v H). unfold sub in I. destruct (path_suffix_of (length (path v)) v c (le_n _) I) as (_ & pre & E & _).
    apply (f_equal (@length Z)) in E. rewrite app_length in E. lia.
  Qed.
  Lemma sub_up : forall c v x, child c v -> sub c x -> sub v x.
  Proof. intros c v x H I. apply sub_child; [apply H|]. right. exists c. auto. Qed.
  Lemma sub_root : forall x, conn x <-> sub root x.
  Proof.
    intros x. split; [|apply in_path_conn]. intros C. apply (path_last G x root). exact (path_is x C).
  Qed.

  Lemma conn_joined : forall x, conn x <-> joined f x root.
  Proof.
    intros x. split.
    - intros C. assert (H : forall x y p, is_path G x y p -> joined f x y); [|exact (H x root _ (path_is x C))].
      clear x C. intros x y p P. induction P as [z I|z y w p L P IH].
      + constructor. apply (ag_nodes f root (proj1 AG) s0 S0). exact I.
      + apply adj_link in L as (a & b & L). exact (joined_link f z a w b y L IH).
    - intros J. assert (H : forall x y, joined f x y -> exists p, is_path G x y p).
      { clear x J. intros x y J. induction J as [x I|x p y q z L J (r & R)].
        - exists [x]. constructor. apply (ag_nodes f root (proj1 AG) s0 S0). exact I.
        - exists (x :: r). apply (path_step G x z y); [|exact R]. apply adj_link. eauto. }
      destruct (H x root J) as (p & P). exact (conn_path x p P).
  Qed.
End Agreed.
