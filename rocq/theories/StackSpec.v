(** * What stacking is about *)
From Coq Require Import ZArith List Bool Permutation.
From Verif Require Import PyBase StackModel.
Import ListNotations.
Open Scope Z_scope.

(** ** Paths *)

(** Two datapaths share a link. *)
Definition linked (g : graph) (x y : Z) : Prop :=
  exists a b, (In ((x, a), (y, b)) (g_edges g) \/ In ((y, b), (x, a)) (g_edges g)).

(** A graph as networkx keeps it: no node twice, links between its nodes. *)
Record graph_ok (g : graph) : Prop := {
  gk_nodup : NoDup (g_nodes g);
  gk_ends : forall x y, linked g x y -> In x (g_nodes g) /\ In y (g_nodes g)
}.

Inductive is_path (g : graph) : Z -> Z -> list Z -> Prop :=
| path_end : forall x, In x (g_nodes g) -> is_path g x x [x]
| path_step : forall x y z p, linked g x z -> is_path g z y p -> is_path g x y (x :: p).
Definition connected (g : graph) (x y : Z) : Prop := exists p, is_path g x y p.

(** Dictionary order, for lists of the same length. *)
Inductive earlier : list Z -> list Z -> Prop :=
| earlier_nil : earlier [] []
| earlier_less : forall x y a b, x < y -> length a = length b -> earlier (x :: a) (y :: b)
| earlier_same : forall x a b, earlier a b -> earlier (x :: a) (x :: b).

(** The path every switch is expected to choose: a shortest one, the first in
    dictionary order among them. *)
Definition chosen_path (g : graph) (x y : Z) (p : list Z) : Prop :=
  is_path g x y p /\ forall q, is_path g x y q -> (length p < length q)%nat \/ (length p = length q /\ earlier p q).

(** ** Stacks whose switches agree *)

Definition names (f : fabric) : list Z := map sn_name f.
(** Port [p] of switch [x] is up and leads to port [q] of switch [y]. *)
Definition link_up (f : fabric) (x : Z) (p : sport) (y : Z) (q : sport) : Prop :=
  exists s t, In s f /\ sn_name s = x /\ In p (sn_ports s) /\ sp_up p = true /\
              In t f /\ sn_name t = y /\ In q (sn_ports t) /\ sp_up q = true /\
              sp_dp p = y /\ sp_peer p = sp_no q /\ sp_dp q = x /\ sp_peer q = sp_no p.

(** All switches know all switches, the same root and exactly the links that are
    up; links are configured from both ends and are up at both or neither. *)
Record agreeing (f : fabric) (root : Z) : Prop := {
  ag_names : NoDup (names f);
  ag_numbers : forall s, In s f -> NoDup (map sp_no (sn_ports s));
  ag_root : forall s, In s f -> sn_root s = root;
  ag_known : In root (names f);
  ag_nodup : forall s, In s f -> NoDup (g_nodes (sn_graph s));
  ag_nodes : forall s, In s f -> forall x, In x (g_nodes (sn_graph s)) <-> In x (names f);
  ag_links : forall s, In s f -> forall x y, linked (sn_graph s) x y <-> exists p q, link_up f x p y q;
  ag_ends : forall s p, In s f -> In p (sn_ports s) -> sp_up p = true -> exists q, link_up f (sn_name s) p (sp_dp p) q
}.
(** No link leads back to the switch it starts at. *)
Definition no_self_link (f : fabric) : Prop :=
  forall s p, In s f -> In p (sn_ports s) -> sp_up p = true -> sp_dp p <> sn_name s.
Definition agreed (f : fabric) (root : Z) : Prop := agreeing f root /\ no_self_link f.

(** Switches joined by links that are up. *)
Inductive joined (f : fabric) : Z -> Z -> Prop :=
| joined_same : forall x, In x (names f) -> joined f x x
| joined_link : forall x p y q z, link_up f x p y q -> joined f y z -> joined f x z.

(** No two links between the same two switches. *)
Definition no_parallel (f : fabric) : Prop :=
  forall x y p q p' q', link_up f x p y q -> link_up f x p' y q' -> p = p'.

(** Packets in flight, and the switches whose hosts have been given the packet:
    any packet in flight may be the next to be handled. *)
Definition flood_state := (list flying * list Z)%type.
Inductive hop (reflection group : bool) (f : fabric) : flood_state -> flood_state -> Prop :=
| hop_one : forall a pk b d given sent, handle reflection group f pk = (given, sent) ->
    hop reflection group f (a ++ pk :: b, d) (a ++ sent ++ b, d ++ given).
Inductive hops (reflection group : bool) (f : fabric) : nat -> flood_state -> flood_state -> Prop :=
| hops_none : forall s, hops reflection group f 0 s s
| hops_more : forall n s t u, hop reflection group f s t -> hops reflection group f n t u -> hops reflection group f (S n) s u.
(** From a host of switch [entry]. *)
Definition sent_from (entry : Z) : flood_state := ([(entry, None)], []).

(** Whatever the order in which packets are handled, the flood ends, nobody gets
    the packet twice, and in the end exactly the switches joined to [x] have it. *)
Definition floods_once (reflection group : bool) (f : fabric) (x : Z) : Prop :=
  exists most, forall n s, hops reflection group f n (sent_from x) s ->
    (n <= most)%nat /\
    (fst s <> [] -> exists s', hop reflection group f s s') /\
    NoDup (snd s) /\ (forall y, In y (snd s) -> joined f x y) /\
    (fst s = [] -> forall y, joined f x y -> In y (snd s)).

(** ** Following next hops *)

(** A chain of [n] links that are up, and the least number of links. *)
Inductive chain (f : fabric) : nat -> Z -> Z -> Prop :=
| chain_end : forall x, In x (names f) -> chain f 0 x x
| chain_link : forall n x p y q z, link_up f x p y q -> chain f n y z -> chain f (S n) x z.
Definition distance (f : fabric) (x y : Z) (n : nat) : Prop := chain f n x y /\ forall m, chain f m x y -> (n <= m)%nat.

(** Every switch on the way sends a packet out of the port [choose] names. *)
Inductive follows (choose : snode -> option sport) (f : fabric) : nat -> Z -> Z -> Prop :=
| follows_here : forall x, In x (names f) -> follows choose f 0 x x
| follows_next : forall n s p y q z, In s f -> choose s = Some p -> link_up f (sn_name s) p y q -> follows choose f n y z ->
    follows choose f (S n) (sn_name s) z.
(** It gets from [x] to [y] in [n] hops, goes no further, and passes no switch twice. *)
Definition arrives (choose : snode -> option sport) (f : fabric) (x y : Z) (n : nat) : Prop :=
  follows choose f n x y /\
  (forall m z, follows choose f m x z -> (m <= n)%nat) /\
  (forall i j z, follows choose f i x z -> follows choose f j x z -> i = j).
