(** * Proofs about the RIB of one VLAN *)
From Coq Require Import ZArith List Bool Lia Permutation.
From Verif Require Import PyBase PyBaseProofs OpenFlow IpModel IpSpec IpProofs RouteModel RouteSpec.
Import ListNotations.
Open Scope Z_scope.

Lemma set_add_in {A} (eqb : A -> A -> bool) (H : forall a b, eqb a b = true <-> a = b) x l y :
  In y (set_add eqb x l) <-> y = x \/ In y l.
Proof.
  unfold set_add. destruct (mem eqb x l) eqn:M.
  - apply mem_spec in M; [|exact H]. split; [auto|]. intros [->|I]; auto.
  - rewrite in_app_iff. cbn. split; [intros [I|[->|[]]]; auto|intros [->|I]; auto].
Qed.
Lemma set_add_nodup {A} (eqb : A -> A -> bool) (H : forall a b, eqb a b = true <-> a = b) x l :
  NoDup l -> NoDup (set_add eqb x l).
Proof.
  intros N. unfold set_add. destruct (mem eqb x l) eqn:M; [exact N|].
  apply (Permutation_NoDup (l := x :: l)); [apply Permutation_cons_append|].
  constructor; [|exact N]. intros I. apply (mem_spec A eqb H) in I. congruence.
Qed.
Lemma set_remove_in {A} (eqb : A -> A -> bool) (H : forall a b, eqb a b = true <-> a = b) x l y :
  In y (set_remove eqb x l) <-> y <> x /\ In y l.
Proof.
  unfold set_remove. rewrite filter_In, negb_true_iff. split.
  - intros [I E]. split; [|exact I]. intros ->. assert (eqb x x = true) by now apply H. congruence.
  - intros [N I]. split; [exact I|]. destruct (eqb x y) eqn:E; [|reflexivity]. apply H in E. congruence.
Qed.
Lemma set_remove_nodup {A} (eqb : A -> A -> bool) x l : NoDup l -> NoDup (set_remove eqb x l).
Proof. intros. now apply NoDup_filter. Qed.

Lemma ip_eqb_sym a b : ip_eqb a b = ip_eqb b a.
Proof. apply eq_true_iff_eq. rewrite !ip_eqb_eq. split; congruence. Qed.
Lemma net_eqb_sym a b : net_eqb a b = net_eqb b a.
Proof. apply eq_true_iff_eq. rewrite !net_eqb_eq. split; congruence. Qed.
Lemma ip_get_put {V} k k' (v : V) d : dict_get ip_eqb k' (dict_put ip_eqb k v d) = if ip_eqb k k' then Some v else dict_get ip_eqb k' d.
Proof. rewrite (dict_get_put ip_eqb ip_eqb_eq), ip_eqb_sym. reflexivity. Qed.
Lemma net_get_put {V} k k' (v : V) d : dict_get net_eqb k' (dict_put net_eqb k v d) = if net_eqb k k' then Some v else dict_get net_eqb k' d.
Proof. rewrite (dict_get_put net_eqb net_eqb_eq), net_eqb_sym. reflexivity. Qed.
Lemma ip_get_del {V} k k' (d : list (ip * V)) : dict_get ip_eqb k' (dict_del ip_eqb k d) = if ip_eqb k k' then None else dict_get ip_eqb k' d.
Proof. rewrite (dict_get_del ip_eqb ip_eqb_eq), ip_eqb_sym. reflexivity. Qed.
Lemma net_get_del {V} k k' (d : list (net * V)) : dict_get net_eqb k' (dict_del net_eqb k d) = if net_eqb k k' then None else dict_get net_eqb k' d.
Proof. rewrite (dict_get_del net_eqb net_eqb_eq), net_eqb_sym. reflexivity. Qed.

Lemma host_net_inj a b : host_net a = host_net b -> a = b.
Proof. unfold host_net. destruct a, b; cbn. intros H; inversion H; reflexivity. Qed.

Lemma dsts_put r gw l g : dsts_for_gw (mkRib (r_routes r) (dict_put ip_eqb gw l (r_gws r)) (r_route_gws r) (r_host_gws r) (r_neigh r) (r_todo_routes r) (r_todo_hosts r)) g
  = if ip_eqb gw g then l else dsts_for_gw r g.
Proof.
  unfold dsts_for_gw. cbn [r_gws]. rewrite ip_get_put.
  destruct (ip_eqb gw g); reflexivity.
Qed.

(** Well-formed RIBs. *)
Record rib_ok (r : rib) : Prop := {
  ro_keys : NoDup (map fst (r_routes r));
  ro_gkeys : NoDup (map fst (r_gws r));
  ro_filed : forall d g, dict_get net_eqb d (r_routes r) = Some g -> In d (dsts_for_gw r g);
  ro_nodup : forall g, NoDup (dsts_for_gw r g);
  ro_some : forall g l, dict_get ip_eqb g (r_gws r) = Some l -> l <> [];
  ro_host : forall g, In g (r_host_gws r) -> is_host_fib_route r g = true;
  ro_route : forall g, In g (r_route_gws r) -> is_host_fib_route r g = false;
  ro_used : forall g, dsts_for_gw r g <> [] -> In g (r_host_gws r) \/ In g (r_route_gws r);
  ro_nkeys : NoDup (map fst (r_neigh r));
  ro_sets : NoDup (r_route_gws r) /\ NoDup (r_host_gws r)
}.

Lemma update_gw_types_routes g r : r_routes (update_gw_types g r) = r_routes r.
Proof. unfold update_gw_types. now destruct (is_host_fib_route r g). Qed.
Lemma update_gw_types_gws g r : r_gws (update_gw_types g r) = r_gws r.
Proof. unfold update_gw_types. now destruct (is_host_fib_route r g). Qed.
Lemma update_gw_types_neigh g r : r_neigh (update_gw_types g r) = r_neigh r.
Proof. unfold update_gw_types. now destruct (is_host_fib_route r g). Qed.
Lemma update_gw_types_todo g r : r_todo_routes (update_gw_types g r) = r_todo_routes r /\ r_todo_hosts (update_gw_types g r) = r_todo_hosts r.
Proof. unfold update_gw_types. now destruct (is_host_fib_route r g). Qed.
Lemma dsts_gws r r' g : r_gws r = r_gws r' -> dsts_for_gw r g = dsts_for_gw r' g.
Proof. unfold dsts_for_gw. now intros ->. Qed.
Lemma host_fib_gws r r' g : dsts_for_gw r g = dsts_for_gw r' g -> is_host_fib_route r g = is_host_fib_route r' g.
Proof. unfold is_host_fib_route. now intros ->. Qed.

(** After a change of the destinations of [g] only, [update_gw_types g] restores
    the two sets. *)
Lemma update_gw_types_ok g r :
  NoDup (map fst (r_routes r)) -> NoDup (map fst (r_gws r)) ->
  (forall d h, dict_get net_eqb d (r_routes r) = Some h -> In d (dsts_for_gw r h)) ->
  (forall h, NoDup (dsts_for_gw r h)) ->
  (forall h l, dict_get ip_eqb h (r_gws r) = Some l -> l <> []) ->
  (forall h, h <> g -> In h (r_host_gws r) -> is_host_fib_route r h = true) ->
  (forall h, h <> g -> In h (r_route_gws r) -> is_host_fib_route r h = false) ->
  (forall h, h <> g -> dsts_for_gw r h <> [] -> In h (r_host_gws r) \/ In h (r_route_gws r)) ->
  NoDup (map fst (r_neigh r)) ->
  NoDup (r_route_gws r) /\ NoDup (r_host_gws r) ->
  rib_ok (update_gw_types g r).
Proof.
  intros K1 K2 F N S Hh Hr Hu Nk [Ns1 Ns2].
  assert (forall h, dsts_for_gw (update_gw_types g r) h = dsts_for_gw r h) as D
    by (intros; apply dsts_gws, update_gw_types_gws).
  constructor; rewrite ?update_gw_types_routes, ?update_gw_types_gws, ?update_gw_types_neigh; auto.
  - intros d h. rewrite D. apply F.
  - intros h. rewrite D. apply N.
  - intros h I. rewrite (host_fib_gws _ r h (D h)). unfold update_gw_types in I. destruct (is_host_fib_route r g) eqn:E; cbn [r_host_gws] in I.
    + apply (set_add_in ip_eqb ip_eqb_eq) in I as [->|I]; [exact E|]. destruct (ip_eq_dec h g) as [->|]; auto.
    + apply (set_remove_in ip_eqb ip_eqb_eq) in I as [? I]. auto.
  - intros h I. rewrite (host_fib_gws _ r h (D h)). unfold update_gw_types in I. destruct (is_host_fib_route r g) eqn:E; cbn [r_route_gws] in I.
    + apply (set_remove_in ip_eqb ip_eqb_eq) in I as [? I]. auto.
    + apply (set_add_in ip_eqb ip_eqb_eq) in I as [->|I]; [exact E|]. destruct (ip_eq_dec h g) as [->|]; auto.
  - intros h. rewrite D. intros U. unfold update_gw_types. destruct (is_host_fib_route r g) eqn:E; cbn [r_host_gws r_route_gws].
    + destruct (ip_eq_dec h g) as [->|Ne]; [left; apply (set_add_in ip_eqb ip_eqb_eq); auto|].
      destruct (Hu h Ne U); [left; apply (set_add_in ip_eqb ip_eqb_eq); auto|right; apply (set_remove_in ip_eqb ip_eqb_eq); auto].
    + destruct (ip_eq_dec h g) as [->|Ne]; [right; apply (set_add_in ip_eqb ip_eqb_eq); auto|].
      destruct (Hu h Ne U); [left; apply (set_remove_in ip_eqb ip_eqb_eq); auto|right; apply (set_add_in ip_eqb ip_eqb_eq); auto].
  - unfold update_gw_types. destruct (is_host_fib_route r g); cbn [r_host_gws r_route_gws]; split;
      solve [now apply set_remove_nodup|now apply (set_add_nodup ip_eqb ip_eqb_eq)].
Qed.

Lemma empty_rib_ok : rib_ok empty_rib.
Proof. constructor; cbn; try constructor; try tauto; try discriminate; constructor. Qed.

Lemma rib_add_dsts d g r h : dsts_for_gw (rib_add d g r) h = if ip_eqb g h then set_add net_eqb d (dsts_for_gw r g) else dsts_for_gw r h.
Proof.
  unfold rib_add. rewrite (dsts_gws _ _ h (update_gw_types_gws _ _)). unfold dsts_for_gw at 1. cbn [r_gws].
  rewrite ip_get_put. destruct (ip_eqb g h); reflexivity.
Qed.
Lemma rib_add_routes d g r d' : dict_get net_eqb d' (r_routes (rib_add d g r)) = if net_eqb d d' then Some g else dict_get net_eqb d' (r_routes r).
Proof. unfold rib_add. rewrite update_gw_types_routes. cbn [r_routes]. apply net_get_put. Qed.
Lemma rib_add_neigh d g r : r_neigh (rib_add d g r) = r_neigh r.
Proof. unfold rib_add. now rewrite update_gw_types_neigh. Qed.

Lemma eqb_false_ne {A} (eqb : A -> A -> bool) (H : forall a b, eqb a b = true <-> a = b) a b : eqb a b = false <-> a <> b.
Proof. rewrite <- not_true_iff_false, H. reflexivity. Qed.
Definition ip_eqb_ne := eqb_false_ne ip_eqb ip_eqb_eq.
Definition net_eqb_ne := eqb_false_ne net_eqb net_eqb_eq.
Lemma ip_eqb_refl a : ip_eqb a a = true. Proof. now apply ip_eqb_eq. Qed.
Lemma net_eqb_refl a : net_eqb a a = true. Proof. now apply net_eqb_eq. Qed.

Lemma rib_add_ok d g r : rib_ok r -> rib_ok (rib_add d g r).
Proof.
  intros O. unfold rib_add.
  set (r1 := mkRib (dict_put net_eqb d g (r_routes r)) (dict_put ip_eqb g (set_add net_eqb d (dsts_for_gw r g)) (r_gws r))
                   (r_route_gws r) (r_host_gws r) (r_neigh r) (r_todo_routes r) (r_todo_hosts r)).
  assert (forall h, dsts_for_gw r1 h = if ip_eqb g h then set_add net_eqb d (dsts_for_gw r g) else dsts_for_gw r h) as D.
  { intros h. unfold dsts_for_gw at 1. unfold r1. cbn [r_gws]. rewrite ip_get_put. destruct (ip_eqb g h); reflexivity. }
  assert (forall h, h <> g -> dsts_for_gw r1 h = dsts_for_gw r h) as D'.
  { intros h Ne. rewrite D. assert (ip_eqb g h = false) as -> by (apply ip_eqb_ne; auto). reflexivity. }
  apply update_gw_types_ok; unfold r1; cbn [r_routes r_gws r_route_gws r_host_gws r_neigh]; fold r1.
  - apply (dict_put_nodup net_eqb net_eqb_eq), (ro_keys r O).
  - apply (dict_put_nodup ip_eqb ip_eqb_eq), (ro_gkeys r O).
  - intros d' h. rewrite net_get_put. rewrite D. destruct (net_eqb d d') eqn:E.
    + apply net_eqb_eq in E as <-. intros X; injection X as <-. rewrite ip_eqb_refl. apply (set_add_in net_eqb net_eqb_eq). auto.
    + intros X. apply (ro_filed r O) in X. destruct (ip_eqb g h) eqn:E'; [|exact X]. apply ip_eqb_eq in E' as <-.
      apply (set_add_in net_eqb net_eqb_eq). auto.
  - intros h. rewrite D. destruct (ip_eqb g h); [apply (set_add_nodup net_eqb net_eqb_eq)|]; apply (ro_nodup r O).
  - intros h l. rewrite ip_get_put. destruct (ip_eqb g h); [|apply (ro_some r O)].
    intros X; injection X as <-. intros E. assert (In d []) as F by (rewrite <- E; apply (set_add_in net_eqb net_eqb_eq); auto). destruct F.
  - intros h Ne I. rewrite (host_fib_gws r1 r h (D' h Ne)). now apply (ro_host r O).
  - intros h Ne I. rewrite (host_fib_gws r1 r h (D' h Ne)). now apply (ro_route r O).
  - intros h Ne. rewrite (D' h Ne). apply (ro_used r O).
  - apply (ro_nkeys r O).
  - apply (ro_sets r O).
Qed.

Lemma rib_del_spec d r : rib_ok r ->
  match dict_get net_eqb d (r_routes r) with
  | None => rib_del d r = None
  | Some g => exists r', rib_del d r = Some r' /\ rib_ok r' /\
      (forall d', dict_get net_eqb d' (r_routes r') = if net_eqb d d' then None else dict_get net_eqb d' (r_routes r)) /\
      (forall h, dsts_for_gw r' h = if ip_eqb g h then set_remove net_eqb d (dsts_for_gw r g) else dsts_for_gw r h) /\
      r_neigh r' = r_neigh r
  end.
Proof.
  intros O. unfold rib_del. destruct (dict_get net_eqb d (r_routes r)) as [g|] eqn:E; [|reflexivity].
  pose proof (ro_filed r O d g E) as I. unfold dsts_for_gw in I. destruct (dict_get ip_eqb g (r_gws r)) as [l|] eqn:G; [|destruct I].
  pose proof (proj2 (mem_spec net net_eqb net_eqb_eq d l) I) as M. rewrite M.
  eexists. split; [reflexivity|].
  set (l' := set_remove net_eqb d l).
  set (gws := match l' with [] => dict_del ip_eqb g (r_gws r) | _ :: _ => dict_put ip_eqb g l' (r_gws r) end).
  set (r1 := mkRib _ gws _ _ _ _ _).
  assert (dsts_for_gw r g = l) as Dg by (unfold dsts_for_gw; now rewrite G).
  assert (forall h, dict_get ip_eqb h gws = if ip_eqb g h then match l' with [] => None | _ => Some l' end else dict_get ip_eqb h (r_gws r)) as DG.
  { intros h. unfold gws. destruct l' eqn:L.
    - rewrite ip_get_del. destruct (ip_eqb g h); reflexivity.
    - rewrite ip_get_put. destruct (ip_eqb g h); reflexivity. }
  assert (forall h, dsts_for_gw r1 h = if ip_eqb g h then l' else dsts_for_gw r h) as D.
  { intros h. unfold dsts_for_gw at 1. change (r_gws r1) with gws. rewrite DG. destruct (ip_eqb g h); [destruct l'; reflexivity|reflexivity]. }
  assert (forall h, h <> g -> dsts_for_gw r1 h = dsts_for_gw r h) as D'.
  { intros h Ne. rewrite D. assert (ip_eqb g h = false) as -> by (apply ip_eqb_ne; auto). reflexivity. }
  split; [|split; [|split]].
  - apply update_gw_types_ok; unfold r1; cbn [r_routes r_gws r_route_gws r_host_gws r_neigh]; fold r1.
    + apply (dict_del_nodup net_eqb), (ro_keys r O).
    + unfold gws. destruct l'; [apply (dict_del_nodup ip_eqb)|apply (dict_put_nodup ip_eqb ip_eqb_eq)]; apply (ro_gkeys r O).
    + intros d' h. rewrite net_get_del. destruct (net_eqb d d') eqn:E'; [discriminate|].
      intros X. pose proof (ro_filed r O d' h X) as Y. rewrite D. destruct (ip_eqb g h) eqn:E''; [|exact Y].
      apply ip_eqb_eq in E'' as <-. apply (set_remove_in net_eqb net_eqb_eq). split; [apply net_eqb_ne in E'; auto|congruence].
    + intros h. rewrite D. destruct (ip_eqb g h); [|apply (ro_nodup r O)]. unfold l'. apply set_remove_nodup. rewrite <- Dg. apply (ro_nodup r O).
    + intros h l0. rewrite DG. destruct (ip_eqb g h); [|apply (ro_some r O)]. destruct l'; [discriminate|]. intros X; injection X as <-. discriminate.
    + intros h Ne X. rewrite (host_fib_gws r1 r h (D' h Ne)). now apply (ro_host r O).
    + intros h Ne X. rewrite (host_fib_gws r1 r h (D' h Ne)). now apply (ro_route r O).
    + intros h Ne. rewrite (D' h Ne). apply (ro_used r O).
    + apply (ro_nkeys r O).
    + apply (ro_sets r O).
  - intros d'. rewrite update_gw_types_routes. unfold r1. cbn [r_routes]. rewrite net_get_del. destruct (net_eqb d d'); reflexivity.
  - intros h. rewrite (dsts_gws _ _ h (update_gw_types_gws _ _)), D, Dg. reflexivity.
  - rewrite update_gw_types_neigh. reflexivity.
Qed.

(** Changes of the neighbour cache and the queues. *)
Lemma rib_ok_same r r' : rib_ok r -> r_routes r' = r_routes r -> r_gws r' = r_gws r ->
  r_route_gws r' = r_route_gws r -> r_host_gws r' = r_host_gws r -> NoDup (map fst (r_neigh r')) -> rib_ok r'.
Proof.
  intros O E1 E2 E3 E4 N. assert (forall h, dsts_for_gw r' h = dsts_for_gw r h) as D by (intros; apply dsts_gws; auto).
  constructor; rewrite ?E1, ?E2, ?E3, ?E4; try apply O; auto.
  - intros d g. rewrite D. apply O.
  - intros g. rewrite D. apply O.
  - intros g I. rewrite (host_fib_gws r' r g (D g)). now apply (ro_host r O).
  - intros g I. rewrite (host_fib_gws r' r g (D g)). now apply (ro_route r O).
  - intros g. rewrite D. apply O.
Qed.
Lemma put_neigh_ok g n r : rib_ok r -> rib_ok (put_neigh g n r).
Proof. intros O. apply (rib_ok_same r); auto. cbn. apply (dict_put_nodup ip_eqb ip_eqb_eq), O. Qed.
Lemma set_neigh_del_ok g r : rib_ok r -> rib_ok (set_neigh (dict_del ip_eqb g (r_neigh r)) r).
Proof. intros O. apply (rib_ok_same r); auto. cbn. apply (dict_del_nodup ip_eqb), O. Qed.
Lemma reset_caches_ok r : rib_ok r -> rib_ok (reset_caches r).
Proof. intros O. apply (rib_ok_same r); auto. constructor. Qed.

Lemma cached_put g n r h : cached_eth (put_neigh g n r) h = if ip_eqb g h then nh_eth n else cached_eth r h.
Proof. unfold cached_eth, put_neigh. cbn. rewrite ip_get_put. now destruct (ip_eqb g h). Qed.
Lemma cached_del g r h : cached_eth (set_neigh (dict_del ip_eqb g (r_neigh r)) r) h = if ip_eqb g h then None else cached_eth r h.
Proof. unfold cached_eth. cbn. rewrite ip_get_del. now destruct (ip_eqb g h). Qed.
Lemma cached_same r r' h : r_neigh r' = r_neigh r -> cached_eth r' h = cached_eth r h.
Proof. unfold cached_eth. now intros ->. Qed.

Lemma route_get r d g : rib_ok r -> (route r d g <-> dict_get net_eqb d (r_routes r) = Some g).
Proof.
  intros O. unfold route. split; [apply (dict_in_get net_eqb net_eqb_eq), O|apply (dict_get_in net_eqb net_eqb_eq)].
Qed.
Lemma resolved_cached r g e : rib_ok r -> (resolved r g e <-> cached_eth r g = Some e).
Proof.
  intros O. unfold resolved, cached_eth. split.
  - intros (n & I & E). apply (dict_in_get ip_eqb ip_eqb_eq) in I; [now rewrite I|apply O].
  - destruct (dict_get ip_eqb g (r_neigh r)) as [n|] eqn:G; [|discriminate]. intros E. exists n. split; [|exact E].
    now apply (dict_get_in ip_eqb ip_eqb_eq).
Qed.

(** ** Route operations *)

(** valve_route.py 827-931: VLAN.add_route and VLAN.del_route as the route manager
    calls them (del_route only for a route that exists). *)
Definition run_op (r : rib) (o : rop) : rib :=
  match o with
  | OAdd d g => rib_add d g r
  | ODel d => match dict_get net_eqb d (r_routes r) with
              | None => r
              | Some _ => match rib_del d r with Some r' => r' | None => r end
              end
  end.

Lemma run_ops ops : forall r, rib_ok r ->
  rib_ok (fold_left run_op ops r) /\
  forall d, dict_get net_eqb d (r_routes (fold_left run_op ops r)) = gateway_of d ops (dict_get net_eqb d (r_routes r)).
Proof.
  induction ops as [|o ops IH]; intros r O; cbn [fold_left].
  - split; [exact O|reflexivity].
  - destruct o as [d g|d]; cbn [run_op].
    + destruct (IH (rib_add d g r) (rib_add_ok d g r O)) as [A B]. split; [exact A|]. intros d'. rewrite B, rib_add_routes.
      cbn [gateway_of]. f_equal. destruct (net_eqb d d') eqn:E.
      * apply net_eqb_eq in E as <-. now rewrite net_eqb_refl.
      * assert (net_eqb d' d = false) as ->; [|reflexivity]. apply net_eqb_ne. apply net_eqb_ne in E. auto.
    + pose proof (rib_del_spec d r O) as S. destruct (dict_get net_eqb d (r_routes r)) as [g|] eqn:G.
      * destruct S as (r' & -> & O' & R & _). destruct (IH r' O') as [A B]. split; [exact A|]. intros d'. rewrite B, R. cbn [gateway_of]. f_equal.
        destruct (net_eqb d d') eqn:E.
        -- apply net_eqb_eq in E as <-. now rewrite net_eqb_refl.
        -- assert (net_eqb d' d = false) as ->; [|reflexivity]. apply net_eqb_ne. apply net_eqb_ne in E. auto.
      * destruct (IH r O) as [A B]. split; [exact A|]. intros d'. rewrite B. cbn [gateway_of]. f_equal.
        destruct (net_eqb d' d) eqn:E; [apply net_eqb_eq in E as ->; exact G|reflexivity].
Qed.

Lemma static_rib_ok l : rib_ok (static_rib l).
Proof.
  unfold static_rib. assert (forall r, rib_ok r -> rib_ok (fold_left (fun r q => rib_add (fst q) (snd q) r) l r)) as H.
  { induction l as [|q l IH]; intros r O; cbn [fold_left]; [exact O|]. apply IH, rib_add_ok, O. }
  apply H, empty_rib_ok.
Qed.
