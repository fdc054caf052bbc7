(** * Lemmas about stack links *)
From Coq Require Import ZArith List Bool Lia.
From Verif Require Import PyBase PyBaseProofs StackModel StackSpec StackProofs StackLinkModel StackLinkSpec.
Import ListNotations.
Open Scope Z_scope.

(** ** Ends and edges *)

Lemma ep_eqb : forall a b, endpoint_eqb a b = true <-> a = b.
Proof.
  intros [a1 a2] [b1 b2]. unfold endpoint_eqb. cbn [fst snd]. rewrite andb_true_iff, !Z.eqb_eq.
  split; [intros [-> ->]; auto|intros E; injection E as -> ->; auto].
Qed.
Lemma ep_dec : forall a b : endpoint, {a = b} + {a <> b}.
Proof. decide equality; apply Z.eq_dec. Qed.
Lemma ep_refl : forall a, endpoint_eqb a a = true.
Proof. intros; apply ep_eqb; auto. Qed.
Lemma ep_neq : forall a b, endpoint_eqb a b = false <-> a <> b.
Proof. intros a b. rewrite <- ep_eqb. destruct (endpoint_eqb a b); intuition congruence. Qed.
Lemma edge_eqb_spec : forall a b, edge_eqb a b = true <-> a = b.
Proof.
  intros [a1 a2] [b1 b2]. unfold edge_eqb. cbn [fst snd]. rewrite andb_true_iff, !ep_eqb.
  split; [intros [-> ->]; auto|intros E; injection E as -> ->; auto].
Qed.
Lemma edge_neq : forall a b, edge_eqb a b = false <-> a <> b.
Proof. intros a b. rewrite <- edge_eqb_spec. destruct (edge_eqb a b); intuition congruence. Qed.

Lemma le_spec : forall a b, endpoint_le a b = true <-> fst a < fst b \/ (fst a = fst b /\ snd a <= snd b).
Proof.
  intros a b. unfold endpoint_le. rewrite orb_true_iff, andb_true_iff, Z.ltb_lt, Z.eqb_eq, Z.leb_le. tauto.
Qed.

Lemma canonical_edge_sym : forall a b, canonical_edge a b = canonical_edge b a.
Proof.
  intros [a1 a2] [b1 b2]. unfold canonical_edge.
  destruct (endpoint_le (a1, a2) (b1, b2)) eqn:E1, (endpoint_le (b1, b2) (a1, a2)) eqn:E2; auto.
  - apply le_spec in E1, E2. cbn in *. assert (a1 = b1) by lia. assert (a2 = b2) by lia. congruence.
  - exfalso. assert (~ endpoint_le (a1, a2) (b1, b2) = true) by congruence.
    assert (~ endpoint_le (b1, b2) (a1, a2) = true) by congruence. rewrite le_spec in *. cbn in *. lia.
Qed.
Lemma canonical_edge_cases : forall a b, canonical_edge a b = (a, b) \/ canonical_edge a b = (b, a).
Proof. intros. unfold canonical_edge. destruct (endpoint_le a b); auto. Qed.
Lemma canonical_edge_inj : forall a b c d, canonical_edge a b = canonical_edge c d -> (a = c /\ b = d) \/ (a = d /\ b = c).
Proof.
  intros a b c d E. destruct (canonical_edge_cases a b) as [F|F], (canonical_edge_cases c d) as [G|G]; rewrite F, G in E;
    injection E as -> ->; auto.
Qed.

Lemma add_node_in : forall n l x, In x (add_node n l) <-> x = n \/ In x l.
Proof.
  intros n l x. unfold add_node. destruct (mem Z.eqb n l) eqn:E.
  - apply memz in E. intuition. subst; auto.
  - rewrite in_app_iff. cbn. intuition.
Qed.
Lemma add_node_nodup : forall n l, NoDup l -> NoDup (add_node n l).
Proof.
  intros n l H. unfold add_node. destruct (mem Z.eqb n l) eqn:E; auto. apply memz_false in E.
  apply NoDup_app_iff_. split; auto. split; [repeat constructor; auto|]. intros x I [<-|[]]; auto.
Qed.

Lemma topo_edges : forall g a b up e, In e (g_edges (modify_topology g a b up)) <->
  if up then e = canonical_edge a b \/ In e (g_edges g) else In e (g_edges g) /\ e <> canonical_edge a b.
Proof.
  intros g a b up e. unfold modify_topology. destruct up; cbn [g_edges].
  - destruct (mem edge_eqb (canonical_edge a b) (g_edges g)) eqn:E.
    + apply (mem_spec _ _ edge_eqb_spec) in E. intuition. subst; auto.
    + rewrite in_app_iff. cbn. intuition.
  - rewrite filter_In, negb_true_iff, edge_neq. reflexivity.
Qed.
Lemma topo_nodes : forall g a b up x, In x (g_nodes (modify_topology g a b up)) <->
  In x (g_nodes g) \/ (up = true /\ (x = fst a \/ x = fst b)).
Proof.
  intros g a b up x. unfold modify_topology. destruct up; cbn [g_nodes]; [|intuition discriminate].
  rewrite !add_node_in. destruct (canonical_edge_cases a b) as [-> | ->]; cbn [fst snd]; intuition.
Qed.
Lemma topo_nodup : forall g a b up, NoDup (g_nodes g) -> NoDup (g_nodes (modify_topology g a b up)).
Proof. intros g a b up H. unfold modify_topology. destruct up; cbn [g_nodes]; auto using add_node_nodup. Qed.

(** ** The network as a function of the states of ports *)

Section Net.
Variables (switches : list (Z * Z)) (confs : list lconf).
Hypothesis PR : proper switches confs.

Definition pstate := (endpoint -> sstate)%type.
Definition pprobe := (endpoint -> option (Z * bool))%type.
Definition port_of (st : pstate) (pr : pprobe) (c : lconf) : lport :=
  mkLport (lc_at c) (lc_to c) (lc_lost c) (lc_interval c) (st (lc_at c)) (pr (lc_at c)).
Definition net_of (g : graph) (st : pstate) (pr : pprobe) : net :=
  mkNet switches (map (port_of st pr) confs) (map (fun sw => (fst sw, g)) switches).
Definition put {A} (f : endpoint -> A) (a : endpoint) (x : A) : endpoint -> A := fun b => if endpoint_eqb b a then x else f b.

Lemma put_same : forall A (f : endpoint -> A) a x, put f a x a = x.
Proof. intros. unfold put. rewrite ep_refl. reflexivity. Qed.
Lemma put_other : forall A (f : endpoint -> A) a x b, b <> a -> put f a x b = f b.
Proof. intros. unfold put. apply ep_neq in H. rewrite H. reflexivity. Qed.

Lemma conf_unique : forall c d, In c confs -> In d confs -> lc_at c = lc_at d -> c = d.
Proof.
  destruct PR as (_ & N & _). revert N. generalize confs as l. induction l as [|x l IH]; intros N c d C D E; [contradiction|].
  inversion N; subst. destruct C as [->|C], D as [->|D]; auto.
  - exfalso. apply H1. rewrite E. apply in_map; auto.
  - exfalso. apply H1. rewrite <- E. apply in_map; auto.
Qed.

Lemma find_conf : forall st pr c, In c confs ->
  find (fun p => endpoint_eqb (lp_at p) (lc_at c)) (map (port_of st pr) confs) = Some (port_of st pr c).
Proof.
  destruct PR as (_ & N & _). intros st pr c. revert N. generalize confs as l.
  induction l as [|x l IH]; intros N I; [contradiction|]. inversion N; subst. cbn [map find].
  unfold port_of at 1. cbn [lp_at]. destruct (endpoint_eqb (lc_at x) (lc_at c)) eqn:E.
  - apply ep_eqb in E. destruct I as [->|I]; auto. exfalso. apply H1. rewrite E. apply in_map; auto.
  - apply ep_neq in E. destruct I as [->|I]; [congruence|]. auto.
Qed.

Lemma at_conf : forall g st pr c, In c confs -> lport_at (net_of g st pr) (lc_at c) = Some (port_of st pr c).
Proof. intros. unfold lport_at, net_of. cbn [nt_ports]. apply find_conf; auto. Qed.
Lemma at_none : forall g st pr a, ~ In a (map lc_at confs) -> lport_at (net_of g st pr) a = None.
Proof.
  intros g st pr a N. unfold lport_at, net_of. cbn [nt_ports].
  destruct (find _ _) as [p|] eqn:F; auto. exfalso. apply find_some in F as [I E]. apply ep_eqb in E.
  apply in_map_iff in I as (c & <- & I). apply N. rewrite <- E. apply in_map_iff. exists c; auto.
Qed.

Lemma set_states : forall st pr a s, map (fun q => if endpoint_eqb (lp_at q) a then set_lport q s (lp_probe q) else q) (map (port_of st pr) confs) =
  map (port_of (put st a s) pr) confs.
Proof.
  intros. rewrite map_map. apply map_ext. intros c. unfold port_of at 1. cbn [lp_at].
  unfold port_of at 4, put. destruct (endpoint_eqb (lc_at c) a); reflexivity.
Qed.
Lemma set_probes : forall st pr a x, map (fun q => if endpoint_eqb (lp_at q) a then set_lport q (lp_state q) x else q) (map (port_of st pr) confs) =
  map (port_of st (put pr a x)) confs.
Proof.
  intros. rewrite map_map. apply map_ext. intros c. unfold port_of at 1. cbn [lp_at].
  unfold port_of at 4, put. destruct (endpoint_eqb (lc_at c) a); reflexivity.
Qed.

(** The state a port gets when it is looked at. *)
Definition next (c : lconf) (s : sstate) (probe : option (Z * bool)) (now : Z) : sstate :=
  match probe with
  | None => match s with SNone => SInit | s => s end
  | Some (t, ok) => if now - t <? lc_lost c * lc_interval c then (if ok then SUp else SBad) else SGone
  end.
Lemma next_spec : forall st pr c now, stack_port_update (port_of st pr c) now = next c (st (lc_at c)) (pr (lc_at c)) now.
Proof.
  intros. unfold stack_port_update, next, port_of. cbn [lp_probe lp_state lp_lost lp_interval].
  destruct (pr (lc_at c)) as [[t ok]|]; [|destruct (st (lc_at c)); reflexivity].
  destruct (now - t <? _); cbn [negb]; [destruct ok|]; reflexivity.
Qed.

Definition up_now (st : pstate) (c : lconf) (s : sstate) (there : bool) : bool :=
  match s with SUp => true | SInit => there | _ => false end.
Definition there (st : pstate) (a : endpoint) : bool :=
  if existsb (fun c => endpoint_eqb (lc_at c) a) confs then sstate_eqb (st a) SUp else false.

Lemma is_up_net : forall g st pr a, is_up (net_of g st pr) a = there st a.
Proof.
  intros. unfold is_up, there. destruct (existsb _ confs) eqn:E.
  - apply existsb_exists in E as (c & I & E). apply ep_eqb in E. subst a. rewrite (at_conf g st pr c I). reflexivity.
  - rewrite at_none; auto. intros I. apply in_map_iff in I as (c & <- & I).
    assert (existsb (fun d => endpoint_eqb (lc_at d) (lc_at c)) confs = true); [|congruence].
    apply existsb_exists. exists c. split; auto. apply ep_refl.
Qed.

Definition new_graph (g : graph) (st : pstate) (c : lconf) (s' : sstate) : graph :=
  if sstate_eqb (st (lc_at c)) s' then g
  else modify_topology g (lc_at c) (lc_to c)
    (match s' with SUp => true | SInit => there (put st (lc_at c) s') (lc_to c) | _ => false end).

Lemma update_link_net : forall g st pr c now, In c confs ->
  let s' := next c (st (lc_at c)) (pr (lc_at c)) now in
  update_link (net_of g st pr) now (lc_at c) = net_of (new_graph g st c s') (put st (lc_at c) s') pr.
Proof.
  intros g st pr c now I s'. unfold update_link. rewrite (at_conf g st pr c I).
  cbv zeta. rewrite next_spec. fold s'.
  change (nt_ports (net_of g st pr)) with (map (port_of st pr) confs). rewrite set_states.
  change (lp_state (port_of st pr c)) with (st (lc_at c)). change (lp_to (port_of st pr c)) with (lc_to c).
  unfold new_graph. destruct (sstate_eqb (st (lc_at c)) s'); [reflexivity|].
  cbn [nt_switches nt_graphs net_of].
  change (mkNet switches (map (port_of (put st (lc_at c) s') pr) confs) (map (fun sw => (fst sw, g)) switches))
    with (net_of g (put st (lc_at c) s') pr).
  rewrite is_up_net. unfold update_topos. rewrite map_map. reflexivity.
Qed.

Lemma update_link_none : forall g st pr a now, ~ In a (map lc_at confs) -> update_link (net_of g st pr) now a = net_of g st pr.
Proof. intros. unfold update_link. rewrite at_none; auto. Qed.

(** ** What holds of the topology *)

Record good (g : graph) (st : pstate) : Prop := {
  go_nodup : NoDup (g_nodes g);
  go_nodes : forall x, In x (g_nodes g) <-> In x (map fst switches);
  go_edges : forall e, In e (g_edges g) -> exists c, In c confs /\ e = conf_edge c;
  go_up : forall c, In c confs -> st (lc_at c) = SUp -> st (lc_to c) = SUp -> In (conf_edge c) (g_edges g);
  go_down : forall c, In c confs -> st (lc_at c) <> SUp -> st (lc_to c) <> SUp ->
    ~ (st (lc_at c) = SNone /\ st (lc_to c) = SNone) -> ~ In (conf_edge c) (g_edges g)
}.

Hypothesis BE : both_ends confs.

Lemma sstate_eqb_spec : forall a b, sstate_eqb a b = true <-> a = b.
Proof. intros [] []; cbn; split; congruence. Qed.

Lemma there_spec : forall st c, In c confs -> there st (lc_to c) = sstate_eqb (st (lc_to c)) SUp.
Proof.
  intros st c I. unfold there. destruct (BE c I) as (_ & d & D & E & _).
  assert (X : existsb (fun c0 => endpoint_eqb (lc_at c0) (lc_to c)) confs = true).
  { apply existsb_exists. exists d. split; auto. rewrite E. apply ep_refl. }
  rewrite X. reflexivity.
Qed.

Lemma good_step : forall g st c s', In c confs -> s' <> SNone -> good g st -> good (new_graph g st c s') (put st (lc_at c) s').
Proof.
  intros g st c s' I NN G. unfold new_graph. destruct (BE c I) as (NE & d & D & DA & DT).
  destruct (sstate_eqb (st (lc_at c)) s') eqn:S.
  - apply sstate_eqb_spec in S.
    assert (X : forall a, put st (lc_at c) s' a = st a).
    { intros a. unfold put. destruct (endpoint_eqb a (lc_at c)) eqn:E; auto. apply ep_eqb in E. congruence. }
    destruct G as [G1 G2 G3 G4 G5]. constructor; auto; intros c0 I0; rewrite !X; auto.
  - assert (SN : st (lc_at c) <> s') by (intros E; apply sstate_eqb_spec in E; congruence).
    rewrite there_spec by auto. rewrite put_other by (intros E; apply NE; auto).
    set (up := match s' with SUp => true | SInit => _ | _ => false end).
    assert (UP : up = true <-> s' = SUp \/ (s' = SInit /\ st (lc_to c) = SUp)).
    { unfold up. destruct s'; try (split; [discriminate|intros [E|[E _]]; discriminate E]); [|tauto].
      rewrite sstate_eqb_spec. split; auto. intros [E|[_ E]]; [discriminate E|auto]. }
    assert (SAME : forall c0, In c0 confs -> conf_edge c0 = conf_edge c -> c0 = c \/ c0 = d).
    { intros c0 I0 E. apply canonical_edge_inj in E as [[E _]|[E1 E2]]; [left; apply conf_unique; auto|].
      right. apply conf_unique; auto. congruence. }
    destruct G as [G1 G2 G3 G4 G5]. destruct PR as (_ & _ & PS). constructor.
    + apply topo_nodup; auto.
    + intros x. rewrite topo_nodes, G2. split; [|auto]. intros [H|[_ [-> | ->]]]; auto.
      rewrite <- DA. apply PS; auto.
    + intros e E. apply topo_edges in E. destruct up; [destruct E as [->|E]; eauto|apply G3, E].
    + intros c0 I0 U1 U2. apply topo_edges. fold (conf_edge c).
      destruct (endpoint_eqb (lc_at c0) (lc_at c)) eqn:E1.
      { apply ep_eqb in E1. apply conf_unique in E1; auto. subst c0. rewrite put_same in U1.
        assert (X : up = true) by (apply UP; auto). rewrite X. auto. }
      destruct (endpoint_eqb (lc_to c0) (lc_at c)) eqn:E2.
      { apply ep_eqb in E2. rewrite E2, put_same in U2.
        assert (X : up = true) by (apply UP; auto). rewrite X.
        destruct (BE c0 I0) as (_ & d0 & D0 & A0 & T0).
        assert (d0 = c) by (apply conf_unique; auto; congruence). subst d0. left.
        unfold conf_edge. rewrite <- E2, T0. apply canonical_edge_sym. }
      apply ep_neq in E1. apply ep_neq in E2. rewrite put_other in U1, U2 by auto.
      destruct up; [right; auto|]. split; [auto|]. intros E.
      destruct (SAME c0 I0 E) as [->| ->]; [congruence|]. apply E2. congruence.
    + intros c0 I0 U1 U2 NB E. apply topo_edges in E. fold (conf_edge c) in E.
      destruct (endpoint_eqb (lc_at c0) (lc_at c)) eqn:E1.
      { apply ep_eqb in E1. apply conf_unique in E1; auto. subst c0. rewrite put_same in U1.
        rewrite put_other in U2 by (intros X; apply NE; auto).
        destruct up; [|destruct E as [_ E]; congruence].
        assert (X : s' = SUp \/ s' = SInit /\ st (lc_to c) = SUp) by (apply UP; auto). intuition congruence. }
      destruct (endpoint_eqb (lc_to c0) (lc_at c)) eqn:E2.
      { apply ep_eqb in E2. apply ep_neq in E1. rewrite E2, put_same in U2. rewrite put_other in U1 by auto.
        destruct (BE c0 I0) as (_ & d0 & D0 & A0 & T0).
        assert (d0 = c) by (apply conf_unique; auto; congruence). subst d0.
        destruct up.
        - assert (X : s' = SUp \/ s' = SInit /\ st (lc_to c) = SUp) by (apply UP; auto).
          rewrite T0 in X. intuition congruence.
        - destruct E as [_ E]. apply E. unfold conf_edge. rewrite <- E2, T0. apply canonical_edge_sym. }
      apply ep_neq in E1. apply ep_neq in E2. rewrite put_other in U1, U2 by auto.
      rewrite !put_other in NB by auto.
      apply (G5 c0 I0 U1 U2 NB).
      destruct up; [|apply E]. destruct E as [E|E]; auto. exfalso.
      destruct (SAME c0 I0 E) as [->| ->]; [congruence|]. apply E2. congruence.
Qed.

Lemma next_not_none : forall c s p now, next c s p now <> SNone.
Proof. intros c s [[t ok]|] now; cbn; [destruct (now - t <? _); [destruct ok|]; discriminate|destruct s; discriminate]. Qed.

(** ** Events *)

(** Looking at several ports. *)
Lemma link_states : forall l g st pr now, NoDup l -> good g st ->
  exists g' st', update_stack_link_state (net_of g st pr) l now = net_of g' st' pr /\ good g' st' /\
    forall c, In c confs -> st' (lc_at c) = if mem endpoint_eqb (lc_at c) l then next c (st (lc_at c)) (pr (lc_at c)) now else st (lc_at c).
Proof.
  induction l as [|a l IH]; intros g st pr now ND G.
  - exists g, st. split; auto. 
  - inversion ND; subst. unfold update_stack_link_state in *. cbn [fold_left].
    destruct (in_dec ep_dec a (map lc_at confs)) as [I|N].
    + apply in_map_iff in I as (c & <- & I). rewrite update_link_net by auto.
      edestruct IH as (g' & st' & E & G' & S); [auto| |].
      2: { exists g', st'. split; [exact E|]. split; auto. intros c0 I0. rewrite (S c0 I0).
        cbn [mem existsb]. fold (mem endpoint_eqb (lc_at c0) l).
        destruct (endpoint_eqb (lc_at c0) (lc_at c)) eqn:X.
        - apply ep_eqb in X. apply conf_unique in X; auto. subst c0. cbn [orb]. rewrite put_same.
          destruct (mem endpoint_eqb (lc_at c) l) eqn:M; auto.
          apply (mem_spec _ _ ep_eqb) in M. contradiction.
        - apply ep_neq in X. rewrite put_other by auto. cbn [orb]. reflexivity. }
      apply good_step; auto. apply next_not_none.
    + rewrite update_link_none by auto. destruct (IH g st pr now) as (g' & st' & E & G' & S); auto.
      exists g', st'. split; auto. split; auto. intros c I. rewrite (S c I). cbn [mem existsb].
      fold (mem endpoint_eqb (lc_at c) l). destruct (endpoint_eqb (lc_at c) a) eqn:X; auto.
      apply ep_eqb in X. exfalso. apply N. rewrite <- X. apply in_map; auto.
Qed.

Definition correct (c : lconf) (i x y : Z) : bool :=
  match dict_get Z.eqb (fst (lc_to c)) switches with
  | Some dp_id => (i =? dp_id) && (x =? fst (lc_to c)) && (y =? snd (lc_to c))
  | None => false
  end.
Lemma correct_spec : forall c i x y, correct c i x y = true <-> In (fst (lc_to c), i) switches /\ x = fst (lc_to c) /\ y = snd (lc_to c).
Proof.
  intros c i x y. unfold correct. destruct PR as (N & _).
  assert (ZS : forall x y, (x =? y) = true <-> x = y) by (intros; apply Z.eqb_eq).
  destruct (dict_get Z.eqb (fst (lc_to c)) switches) as [d|] eqn:E.
  - pose proof (dict_get_in _ ZS _ _ _ E) as I.
    rewrite !andb_true_iff, !Z.eqb_eq. split.
    + intros [[-> ->] ->]. auto.
    + intros [J [-> ->]]. apply (dict_in_get _ ZS _ _ _ N) in J. split; auto. split; congruence.
  - apply (dict_get_none _ ZS) in E. split; [discriminate|]. intros [J _]. exfalso. apply E.
    change (fst (lc_to c)) with (fst (fst (lc_to c), i)). apply in_map; auto.
Qed.

(** One event. *)
Definition probes (e : levent) (c : lconf) (old : option (Z * bool)) : option (Z * bool) :=
  match e with
  | LProbe a now i x y => if endpoint_eqb (lc_at c) a then Some (now, correct c i x y) else old
  | LTick _ _ => old
  end.
Definition looks (e : levent) (c : lconf) : option Z :=
  match e with
  | LProbe a now _ _ _ => if endpoint_eqb (lc_at c) a then Some now else None
  | LTick dp now => if fst (lc_at c) =? dp then Some now else None
  end.

Lemma event_step : forall e g st pr, good g st ->
  exists g' st' pr', lstep (net_of g st pr) e = net_of g' st' pr' /\ good g' st' /\
    forall c, In c confs ->
      pr' (lc_at c) = probes e c (pr (lc_at c)) /\
      st' (lc_at c) = match looks e c with Some now => next c (st (lc_at c)) (pr' (lc_at c)) now | None => st (lc_at c) end.
Proof.
  intros e g st pr G. destruct e as [a now i x y|dp now]; cbn [lstep probes looks].
  - unfold verify_lldp.
    destruct (in_dec ep_dec a (map lc_at confs)) as [I|N].
    + apply in_map_iff in I as (c & <- & I). rewrite (at_conf g st pr c I).
      unfold port_of at 1 2 3. cbn [lp_to nt_ports nt_switches net_of].
      set (ok := match dict_get Z.eqb (fst (lc_to c)) switches with Some d => _ | None => false end).
      assert (OK : ok = correct c i x y).
      { unfold ok, correct. destruct (dict_get _ _ _); auto. rewrite !negb_orb, !negb_involutive. reflexivity. }
      rewrite OK. rewrite set_probes. cbn [nt_graphs].
      change (mkNet switches (map (port_of st (put pr (lc_at c) (Some (now, correct c i x y)))) confs) (map (fun sw => (fst sw, g)) switches))
        with (net_of g st (put pr (lc_at c) (Some (now, correct c i x y)))).
      destruct (link_states [lc_at c] g st (put pr (lc_at c) (Some (now, correct c i x y))) now) as (g' & st' & E & G' & S); auto.
      { repeat constructor; auto. }
      exists g', st', (put pr (lc_at c) (Some (now, correct c i x y))). split; [exact E|]. split; auto.
      intros c0 I0. rewrite (S c0 I0). cbn [mem existsb]. rewrite orb_false_r.
      destruct (endpoint_eqb (lc_at c0) (lc_at c)) eqn:X; [|apply ep_neq in X; rewrite put_other by auto; auto].
      apply ep_eqb in X. apply conf_unique in X; auto. subst c0. rewrite put_same. auto.
    + rewrite at_none by auto. exists g, st, pr. split; auto. split; auto. intros c I.
      destruct (endpoint_eqb (lc_at c) a) eqn:X; auto. apply ep_eqb in X. exfalso. apply N. rewrite <- X. apply in_map; auto.
  - unfold ports_of. cbn [nt_ports net_of]. rewrite map_map. cbn [port_of lp_at].
    destruct (link_states (filter (fun a => fst a =? dp) (map lc_at confs)) g st pr now) as (g' & st' & E & G' & S); auto.
    { apply NoDup_filter. apply PR. }
    exists g', st', pr. split; [exact E|]. split; auto. intros c I. split; auto. rewrite (S c I).
    assert (X : mem endpoint_eqb (lc_at c) (filter (fun a => fst a =? dp) (map lc_at confs)) = (fst (lc_at c) =? dp)).
    { destruct (fst (lc_at c) =? dp) eqn:F.
      - apply (mem_spec _ _ ep_eqb). apply filter_In. split; auto. apply in_map; auto.
      - destruct (mem _ _ _) eqn:M; auto. apply (mem_spec _ _ ep_eqb) in M. apply filter_In in M as [_ M]. congruence. }
    rewrite X. destruct (fst (lc_at c) =? dp); reflexivity.
Qed.
End Net.
