(** * The manager of all datapaths: properties C49, C63 and C64 *)
From Coq Require Import ZArith List Bool Lia Permutation.
From Verif Require Import PyBase PyBaseProofs ConfProofs ManagerModel ManagerSpec.
Import ListNotations.
Open Scope Z_scope.

(** ** C49: what a service run sends *)
Section Run.
  Context {M S : Type}.
  Implicit Types (acc r : list (Z * list M)) (h : @handler M S).

  Lemma take_put : forall acc x, take acc x = dict_put Z.eqb (fst x) (snd x) (dict_put Z.eqb (fst x) [] acc).
  Proof.
    intros acc x. unfold take. destruct (dict_get Z.eqb (fst x) acc); rewrite (dict_get_put Z.eqb zspec), Z.eqb_refl; reflexivity.
  Qed.
  Lemma take_get : forall acc x v, dict_get Z.eqb v (take acc x) = if v =? fst x then Some (snd x) else dict_get Z.eqb v acc.
  Proof.
    intros acc x v. rewrite take_put, !(dict_get_put Z.eqb zspec). destruct (v =? fst x); auto.
  Qed.
  Lemma takes_get : forall r acc v, NoDup (map fst r) ->
    dict_get Z.eqb v (fold_left take r acc) = match dict_get Z.eqb v r with Some ms => Some ms | None => dict_get Z.eqb v acc end.
  Proof.
    induction r as [|[k ms] r IH]; intros acc v ND; [reflexivity|]. inversion ND as [|x y N1 N2]; subst x y.
    cbn [fold_left]. rewrite IH, take_get by auto. cbn [fst snd dict_get].
    destruct (Z.eqb_spec v k) as [->|]; auto.
    destruct (dict_get Z.eqb k r) eqn:E; auto. apply (dict_get_in Z.eqb zspec) in E. exfalso. apply N1. apply (in_map fst) in E. auto.
  Qed.
  Lemma takes_nodup : forall r acc, NoDup (map fst acc) -> NoDup (map fst (fold_left take r acc)).
  Proof.
    induction r as [|x r IH]; intros acc ND; auto. cbn [fold_left]. apply IH. rewrite take_put.
    apply (dict_put_nodup Z.eqb zspec), (dict_put_nodup Z.eqb zspec). auto.
  Qed.

  Lemma services_results : forall h valves vs st acc,
    fold_left (service_step h valves) vs (st, acc) =
    (fst (results h valves vs st), fold_left (fun a r => fold_left take r a) (snd (results h valves vs st)) acc).
  Proof.
    intros h valves. induction vs as [|v vs IH]; intros st acc; [reflexivity|]. cbn [fold_left results].
    unfold service_step at 2. cbn [fst snd]. destruct (h v (other_running_valves valves v) st) as [st1 r]. rewrite IH.
    destruct (results h valves vs st1) as [st2 rs]. reflexivity.
  Qed.

  Lemma last_get : forall rs acc v ms, (forall r, In r rs -> NoDup (map fst r)) ->
    (dict_get Z.eqb v (fold_left (fun a r => fold_left take r a) rs acc) = Some ms <->
     last_for v rs ms \/ ((forall r m, In r rs -> ~ In (v, m) r) /\ dict_get Z.eqb v acc = Some ms)).
  Proof.
    induction rs as [|r rs IH]; intros acc v ms ND.
    - cbn. split; [intros H; right; auto|]. intros [H|[_ H]]; auto. inversion H.
    - cbn [fold_left]. rewrite IH by (intros; apply ND; right; auto). rewrite takes_get by (apply ND; left; auto).
      assert (NR := ND r (or_introl eq_refl)). split.
      + intros [H|[H1 H2]]; [left; apply last_later; auto|].
        destruct (dict_get Z.eqb v r) as [m|] eqn:E.
        * injection H2 as ->. left. apply last_here; auto. apply (dict_get_in Z.eqb zspec); auto.
        * right. split; auto. intros r' m [<-|H]; [|eauto]. intros I. apply (dict_in_get Z.eqb zspec) in I; auto. congruence.
      + intros [H|[H1 H2]].
        * inversion H as [r0 rs0 ms0 I NI|r0 rs0 ms0 L]; subst; auto. right. split; auto.
          apply (dict_in_get Z.eqb zspec) in I; auto. rewrite I. auto.
        * right. split; [intros r' m I; apply H1; right; auto|].
          destruct (dict_get Z.eqb v r) as [m|] eqn:E; auto. apply (dict_get_in Z.eqb zspec) in E. exfalso. eapply H1; [left; reflexivity|eauto].
  Qed.
End Run.

(** In a service run every switch is sent at most one batch: what the last handler
    that gave messages for it gave.  Handlers are told exactly the other running
    switches. *)
Theorem C49_last : forall M S (h : @handler M S) valves st v ms,
  (forall r, In r (snd (results h valves (map fst valves) st)) -> NoDup (map fst r)) ->
  NoDup (map fst (snd (valve_flow_services h valves st))) /\
  (In (v, ms) (snd (valve_flow_services h valves st)) <-> last_for v (snd (results h valves (map fst valves) st)) ms).
Proof.
  intros M S h valves st v ms ND. unfold valve_flow_services. rewrite services_results. cbn [snd].
  set (rs := snd (results h valves (map fst valves) st)) in *.
  assert (N : NoDup (map fst (fold_left (fun a r => fold_left take r a) rs []))).
  { assert (G : forall rs (acc : list (Z * list M)), NoDup (map fst acc) -> NoDup (map fst (fold_left (fun a r => fold_left take r a) rs acc))).
    { induction rs0 as [|r rs0 IH]; intros acc H; auto. cbn [fold_left]. apply IH, takes_nodup. auto. }
    apply G. constructor. }
  split; auto. split; intros H.
  - apply (dict_in_get Z.eqb zspec) in H; auto. apply last_get in H; auto. destruct H as [H|[_ H]]; [auto|discriminate H].
  - apply (dict_get_in Z.eqb zspec). apply last_get; auto.
Qed.
Print Assumptions C49_last.

(** So nothing is lost for a switch that one handler only gives messages for. *)
Theorem C49_single : forall M S (h : @handler M S) valves st rs1 r rs2 v ms,
  snd (results h valves (map fst valves) st) = rs1 ++ r :: rs2 ->
  (forall r, In r (snd (results h valves (map fst valves) st)) -> NoDup (map fst r)) ->
  In (v, ms) r -> (forall r' m, In r' (rs1 ++ rs2) -> ~ In (v, m) r') ->
  In (v, ms) (snd (valve_flow_services h valves st)).
Proof.
  intros M S h valves st rs1 r rs2 v ms E ND I O. apply C49_last; auto. rewrite E. clear E ND.
  induction rs1 as [|x rs1 IH]; cbn [app].
  - apply last_here; [auto|]. intros r' m H. apply O. auto.
  - apply last_later, IH. intros r' m H. apply O. right; auto.
Qed.
Print Assumptions C49_single.

(** The services in which handlers give messages for other switches (the check of
    stack links) refresh: a handler that changes the state gives every running switch
    everything that depends on the state, as [refresh] says.  After the run, if
    anything changed at all, every running switch is sent what the final state
    demands. *)
Theorem C49_refresh : forall M S (h : @handler M S) (refresh : S -> Z -> list M) valves st v,
  NoDup (map fst valves) ->
  (forall w others s, let '(s', r) := h w others s in
     (s' = s /\ r = []) \/
     (NoDup (map fst r) /\ (forall u ms, In (u, ms) r <-> (u = w \/ In u others) /\ ms = refresh s' u))) ->
  In (v, true) valves ->
  let '(st', sent) := valve_flow_services h valves st in
  (exists ms, In (v, ms) sent /\ ms = refresh st' v) \/ (st' = st /\ ~ exists ms, In (v, ms) sent).
Proof.
  intros M S h refresh valves st v NV H V.
  assert (OT : forall w, v = w \/ In v (other_running_valves valves w)).
  { intros w. destruct (Z.eq_dec v w); auto. right. unfold other_running_valves. apply in_map_iff. exists (v, true). split; auto.
    apply filter_In. split; auto. cbn. destruct (Z.eqb_spec w v); [congruence|auto]. }
  assert (R : forall vs s, (forall r, In r (snd (results h valves vs s)) -> NoDup (map fst r)) /\
    ((exists ms, last_for v (snd (results h valves vs s)) ms /\ ms = refresh (fst (results h valves vs s)) v) \/
     (fst (results h valves vs s) = s /\ forall r ms, In r (snd (results h valves vs s)) -> ~ In (v, ms) r))).
  { induction vs as [|w vs IH]; intros s; cbn [results]; [split; [intros r []|right; auto]|].
    specialize (H w (other_running_valves valves w) s). destruct (h w (other_running_valves valves w) s) as [s1 r].
    specialize (IH s1). destruct (results h valves vs s1) as [s2 rs]. cbn [fst snd] in *. destruct IH as [IH1 IH2]. split.
    - intros r' [<-|I]; auto. destruct H as [[_ ->]|[H _]]; auto. constructor.
    - destruct IH2 as [[ms [L ->]]|[-> N]].
      + left. eexists. split; [apply last_later; eauto|auto].
      + destruct H as [[-> ->]|[_ H]].
        * right. split; auto. intros r' ms [<-|I]; auto.
        * left. exists (refresh s1 v). split; auto. apply last_here; [|auto]. apply H. split; auto. }
  specialize (R (map fst valves) st). destruct R as [R1 R2].
  assert (L : forall ms, In (v, ms) (snd (valve_flow_services h valves st)) <-> last_for v (snd (results h valves (map fst valves) st)) ms)
    by (intros; apply C49_last; auto).
  assert (F : fst (valve_flow_services h valves st) = fst (results h valves (map fst valves) st)).
  { unfold valve_flow_services. rewrite services_results. reflexivity. }
  destruct (valve_flow_services h valves st) as [st' sent]. cbn [fst snd] in *. rewrite F.
  destruct R2 as [[ms [L1 ->]]|[E N]].
  - left. eexists. split; [apply L; eauto|auto].
  - right. split; auto. intros [ms I]. apply L in I. revert I N. generalize (snd (results h valves (map fst valves) st)). clear.
    induction 1 as [r rs ms I _|r rs ms _ IH]; intros N; [eapply N; [left; reflexivity|eauto]|]. apply IH. intros r' m J. apply N. right; auto.
Qed.
Print Assumptions C49_refresh.

(** Two switches, both of which changed: the second handler's messages replace the
    first one's for both. *)
Example C49_example :
  let h : @handler Z Z := fun w others s => (s + w, map (fun u => (u, [s + w; u])) (w :: others)) in
  valve_flow_services h [(1, true); (2, true); (3, false)] 0 = (6, [(1, [6; 1]); (2, [6; 2]); (3, [6; 3])]).
Proof. reflexivity. Qed.

(** Finding: not every message is sent: the first handler's message for switch 2 is
    dropped because the second handler has an (empty) entry for itself. *)
Theorem C49_lost_refuted : exists (h : @handler Z unit) valves,
  In (2, [7]) (snd (h 1 (other_running_valves valves 1) tt)) /\
  forall ms, In (2, ms) (snd (valve_flow_services h valves tt)) -> ms = [].
Proof.
  exists (fun w _ s => (s, if w =? 1 then [(2, [7])] else [(2, [])])), [(1, true); (2, true)].
  split; [left; reflexivity|]. intros ms H. vm_compute in H. destruct H as [H|[]]. congruence.
Qed.
Print Assumptions C49_lost_refuted.

(** ** C63, C64: which datapaths are managed, and which have the configuration *)

Definition vget (m : manager) (id : Z) : option valve := dict_get Z.eqb id (m_valves m).
Definition conf_of (d : list newdp) (id : Z) : option newdp := find (fun x => nd_id x =? id) d.

Lemma existsb_z : forall id l, existsb (Z.eqb id) l = true <-> In id l.
Proof.
  intros id l. rewrite existsb_exists. split; [intros (x & I & E); apply Z.eqb_eq in E; subst; auto|].
  intros I. exists id. split; auto. apply Z.eqb_refl.
Qed.
Lemma conf_of_in : forall d id x, conf_of d id = Some x -> In x d /\ nd_id x = id.
Proof. intros d id x H. apply find_some in H. destruct H as [I E]. apply Z.eqb_eq in E. auto. Qed.
Lemma conf_of_known : forall d id, existsb (Z.eqb id) (map nd_id d) = match conf_of d id with Some _ => true | None => false end.
Proof.
  intros d id. destruct (conf_of d id) as [x|] eqn:E.
  - apply conf_of_in in E. destruct E as [I <-]. apply existsb_z. apply in_map. auto.
  - apply not_true_is_false. rewrite existsb_z, in_map_iff. intros (x & Ex & I).
    apply (find_none _ _ E) in I. rewrite Ex, Z.eqb_refl in I. discriminate I.
Qed.
Lemma in_conf_of : forall d x, NoDup (map nd_id d) -> In x d -> conf_of d (nd_id x) = Some x.
Proof.
  induction d as [|y d IH]; intros x ND I; [destruct I|]. inversion ND as [|a b N1 N2]; subst a b. cbn.
  destruct I as [->|I]; [rewrite Z.eqb_refl; auto|].
  destruct (Z.eqb_spec (nd_id y) (nd_id x)) as [E|]; [|apply IH; auto].
  exfalso. apply N1. rewrite E. apply in_map. auto.
Qed.

Lemma apply_fold : forall cold d vs sent id, config_good d ->
  let '(vs', sent') := fold_left (apply_one cold) d (vs, sent) in
  dict_get Z.eqb id vs' = match conf_of d id with
                          | Some x => Some (mkValve (nd_conf x) (match dict_get Z.eqb id vs with Some v => v_running v && negb (cold id) | None => false end))
                          | None => dict_get Z.eqb id vs end /\
  dict_get Z.eqb id sent' = match conf_of d id with
                            | Some _ => match dict_get Z.eqb id vs with Some v => Some (v_running v && negb (cold id)) | None => dict_get Z.eqb id sent end
                            | None => dict_get Z.eqb id sent end /\
  (NoDup (map fst vs) -> NoDup (map fst vs')) /\ (NoDup (map fst sent) -> NoDup (map fst sent')).
Proof.
  intros cold d. induction d as [|x d IH]; intros vs sent id G; [cbn; auto|].
  destruct G as [ND SU]. inversion ND as [|a b N1 N2]; subst a b. inversion SU as [|a b S1 S2]; subst a b.
  cbn [fold_left]. destruct (apply_one cold (vs, sent) x) as [vs1 sent1] eqn:E.
  assert (F : nd_id x = id -> conf_of d id = None).
  { intros <-. destruct (conf_of d (nd_id x)) as [y|] eqn:Y; auto. apply conf_of_in in Y. destruct Y as [I Y]. exfalso. apply N1. rewrite <- Y. apply in_map. auto. }
  specialize (IH vs1 sent1 id (conj N2 S2)). destruct (fold_left (apply_one cold) d (vs1, sent1)) as [vs' sent'].
  destruct IH as (-> & -> & IH & IH').
  assert (P : dict_get Z.eqb id vs1 = (if id =? nd_id x then Some (mkValve (nd_conf x) (match dict_get Z.eqb id vs with Some v => v_running v && negb (cold id) | None => false end)) else dict_get Z.eqb id vs) /\
    dict_get Z.eqb id sent1 = (if id =? nd_id x then match dict_get Z.eqb id vs with Some v => Some (v_running v && negb (cold id)) | None => dict_get Z.eqb id sent end else dict_get Z.eqb id sent) /\
    (NoDup (map fst vs) -> NoDup (map fst vs1)) /\ (NoDup (map fst sent) -> NoDup (map fst sent1))).
  { unfold apply_one in E. rewrite S1 in E. destruct (Z.eqb_spec id (nd_id x)) as [->|NE].
    - destruct (dict_get Z.eqb (nd_id x) vs) as [v|] eqn:V; injection E as <- <-; rewrite ?(dict_get_put Z.eqb zspec), ?Z.eqb_refl;
        repeat split; auto; intros; apply (dict_put_nodup Z.eqb zspec); auto.
    - destruct (dict_get Z.eqb (nd_id x) vs) as [v|] eqn:V; injection E as <- <-; rewrite ?(dict_get_put Z.eqb zspec), ?(proj2 (Z.eqb_neq _ _) NE);
        repeat split; auto; intros; apply (dict_put_nodup Z.eqb zspec); auto. }
  destruct P as (P1 & P2 & P3 & P4). unfold conf_of. cbn [find]. fold (conf_of d id). rewrite P1, P2.
  rewrite (Z.eqb_sym (nd_id x) id). destruct (Z.eqb_spec id (nd_id x)) as [->|NE].
  - rewrite F by auto. auto 10.
  - auto 10.
Qed.

Lemma del_all_get : forall gone vs id, NoDup (map fst vs) ->
  dict_get Z.eqb id (fold_left (fun d i => dict_del Z.eqb i d) gone vs) = (if existsb (Z.eqb id) gone then None else dict_get Z.eqb id vs) /\
  NoDup (map fst (fold_left (fun (d : list (Z * valve)) i => dict_del Z.eqb i d) gone vs)).
Proof.
  induction gone as [|g gone IH]; intros vs id ND; [cbn; auto|]. cbn [fold_left existsb].
  assert (N1 : NoDup (map fst (dict_del Z.eqb g vs))) by (apply dict_del_nodup; auto).
  destruct (IH (dict_del Z.eqb g vs) id N1) as [-> N2]. split; auto.
  rewrite (dict_get_del Z.eqb zspec). destruct (id =? g); cbn; auto. destruct (existsb (Z.eqb id) gone); auto.
Qed.

Lemma update_get : forall l d id, NoDup (map fst l) ->
  dict_get Z.eqb id (dict_update d l) = match dict_get Z.eqb id l with Some b => Some b | None => dict_get Z.eqb id d end.
Proof.
  induction l as [|[k b] l IH]; intros d id ND; [reflexivity|]. inversion ND as [|x y N1 N2]; subst x y.
  unfold dict_update. cbn [fold_left]. fold (dict_update (dict_put Z.eqb (fst (k, b)) (snd (k, b)) d) l). rewrite IH by auto.
  cbn [fst snd dict_get]. rewrite (dict_get_put Z.eqb zspec). destruct (Z.eqb_spec id k) as [->|]; auto.
  destruct (dict_get Z.eqb k l) eqn:E; auto. apply (dict_get_in Z.eqb zspec) in E. exfalso. apply N1. apply (in_map fst) in E. auto.
Qed.

(** What the manager knows after a history *)
Record knows (evs : list mevent) (m : manager) : Prop := mkKnows {
  kn_nodup : NoDup (map fst (m_valves m));
  kn_valve : forall id, vget m id = match conf_of (config_now evs) id with
                                    | Some x => Some (mkValve (nd_conf x) (up evs id)) | None => None end;
  kn_down : forall id, configured evs id = false -> up evs id = false /\ told evs id = false;
  kn_told : forall id, is_applied m id = told evs id }.

Lemma put_same_nodup : forall (d : list (Z * valve)) k v, NoDup (map fst d) -> NoDup (map fst (dict_put Z.eqb k v d)).
Proof. intros. apply (dict_put_nodup Z.eqb zspec). auto. Qed.

Lemma knows_apply : forall cold dl evs m e d, knows evs m -> config_good d ->
  (e = MLoad cold (Some d) /\ dl = true) \/ (e = MNewRoot cold d /\ dl = false /\ map nd_id d = map nd_id (config_now evs)) ->
  knows (e :: evs) (apply_configs cold dl (Some d) m).
Proof.
  intros cold dl evs m e d [K1 K2 K3 K4] G E.
  assert (C : config_now (e :: evs) = d) by (destruct E as [[-> _]|[-> _]]; reflexivity).
  assert (U : forall id, up (e :: evs) id = up evs id && negb (cold id) && existsb (Z.eqb id) (map nd_id d)) by (destruct E as [[-> _]|[-> _]]; reflexivity).
  assert (T : forall id, told (e :: evs) id = up evs id && negb (cold id) && existsb (Z.eqb id) (map nd_id d)) by (destruct E as [[-> _]|[-> _]]; reflexivity).
  unfold apply_configs.
  assert (A := fun id => apply_fold cold d (m_valves m) [] id G).
  destruct (fold_left (apply_one cold) d (m_valves m, [])) as [vs sent].
  set (gone := filter _ _).
  assert (NV : NoDup (map fst vs)) by (apply (A 0); auto).
  assert (NS : NoDup (map fst sent)) by (apply (A 0); constructor).
  assert (R : forall id, match dict_get Z.eqb id (m_valves m) with Some v => v_running v && negb (cold id) | None => false end = up evs id && negb (cold id)).
  { intros id. fold (vget m id). rewrite K2. specialize (K3 id). unfold configured in K3. rewrite conf_of_known in K3.
    destruct (conf_of (config_now evs) id); auto. destruct K3 as [-> _]; auto. }
  assert (GN : forall id, existsb (Z.eqb id) gone = true <-> (exists v, vget m id = Some v) /\ conf_of d id = None).
  { intros id. rewrite existsb_z. unfold gone. rewrite filter_In, conf_of_known. unfold vget.
    destruct (conf_of d id) as [x|]; cbn [negb].
    - split; [intros [_ X]; discriminate X|intros [_ X]; discriminate X].
    - split.
      + intros [I _]. split; auto. apply in_map_iff in I. destruct I as ([k v] & <- & I). exists v. apply (dict_in_get Z.eqb zspec); auto.
      + intros [[v V] _]. split; auto. apply (dict_get_in Z.eqb zspec) in V. apply (in_map fst) in V. auto. }
  assert (VS : forall id, dict_get Z.eqb id vs = match conf_of d id with
      | Some x => Some (mkValve (nd_conf x) (up evs id && negb (cold id))) | None => vget m id end).
  { intros id. destruct (A id) as (-> & _). rewrite R. reflexivity. }
  constructor.
  - cbn [m_valves]. destruct dl; auto. apply (del_all_get gone vs 0 NV).
  - intros id. rewrite C, U, conf_of_known. unfold vget at 1. cbn [m_valves].
    assert (Q : dict_get Z.eqb id (if dl then fold_left (fun d i => dict_del Z.eqb i d) gone vs else vs) =
      match conf_of d id with Some x => Some (mkValve (nd_conf x) (up evs id && negb (cold id))) | None => None end).
    { destruct E as [[_ ->]|(_ & -> & EQ)].
      - destruct (del_all_get gone vs id NV) as [-> _]. destruct (existsb (Z.eqb id) gone) eqn:X.
        + apply GN in X. destruct X as [_ ->]. reflexivity.
        + rewrite VS. destruct (conf_of d id) eqn:Y; auto. destruct (vget m id) as [v|] eqn:V; auto.
          enough (existsb (Z.eqb id) gone = true) by congruence. apply GN. eauto.
      - rewrite VS. destruct (conf_of d id) eqn:Y; auto. rewrite K2.
        assert (Z1 := conf_of_known d id). rewrite Y, EQ, conf_of_known in Z1. destruct (conf_of (config_now evs) id); [discriminate Z1|auto]. }
    rewrite Q. destruct (conf_of d id); [rewrite andb_true_r|]; reflexivity.
  - intros id H. unfold configured in H. rewrite C in H. rewrite U, T, H, andb_false_r. auto.
  - intros id. rewrite T, conf_of_known. unfold is_applied. cbn [m_applied]. rewrite update_get by auto. cbn [dict_get].
    destruct (A id) as (_ & -> & _). cbn [dict_get]. specialize (R id). destruct (conf_of d id).
    + rewrite andb_true_r, <- R. destruct (dict_get Z.eqb id (m_valves m)); reflexivity.
    + rewrite andb_false_r. reflexivity.
Qed.

Lemma knows_step : forall evs m e, knows evs m -> events_ok (e :: evs) -> knows (e :: evs) (mstep m e).
Proof.
  intros evs m e K OK. destruct OK as [_ OK]. destruct e as [cold [d|]|cold d|i|i]; cbn [mstep].
  - apply (knows_apply cold true); auto.
  - destruct K as [K1 K2 K3 K4]. constructor; cbn [m_valves apply_configs]; auto.
    + intros id H. destruct (K3 id H) as [X _]. split; auto.
  - destruct OK as [G E]. apply (knows_apply cold false); auto.
  - destruct K as [K1 K2 K3 K4]. fold (vget m i). assert (Q := K2 i).
    assert (CF := conf_of_known (config_now evs) i). fold (configured evs i) in CF.
    destruct (vget m i) as [v|] eqn:V.
    + destruct (conf_of (config_now evs) i) as [x|] eqn:X; [|discriminate Q]. injection Q as ->.
      unfold set_running. fold (vget m i). rewrite V. cbn [v_conf]. constructor; cbn [m_valves].
      * apply put_same_nodup; auto.
      * intros id. unfold vget. cbn [m_valves]. rewrite (dict_get_put Z.eqb zspec). cbn [config_now up]. rewrite (Z.eqb_sym i id).
        destruct (Z.eqb_spec id i) as [->|]; [rewrite X, CF; reflexivity|apply K2].
      * intros id H. cbn [up told]. change (configured evs id = false) in H. rewrite H, andb_false_r. destruct (K3 id H) as [-> ->].
        destruct (i =? id); auto.
      * intros id. unfold is_applied. cbn [m_applied]. rewrite update_get by (cbn; constructor; [intros []|constructor]).
        cbn [dict_get told fst snd]. rewrite (Z.eqb_sym i id). destruct (Z.eqb_spec id i) as [->|]; [rewrite CF; reflexivity|apply K4].
    + destruct (conf_of (config_now evs) i) as [x|] eqn:X; [discriminate Q|].
      constructor; auto.
      * intros id. cbn [config_now up]. rewrite K2. destruct (Z.eqb_spec i id) as [->|]; [rewrite X; reflexivity|reflexivity].
      * intros id H. cbn [up told]. change (configured evs id = false) in H. rewrite H, andb_false_r. destruct (K3 id H) as [-> ->].
        destruct (i =? id); auto.
      * intros id. cbn [told]. rewrite K4. destruct (Z.eqb_spec i id) as [->|]; [rewrite CF|]; reflexivity.
  - destruct K as [K1 K2 K3 K4]. assert (Q := K2 i). unfold set_running. fold (vget m i). constructor; cbn [m_valves]; auto.
    + destruct (vget m i); auto. apply put_same_nodup; auto.
    + intros id. change (vget (mkManager ?x ?y) id) with (dict_get Z.eqb id x). cbn [config_now up]. rewrite (Z.eqb_sym i id). destruct (vget m i) as [v|] eqn:V.
      * rewrite (dict_get_put Z.eqb zspec). destruct (Z.eqb_spec id i) as [->|]; [|apply K2].
        destruct (conf_of (config_now evs) i); [injection Q as ->; reflexivity|discriminate Q].
      * destruct (Z.eqb_spec id i) as [->|]; [|apply K2]. fold (vget m i). rewrite V.
        destruct (conf_of (config_now evs) i); [discriminate Q|reflexivity].
    + intros id H. cbn [up told]. change (configured evs id = false) in H. destruct (K3 id H) as [-> ->]. destruct (i =? id); auto.
Qed.

Lemma knows_all : forall evs, events_ok evs -> knows evs (mrun (rev evs)).
Proof.
  induction evs as [|e evs IH]; intros OK.
  - constructor; cbn; auto. constructor.
  - cbn [rev]. unfold mrun. rewrite fold_left_app. cbn [fold_left]. apply knows_step; auto. apply IH. apply OK.
Qed.

(** After any history the datapaths that are managed are exactly those of the
    configuration accepted last, each with what that configuration says of it, and
    messages are listened to exactly from those that are connected. *)
Theorem C63_managed : forall evs id, events_ok evs ->
  (forall v, vget (mrun (rev evs)) id = Some v ->
     exists d, In d (config_now evs) /\ nd_id d = id /\ v_conf v = nd_conf d) /\
  (forall d, In d (config_now evs) -> nd_id d = id ->
     exists v, vget (mrun (rev evs)) id = Some v /\ v_conf v = nd_conf d) /\
  listens (mrun (rev evs)) id = up evs id.
Proof.
  intros evs id OK. destruct (knows_all evs OK) as [K1 K2 K3 K4].
  assert (ND : NoDup (map nd_id (config_now evs))).
  { clear K1 K2 K3 K4. induction evs as [|e evs IH]; [constructor|]. destruct OK as [O1 O2].
    destruct e as [cold [d|]|cold d|i|i]; cbn [config_now]; auto; [apply O2|apply (proj1 O2)]. }
  repeat split.
  - intros v V. rewrite K2 in V. destruct (conf_of (config_now evs) id) as [x|] eqn:X; [|discriminate V].
    injection V as <-. apply conf_of_in in X. destruct X as [I E]. eauto.
  - intros d I <-. rewrite K2, (in_conf_of _ _ ND I). eexists. split; [reflexivity|reflexivity].
  - unfold listens. fold (vget (mrun (rev evs)) id). rewrite K2. specialize (K3 id). unfold configured in K3. rewrite conf_of_known in K3.
    destruct (conf_of (config_now evs) id); [reflexivity|]. destruct K3 as [-> _]; auto.
Qed.
Print Assumptions C63_managed.

(** A configuration that is rejected changes no datapath. *)
Theorem C63_rejected : forall evs cold, m_valves (mrun (rev (MLoad cold None :: evs))) = m_valves (mrun (rev evs)).
Proof. intros. cbn [rev]. unfold mrun. rewrite fold_left_app. reflexivity. Qed.
Print Assumptions C63_rejected.

(** The metric of applied configuration is the number of configured datapaths that
    have got the configuration of the last attempt, over the number of configured
    datapaths. *)
Theorem C64_applied : forall evs, events_ok evs ->
  fraction (mrun (rev evs)) = (length (filter (told evs) (map nd_id (config_now evs))), length (config_now evs)).
Proof.
  intros evs OK. destruct (knows_all evs OK) as [K1 K2 K3 K4].
  assert (ND : NoDup (map nd_id (config_now evs))).
  { clear K1 K2 K3 K4. induction evs as [|e evs IH]; [constructor|]. destruct OK as [O1 O2].
    destruct e as [cold [d|]|cold d|i|i]; cbn [config_now]; auto; [apply O2|apply (proj1 O2)]. }
  assert (P : Permutation (map fst (m_valves (mrun (rev evs)))) (map nd_id (config_now evs))).
  { apply NoDup_Permutation; auto. intros id. rewrite <- existsb_z with (l := map nd_id _), conf_of_known. split.
    - intros I. apply in_map_iff in I. destruct I as ([k v] & <- & I). apply (dict_in_get Z.eqb zspec) in I; auto.
      fold (vget (mrun (rev evs)) k) in I. cbn [fst]. rewrite K2 in I. destruct (conf_of (config_now evs) k); [auto|discriminate I].
    - intros H. specialize (K2 id). unfold vget in K2. destruct (conf_of (config_now evs) id); [|discriminate H].
      apply (dict_get_in Z.eqb zspec) in K2. apply (in_map fst) in K2. auto. }
  unfold fraction. f_equal.
  - rewrite (filter_ext _ _ K4). apply Permutation_length. clear - P. induction P; cbn; auto.
    + destruct (told evs x); auto.
    + destruct (told evs x), (told evs y); auto using perm_swap.
    + eapply perm_trans; eauto.
  - rewrite <- (map_length fst), <- (map_length nd_id). apply Permutation_length; auto.
Qed.
Print Assumptions C64_applied.

(** So the metric is all exactly if every configured datapath has the configuration,
    and none after a configuration was rejected until some datapath connects. *)
Theorem C64_all : forall evs, events_ok evs -> config_now evs <> [] ->
  (fst (fraction (mrun (rev evs))) = snd (fraction (mrun (rev evs))) <->
   forall d, In d (config_now evs) -> told evs (nd_id d) = true) /\
  (fst (fraction (mrun (rev evs))) <= snd (fraction (mrun (rev evs))))%nat.
Proof.
  intros evs OK _. rewrite C64_applied by auto. cbn [fst snd]. rewrite <- (map_length nd_id (config_now evs)).
  assert (L : forall (f : Z -> bool) l, (length (filter f l) <= length l)%nat /\ (length (filter f l) = length l <-> forall x, In x l -> f x = true)).
  { intros f. induction l as [|x l [I1 I2]]; cbn; [split; [lia|split; auto; intros _ x []]|].
    destruct (f x) eqn:E; cbn.
    - split; [lia|]. split; [intros H y [<-|I]; auto; apply I2; auto|]. intros H. f_equal. apply I2. auto.
    - split; [lia|]. split; [lia|]. intros H. specialize (H x (or_introl eq_refl)). congruence. }
  destruct (L (told evs) (map nd_id (config_now evs))) as [L1 L2]. split; auto. rewrite L2. split.
  - intros H d I. apply H. apply in_map. auto.
  - intros H x I. apply in_map_iff in I. destruct I as (d & <- & I). auto.
Qed.
Print Assumptions C64_all.
Theorem C64_rejected : forall evs cold, fst (fraction (mrun (rev (MLoad cold None :: evs)))) = 0%nat.
Proof.
  intros. cbn [rev]. unfold mrun. rewrite fold_left_app. cbn [fold_left mstep apply_configs]. unfold fraction, is_applied. cbn.
  induction (map fst _); auto.
Qed.
Print Assumptions C64_rejected.

(** Datapaths 1 and 2 are configured and 1 connects; 2 is replaced by 3 while 1 is
    warm restarted; the next configuration is rejected. *)
Definition warm : Z -> bool := fun _ => false.
Definition ex_evs : list mevent :=
  [MLoad warm None; MConnect 3;
   MLoad warm (Some [mkNewdp 1 11 true; mkNewdp 3 30 true]); MConnect 2; MConnect 1;
   MLoad warm (Some [mkNewdp 1 10 true; mkNewdp 2 20 true])].
Example C63_example :
  events_ok ex_evs /\ m_valves (mrun (rev ex_evs)) = [(1, mkValve 11 true); (3, mkValve 30 true)] /\
  fraction (mrun (rev ex_evs)) = (0, 2)%nat /\ fraction (mrun (rev (tl ex_evs))) = (2, 2)%nat /\
  fraction (mrun (rev (tl (tl ex_evs)))) = (1, 2)%nat.
Proof.
  split; [|vm_compute; auto]. cbn. unfold config_good.
  assert (ND : forall a b : Z, a <> b -> NoDup [a; b]).
  { intros a b N. constructor; [intros [E|[]]; congruence|]. constructor; [intros []|constructor]. }
  repeat split; try (apply ND; discriminate); repeat constructor.
Qed.

(** Finding: the metric is not a statement about what switches do: a datapath that
    disconnected still counts, and one that kept the old configuration in force after
    a rejected load does not. *)
Theorem C64_disconnected_refuted : exists evs, events_ok evs /\
  fraction (mrun (rev evs)) = (1, 1)%nat /\ listens (mrun (rev evs)) 1 = false.
Proof.
  exists [MDisconnect 1; MConnect 1; MLoad warm (Some [mkNewdp 1 10 true])]. split; [|vm_compute; auto].
  cbn. unfold config_good. repeat split; repeat constructor; intros [].
Qed.
Print Assumptions C64_disconnected_refuted.
