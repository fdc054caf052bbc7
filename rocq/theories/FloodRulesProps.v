(** * Properties C06-C08 and C51 on the installed flood table

    [just_programmed ft md restricted v fresh s]: [s] is a switch whose flood
    table [ft] was last programmed for VLAN [v] as it is now, on top of any
    history of earlier flood table programming (FloodRulesSpec).  [md] is the
    flood mode (multiple output actions, or combinatorial port flooding),
    [restricted] says whether some port has restricted_bcast_arpnd. *)
From Coq Require Import ZArith List Bool Lia Permutation.
From Verif Require Import PyBase PyBaseProofs OpenFlow ReorderModel TableModel FloodModel FloodSpec FloodProofs
  FloodRulesModel FloodRulesSpec FloodRulesProofs FloodProps.
Import ListNotations.
Open Scope Z_scope.

(** C08 (with C06): a frame of VLAN [v] that entered on an up member [i] and has
    somewhere to go is delivered by whatever entry of the flood table it hits to
    exactly the eligible members, tagged as they are, and to [i] itself iff it is
    a hairpin port. *)
Theorem C08_flood_table_exact : forall ft md restricted, md <> Grouped ->
  forall v fresh s i p x pcp r, just_programmed ft md restricted v fresh s ->
  In i (members v) -> p_phys_up i = true -> pk_in p = p_num i -> pk_tags p = (v_vid v, pcp) :: r -> has_dst p x ->
  (group_dst x = false -> v_unicast_flood v = true /\ p_unicast_flood i = true) ->
  ~ reserved_dst p ->
  let no_restricted := negb (restricted && arp_nd x (pk_hdr p EthType)) && p_restricted i in
  floodable v (negb (group_dst x)) false no_restricted i ->
  (exists f, hit (sw_flows s) (tb_id ft) p f) /\
  forall g live f es p' nx, hit (sw_flows s) (tb_id ft) p f -> exec_insts g live (f_inst f) p = (es, p', nx) ->
    nx = None /\ delivers v (negb (group_dst x)) false no_restricted i p (wire (p_num i) es).
Proof. exact table_flood_lemma. Qed.
Print Assumptions C08_flood_table_exact.

(** C08: unknown unicast is not flooded on a VLAN that disables it. *)
Theorem C08_flood_table_no_unicast : forall ft md restricted, md <> Grouped ->
  forall v s p x pcp r g live f es p' nx, just_programmed ft md restricted v true s ->
  pk_tags p = (v_vid v, pcp) :: r -> has_dst p x -> group_dst x = false -> v_unicast_flood v = false ->
  hit (sw_flows s) (tb_id ft) p f -> exec_insts g live (f_inst f) p = (es, p', nx) -> es = [] /\ nx = None.
Proof. exact table_no_unicast_lemma. Qed.
Print Assumptions C08_flood_table_no_unicast.

(** C07: on the wire, a LAG gets at most one copy, on a selected member that is
    up, and none if the frame came from it. *)
Lemma lag_delivers_lemma : forall v unicast ae nr i p ws, wf_vlan v -> In i (members v) ->
  delivers v unicast ae nr i p ws ->
  forall q, In q (members v) -> p_lacp q <> 0 -> p_num q <> p_num i -> copies (p_num q) ws <> [] ->
  p_selected q = true /\ p_actor_up q = true /\ p_lacp i <> p_lacp q /\ length (copies (p_num q) ws) = 1%nat /\
  (forall r, In r (members v) -> p_lacp r = p_lacp q -> copies (p_num r) ws <> [] -> p_num r = p_num q).
Proof.
  intros v unicast ae nr i p ws WF Hi [D1 [D2 [D3 _]]] q Hq N Ni Hc.
  assert (Eq := D3 q Hq Ni Hc). assert (E := Eq). destruct E as [_ [_ [_ [L _]]]]. destruct (L N) as [C1 C2].
  split; [apply C1|]. split; [apply C1|]. split; [exact C2|]. split.
  - assert (T : is_tagged v q \/ is_untagged v q).
    { unfold members in Hq. rewrite in_app_iff in Hq. unfold is_tagged, is_untagged. tauto. }
    destruct T as [T|T]; [destruct (D1 q T Eq) as [p' [-> _]]|destruct (D2 q T Eq) as [p' [-> _]]]; reflexivity.
  - intros r Hr El Hcr. assert (Nr : p_num r <> p_num i).
    { intros E. assert (r = i) by (apply (NoDup_map_inj_in _ _ p_num (members v) r i (wf_nodup v WF) Hr Hi E)).
      subst r. congruence. }
    assert (Er := D3 r Hr Nr Hcr). destruct Er as [_ [_ [_ [Lr _]]]]. rewrite El in Lr. destruct (Lr N) as [Cr _].
    apply (carrier_unique v r q); auto; congruence.
Qed.
Theorem C07_flood_table_one_per_lag_partial : forall ft md restricted, md <> Grouped ->
  forall v fresh s i p x pcp r, just_programmed ft md restricted v fresh s ->
  In i (members v) -> p_phys_up i = true -> pk_in p = p_num i -> pk_tags p = (v_vid v, pcp) :: r -> has_dst p x ->
  (group_dst x = false -> v_unicast_flood v = true /\ p_unicast_flood i = true) ->
  ~ reserved_dst p ->
  floodable v (negb (group_dst x)) false (negb (restricted && arp_nd x (pk_hdr p EthType)) && p_restricted i) i ->
  forall g live f es p' nx, hit (sw_flows s) (tb_id ft) p f -> exec_insts g live (f_inst f) p = (es, p', nx) ->
  let ws := wire (p_num i) es in
  forall q, In q (members v) -> p_lacp q <> 0 -> p_num q <> p_num i -> copies (p_num q) ws <> [] ->
  p_selected q = true /\ p_actor_up q = true /\ p_lacp i <> p_lacp q /\ length (copies (p_num q) ws) = 1%nat /\
  (forall r, In r (members v) -> p_lacp r = p_lacp q -> copies (p_num r) ws <> [] -> p_num r = p_num q).
Proof.
  intros ft md restricted NG v fresh s i p x pcp r J Hi Up Hin Ht D Hu NR Fl g live f es p' nx Hh Ex ws.
  destruct (table_flood_lemma ft md restricted NG v fresh s i p x pcp r J Hi Up Hin Ht D Hu NR Fl) as [_ T].
  destruct (T g live f es p' nx Hh Ex) as [_ Dl].
  exact (lag_delivers_lemma _ _ _ _ _ _ _ (proj1 (proj1 (programmed_good ft md restricted NG v fresh s J))) Hi Dl).
Qed.
Print Assumptions C07_flood_table_one_per_lag_partial.

(** C51: link-local protocol frames are never flooded, in any history. *)
Theorem C51_reserved_never_flooded : forall ft md restricted, md <> Grouped ->
  forall s p g live f es p' nx vid pcp r, reachable ft md restricted s ->
  reserved_dst p -> pk_tags p = (vid, pcp) :: r -> 0 <= vid < 4096 ->
  hit (sw_flows s) (tb_id ft) p f -> exec_insts g live (f_inst f) p = (es, p', nx) -> es = [] /\ nx = None.
Proof. exact reserved_lemma. Qed.
Print Assumptions C51_reserved_never_flooded.

(** ** Concrete histories *)
Definition ex_ft : table := mkTable 9 0x5adc15c0 0.
Definition run (ms : list ofmsg) (s : switch) : switch :=
  match valve_flowreorder (fun l => l) true ms with Some out => apply_msgs out s | None => s end.
(** find a hit by computation *)
Definition lookup (fs : list flow) (t : Z) (p : packet) : option flow :=
  fold_left (fun b f => if (f_table f =? t) && matches p (f_match f)
                        then match b with Some g => if f_prio g <? f_prio f then Some f else b | None => Some f end
                        else b) fs None.
Lemma lookup_hit : forall fs t p f, lookup fs t p = Some f -> hit fs t p f.
Proof.
  intros fs t p.
  assert (G : forall fs done b f,
    (match b with Some g => hit done t p g
                | None => forall g, In g done -> f_table g = t -> matches p (f_match g) = true -> False end) ->
    fold_left (fun b f => if (f_table f =? t) && matches p (f_match f)
                        then match b with Some g => if f_prio g <? f_prio f then Some f else b | None => Some f end
                        else b) fs b = Some f -> hit (done ++ fs) t p f).
  { induction fs0 as [|a fs0 IH]; intros done b f Hb E; cbn [fold_left] in E.
    - subst b. rewrite app_nil_r. auto.
    - replace (done ++ a :: fs0) with ((done ++ [a]) ++ fs0) by (rewrite <- app_assoc; auto).
      eapply IH; [|exact E]. destruct ((f_table a =? t) && matches p (f_match a)) eqn:M.
      + apply andb_true_iff in M as [M1 M2]. apply Z.eqb_eq in M1. destruct b as [g|].
        * destruct Hb as [H1 [H2 [H3 H4]]]. destruct (Z.ltb_spec (f_prio g) (f_prio a)).
          -- split; [apply in_app_iff; right; left; auto|]. split; auto. split; auto. intros h Hh T M.
             apply in_app_iff in Hh as [Hh|[<-|[]]]; [specialize (H4 h Hh T M)|]; lia.
          -- split; [apply in_app_iff; auto|]. split; auto. split; auto. intros h Hh T M.
             apply in_app_iff in Hh as [Hh|[<-|[]]]; auto.
        * split; [apply in_app_iff; right; left; auto|]. split; auto. split; auto. intros h Hh T M.
          apply in_app_iff in Hh as [Hh|[<-|[]]]; [exfalso; eauto|lia].
      + assert (N : ~ (f_table a = t /\ matches p (f_match a) = true)).
        { intros [K1 K2]. rewrite K1, K2, Z.eqb_refl in M. discriminate. }
        destruct b as [g|].
        * destruct Hb as [H1 [H2 [H3 H4]]]. split; [apply in_app_iff; auto|]. split; auto. split; auto. intros h Hh T K.
          apply in_app_iff in Hh as [Hh|[<-|[]]]; [auto|tauto].
        * intros h Hh T K. apply in_app_iff in Hh as [Hh|[<-|[]]]; [eauto|tauto]. }
  intros f E. apply (G fs [] None f); auto.
Qed.

Definition bcast (n vid : Z) : packet :=
  mkPacket n [(vid, 0)] (fun f => match f with EthDst => Some 0xffffffffffff | EthType => Some 0x800 | _ => None end).
Definition groups_of (s : switch) : Z -> option group := group_lookup s.
Definition emitted (s : switch) (p : packet) : option (list Z) :=
  match lookup (sw_flows s) 9 p with
  | Some f => let '(es, _, _) := exec_insts (groups_of s) (fun _ => true) (f_inst f) p in
              Some (map fst (wire (pk_in p) es))
  | None => None
  end.

(** The hypotheses of the theorems are met by a cold start with [ex_vlan]. *)
Definition ex_cold := run (cold_msgs ex_ft Multi false [ex_vlan]) empty_switch.
Lemma sh_id : forall l : list ofmsg, Permutation ((fun l => l) l) l.
Proof. intros. apply Permutation_refl. Qed.
Example ex_programmed : just_programmed ex_ft Multi false ex_vlan true ex_cold.
Proof.
  unfold ex_cold, run.
  destruct (valve_flowreorder (fun l => l) true (cold_msgs ex_ft Multi false [ex_vlan])) as [out|] eqn:E.
  - apply (jp_cold ex_ft Multi false ex_vlan (fun l => l) true [ex_vlan] out); [exact sh_id| | | |exact E].
    + intros w [<-|[]]. split; [exact ex_vlan_wf|simpl; lia].
    + repeat constructor. intros [].
    + left; auto.
  - exfalso. vm_compute in E. discriminate.
Qed.
Example ex_floodable : floodable ex_vlan false false false ex_p2.
Proof. right. reflexivity. Qed.
Example ex_table_flood : emitted ex_cold (bcast 2 100) = Some [1; 3; 5; 2].
Proof. vm_compute. reflexivity. Qed.

(** ** Findings *)
Definition plain n := mkPort n false true 0 false false true false false [] None.
Definition lagp n lag up := mkPort n false true lag up up true false false [] None.

Lemma cold_reachable : forall ft md restricted vs s, (forall v, In v vs -> valid_vlan v) -> NoDup (map v_vid vs) ->
  run (cold_msgs ft md restricted vs) empty_switch = s -> sw_flows s <> [] -> reachable ft md restricted s.
Proof.
  intros ft md restricted vs s Hv Hn E N. unfold run in E.
  destruct (valve_flowreorder (fun l => l) true (cold_msgs ft md restricted vs)) as [out|] eqn:R.
  - subst s. eapply reach_cold; [exact sh_id|exact Hv|exact Hn|exact R].
  - subst s. exfalso. apply N. reflexivity.
Qed.
Lemma cold_programmed : forall ft md restricted vs v s, (forall v, In v vs -> valid_vlan v) -> NoDup (map v_vid vs) ->
  In v vs -> run (cold_msgs ft md restricted vs) empty_switch = s -> sw_flows s <> [] ->
  just_programmed ft md restricted v true s.
Proof.
  intros ft md restricted vs v s Hv Hn Hi E N. unfold run in E.
  destruct (valve_flowreorder (fun l => l) true (cold_msgs ft md restricted vs)) as [out|] eqn:R.
  - subst s. eapply jp_cold; [exact sh_id|exact Hv|exact Hn|exact Hi|exact R].
  - subst s. exfalso. apply N. reflexivity.
Qed.
Ltac solve_valid :=
  split; [constructor;
    [simpl; repeat (constructor; [simpl; intuition discriminate|]); constructor
    |intros a H; simpl in H; unfold OFPP_MAX; repeat destruct H as [<-|H]; simpl; try lia; contradiction
    |intros a n H Hn; simpl in H; repeat destruct H as [<-|H]; simpl in Hn; contradiction]
  |simpl; lia].

(** C07 fails on the wire for a VLAN whose only members are one LAG: no port rule
    is installed for a LAG member with nowhere to flood to, so its frames hit the
    VLAN-wide rule, which sends them back into the same LAG. *)
Definition lag_vlan := mkVlan 100 [] [lagp 1 7 true; lagp 2 7 true] [] true.
Theorem C07_flood_into_own_lag_refuted : exists v s i q p f es p',
  valid_vlan v /\ just_programmed ex_ft Multi false v true s /\
  In i (members v) /\ In q (members v) /\ p_lacp i = 7 /\ p_lacp q = 7 /\ p_phys_up i = true /\
  pk_in p = p_num i /\ p_num q <> p_num i /\
  hit (sw_flows s) (tb_id ex_ft) p f /\
  exec_insts (fun _ => None) (fun _ => true) (f_inst f) p = (es, p', None) /\
  copies (p_num q) (wire (p_num i) es) <> [].
Proof.
  exists lag_vlan, (run (cold_msgs ex_ft Multi false [lag_vlan]) empty_switch), (lagp 2 7 true), (lagp 1 7 true), (bcast 2 100).
  destruct (lookup (sw_flows (run (cold_msgs ex_ft Multi false [lag_vlan]) empty_switch)) 9 (bcast 2 100)) as [f|] eqn:E;
    [|vm_compute in E; discriminate].
  assert (V : valid_vlan lag_vlan) by solve_valid.
  exists f. destruct (exec_insts (fun _ => None) (fun _ => true) (f_inst f) (bcast 2 100)) as [[es p'] nx] eqn:X.
  exists es, p'. split; [exact V|]. split.
  { apply (cold_programmed ex_ft Multi false [lag_vlan]); [intros v [<-|[]]; auto|repeat constructor; intros []|left; auto|reflexivity|].
    vm_compute. discriminate. }
  assert (Hh := lookup_hit _ _ _ _ E). vm_compute in E. injection E as <-. vm_compute in X. injection X as <- <- <-.
  split; [right; left; reflexivity|]. split; [left; reflexivity|]. do 5 (split; [reflexivity || discriminate|]).
  split; [exact Hh|]. split; [reflexivity|]. vm_compute. discriminate.
Qed.
Print Assumptions C07_flood_into_own_lag_refuted.

(** C07 fails after a LAG goes down: the VLAN is refreshed, but port 2 (of LAG 7)
    now has nowhere to flood to, so its old rule, which outputs to the unselected
    member of LAG 8, stays. *)
Definition two_lags up8 := mkVlan 100 [] [lagp 1 7 true; lagp 2 7 true; lagp 3 8 up8] [] true.
Theorem C07_stale_rule_to_down_lag_refuted : exists v0 v s0 i q p f es p',
  valid_vlan v0 /\ valid_vlan v /\ v_vid v0 = v_vid v /\
  reachable ex_ft Multi false s0 /\ just_programmed ex_ft Multi false v0 true s0 /\
  let s := run (op_msgs ex_ft Multi false (OpUpdate v)) s0 in
  In i (members v) /\ In q (members v) /\ p_phys_up i = true /\
  pk_in p = p_num i /\ p_lacp q = 8 /\ p_selected q = false /\ p_actor_up q = false /\
  hit (sw_flows s) (tb_id ex_ft) p f /\
  exec_insts (fun _ => None) (fun _ => true) (f_inst f) p = (es, p', None) /\
  copies (p_num q) (wire (p_num i) es) <> [].
Proof.
  set (s0 := run (cold_msgs ex_ft Multi false [two_lags true]) empty_switch).
  exists (two_lags true), (two_lags false), s0, (lagp 2 7 true), (lagp 3 8 false), (bcast 2 100).
  destruct (lookup (sw_flows (run (op_msgs ex_ft Multi false (OpUpdate (two_lags false))) s0)) 9 (bcast 2 100)) as [f|] eqn:E;
    [|vm_compute in E; discriminate].
  assert (V : valid_vlan (two_lags true)) by solve_valid.
  exists f. destruct (exec_insts (fun _ => None) (fun _ => true) (f_inst f) (bcast 2 100)) as [[es p'] nx] eqn:X.
  exists es, p'. split; [exact V|]. split; [solve_valid|]. split; [reflexivity|]. split; [|split].
  { apply (cold_reachable ex_ft Multi false [two_lags true]); [intros v [<-|[]]; auto|repeat constructor; intros []|reflexivity|].
    vm_compute. discriminate. }
  { apply (cold_programmed ex_ft Multi false [two_lags true]); [intros v [<-|[]]; auto|repeat constructor; intros []|left; auto|reflexivity|].
    vm_compute. discriminate. }
  intros s. assert (Hh := lookup_hit _ _ _ _ E). vm_compute in E. injection E as <-. vm_compute in X. injection X as <- <- <-.
  split; [right; left; reflexivity|]. split; [right; right; left; reflexivity|].
  do 5 (split; [reflexivity|]).
  split; [exact Hh|]. split; [reflexivity|]. vm_compute. discriminate.
Qed.
Print Assumptions C07_stale_rule_to_down_lag_refuted.

(** C08 fails with group tables when a port goes down: the refresh deletes the
    VLAN's groups, which removes the flows that use them, and its strict modifies
    then find nothing to modify: a broadcast from port 1 reaches nobody. *)
Definition three dn := mkVlan 100 [] [plain 1; plain 2; mkPort 3 false true 0 false false (negb dn) false false [] None] [] true.
Theorem C08_group_refresh_refuted : exists v0 v s0 i q p,
  valid_vlan v0 /\ valid_vlan v /\ v_vid v0 = v_vid v /\
  s0 = run (cold_msgs ex_ft Grouped false [v0]) empty_switch /\
  emitted s0 p = Some [2; 3] /\
  In i (members v) /\ In q (members v) /\ p_phys_up i = true /\ p_phys_up q = true /\ pk_in p = p_num i /\
  eligible v false false false (Some i) q /\
  emitted (run (op_msgs ex_ft Grouped false (OpUpdate v)) s0) p = Some [].
Proof.
  exists (three false), (three true), (run (cold_msgs ex_ft Grouped false [three false]) empty_switch), (plain 1), (plain 2), (bcast 1 100).
  split; [solve_valid|]. split; [solve_valid|]. do 2 (split; [reflexivity|]). split; [vm_compute; reflexivity|].
  split; [left; reflexivity|]. split; [right; left; reflexivity|]. do 3 (split; [reflexivity|]).
  split; [|vm_compute; reflexivity].
  split; [right; left; reflexivity|].
  repeat match goal with |- _ /\ _ => split | |- _ -> _ => intro end; simpl in *; try congruence; try lia; auto.
Qed.
Print Assumptions C08_group_refresh_refuted.

(** C08 fails when a port goes down on a VLAN with a restricted_bcast_arpnd port
    that does not flood unicast: the refresh's delete of an optimised-away
    unicast port rule is not strict and removes the port's ARP rule too, which
    the strict modify does not restore. *)
Definition restr n uf := mkPort n false uf 0 false false true false true [] None.
Definition arp (n vid : Z) : packet :=
  mkPacket n [(vid, 0)] (fun f => match f with EthDst => Some 0xffffffffffff | EthType => Some 0x806 | _ => None end).
Definition restr_vlan dn := mkVlan 100 [] [plain 1; restr 2 false; mkPort 3 false true 0 false false (negb dn) false false [] None] [] true.
Theorem C08_restricted_refresh_refuted : exists v0 v s0 i q p,
  valid_vlan v0 /\ valid_vlan v /\ v_vid v0 = v_vid v /\
  s0 = run (cold_msgs ex_ft Multi true [v0]) empty_switch /\
  emitted s0 p = Some [2; 3] /\
  In i (members v) /\ In q (members v) /\ p_phys_up i = true /\ p_phys_up q = true /\ pk_in p = p_num i /\
  eligible v false false false (Some i) q /\
  exists l, emitted (run (op_msgs ex_ft Multi true (OpUpdate v)) s0) p = Some l /\ ~ In (p_num q) l.
Proof.
  exists (restr_vlan false), (restr_vlan true), (run (cold_msgs ex_ft Multi true [restr_vlan false]) empty_switch),
    (plain 1), (restr 2 false), (arp 1 100).
  split; [solve_valid|]. split; [solve_valid|]. do 2 (split; [reflexivity|]). split; [vm_compute; reflexivity|].
  split; [left; reflexivity|]. split; [right; left; reflexivity|]. do 3 (split; [reflexivity|]).
  split.
  - split; [right; left; reflexivity|].
  repeat match goal with |- _ /\ _ => split | |- _ -> _ => intro end; simpl in *; try congruence; try lia; auto.
  - exists [3]. split; [vm_compute; reflexivity|]. simpl. intuition discriminate.
Qed.
Print Assumptions C08_restricted_refresh_refuted.
