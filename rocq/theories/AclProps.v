(** * Access control lists: properties C22 and C23 *)
From Coq Require Import ZArith List Bool Lia Permutation.
From Verif Require Import PyBase PyBaseProofs OpenFlow ReorderModel ReorderSpec ReorderProofs TrimModel TrimProofs
  TableModel FloodRulesProofs BatchProofs L2Proofs SwitchExec AclModel AclSpec AclProofs AclMatchProofs AclStepProofs
  AclHistProofs AclEventProofs AclWalkProofs SharedTrimProofs.
Import ListNotations.
Open Scope Z_scope.

(** ** Helpers *)

Lemma build_rules_nil : forall tun fd pl rs prio, build_rules tun fd pl rs prio = [] -> rs = [].
Proof.
  intros tun fd pl [|r rs] prio H; auto. exfalso. cbn [build_rules] in H. unfold build_rule_ofmsgs in H.
  destruct (rule_inst tun pl r). destruct l0, fd; discriminate H.
Qed.

Lemma content_or : forall am lowest evs sp, manager_ok am lowest -> named evs -> config_ok am lowest evs ->
  (acls_at am evs sp <> [] -> tab am sp <> None) ->
  acls_at am evs sp <> [] -> content am lowest evs (XS sp) <> [] \/ rules_of (acls_at am evs sp) = [].
Proof.
  intros am lowest evs sp M N C T NE. specialize (T NE).
  assert (X : content am lowest evs (XS sp) = [] -> rules_of (acls_at am evs sp) = []).
  { destruct sp as [n|v|v|]; cbn [content acls_at tab] in *.
    - destruct (am_dp_acls am) eqn:ED; [|congruence]. destruct (port_now evs n) as [p|]; [|congruence].
      destruct (ap_output_only p) eqn:EO; [congruence|]. unfold add_port, port_acls_allowed. rewrite ED, EO.
      destruct (am_port am); [|congruence]. destruct (ap_acls p); [congruence|]. apply build_rules_nil.
    - destruct (vlan_now evs v) as [x|]; [|congruence]. unfold vlan_in. destruct (av_in x); [congruence|].
      destruct (am_vlan am); [|congruence]. apply build_rules_nil.
    - destruct (vlan_now evs v) as [x|]; [|congruence]. unfold vlan_out. destruct (am_egress am); [|congruence].
      destruct (av_out x); [congruence|]. apply build_rules_nil.
    - unfold initialise_tables. destruct (am_dp_acls am) eqn:ED; [congruence|]. destruct (am_port am); [|congruence].
      apply build_rules_nil. }
  destruct (content am lowest evs (XS sp)); [right; auto|left; discriminate].
Qed.

(** ** C22: the first rule that covers the packet decides *)

(** A packet that came in at a port with ACLs: whatever happened since the datapath
    connected, it is dealt with by the first rule that covers it, or dropped. *)
Theorem C22_port_acl : forall am lowest evs s t p q live es,
  manager_ok am lowest -> history am lowest evs s ->
  am_port am = Some t -> am_dp_acls am = [] ->
  port_now evs (pk_in q) = Some p -> ap_output_only p = false -> ap_acls p <> [] ->
  packet_ok q ->
  (walk s live (tb_id t) q es <->
   acl_outcome (fun force q' => walk s live (if force then am_to_l2 am else am_to_vlan am) q') live
     (rule_covers (Some InPort) q) (rules_of (ap_acls p)) q es).
Proof.
  intros am lowest evs s t p q live es M H T D P O A K.
  assert (E : acls_at am evs (SPort (pk_in q)) = ap_acls p) by (cbn; rewrite D, P, O; auto).
  destruct (history_holds am lowest M evs s H) as [NM [CO _]].
  rewrite <- E. apply (spot_walk am lowest evs s live M H (SPort (pk_in q)) t q es); auto.
  - reflexivity.
  - split; [discriminate|]. intros [X _]. congruence.
  - rewrite E; auto.
  - apply content_or; auto; [|rewrite E; auto]. intros _. cbn. congruence.
Qed.
Print Assumptions C22_port_acl.

(** A datapath with dp_acls: every packet, whatever its port. *)
Theorem C22_dp_acl : forall am lowest evs s t q live es,
  manager_ok am lowest -> history am lowest evs s ->
  am_port am = Some t -> am_dp_acls am <> [] -> packet_ok q ->
  (walk s live (tb_id t) q es <->
   acl_outcome (fun force q' => walk s live (if force then am_to_l2 am else am_to_vlan am) q') live
     (rule_covers None q) (rules_of (am_dp_acls am)) q es).
Proof.
  intros am lowest evs s t q live es M H T D K.
  destruct (history_holds am lowest M evs s H) as [NM [CO _]].
  apply (spot_walk am lowest evs s live M H SDp t q es); auto.
  - exact Logic.I.
  - split; auto. intros _. split; auto. intros v. split; discriminate.
  - apply content_or; auto. intros _. cbn. congruence.
Qed.
Print Assumptions C22_dp_acl.

(** A packet in a VLAN with input ACLs ... *)
Theorem C22_vlan_acl : forall am lowest evs s t v x q live es,
  manager_ok am lowest -> history am lowest evs s ->
  am_vlan am = Some t -> vlan_now evs v = Some x -> av_in x <> [] ->
  in_vlan v q -> packet_ok q ->
  (walk s live (tb_id t) q es <->
   acl_outcome (fun force q' => walk s live (if force then am_to_l2 am else am_to_class am) q') live
     (rule_covers (Some VlanVid) q) (rules_of (av_in x)) q es).
Proof.
  intros am lowest evs s t v x q live es M H T V A I K.
  assert (E : acls_at am evs (SVlanIn v) = av_in x) by (cbn; rewrite V; auto).
  destruct (history_holds am lowest M evs s H) as [NM [CO _]].
  rewrite <- E. apply (spot_walk am lowest evs s live M H (SVlanIn v) t q es); auto.
  - split; auto. apply vlan_id_ok. eapply NM; eauto.
  - split; [discriminate|]. intros [_ X]. destruct (X v) as [X1 _]. congruence.
  - rewrite E; auto.
  - apply content_or; auto; [|rewrite E; auto]. intros _. cbn. congruence.
Qed.
Print Assumptions C22_vlan_acl.

(** ... and one that leaves in a VLAN with output ACLs. *)
Theorem C22_egress_acl : forall am lowest evs s t v x q live es,
  manager_ok am lowest -> history am lowest evs s ->
  am_egress am = Some t -> vlan_now evs v = Some x -> av_out x <> [] ->
  in_vlan v q -> packet_ok q ->
  (walk s live (tb_id t) q es <->
   acl_outcome (fun force q' => walk s live (am_to_egress am) q') live
     (rule_covers (Some VlanVid) q) (rules_of (av_out x)) q es).
Proof.
  intros am lowest evs s t v x q live es M H T V A I K.
  assert (E : acls_at am evs (SVlanOut v) = av_out x) by (cbn; rewrite V; auto).
  destruct (history_holds am lowest M evs s H) as [NM [CO _]].
  rewrite <- E.
  assert (W := spot_walk am lowest evs s live M H (SVlanOut v) t q es T K).
  assert (G : forall b : bool, (if b then snd (nexts am (SVlanOut v)) else fst (nexts am (SVlanOut v))) = am_to_egress am)
    by (intros []; reflexivity).
  destruct W as [W1 W2].
  - split; auto. apply vlan_id_ok. eapply NM; eauto.
  - split; [discriminate|]. intros [_ X]. destruct (X v) as [_ X1]. congruence.
  - rewrite E; auto.
  - apply content_or; auto; [|rewrite E; auto]. intros _. cbn. congruence.
  - assert (R : forall on on' : bool -> packet -> list emission -> Prop, (forall b q' e, on b q' e -> on' b q' e) ->
      acl_outcome on live (rule_covers (Some VlanVid) q) (rules_of (acls_at am evs (SVlanOut v))) q es ->
      acl_outcome on' live (rule_covers (Some VlanVid) q) (rules_of (acls_at am evs (SVlanOut v))) q es).
    { intros on on' X [[r [D Y]]|Y]; [left|right; auto]. exists r. split; auto.
      destruct (effect live r q) as [out [[force q']|]]; auto. destruct Y as [e [Y1 Y2]]. exists e. split; auto. }
    split; intros Z.
    + apply W1 in Z. revert Z. apply R. intros b q' e. rewrite G. auto.
    + apply W2. revert Z. apply R. intros b q' e. rewrite G. auto.
Qed.
Print Assumptions C22_egress_acl.

(** ** Without ACLs *)

(** A port that is attached, has no ACLs, and does not do 802.1X: packets go on. *)
Theorem C22_port_open : forall am lowest evs s t p q live es,
  manager_ok am lowest -> history am lowest evs s ->
  am_port am = Some t -> am_dp_acls am = [] ->
  port_now evs (pk_in q) = Some p -> ap_output_only p = false -> ap_acls p = [] -> ap_dot1x p = false ->
  packet_ok q ->
  (walk s live (tb_id t) q es <-> walk s live (am_to_vlan am) q es).
Proof.
  intros am lowest evs s t p q live es M H T D P O A X K.
  destruct (history_holds am lowest M evs s H) as [NM [CO _]].
  apply (spot_open am lowest evs s live M H (SPort (pk_in q)) t (InPort, (pk_in q, -1)) q es); auto.
  - reflexivity.
  - split; [discriminate|]. intros [Y _]. congruence.
  - cbn. rewrite P. unfold add_port, port_acls_allowed. rewrite D, O, T, A, X. destruct NM as [N _].
    rewrite (N _ _ P). reflexivity.
Qed.
Print Assumptions C22_port_open.

(** A port that is not attached, is output-only, or does 802.1X and has no ACLs:
    packets are dropped. *)
Theorem C22_port_closed : forall am lowest evs s t q live es,
  manager_ok am lowest -> history am lowest evs s ->
  am_port am = Some t -> am_dp_acls am = [] ->
  (forall p, port_now evs (pk_in q) = Some p -> ap_output_only p = true \/ (ap_acls p = [] /\ ap_dot1x p = true)) ->
  packet_ok q ->
  (walk s live (tb_id t) q es <-> es = []).
Proof.
  intros am lowest evs s t q live es M H T D P K.
  apply (spot_closed am lowest evs s live M H (SPort (pk_in q)) t q es); auto.
  - reflexivity.
  - split; [discriminate|]. intros [Y _]. congruence.
  - cbn. destruct (port_now evs (pk_in q)) as [p|] eqn:E; auto. unfold add_port, port_acls_allowed. rewrite D.
    destruct (P p eq_refl) as [-> |[A X]]; auto. destruct (ap_output_only p); auto. rewrite T, A, X. auto.
Qed.
Print Assumptions C22_port_closed.

(** An output VLAN without output ACLs: packets go on; with a VLAN that is not
    there they are dropped, in both tables. *)
Theorem C22_egress_open : forall am lowest evs s t v x q live es,
  manager_ok am lowest -> history am lowest evs s ->
  am_egress am = Some t -> vlan_now evs v = Some x -> av_out x = [] ->
  in_vlan v q -> packet_ok q ->
  (walk s live (tb_id t) q es <-> walk s live (am_to_egress am) q es).
Proof.
  intros am lowest evs s t v x q live es M H T V A I K.
  destruct (history_holds am lowest M evs s H) as [NM [CO _]].
  destruct (proj2 NM v x V) as [N1 N2].
  apply (spot_open am lowest evs s live M H (SVlanOut v) t (VlanVid, (vid_present v, -1)) q es); auto.
  - split; auto. apply vlan_id_ok; auto.
  - split; [discriminate|]. intros [_ X]. destruct (X v) as [_ X1]. congruence.
  - cbn. rewrite V. unfold vlan_out. rewrite T, A, N1, vlan_item_id by auto. reflexivity.
Qed.
Print Assumptions C22_egress_open.

Theorem C22_vlan_closed : forall am lowest evs s t v q live es,
  manager_ok am lowest -> history am lowest evs s ->
  vlan_now evs v = None -> vid_ok v -> in_vlan v q -> packet_ok q ->
  (am_vlan am = Some t \/ am_egress am = Some t) ->
  (walk s live (tb_id t) q es <-> es = []).
Proof.
  intros am lowest evs s t v q live es M H V O I K [T|T].
  - apply (spot_closed am lowest evs s live M H (SVlanIn v) t q es); auto; [split; auto| |cbn; rewrite V; auto].
    split; [discriminate|]. intros [_ X]. destruct (X v). congruence.
  - apply (spot_closed am lowest evs s live M H (SVlanOut v) t q es); auto; [split; auto| |cbn; rewrite V; auto].
    split; [discriminate|]. intros [_ X]. destruct (X v). congruence.
Qed.
Print Assumptions C22_vlan_closed.

(** ** C23: what a rule may do *)

Lemma set_field_keeps : forall f v p, pk_in (set_field f v p) = pk_in p /\
  (forall g, g <> f -> pk_hdr (set_field f v p) g = pk_hdr p g) /\
  ((match f with VlanVid | VlanPcp => true | _ => false end) = false -> pk_tags (set_field f v p) = pk_tags p).
Proof.
  intros f v p.
  assert (G : pk_in (mkPacket (pk_in p) (pk_tags p) (fun g => if field_eqb g f then Some v else pk_hdr p g)) = pk_in p /\
    (forall g, g <> f -> pk_hdr (mkPacket (pk_in p) (pk_tags p) (fun g => if field_eqb g f then Some v else pk_hdr p g)) g = pk_hdr p g)).
  { split; [reflexivity|]. intros g N. cbn. destruct (field_eqb g f) eqn:E; auto. apply field_eqb_spec in E. congruence. }
  destruct f; try (split; [apply G|]; split; [apply G|]; reflexivity).
  - repeat split.
  - cbn. destruct (pk_tags p) as [|[v0 pcp] r]; cbn; repeat split; intros; discriminate.
  - cbn. destruct (pk_tags p) as [|[v0 pcp] r]; cbn; repeat split; intros; discriminate.
Qed.

Definition tagged (f : field) : bool := match f with VlanVid | VlanPcp => true | _ => false end.
Definition keeps (S : list field) (b : bool) (p q : packet) : Prop :=
  pk_in q = pk_in p /\ (forall f, ~ In f S -> pk_hdr q f = pk_hdr p f) /\ (b = false -> pk_tags q = pk_tags p).
Lemma keeps_refl : forall S b p, keeps S b p p.
Proof. intros S b p. repeat split. Qed.
Lemma keeps_trans : forall S1 S2 b1 b2 p q r, keeps S1 b1 p q -> keeps S2 b2 q r -> keeps (S1 ++ S2) (b1 || b2) p r.
Proof.
  intros S1 S2 b1 b2 p q r [A1 [A2 A3]] [B1 [B2 B3]]. split; [congruence|]. split.
  - intros f N. rewrite in_app_iff in N. rewrite B2, A2; auto.
  - intros E. apply orb_false_iff in E as [E1 E2]. rewrite B3, A3; auto.
Qed.
Lemma keeps_fields : forall l p, keeps (map fst l) (existsb tagged (map fst l)) p (with_fields l p).
Proof.
  induction l as [|[f v] l IH]; intros p; [apply keeps_refl|]. cbn [with_fields fold_left map fst snd existsb].
  change (f :: map fst l) with ([f] ++ map fst l).
  apply keeps_trans with (set_field f v p); [|apply IH].
  destruct (set_field_keeps f v p) as [A [B C]]. split; [auto|]. split; [|exact C].
  intros g N. apply B. intros ->. apply N. left; auto.
Qed.
Lemma keeps_pushed : forall vs p, keeps [] true p (fold_left (fun p v => pushed v p) vs p).
Proof.
  induction vs as [|v vs IH]; intros p; [apply keeps_refl|]. cbn [fold_left].
  change (@nil field) with (@nil field ++ []). change true with (true || true). apply keeps_trans with (pushed v p); [|apply IH].
  repeat split. discriminate.
Qed.

Lemma first_live_in : forall live ns p n q, In (n, q) (first_live live ns p) -> In n ns.
Proof.
  intros live ns p n q H. unfold first_live in H. destruct (find live ns) eqn:E; [|destruct H].
  destruct H as [H|[]]. injection H as <- <-. apply find_some in E. tauto.
Qed.

Definition item_does (live : Z -> bool) (i : out_item) (p : packet) : list emission * packet :=
  match i with
  | OPop n => ([], popped n p)
  | OVid v => ([], pushed v p)
  | OSwap v => ([], swapped v p)
  | OVids vs => ([], fold_left (fun p v => pushed v p) vs p)
  | OSet sets => ([], with_fields sets p)
  | OPort n => ([(n, p)], p)
  | OPorts ns => (map (fun n => (n, p)) ns, p)
  | OFailover _ ns => (first_live live ns p, p)
  | OTunnel _ | OGoto _ => ([], p)
  end.
Lemma perform_cons : forall live i l p, perform live (i :: l) p =
  let '(now, p') := item_does live i p in let '(later, p'') := perform live l p' in (now ++ later, p'').
Proof. reflexivity. Qed.

Lemma perform_only : forall live l p,
  keeps (flat_map (fun i => match i with OSet s => map fst s | _ => [] end) l)
    (existsb tagged (flat_map (fun i => match i with OSet s => map fst s | _ => [] end) l) ||
     existsb (fun i => match i with OPop _ | OVid _ | OSwap _ | OVids _ => true | _ => false end) l)
    p (snd (perform live l p)) /\
  (forall n q, In (n, q) (fst (perform live l p)) -> In n (flat_map item_ports l)).
Proof.
  intros live. induction l as [|i l IH]; intros p; [split; [apply keeps_refl|intros n q []]|].
  rewrite perform_cons. cbn [flat_map existsb]. rewrite existsb_app.
  set (F := flat_map _ l) in *. set (B := existsb _ l) in *.
  set (now := item_does live i p). set (fi := match i with OSet s => map fst s | _ => [] end).
  set (bi := match i with OPop _ | OVid _ | OSwap _ | OVids _ => true | _ => false end).
  assert (K : keeps fi (existsb tagged fi || bi) p (snd now) /\ forall n q, In (n, q) (fst now) -> In n (item_ports i)).
  { unfold now, fi, bi. clear. destruct i; cbn [item_does fst snd item_ports map existsb orb]; (split; [|try (intros n0 q0 [])]);
      try (repeat split; discriminate); try apply keeps_refl.
    - destruct (keeps_pushed vids p) as [A1 [A2 A3]]. split; auto.
    - rewrite orb_false_r. apply keeps_fields.
    - injection H as <- <-. left; auto.
    - destruct H.
    - intros m q H. apply in_map_iff in H as [x [E H]]. injection E as <- <-. auto.
    - intros m q H. apply first_live_in in H. auto. }
  clearbody now; destruct now as [nw p0]. cbn [fst snd] in K. destruct K as [K1 K2].
  destruct (IH p0) as [I1 I2]. destruct (perform live l p0) as [later p0'] eqn:EP. cbn [fst snd] in *.
  split.
  - destruct (keeps_trans _ _ _ _ _ _ _ K1 I1) as [A1 [A2 A3]]. split; [auto|]. split; [auto|].
    intros E. apply A3. rewrite !orb_false_iff in *. tauto.
  - intros n q H. apply in_app_iff in H as [H|H]; apply in_app_iff; eauto.
Qed.

Lemma rewritten_only : forall u p,
  keeps (match u_sets u with Some s => map fst s | None => [] end)
    (existsb tagged (match u_sets u with Some s => map fst s | None => [] end) ||
     match u_pop u, u_vid u, u_swap u, u_vids u with None, None, None, None => false | _, _, _, _ => true end)
    p (rewritten u p).
Proof.
  intros u p. unfold rewritten. set (p1 := match u_pop u with Some n => _ | None => p end).
  set (b := match u_pop u with Some _ => true | None => _ end).
  set (p2 := match u_vid u with Some v => pushed v p1 | None => _ end).
  assert (K : keeps [] b p p2).
  { unfold b, p2, p1. destruct (u_pop u) as [n|], (u_vid u) as [v|], (u_swap u) as [w|], (u_vids u) as [vs|];
      try (repeat split; discriminate); try apply keeps_refl.
    - apply (keeps_trans [] [] true true p (popped n p)); [repeat split; discriminate|apply keeps_pushed].
    - apply keeps_pushed. }
  destruct (u_sets u) as [l|].
  - destruct (keeps_trans _ _ _ _ _ _ _ K (keeps_fields l p2)) as [A1 [A2 A3]]. split; [auto|]. split; [auto|].
    intros E. apply A3. rewrite orb_false_iff in *. tauto.
  - exact K.
Qed.

Lemma sent_only : forall live u p n q, In (n, q) (sent live u p) ->
  In n (match u_port u with Some n => [n] | None => [] end
        ++ match u_ports u with Some ns => ns | None => [] end
        ++ match u_failover u with Some (_, ns) => ns | None => [] end).
Proof.
  intros live u p n q H. unfold sent in H. rewrite !in_app_iff in *. destruct H as [H|[H|H]].
  - left. destruct (u_port u); [|destruct H]. destruct H as [H|[]]. injection H as <- <-. left; auto.
  - right. left. destruct (u_ports u); [|destruct H]. apply in_map_iff in H as [x [E H]]. injection E as <- <-. auto.
  - right. right. destruct (u_failover u) as [[g ns]|]; [|destruct H]. eapply first_live_in; eauto.
Qed.

Lemma effect_only : forall live r p,
  (forall n q, In (n, q) (fst (effect live r p)) -> In n (rule_ports r)) /\
  (rule_lets_on r <-> snd (effect live r p) <> None) /\
  forall force q, snd (effect live r p) = Some (force, q) ->
    (force = true <-> rule_forces r) /\ keeps (rule_sets r) (rule_retags r) p q.
Proof.
  intros live r p. unfold effect, rule_ports, rule_lets_on, rule_forces, rule_retags, rule_sets.
  destruct (ru_actions r) as [a|]; [|split; [intros n q []|]; split; [split; [intros [a [E _]]; discriminate|intros X; exfalso; apply X; reflexivity]|intros force q E; discriminate E]].
  destruct a as [al fo me mi ou ct]. cbn [ac_allow ac_force ac_mirror ac_output].
  set (X := match ou with Some (Ordered l) => perform live l p | Some (Unordered u) => (sent live u (rewritten u p), rewritten u p) | None => ([], p) end).
  assert (K : keeps (match ou with
                     | Some (Ordered l) => flat_map (fun i => match i with OSet s => map fst s | _ => [] end) l
                     | Some (Unordered u) => match u_sets u with Some s => map fst s | None => [] end
                     | None => [] end)
     (existsb tagged (match ou with
                     | Some (Ordered l) => flat_map (fun i => match i with OSet s => map fst s | _ => [] end) l
                     | Some (Unordered u) => match u_sets u with Some s => map fst s | None => [] end
                     | None => [] end) ||
      match ou with
      | Some (Ordered l) => existsb (fun i => match i with OPop _ | OVid _ | OSwap _ | OVids _ => true | _ => false end) l
      | Some (Unordered u) => match u_pop u, u_vid u, u_swap u, u_vids u with None, None, None, None => false | _, _, _, _ => true end
      | None => false end) p (snd X)).
  { unfold X. destruct ou as [[l|u]|]; [apply perform_only|apply rewritten_only|apply keeps_refl]. }
  assert (O : forall n q, In (n, q) (fst X) -> In n (match ou with
         | None => []
         | Some (Ordered l) => flat_map item_ports l
         | Some (Unordered u) =>
             match u_port u with Some n => [n] | None => [] end
             ++ match u_ports u with Some ns => ns | None => [] end
             ++ match u_failover u with Some (_, ns) => ns | None => [] end
         end)).
  { unfold X. destruct ou as [[l|u]|]; [apply perform_only|apply sent_only|intros n q []]. }
  fold X. destruct X as [es q0]. cbn [fst snd] in *. split; [|split].
  - intros n q H. apply in_app_iff. destruct mi as [m|].
    + destruct H as [H|H]; [injection H as <- <-; left; left; auto|right; eauto].
    + right; eauto.
  - split.
    + intros [a [E H]]. injection E as <-. cbn in H. destruct H as [-> |[-> H]]; [discriminate|]. destruct mi; [discriminate|congruence].
    + intros H. eexists. split; [reflexivity|]. cbn. destruct al as [x|].
      * destruct (Z.eqb_spec x 1); [subst; auto|congruence].
      * right. split; auto. destruct mi; [discriminate|congruence].
  - intros force q E.
    assert (E' : Some (match fo with Some x => x =? 1 | None => false end, q0) = Some (force, q)).
    { destruct (match al with Some x => x =? 1 | None => match mi with Some _ => true | None => false end end); [exact E|discriminate E]. }
    injection E' as <- <-. split.
    + split.
      * intros F. eexists. split; [reflexivity|]. cbn. destruct fo as [x|]; [|discriminate]. apply Z.eqb_eq in F. congruence.
      * intros [a [E1 E2]]. injection E1 as <-. cbn in E2. subst fo. reflexivity.
    + destruct ou as [[l|u]|]; exact K.
Qed.

Lemma outcome_verdict : forall on live P rs p (outcome : list emission -> Prop),
  (forall es, outcome es <-> acl_outcome on live P rs p es) -> verdict on live P rs p outcome.
Proof.
  intros on live P rs p outcome H. split.
  - intros r D. exists (fst (effect live r p)). destruct (effect_only live r p) as [A [B C]].
    assert (G : forall es, outcome es <-> match effect live r p with
       | (out, None) => es = out | (out, Some (force, q)) => exists es', on force q es' /\ es = out ++ es' end).
    { intros es. rewrite H. unfold acl_outcome. split.
      - intros [[r' [D' E]]|[U _]].
        + rewrite (decides_fun P rs r r' D D'). exact E.
        + exfalso. apply decides_in in D as [I Q]. exact (U r I Q).
      - intros E. left. exists r. auto. }
    split; [exact A|]. destruct (effect live r p) as [out [[force q]|]]; cbn [fst snd] in *.
    + split.
      * intros N. exfalso. apply N, B. discriminate.
      * intros _. exists force, q. destruct (C force q eq_refl) as [C1 [C2 [C3 C4]]]. auto 8.
    + split; [auto|]. intros L. apply B in L. congruence.
  - intros U es. rewrite H. split; [|right; auto]. intros [[r [D _]]|[_ E]]; auto.
    exfalso. apply decides_in in D as [I Q]. exact (U r I Q).
Qed.

(** The rules of a port, of a datapath, and of a VLAN in both directions. *)
Theorem C23_port_acl : forall am lowest evs s t p q live,
  manager_ok am lowest -> history am lowest evs s ->
  am_port am = Some t -> am_dp_acls am = [] ->
  port_now evs (pk_in q) = Some p -> ap_output_only p = false -> ap_acls p <> [] ->
  packet_ok q ->
  verdict (fun force q' => walk s live (if force then am_to_l2 am else am_to_vlan am) q') live
    (rule_covers (Some InPort) q) (rules_of (ap_acls p)) q (walk s live (tb_id t) q).
Proof. intros. apply outcome_verdict. intros es. eapply C22_port_acl; eauto. Qed.
Print Assumptions C23_port_acl.

Theorem C23_dp_acl : forall am lowest evs s t q live,
  manager_ok am lowest -> history am lowest evs s ->
  am_port am = Some t -> am_dp_acls am <> [] -> packet_ok q ->
  verdict (fun force q' => walk s live (if force then am_to_l2 am else am_to_vlan am) q') live
    (rule_covers None q) (rules_of (am_dp_acls am)) q (walk s live (tb_id t) q).
Proof. intros. apply outcome_verdict. intros es. eapply C22_dp_acl; eauto. Qed.
Print Assumptions C23_dp_acl.

Theorem C23_vlan_acl : forall am lowest evs s t v x q live,
  manager_ok am lowest -> history am lowest evs s ->
  am_vlan am = Some t -> vlan_now evs v = Some x -> av_in x <> [] ->
  in_vlan v q -> packet_ok q ->
  verdict (fun force q' => walk s live (if force then am_to_l2 am else am_to_class am) q') live
    (rule_covers (Some VlanVid) q) (rules_of (av_in x)) q (walk s live (tb_id t) q).
Proof. intros. apply outcome_verdict. intros es. eapply C22_vlan_acl; eauto. Qed.
Print Assumptions C23_vlan_acl.

Theorem C23_egress_acl : forall am lowest evs s t v x q live,
  manager_ok am lowest -> history am lowest evs s ->
  am_egress am = Some t -> vlan_now evs v = Some x -> av_out x <> [] ->
  in_vlan v q -> packet_ok q ->
  verdict (fun force q' => walk s live (am_to_egress am) q') live
    (rule_covers (Some VlanVid) q) (rules_of (av_out x)) q (walk s live (tb_id t) q).
Proof. intros. apply outcome_verdict. intros es. eapply C22_egress_acl; eauto. Qed.
Print Assumptions C23_egress_acl.

(** ** A datapath with ACLs on a port and on a VLAN

    Port 1 mirrors ARP to port 9 and lets it on, sends IPv4 to the first live one of
    ports 2 and 3 only, and lets everything else on with a new destination.  Port 2
    has no ACLs.  VLAN 100 denies IPv4 from port 1.  Port 1 goes down and comes up;
    then port 2 gets an ACL by a reload. *)
Definition ex_am : amanager := mkAmanager [] (Some (mkTable 0 7 0)) (Some (mkTable 2 7 0)) (Some (mkTable 9 7 0)) true 1 3 6 10.
Definition ex_allow : actions_conf := mkActions (Some 1) None None None None None.
Definition ex_set (l : list (field * Z)) : output_conf := Unordered (mkUnordered None None None None (Some l) None None None None None).
Definition ex_rules : list rule :=
  [ mkRule [((false, EthType), (0x806, -1))] None (Some (mkActions None None None (Some 9) None None));
    mkRule [((true, EthType), (0x800, -1))] (Some 5) (Some (mkActions None None None None (Some (Ordered [OVid 7; OFailover 11 [2; 3]])) None));
    mkRule [] None (Some (mkActions (Some 1) None None None (Some (ex_set [(EthDst, 0xABC)])) None)) ].
Definition ex_p1 : aport := mkAport 1 [mkAcl (firstn 1 ex_rules) false; mkAcl (skipn 1 ex_rules) false] false false.
Definition ex_p2' : aport := mkAport 2 [mkAcl [mkRule [((false, EthSrc), (0x10, -16))] None (Some ex_allow)] false] false false.
Definition ex_p2 : aport := mkAport 2 [] false false.
Definition ex_v100 : avlan := mkAvlan 100 [mkAcl [mkRule [((false, EthType), (0x800, -1)); ((false, InPort), (1, -1))] None None; mkRule [] None (Some ex_allow)] false] [].
Definition ex_evs : list aevent := [APortAcl ex_p2'; APortUp ex_p1 [ex_v100]; APortDown ex_p1; AConnect [ex_v100] [ex_p1; ex_p2]].
Definition ex_s0 : switch := mkSwitch [mkFlow 0 0x6000 [] 1 [Goto 1] 0 0 0] [] [].
Definition ex_run (am : amanager) (lowest : Z) (evs : list aevent) : switch :=
  fold_right (fun e s => match valve_flowreorder (fun l => l) true (abatch am lowest e) with Some out => apply_msgs out s | None => s end) ex_s0 evs.

Ltac spots := repeat match goal with
  | H : context[?a =? ?b] |- _ => destruct (Z.eqb_spec a b); subst; cbn -[Z.eqb] in H
  | |- context[?a =? ?b] => destruct (Z.eqb_spec a b); subst; cbn -[Z.eqb FILTER_PRIORITY]
  end.
Ltac rules_ok := repeat (apply Forall_cons; [split; [repeat constructor; cbn; intuition discriminate
  |intros a E; first [discriminate E | injection E as <-; (split; [reflexivity|cbn]); auto];
   try (repeat constructor; unfold vid_ok, OFPG_ALL; cbn; try lia; discriminate);
   try (repeat (split; [intros ? H; discriminate H || (injection H as <-; unfold vid_ok; cbn; lia)|]);
        split; [reflexivity|]; split; [reflexivity|]; intros ? H; discriminate H || (injection H as <-; discriminate))]|]); try apply Forall_nil.
Ltac finite_config :=
  split;
  [ intros sp; destruct sp; cbn -[Z.eqb FILTER_PRIORITY]; spots;
    (split; [repeat constructor|]; split; [unfold ex_allow; rules_ok|vm_compute; discriminate])
  | intros sp1 sp2 r1 r2 g ns1 ns2 H1 H2 H3 H4;
    destruct sp1, sp2; cbn -[Z.eqb] in H1, H2; spots; repeat (destruct H1 as [<-|H1]; cbn in H3); try contradiction;
    repeat (destruct H2 as [<-|H2]; cbn in H4); try contradiction;
    destruct H3 as [H3|[]]; destruct H4 as [H4|[]]; injection H3 as <- <-; injection H4 as <-; auto ].
Lemma ex_manager : manager_ok ex_am 0.
Proof. split; [repeat constructor; cbn; intuition discriminate|]. split; [cbn; intuition discriminate|]. cbn. unfold FILTER_PRIORITY. lia. Qed.
Lemma ex_history : history ex_am 0 ex_evs (ex_run ex_am 0 ex_evs).
Proof.
  assert (SH : forall l : list ofmsg, Permutation l l) by (intros; apply Permutation_refl).
  unfold ex_evs, ex_run. cbn [fold_right].
  destruct (valve_flowreorder (fun l => l) true (abatch ex_am 0 (APortAcl ex_p2'))) as [o4|] eqn:E4; [|vm_compute in E4; discriminate E4].
  destruct (valve_flowreorder (fun l => l) true (abatch ex_am 0 (APortUp ex_p1 [ex_v100]))) as [o3|] eqn:E3; [|vm_compute in E3; discriminate E3].
  destruct (valve_flowreorder (fun l => l) true (abatch ex_am 0 (APortDown ex_p1))) as [o2|] eqn:E2; [|vm_compute in E2; discriminate E2].
  destruct (valve_flowreorder (fun l => l) true (abatch ex_am 0 (AConnect [ex_v100] [ex_p1; ex_p2]))) as [o1|] eqn:E1; [|vm_compute in E1; discriminate E1].
  eapply hi_event; [eapply hi_event; [eapply hi_event; [eapply hi_connect| | | | |]| | | | |]| | | | |]; try eassumption; try (intros; discriminate); try exact SH.
  - split; [repeat constructor; cbn; intuition discriminate|]. split; [repeat constructor; cbn; intuition discriminate|].
    repeat constructor; cbn; lia.
  - finite_config.
  - intros q H. cbn in H. congruence.
  - finite_config.
  - split; [intros q H; cbn in H; congruence|]. intros v [<-|[]]. reflexivity.
  - finite_config.
  - split; [intros q H; cbn in H; injection H as <-; reflexivity|]. split; [discriminate|].
    intros r rest H. injection H as <- <-. eexists. split; [left; reflexivity|discriminate].
  - finite_config.
Qed.
Definition ex_pkt (n ethtype : Z) (tags : list (Z * Z)) : packet :=
  mkPacket n tags (fun f => match f with EthType => Some ethtype | EthSrc => Some 0x17 | _ => None end).
(** IPv4 from port 1 with port 2 down goes to port 3 with a tag, and nowhere else; ARP
    goes to the mirror, and on; what port 2's ACL does not mention is dropped. *)
Example C22_example :
  let live n := negb (n =? 2) in
  port_now ex_evs 1 = Some ex_p1 /\
  (forall es, walk (ex_run ex_am 0 ex_evs) live 0 (ex_pkt 1 0x800 []) es <-> es = [(3, pushed 7 (ex_pkt 1 0x800 []))]) /\
  (forall es, walk (ex_run ex_am 0 ex_evs) live 0 (ex_pkt 1 0x806 []) es <->
     exists es', walk (ex_run ex_am 0 ex_evs) live 1 (ex_pkt 1 0x806 []) es' /\ es = (9, ex_pkt 1 0x806 []) :: es').
Proof.
  intros live. split; [reflexivity|].
  assert (V : forall e, verdict (fun force q' => walk (ex_run ex_am 0 ex_evs) live (if force then 6 else 1) q') live
    (rule_covers (Some InPort) (ex_pkt 1 e [])) ex_rules (ex_pkt 1 e []) (walk (ex_run ex_am 0 ex_evs) live 0 (ex_pkt 1 e []))).
  { intros e. apply (C23_port_acl ex_am 0 ex_evs (ex_run ex_am 0 ex_evs) (mkTable 0 7 0) ex_p1 (ex_pkt 1 e []) live ex_manager ex_history);
      try reflexivity; [discriminate|constructor]. }
  assert (C : forall e es, walk (ex_run ex_am 0 ex_evs) live 0 (ex_pkt 1 e []) es <->
     acl_outcome (fun force q' => walk (ex_run ex_am 0 ex_evs) live (if force then 6 else 1) q') live
       (rule_covers (Some InPort) (ex_pkt 1 e [])) ex_rules (ex_pkt 1 e []) es).
  { intros e es. apply (C22_port_acl ex_am 0 ex_evs (ex_run ex_am 0 ex_evs) (mkTable 0 7 0) ex_p1 (ex_pkt 1 e []) live es ex_manager ex_history);
      try reflexivity; [discriminate|constructor]. }
  assert (D1 : decides (rule_covers (Some InPort) (ex_pkt 1 0x800 [])) ex_rules (nth 1 ex_rules (mkRule [] None None))).
  { apply decides_later; [|apply decides_now].
    - intros H. destruct (H false EthType 0x806 (-1) (or_introl eq_refl) ltac:(discriminate)) as [x [E L]].
      injection E as <-. vm_compute in L. discriminate L.
    - intros o f v m [H|[]] _. injection H as <- <- <- <-. exists 0x800. split; reflexivity. }
  assert (D2 : decides (rule_covers (Some InPort) (ex_pkt 1 0x806 [])) ex_rules (nth 0 ex_rules (mkRule [] None None))).
  { apply decides_now. intros o f v m [H|[]] _. injection H as <- <- <- <-. exists 0x806. split; reflexivity. }
  split; intros es; rewrite C.
  - split.
    + intros [[r [D E]]|[U _]]; [|exfalso; exact (U _ (proj1 (decides_in _ _ _ D1)) (proj2 (decides_in _ _ _ D1)))].
      rewrite <- (decides_fun _ _ _ _ D1 D) in E. exact E.
    + intros ->. left. eexists. split; [exact D1|]. reflexivity.
  - split.
    + intros [[r [D E]]|[U _]]; [|exfalso; exact (U _ (proj1 (decides_in _ _ _ D2)) (proj2 (decides_in _ _ _ D2)))].
      rewrite <- (decides_fun _ _ _ _ D2 D) in E. exact E.
    + intros E. left. eexists. split; [exact D2|]. exact E.
Qed.

(** ** Findings *)

(** The messages of an event, reordered and applied. *)
Definition after (am : amanager) (lowest : Z) (e : aevent) (s : switch) (s' : switch) : Prop :=
  exists out, valve_flowreorder (fun l => l) true (abatch am lowest e) = Some out /\ s' = apply_msgs out s.

Lemma walk_nothing : forall s live t q es, forallb (fun f => negb (f_table f =? t)) (sw_flows s) = true -> walk s live t q es -> es = [].
Proof.
  intros s live t q es H W. rewrite forallb_forall in H.
  inversion W as [t0 p0 NM0|t0 p0 f es0 p1 HI X|t0 p0 f es0 p1 t' es' HI X W']; subst; auto; destruct HI as [J1 [J2 _]];
    specialize (H f J1); rewrite J2, Z.eqb_refl in H; discriminate H.
Qed.

Definition rf_out : rule := mkRule [((false, EthType), (0x800, -1))] None
  (Some (mkActions None None None None (Some (Unordered (mkUnordered None None None None None (Some 7) None None None None))) None)).
Definition rf_out_all : rule := mkRule [] None
  (Some (mkActions None None None None (Some (Unordered (mkUnordered None None None None None (Some 8) None None None None))) None)).

(** A reload that takes the ACLs away from a port leaves them in force: the delete
    and the allow-all entry have the same match and priority, so only the last of
    the two is sent. *)
Theorem C22_acl_removed_refuted : exists am s0 s1 p p' q,
  manager_ok am 0 /\ history am 0 [AConnect [] [p]] s0 /\
  ap_num p' = ap_num p /\ ap_acls p' = [] /\ ap_output_only p' = false /\ ap_dot1x p' = false /\
  after am 0 (APortAcl p') s0 s1 /\ pk_in q = ap_num p /\ packet_ok q /\
  (** the packet is still sent to port 7 *)
  walk s1 (fun _ => true) 0 q [(7, q)] /\ ~ walk s1 (fun _ => true) (am_to_vlan am) q [(7, q)].
Proof.
  set (am := mkAmanager [] (Some (mkTable 0 7 0)) None None false 1 3 6 10).
  set (p := mkAport 1 [mkAcl [rf_out] false] false false). set (p' := mkAport 1 [] false false).
  exists am, (ex_run am 0 [AConnect [] [p]]), (ex_run am 0 [APortAcl p'; AConnect [] [p]]), p, p', (ex_pkt 1 0x800 []).
  split; [split; [repeat constructor; cbn; intuition discriminate|]; split; [cbn; intuition discriminate|unfold FILTER_PRIORITY; lia]|].
  split.
  { unfold ex_run. cbn [fold_right].
    destruct (valve_flowreorder (fun l => l) true (abatch am 0 (AConnect [] [p]))) as [o1|] eqn:E1; [|vm_compute in E1; discriminate E1].
    eapply hi_connect; [| | |exact E1].
    - intros; apply Permutation_refl.
    - split; [constructor|]. split; [repeat constructor; cbn; intuition discriminate|constructor].
    - unfold rf_out in p. finite_config. }
  split; [reflexivity|]. split; [reflexivity|]. split; [reflexivity|]. split; [reflexivity|].
  split; [eexists; split; [vm_compute; reflexivity|]; vm_compute; reflexivity|].
  split; [reflexivity|]. split; [constructor|]. split.
  - apply (walk_run_sound 3). vm_compute. reflexivity.
  - intros W. apply walk_nothing in W; [discriminate W|vm_compute; reflexivity].
Qed.
Print Assumptions C22_acl_removed_refuted.

(** The same happens when the new ACL starts with a rule for every packet: the old
    rules remain beside the new ones. *)
Theorem C22_catch_all_reload_refuted : exists am s0 s1 p p' q,
  manager_ok am 0 /\ history am 0 [AConnect [] [p]] s0 /\
  ap_num p' = ap_num p /\ ap_acls p' = [mkAcl [rf_out_all] false] /\ config_ok am 0 [APortAcl p'; AConnect [] [p]] /\
  after am 0 (APortAcl p') s0 s1 /\ pk_in q = ap_num p /\ packet_ok q /\
  (** the new ACL only outputs to port 8, the old one to port 7 *)
  walk s1 (fun _ => true) 0 q [(7, q)] /\ rule_ports rf_out_all = [8].
Proof.
  set (am := mkAmanager [] (Some (mkTable 0 7 0)) None None false 1 3 6 10).
  set (p := mkAport 1 [mkAcl [rf_out] false] false false). set (p' := mkAport 1 [mkAcl [rf_out_all] false] false false).
  exists am, (ex_run am 0 [AConnect [] [p]]), (ex_run am 0 [APortAcl p'; AConnect [] [p]]), p, p', (ex_pkt 1 0x800 []).
  split; [split; [repeat constructor; cbn; intuition discriminate|]; split; [cbn; intuition discriminate|unfold FILTER_PRIORITY; lia]|].
  split.
  { unfold ex_run. cbn [fold_right].
    destruct (valve_flowreorder (fun l => l) true (abatch am 0 (AConnect [] [p]))) as [o1|] eqn:E1; [|vm_compute in E1; discriminate E1].
    eapply hi_connect; [| | |exact E1].
    - intros; apply Permutation_refl.
    - split; [constructor|]. split; [repeat constructor; cbn; intuition discriminate|constructor].
    - unfold rf_out in p. finite_config. }
  split; [reflexivity|]. split; [reflexivity|]. split; [unfold rf_out in p; unfold rf_out_all in p'; finite_config|].
  split; [eexists; split; [vm_compute; reflexivity|]; vm_compute; reflexivity|].
  split; [reflexivity|]. split; [constructor|]. split; [|reflexivity].
  assert (E : sw_flows (ex_run am 0 [APortAcl p'; AConnect [] [p]]) = sw_flows (ex_run am 0 [APortAcl p'; AConnect [] [p]])) by reflexivity.
  destruct (find (fun f => Z.eqb (f_prio f) FILTER_PRIORITY && match f_inst f with [Apply [Output 7 0]] => true | _ => false end)
              (sw_flows (ex_run am 0 [APortAcl p'; AConnect [] [p]]))) as [f|] eqn:F; [|vm_compute in F; discriminate F].
  apply (walk_end (ex_run am 0 [APortAcl p'; AConnect [] [p]]) (fun _ => true) 0 (ex_pkt 1 0x800 []) f [(7, ex_pkt 1 0x800 [])] (ex_pkt 1 0x800 [])).
  - split; [eapply find_some; eauto|]. vm_compute in F. injection F as <-. split; [reflexivity|]. split; [reflexivity|].
    intros g G1 G2 G3. vm_compute in G1. repeat (destruct G1 as [<-|G1]; [vm_compute; discriminate|]). destruct G1.
  - vm_compute in F. injection F as <-. reflexivity.
Qed.
Print Assumptions C22_catch_all_reload_refuted.

(** Two ports share an ACL with a failover output: when the second port comes up,
    the group is deleted and added again, and the switch drops the first port's rule
    with the group. *)
Theorem C22_shared_failover_refuted : exists am s0 s1 p1 p2 q,
  manager_ok am 0 /\ history am 0 [AConnect [] [p1]] s0 /\
  ap_acls p1 = ap_acls p2 /\ ap_num p1 <> ap_num p2 /\ port_now [APortUp p2 []; AConnect [] [p1]] (pk_in q) = Some p1 /\
  after am 0 (APortUp p2 []) s0 s1 /\ packet_ok q /\
  walk s0 (fun _ => true) 0 q [(7, q)] /\ (forall es, walk s1 (fun _ => true) 0 q es -> es = []).
Proof.
  set (am := mkAmanager [] (Some (mkTable 0 7 0)) None None true 1 3 6 10).
  set (l := [mkAcl [mkRule [] None (Some (mkActions None None None None (Some (Ordered [OFailover 11 [7; 8]])) None))] false]).
  set (p1 := mkAport 1 l false false). set (p2 := mkAport 2 l false false).
  exists am, (ex_run am 0 [AConnect [] [p1]]), (ex_run am 0 [APortUp p2 []; AConnect [] [p1]]), p1, p2, (ex_pkt 1 0x800 []).
  split; [split; [repeat constructor; cbn; intuition discriminate|]; split; [cbn; intuition discriminate|unfold FILTER_PRIORITY; lia]|].
  split.
  { unfold ex_run. cbn [fold_right].
    destruct (valve_flowreorder (fun l => l) true (abatch am 0 (AConnect [] [p1]))) as [o1|] eqn:E1; [|vm_compute in E1; discriminate E1].
    eapply hi_connect; [| | |exact E1].
    - intros; apply Permutation_refl.
    - split; [constructor|]. split; [repeat constructor; cbn; intuition discriminate|constructor].
    - finite_config. }
  split; [reflexivity|]. split; [discriminate|]. split; [reflexivity|].
  split; [eexists; split; [vm_compute; reflexivity|]; vm_compute; reflexivity|].
  split; [constructor|]. split; [apply (walk_run_sound 3); vm_compute; reflexivity|].
  intros es W. inversion W as [t0 q0 NM0|t0 q0 f es0 q1 HI X|t0 q0 f es0 q1 t' es' HI X W']; subst; auto.
  - destruct HI as [J1 [J2 [J3 _]]]. vm_compute in J1. destruct J1 as [J1|[J1|[]]]; subst f; first [discriminate J3 | cbn in X; discriminate X | cbn in X; injection X as <- _; reflexivity].
  - destruct HI as [J1 [J2 [J3 _]]]. vm_compute in J1. destruct J1 as [J1|[J1|[]]]; subst f; first [discriminate J3 | cbn in X; discriminate X | cbn in X; injection X as <- _; reflexivity].
Qed.
Print Assumptions C22_shared_failover_refuted.

(** An exact-match ACL gives all its rules one priority, so an earlier rule does not
    come before a later one (a rule that covers fewer fields than the table is
    accepted by FAUCET). *)
Theorem C22_exact_match_refuted : exists am s p q,
  manager_ok am 0 /\ after am 0 (AConnect [] [p]) empty_switch s /\ pk_in q = ap_num p /\ packet_ok q /\
  ap_acls p = [mkAcl [rf_out; rf_out_all] true] /\ decides (rule_covers (Some InPort) q) [rf_out; rf_out_all] rf_out /\
  walk s (fun _ => true) 0 q [(8, q)] /\ rule_ports rf_out = [7].
Proof.
  set (am := mkAmanager [] (Some (mkTable 0 7 0)) None None false 1 3 6 10).
  set (p := mkAport 1 [mkAcl [rf_out; rf_out_all] true] false false).
  eexists am, _, p, (ex_pkt 1 0x800 []).
  split; [split; [repeat constructor; cbn; intuition discriminate|]; split; [cbn; intuition discriminate|unfold FILTER_PRIORITY; lia]|].
  split; [eexists; split; [vm_compute; reflexivity|]; vm_compute; reflexivity|].
  split; [reflexivity|]. split; [constructor|]. split; [reflexivity|]. split.
  { apply decides_now. intros o f v m [H|[]] _. injection H as <- <- <- <-. exists 0x800. split; reflexivity. }
  split; [|reflexivity].
  eapply walk_end with (p' := ex_pkt 1 0x800 []).
  - split; [right; left; reflexivity|]. split; [reflexivity|]. split; [reflexivity|].
    intros g G1 G2 G3. cbn in G1. destruct G1 as [G1|[G1|[G1|[]]]]; subst g; vm_compute; discriminate.
  - reflexivity.
Qed.
Print Assumptions C22_exact_match_refuted.

(** A rule that says both vlan_vid and, later, dl_vlan (its old name): attached to
    VLAN 100, the rule matches the VLAN it names instead. *)
Theorem C22_old_name_refuted : exists am s v r q,
  manager_ok am 0 /\ after am 0 (AConnect [v] []) empty_switch s /\
  ru_attrs r = [((false, VlanVid), (vid_present 100, -1)); ((true, VlanVid), (vid_present 5, -1))] /\
  v = mkAvlan 100 [mkAcl [r] false] [] /\ in_vlan 5 q /\ packet_ok q /\
  walk s (fun _ => true) 2 q [(7, q)].
Proof.
  set (am := mkAmanager [] None (Some (mkTable 2 7 0)) None false 1 3 6 10).
  set (r := mkRule [((false, VlanVid), (vid_present 100, -1)); ((true, VlanVid), (vid_present 5, -1))] None
     (Some (mkActions None None None None (Some (Unordered (mkUnordered None None None None None (Some 7) None None None None))) None))).
  eexists am, _, (mkAvlan 100 [mkAcl [r] false] []), r, (ex_pkt 1 0x800 [(5, 0)]).
  split; [split; [repeat constructor; cbn; intuition discriminate|]; split; [cbn; intuition discriminate|unfold FILTER_PRIORITY; lia]|].
  split; [eexists; split; [vm_compute; reflexivity|]; vm_compute; reflexivity|].
  split; [reflexivity|]. split; [reflexivity|]. split; [eexists _, _; reflexivity|].
  split; [constructor; [unfold vid_ok; cbn; lia|constructor]|]. apply (walk_run_sound 3). vm_compute. reflexivity.
Qed.
Print Assumptions C22_old_name_refuted.

(** With a priority_offset of 0x5000 or more the default drop hides the rules. *)
Theorem C22_priority_offset_refuted : exists am s p q,
  after am 0x5001 (AConnect [] [p]) empty_switch s /\ pk_in q = ap_num p /\ packet_ok q /\
  ap_acls p = [mkAcl [rf_out] false] /\ decides (rule_covers (Some InPort) q) [rf_out] rf_out /\
  forall es, walk s (fun _ => true) 0 q es -> es = [].
Proof.
  set (am := mkAmanager [] (Some (mkTable 0 7 0)) None None false 1 3 6 10).
  set (p := mkAport 1 [mkAcl [rf_out] false] false false).
  eexists am, _, p, (ex_pkt 1 0x800 []).
  split; [eexists; split; [vm_compute; reflexivity|]; vm_compute; reflexivity|].
  split; [reflexivity|]. split; [constructor|]. split; [reflexivity|]. split.
  { apply decides_now. intros o f v m [H|[]] _. injection H as <- <- <- <-. exists 0x800. split; reflexivity. }
  intros es W. inversion W as [t0 q0 NM0|t0 q0 f es0 q1 HI X|t0 q0 f es0 q1 t' es' HI X W']; subst; auto.
  - destruct HI as [J1 [J2 [J3 J4]]]. cbn in J1. destruct J1 as [J1|[J1|[]]]; subst f.
    + cbn in X. first [discriminate X | injection X as <- _; reflexivity].
    + exfalso. specialize (J4 _ (or_introl eq_refl) eq_refl eq_refl). vm_compute in J4. apply J4. reflexivity.
  - destruct HI as [J1 [J2 [J3 J4]]]. cbn in J1. destruct J1 as [J1|[J1|[]]]; subst f.
    + cbn in X. first [discriminate X | injection X as <- _; reflexivity].
    + exfalso. specialize (J4 _ (or_introl eq_refl) eq_refl eq_refl). vm_compute in J4. apply J4. reflexivity.
Qed.
Print Assumptions C22_priority_offset_refuted.

(** Apply-actions instructions with equal actions are one object (valve_of.py 408-421
    is memoised), trimmed in place when a flow mod is made without a goto.  A rule
    that rewrites and lets the packet on loses the rewrite to a later rule with the
    same output that does not let it on. *)
Definition irefs (l : list instruction) : list iref :=
  map (fun i => match i with Apply a => RApply a | _ => ROther i end) l.
Theorem C23_shared_actions_refuted : exists pl r1 r2 q inst1 inst2,
  rule_ok r1 /\ rule_ok r2 /\
  sent_flows [irefs (fst (rule_inst None pl r1)); irefs (fst (rule_inst None pl r2))] = [inst1; inst2] /\
  pk_hdr q EthDst = Some 1 /\
  (exists q', snd (effect (fun _ => true) r1 q) = Some (false, q') /\ pk_hdr q' EthDst = Some 2) /\
  (exists q', exec_insts (fun _ => None) (fun _ => true) inst1 q = ([(7, q)], q', Some 1) /\ pk_hdr q' EthDst = Some 1).
Proof.
  set (o := Ordered [OPort 7; OSet [(EthDst, 2)]]).
  eexists (mkPlace (mkTable 0 7 0) [Goto 1] [Goto 6] FILTER_PRIORITY false (Some 1) None),
    (mkRule [((false, EthType), (0x800, -1))] None (Some (mkActions (Some 1) None None None (Some o) None))),
    (mkRule [] None (Some (mkActions (Some 0) None None None (Some o) None))),
    (mkPacket 1 [] (fun f => match f with EthDst => Some 1 | _ => None end)), _, _.
  split; [split; [repeat constructor; cbn; intuition discriminate|intros a E; injection E as <-; split; [reflexivity|repeat constructor]]|].
  split; [split; [repeat constructor; cbn; intuition discriminate|intros a E; injection E as <-; split; [reflexivity|repeat constructor]]|].
  split; [vm_compute; reflexivity|]. split; [reflexivity|]. split; eexists; split; reflexivity.
Qed.
Print Assumptions C23_shared_actions_refuted.

Lemma rule_goto : forall pl next l2 r, pl_allow pl = [Goto next] -> pl_force pl = [Goto l2] -> rule_ok r ->
  (existsb is_goto (fst (rule_inst None pl r)) = true <-> rule_lets_on r).
Proof.
  intros pl next l2 r HA HF [_ HR].
  assert (L : rule_lets_on r <-> exists a, ru_actions r = Some a /\ is_allowed a = true).
  { unfold rule_lets_on, is_allowed. split; intros [a [E H]]; exists a; (split; [auto|]).
    - destruct H as [-> |[-> H]]; auto. destruct (ac_mirror a); congruence.
    - destruct (ac_allow a) as [x|]; [left; f_equal; apply Z.eqb_eq; auto|right; split; auto]. destruct (ac_mirror a); congruence. }
  rewrite L. unfold rule_inst. destruct (ru_actions r) as [a|]; [|cbn; split; [discriminate|intros [a [E _]]; discriminate E]].
  destruct (HR a eq_refl) as [_ Ho].
  assert (Z : forall insts acts, existsb is_goto (insts ++ match acts with [] => [] | _ => [Apply acts] end) = existsb is_goto insts).
  { intros insts acts. rewrite existsb_app. destruct acts; cbn; rewrite ?orb_false_r; auto. }
  assert (G : existsb is_goto (fst (let '(insts, acts, msgs) := build_actions None (pl_allow pl) (pl_force pl) a in
     (insts ++ match acts with [] => [] | _ => [Apply acts] end, msgs))) = is_allowed a).
  { unfold build_actions. rewrite HA, HF.
    assert (M : existsb is_goto (opt_list (fun m => [MeterI m]) (ac_meter a)) = false) by (destruct (ac_meter a); auto).
    assert (N : existsb is_goto (match ac_force a with Some 1 => [Goto l2] | _ => [Goto next] end) = true) by (destruct (ac_force a) as [[|[| |]|]|]; auto).
    destruct (ac_output a) as [o|].
    - destruct (build_output_actions None o) as [[[ported acts] msgs] insts] eqn:E.
      assert (I : existsb is_goto insts = false).
      { destruct o as [l|u]; cbn in E.
        - assert (X : forall l, Forall item_ok l -> existsb is_goto (snd (ordered_items None l)) = false).
          { clear. induction l as [|i l IH]; auto. intros F. inversion F as [|x y F1 F2]; subst x y. specialize (IH F2).
            unfold ordered_items in *. cbn [fold_right]. destruct (fold_right _ _ l) as [[? ?] ?]. simpl in IH.
            destruct i; simpl; auto. destruct F1. }
          specialize (X l Ho). destruct (ordered_items None l) as [[? ?] ?]. injection E as <- <- <- <-. auto.
        - injection E as <- <- <- <-. destruct Ho as [_ [_ [_ [T1 [T2 _]]]]]. rewrite T1, T2. auto. }
      destruct (negb (is_allowed a) && ported) eqn:Q; cbn [fst]; rewrite Z, ?existsb_app, M, I; auto.
      + apply andb_true_iff in Q as [Q _]. apply negb_true_iff in Q. rewrite Q. auto.
      + destruct (is_allowed a); rewrite ?N; auto.
    - cbn [fst]. rewrite Z, existsb_app, M. destruct (is_allowed a); rewrite ?N; auto. }
  rewrite G. split; [intros E; eauto|]. intros [b [E F]]. congruence.
Qed.

(** It does no harm when rules with the same actions agree on whether the packet goes
    on: then every rule's instructions are as if they were its own. *)
Theorem C23_shared_actions : forall l : list (place * rule),
  (forall pl r, In (pl, r) l -> rule_ok r /\ exists next l2, pl_allow pl = [Goto next] /\ pl_force pl = [Goto l2]) ->
  (forall pl r pl' r' acts, In (pl, r) l -> In (pl', r') l ->
     In (Apply acts) (fst (rule_inst None pl r)) -> In (Apply acts) (fst (rule_inst None pl' r')) ->
     (rule_lets_on r <-> rule_lets_on r')) ->
  sent_flows (map (fun x => irefs (fst (rule_inst None (fst x) (snd x)))) l) =
  map (fun x => trim (fst (rule_inst None (fst x) (snd x)))) l.
Proof.
  intros l OK AG.
  assert (DI : forall x, deref [] (irefs x) = x).
  { intros x. unfold deref, irefs. rewrite map_map. rewrite <- (map_id x) at 2. apply map_ext. intros []; reflexivity. }
  assert (GI : forall x, existsb ref_is_goto (irefs x) = existsb is_goto x).
  { induction x as [|[] x IH]; cbn; auto. }
  assert (AI : forall x k, In (RApply k) (irefs x) -> In (Apply k) x).
  { intros x k H. apply in_map_iff in H as [i [E H]]. destruct i; try discriminate E. injection E as <-. auto. }
  rewrite shared_agree.
  - rewrite map_map. apply map_ext. intros x. rewrite DI. auto.
  - intros i H. apply in_map_iff in H as [x [<- _]]. apply Forall_forall. intros r H. apply in_map_iff in H as [j [<- _]].
    destruct j; exact Logic.I.
  - intros i j k Hi Hj Ki Kj. apply in_map_iff in Hi as [[pl r] [<- Hi]]. apply in_map_iff in Hj as [[pl' r'] [<- Hj]].
    cbn [fst snd] in *. rewrite !GI. apply AI in Ki, Kj. specialize (AG _ _ _ _ _ Hi Hj Ki Kj).
    destruct (OK _ _ Hi) as [R [n [l2 [A F]]]]. destruct (OK _ _ Hj) as [R' [n' [l2' [A' F']]]].
    pose proof (rule_goto pl n l2 r A F R) as G. pose proof (rule_goto pl' n' l2' r' A' F' R') as G'.
    apply eq_iff_eq_true. tauto.
Qed.
Print Assumptions C23_shared_actions.

(** A rule with an ordered output, or with a port, that does not let the packet on
    loses its connection tracking action. *)
Theorem C23_ct_lost_refuted : exists pl r a,
  ru_actions r = Some a /\ ac_ct a = Some (CtTable 3) /\
  forall acts, In (Apply acts) (fst (rule_inst None pl r)) -> ~ In (CtAct true 3) acts.
Proof.
  exists (mkPlace (mkTable 0 7 0) [Goto 1] [Goto 6] FILTER_PRIORITY false (Some 1) None),
    (mkRule [] None (Some (mkActions (Some 0) None None None (Some (Ordered [OPort 7])) (Some (CtTable 3))))).
  eexists. split; [reflexivity|]. split; [reflexivity|]. intros acts [H|[]]. injection H as <-. cbn. intuition discriminate.
Qed.
Print Assumptions C23_ct_lost_refuted.
