(** * C85, C86: what references in a configuration come to *)
From Coq Require Import List Bool ZArith Lia.
From Verif Require Import PyBase PyBaseProofs RefModel RefSpec RefProofs.
Import ListNotations.
Open Scope Z_scope.

(** ** C85: ports *)

(** Mirroring: a configuration is accepted just if every mirrored port exists; each
    mirrored port then has the ports configured to mirror it, and no others, and those
    become output only except coprocessor ports. *)
Theorem C85_mirror : forall ports mir out, ports_differ ports -> resolve_mirrors ports = Some (mir, out) ->
  NoDup (map fst mir) /\
  (forall q m, (exists l, In (q, l) mir /\ In m l) <-> mirrors ports q m) /\
  (forall m, In m out <-> (exists q, mirrors ports q m) /\ ~ is_copro ports m).
Proof.
  intros ports mir out [D1 D2] H. unfold resolve_mirrors in H. destruct (mirror_from ports ports []) as [d|] eqn:E; [|discriminate].
  injection H as <- <-. destruct (mirror_from_some ports _ _ _ E (NoDup_nil _)) as (N & A & B).
  assert (M : forall q m, (exists l, In (q, l) d /\ In m l) <-> mirrors ports q m).
  { intros q m. assert (X : (exists l, In (q, l) d /\ In m l) <-> In m (got d q)).
    { unfold got. split.
      - intros (l & I & J). rewrite (in_get q d l N I). exact J.
      - destruct (dict_get Z.eqb q d) as [l|] eqn:G; [|intros []]. intros J. apply get_in in G. eauto. }
    rewrite X, B. split.
    - intros [[]|(p & ks & k & I & P & M & K & R)]. exists p, ks, k. repeat split; auto. apply resolve_refers. exact R.
    - intros (p & ks & k & I & P & M & K & R). right. exists p, ks, k. repeat split; auto. apply (resolve_exact ports); [split; assumption|exact R]. }
  split; [exact N|]. split; [exact M|]. intros m. rewrite in_flat_map. split.
  - intros ([q l] & I & J). apply filter_In in J as [J C]. cbn [snd] in J. split; [exists q; apply M; eauto|].
    intros (p & Ip & P & Cp). apply negb_true_iff in C. assert (existsb (fun p => (rp_num p =? m) && rp_copro p) ports = true); [|congruence].
    apply existsb_exists. exists p. split; [exact Ip|]. rewrite P, Z.eqb_refl, Cp. reflexivity.
  - intros [[q X] C]. apply M in X as (l & I & J). exists (q, l). split; [exact I|]. apply filter_In. split; [exact J|].
    apply negb_true_iff, not_true_iff_false. intros Y. apply existsb_exists in Y as (p & Ip & Y). apply andb_true_iff in Y as [Y Z0]. apply Z.eqb_eq in Y.
    apply C. exists p. auto.
Qed.
Print Assumptions C85_mirror.

Theorem C85_mirror_accepts : forall ports,
  resolve_mirrors ports <> None <-> forall p ks k, In p ports -> rp_mirror p = Some ks -> In k ks -> exists n, refers ports k n.
Proof.
  intros ports. unfold resolve_mirrors. split.
  - intros H. destruct (mirror_from ports ports []) as [d|] eqn:E; [|congruence]. intros p ks k I M K.
    destruct (mirror_from_some ports _ _ _ E (NoDup_nil _)) as (_ & A & _). specialize (A p ks k I M K).
    destruct (resolve_port ports k) as [n|] eqn:R; [|congruence]. exists n. apply resolve_refers. exact R.
  - intros H. assert (mirror_from ports ports [] <> None).
    { apply mirror_from_total. intros p ks k I M K. destruct (H p ks k I M K) as [n R]. apply (refers_resolve ports k n R). }
    destruct (mirror_from ports ports []); congruence.
Qed.
Print Assumptions C85_mirror_accepts.

(** Port 3 mirrors ports 1 (by name) and 2. *)
Definition rx_ports : list rport :=
  [mkRport 1 11 None false false; mkRport 2 12 None false false; mkRport 3 13 (Some [KStr 11; KInt 2]) false false].
Example C85_mirror_example : ports_differ rx_ports /\ resolve_mirrors rx_ports = Some ([(1, [3]); (2, [3])], [3; 3]).
Proof. split; [split; cbn; repeat constructor; cbn; intuition congruence|reflexivity]. Qed.
(** A port that is listed twice, by number and by name, is mirrored twice. *)
Theorem C85_mirror_twice_refuted : exists ports mir out q l m,
  ports_differ ports /\ resolve_mirrors ports = Some (mir, out) /\ In (q, l) mir /\ ~ NoDup l /\ In m l.
Proof.
  exists [mkRport 1 11 None false false; mkRport 3 13 (Some [KStr 11; KInt 1]) false false], [(1, [3; 3])], [3; 3], 1, [3; 3], 3.
  split; [split; cbn; repeat constructor; cbn; intuition congruence|]. split; [reflexivity|]. split; [left; reflexivity|]. split; [|left; reflexivity].
  intros N. inversion_clear N as [|? ? X _]. apply X. left. reflexivity.
Qed.
Print Assumptions C85_mirror_twice_refuted.
(** Two ports may have one name; a reference by that name is then to the first. *)
Theorem C85_same_name_refuted : exists ports k p q, rp_num p <> rp_num q /\ In p ports /\ In q ports /\
  refers ports k (rp_num p) /\ refers ports k (rp_num q) /\ resolve_port ports k = Some (rp_num p).
Proof.
  exists [mkRport 1 11 None false false; mkRport 2 11 None false false], (KStr 11), (mkRport 1 11 None false false), (mkRport 2 11 None false false).
  cbn. split; [discriminate|]. split; [auto|]. split; [auto|].
  split; [exists (mkRport 1 11 None false false); auto|]. split; [exists (mkRport 2 11 None false false); auto|reflexivity].
Qed.
Print Assumptions C85_same_name_refuted.

(** ** C85: ACLs *)

(** An accepted datapath: the ACLs that are used are all there, with each rule's
    references replaced by what they refer to; the meters that rules name are
    configured, and those named by used ACLs are kept; the ports that rules mirror to
    become output only. *)
Theorem C85_acls : forall dps c st meters,
  NoDup (map fst dps) -> NoDup (map fst (dc_acls c)) -> ports_differ (dc_ports c) ->
  resolve_acls dps c = Some (st, meters) ->
  NoDup (map fst (rs_acls st)) /\
  (forall name, (exists v, used c v name) <-> exists out, In (name, out) (rs_acls st)) /\
  (forall name out, In (name, out) (rs_acls st) ->
    exists rules, In (name, rules) (dc_acls c) /\ Forall2 (rule_means dps (dc_ports c)) rules out) /\
  (forall m, In m meters <-> In m (dc_meters c) /\
    exists v name rules r, used c v name /\ In (name, rules) (dc_acls c) /\ In r rules /\ ru_meter r = Some m) /\
  (forall n, In n (rs_output_only st) <->
    exists v name rules r k, used c v name /\ In (name, rules) (dc_acls c) /\ In r rules /\ ru_mirror r = Some k /\ refers (dc_ports c) k n).
Proof.
  intros dps c st meters DN AN PD H. unfold resolve_acls in H. destruct (negb _ && negb _); [discriminate|].
  destruct (resolve_uses dps c _ (uses c)) as [st'|] eqn:E; [|discriminate]. injection H as <- <-.
  destruct (run_all dps c st' E) as ((N & K) & D & _ & M & O).
  assert (F : forall n out, dict_get Z.eqb n (rs_acls st') = Some out -> exists rules, In (n, rules) (dc_acls c) /\ Forall2 (rule_means dps (dc_ports c)) rules out).
  { intros n out G. destruct (K n out G) as (v & (rules & I & R) & _). exists rules. split; [exact I|]. apply (rules_sound dps c v). exact R. }
  assert (G : forall n, (exists v, used c v n) <-> exists out, dict_get Z.eqb n (rs_acls st') = Some out).
  { intros n. rewrite <- D. destruct (dict_get Z.eqb n (rs_acls st')) as [out|]; split; try congruence; [eauto|]. intros [? X]. discriminate. }
  assert (GI : forall n out, dict_get Z.eqb n (rs_acls st') = Some out <-> In (n, out) (rs_acls st')).
  { intros n out. split; [apply get_in|apply in_get; exact N]. }
  split; [exact N|]. split; [|split; [|split]].
  - intros n. rewrite G. split; intros [out X]; exists out; apply GI; exact X.
  - intros n out I. apply F. apply GI. exact I.
  - intros m. rewrite filter_In, (mem_spec _ _ Z.eqb_eq), M. split; intros [I X]; (split; [exact I|]).
    + destruct X as (n & out & [v U] & Gt & J). destruct (F n out Gt) as (rules & A & R). rewrite (meters_same dps c rules out R) in J.
      apply in_meters in J as (r & J & X). exists v, n, rules, r. auto.
    + destruct X as (v & n & rules & r & U & A & J & X). destruct (proj1 (G n) (ex_intro _ v U)) as [out Gt]. exists n, out. split; [eauto|]. split; [exact Gt|].
      destruct (F n out Gt) as (rules' & A' & R). rewrite (one_acl c AN n rules' rules A' A) in R. rewrite (meters_same dps c rules out R). apply in_meters. eauto.
  - intros m. rewrite O. split.
    + intros (n & out & [v U] & Gt & J). destruct (F n out Gt) as (rules & A & R). apply in_mirrors in J as (o & J & X).
      assert (exists r, In r rules /\ rule_means dps (dc_ports c) r o) as (r & I & (_ & _ & P & _)).
      { clear - R J. induction R as [|x y xs ys P R IH]; [destruct J|]. destruct J as [<-|J]; [exists x; cbn; auto|]. destruct (IH J) as (r & I & Q). exists r. cbn. auto. }
      unfold opt_means in P. rewrite X in P. destruct (ru_mirror r) as [k|] eqn:Kr; [|destruct P]. exists v, n, rules, r, k. auto.
    + intros (v & n & rules & r & k & U & A & J & X & Rf). destruct (proj1 (G n) (ex_intro _ v U)) as [out Gt]. exists n, out. split; [eauto|]. split; [exact Gt|].
      destruct (F n out Gt) as (rules' & A' & R). rewrite (one_acl c AN n rules' rules A' A) in R.
      assert (exists o, In o out /\ rule_means dps (dc_ports c) r o) as (o & I & (_ & _ & P & _)).
      { clear - R J. induction R as [|x y xs ys P R IH]; [destruct J|]. destruct J as [<-|J]; [exists y; cbn; auto|]. destruct (IH J) as (o & I & Q). exists o. cbn. auto. }
      apply in_mirrors. exists o. split; [exact I|]. unfold opt_means in P. rewrite X in P. destruct (ru_mirror o) as [n'|]; [|destruct P].
      f_equal. eapply (refers_one (dc_ports c)); eassumption.
Qed.
Print Assumptions C85_acls.

(** A datapath is accepted just if everything used exists and can be used, and only
    one of ports and the datapath names ACLs. *)
Theorem C85_accepts : forall dps c, NoDup (map fst dps) -> NoDup (map fst (dc_acls c)) ->
  (resolve_acls dps c <> None <-> dp_ok dps c).
Proof.
  intros dps c DN AN. unfold resolve_acls, dp_ok.
  assert (B : (negb (Nat.eqb (length (dc_port_acls c)) 0) && negb (Nat.eqb (length (dc_dp_acls c)) 0) = false) <-> dc_port_acls c = [] \/ dc_dp_acls c = []).
  { destruct (dc_port_acls c), (dc_dp_acls c); cbn; intuition congruence. }
  destruct (negb _ && negb _) eqn:E.
  - split; [congruence|]. intros [X _]. apply B in X. discriminate.
  - pose proof (proj1 B eq_refl) as B'. split.
    + intros H. split; [exact B'|]. destruct (resolve_uses dps c _ (uses c)) as [st|] eqn:R; [|congruence].
      destruct (run_all dps c st R) as ((_ & K) & D & T & _ & _). intros v name U.
      assert (MM : forall rules out, Forall2 (rule_means dps (dc_ports c)) rules out -> (forall m, In m (get_meters out) -> In m (dc_meters c)) -> forall r, In r rules -> forall m, ru_meter r = Some m -> In m (dc_meters c)).
      { intros rules out F X r I m Y. apply X. rewrite (meters_same dps c rules out F). apply in_meters. eauto. }
      assert (G : dict_get Z.eqb name (rs_acls st) <> None) by (apply D; eauto).
      destruct (dict_get Z.eqb name (rs_acls st)) as [out|] eqn:Gt; [|congruence]. destruct (K name out Gt) as (w & (rules & I & F) & _ & M).
      exists rules. split; [exact I|]. destruct (rules_sound dps c w rules out F) as [S1 S2].
      intros r J. split; [|apply (MM rules out S1 M r J)]. destruct v.
      * destruct (T name U) as (out' & Gt' & (rules' & I' & F')). rewrite (one_acl c AN name rules' rules I' I) in F'. apply (rules_sound dps c true rules out' F'). exact J.
      * destruct w; [apply rule_ok_weaken|]; apply S2; exact J.
    + intros [_ H]. assert (resolve_uses dps c (mkResolved [] [] []) (uses c) <> None) as X; [|destruct (resolve_uses dps c _ (uses c)); congruence].
      rewrite uses_split, uses_app.
      assert (K0 : kept dps c true (mkResolved [] [] [])) by (split; [constructor|discriminate]).
      assert (Q : forall v n, In (v, n) (uses c) -> exists rules, In (n, rules) (dc_acls c) /\ forall r, In r rules -> rule_ok dps (dc_ports c) v r /\ forall m, ru_meter r = Some m -> In m (dc_meters c)).
      { intros v n I. apply uses_used in I. apply H. exact I. }
      assert (C1 : resolve_uses dps c (mkResolved [] [] []) (map (pair true) (dc_vlan_acls c)) <> None).
      { apply (complete dps c DN AN true); [exact K0|apply vlan_true|]. intros v n I. apply Q. rewrite uses_split. apply in_app_iff. auto. }
      destruct (resolve_uses dps c _ (map (pair true) _)) as [st1|] eqn:E1; [|congruence].
      destruct (uses_run dps c true _ _ _ K0 (vlan_true c) E1) as ((N1 & K1) & _).
      apply (complete dps c DN AN false); [|apply plain_false|intros v n I; apply Q; rewrite uses_split; apply in_app_iff; auto].
      split; [exact N1|]. intros n out G. destruct (K1 n out G) as (v & F & _ & M). exists v. split; [exact F|]. split; [discriminate|exact M].
Qed.
Print Assumptions C85_accepts.

(** ACL 7 of a port: mirror to port 3, meter 5, tunnel to port "12" of datapath 9. *)
Definition rx_dps : list (Z * list rport) := [(8, rx_ports); (9, [mkRport 4 12 None false false])].
Definition rx_conf : dpconf :=
  mkDpconf rx_ports [(7, [mkRule 100 (Some (KStr 13)) (Some 5) (Some (true, [OTunnel (Some 9) (Some (KStr 12)) 300 false false; OPorts [KStr 11; KInt 2]]))])]
    [5; 6] [] [7] [].
Example C85_acls_example : NoDup (map fst rx_dps) /\ NoDup (map fst (dc_acls rx_conf)) /\ ports_differ (dc_ports rx_conf) /\
  resolve_acls rx_dps rx_conf = Some (mkResolved [(7, [mkRule 100 (Some 3) (Some 5) (Some (true, [RTunnel 9 (Some 4) 300 false false; RPorts [1; 2]]))])] [5; 5] [3; 3], [5]) /\
  dp_ok rx_dps rx_conf.
Proof.
  assert (A : NoDup (map fst rx_dps)) by (cbn; repeat constructor; cbn; intuition congruence).
  assert (B : NoDup (map fst (dc_acls rx_conf))) by (cbn; repeat constructor; cbn; intuition congruence).
  split; [exact A|]. split; [exact B|]. split; [split; cbn; repeat constructor; cbn; intuition congruence|]. split; [reflexivity|].
  apply (C85_accepts rx_dps rx_conf A B). vm_compute. discriminate.
Qed.
(** A tunnel to a stack port is accepted although the check meant to reject it. *)
Theorem C85_tunnel_stack_refuted : exists dps c st meters d there p,
  resolve_acls dps c = Some (st, meters) /\ In (d, there) dps /\ In p there /\ rp_stack p = true /\
  exists name r o l id, In (name, [r]) (rs_acls st) /\ ru_output r = Some (o, l) /\ In (RTunnel d (Some (rp_num p)) id false false) l.
Proof.
  exists [(9, [mkRport 4 12 None false true])],
    (mkDpconf [] [(7, [mkRule 100 None None (Some (false, [OTunnel (Some 9) (Some (KInt 4)) 300 false false]))])] [] [] [7] []).
  eexists. eexists. exists 9, [mkRport 4 12 None false true], (mkRport 4 12 None false true).
  split; [reflexivity|]. split; [left; reflexivity|]. split; [left; reflexivity|]. split; [reflexivity|].
  exists 7. eexists. exists false. eexists. exists 300. split; [left; reflexivity|]. split; [reflexivity|]. left. reflexivity.
Qed.
Print Assumptions C85_tunnel_stack_refuted.

(** ** C85: the VLANs of ports *)

(** Every reference of a port becomes the VLAN with that key, or else that VID, or a
    new VLAN with that VID, whatever ports came before; a configuration is rejected
    just if some reference is to nothing. *)
Theorem C85_port_vlans : forall str conf ports l vs, NoDup (map fst conf) ->
  parse_vlans str conf ports = Some (l, vs) ->
  Forall2 (fun x y => fst x = fst y /\ Forall2 (port_vlan conf) (snd x) (snd y)) ports l /\
  (forall x, In x conf -> In x vs) /\
  (forall k v name, In (k, (v, name)) vs -> In (k, (v, name)) conf \/ k = KInt v /\ 1 <= v <= 4095).
Proof.
  intros str conf ports l vs N H. destruct (vlans_some str conf ports conf l vs (grown_start conf) H) as (F & extra & -> & X).
  split; [exact F|]. split; [intros x I; apply in_app_iff; auto|]. intros k v name I. apply in_app_iff in I as [I|I]; [auto|right; apply (X _ _ _ I)].
Qed.
Print Assumptions C85_port_vlans.
Theorem C85_port_vlan_one : forall conf k v w, NoDup (map fst conf) -> port_vlan conf k v -> port_vlan conf k w -> v = w.
Proof. intros. eapply vlan_one; eauto. Qed.
Print Assumptions C85_port_vlan_one.
Theorem C85_port_vlans_accepts : forall str conf ports, NoDup (map fst conf) ->
  (parse_vlans str conf ports <> None <-> forall p ks k, In (p, ks) ports -> In k ks -> exists v, port_vlan conf k v).
Proof.
  intros str conf ports N. split.
  - intros H. destruct (parse_vlans str conf ports) as [[l vs]|] eqn:E; [|congruence].
    destruct (vlans_some str conf ports conf l vs (grown_start conf) E) as (F & _). clear E H.
    intros p ks k I J. induction F as [|[p1 ks1] [p2 l2] xs ys [_ P] F IH]; [destruct I|]. destruct I as [I|I]; [|auto]. injection I as -> ->. cbn in P.
    clear - P J. induction P as [|x y xs ys Q P IH]; [destruct J|]. destruct J as [<-|J]; eauto.
  - intros H. apply (vlans_total str conf ports conf (grown_start conf) H).
Qed.
Print Assumptions C85_port_vlans_accepts.

(** VLAN 100 is "office"; VLAN 200 comes from port 2's tagged list. *)
Example C85_port_vlans_example : parse_vlans (fun n => n) [(KStr 5000, (100, 5000))] [(1, [KStr 5000]); (2, [KInt 100; KInt 200]); (3, [KInt 200])]
  = Some ([(1, [100]); (2, [100; 200]); (3, [200])], [(KStr 5000, (100, 5000)); (KInt 200, (200, 200))]).
Proof. reflexivity. Qed.

(** ** C86: routers *)

(** A router has on each datapath just the datapath's VLANs that it lists. *)
Theorem C86_router : forall vs routers name l, NoDup (map snd vs) -> NoDup (map fst routers) ->
  (In (name, l) (resolve_routers vs routers) ->
   exists ks, In (name, ks) routers /\ l <> [] /\ forall v, In v l <-> exists k, In k ks /\ router_vlan vs k v) /\
  (forall ks k v, In (name, ks) routers -> In k ks -> router_vlan vs k v -> exists l', In (name, l') (resolve_routers vs routers)).
Proof.
  intros vs routers name l NN RN.
  assert (RV : forall k v, resolve_vlan vs k = Some v <-> router_vlan vs k v).
  { intros k v. split.
    - intros H. apply resolve_vlan_some in H. destruct k; exact H.
    - intros H. assert (resolve_vlan vs k <> None) as T by (apply resolve_vlan_total; destruct k; cbn in H; [destruct H as [_ H]; exact H|eauto]).
      destruct (resolve_vlan vs k) as [w|] eqn:E; [|congruence]. f_equal. apply resolve_vlan_some in E. destruct k as [n|s]; cbn in *; [destruct E, H; congruence|].
      clear - NN E H. induction vs as [|[a b] r IH]; [destruct E|]. cbn in NN. inversion_clear NN as [|? ? X Y]. destruct E as [E|E], H as [H|H]; auto; try congruence.
      + injection E as -> ->. destruct X. apply in_map_iff. exists (v, s). auto.
      + injection H as -> ->. destruct X. apply in_map_iff. exists (w, s). auto. }
  unfold resolve_routers. split.
  - intros H. apply filter_In in H as [H L]. apply in_map_iff in H as ([n ks] & E & I). cbn in E. injection E as -> <-. exists ks. split; [exact I|]. cbn in L.
    split; [intros X; rewrite X in L; discriminate|]. intros v. rewrite resolve_vlans_in. split; intros (k & J & X); exists k; (split; [exact J|]); apply RV; exact X.
  - intros ks k v I J X. exists (resolve_vlans vs ks). apply filter_In. split; [apply in_map_iff; exists (name, ks); auto|]. cbn.
    apply RV in X. assert (In v (resolve_vlans vs ks)) as Y by (apply resolve_vlans_in; eauto). destruct (resolve_vlans vs ks); [destruct Y|reflexivity].
Qed.
Print Assumptions C86_router.

(** A port's reference means the same in a router, if every VLAN of the file has for
    key its VID (a number) or its name.  Missing: other keys that are accepted, see
    below. *)
Theorem C86_same_partial : forall conf dpvs k v,
  (forall n w name, In (KInt n, (w, name)) conf -> w = n) -> (forall s w name, In (KStr s, (w, name)) conf -> name = s) ->
  (forall w name, In (w, name) dpvs -> forall k' name', In (k', (w, name')) conf -> name' = name) ->
  NoDup (map snd dpvs) -> port_vlan conf k v -> (exists name, In (v, name) dpvs) -> router_vlan dpvs k v.
Proof.
  intros conf dpvs k v RI RS CN N [(name & I)|(_ & -> & _)] [nm D]; [|cbn; eauto]. destruct k as [n|s]; cbn.
  - pose proof (RI _ _ _ I). subst. eauto.
  - pose proof (RS _ _ _ I). subst. rewrite (CN _ _ D _ _ I). exact D.
Qed.
Print Assumptions C86_same_partial.
Example C86_same_example : let conf := [(KInt 100, (100, 5000)); (KStr 5001, (200, 5001))] in
  port_vlan conf (KStr 5001) 200 /\ router_vlan [(100, 5000); (200, 5001)] (KStr 5001) 200 /\ router_vlan [(100, 5000); (200, 5001)] (KInt 200) 200.
Proof. cbn. split; [left; exists 5001; cbn; auto|]. split; [auto|]. split; [reflexivity|]. exists 5001. auto. Qed.

(** A router of which no datapath has any VLAN is rejected. *)
Theorem C86_unused_partial : forall dps routers, NoDup (map fst routers) ->
  (routers_used dps routers = true <-> forall name ks, In (name, ks) routers -> exists vs k v, In vs dps /\ In k ks /\ resolve_vlan vs k = Some v).
Proof.
  intros dps routers RN. unfold routers_used. rewrite forallb_forall. split.
  - intros H name ks I. specialize (H _ I). apply existsb_exists in H as (vs & V & H). apply existsb_exists in H as ([n l] & J & E). cbn in E. apply Z.eqb_eq in E. subst n.
    unfold resolve_routers in J. apply filter_In in J as [J L]. apply in_map_iff in J as ([n ks'] & E & J). cbn in E. injection E as -> <-. cbn in L.
    assert (ks' = ks) as -> by (apply (in_get _ _ _ RN) in I; apply (in_get _ _ _ RN) in J; congruence).
    destruct (resolve_vlans vs ks) as [|v r] eqn:E; [discriminate|]. assert (In v (resolve_vlans vs ks)) as X by (rewrite E; left; reflexivity).
    apply resolve_vlans_in in X as (k & K & X). exists vs, k, v. auto.
  - intros H [name ks] I. destruct (H name ks I) as (vs & k & v & V & K & X). apply existsb_exists. exists vs. split; [exact V|]. apply existsb_exists.
    exists (name, resolve_vlans vs ks). split; [|apply Z.eqb_refl]. apply filter_In. split; [apply in_map_iff; exists (name, ks); auto|]. cbn.
    assert (In v (resolve_vlans vs ks)) as Y by (apply resolve_vlans_in; eauto). destruct (resolve_vlans vs ks); [destruct Y|reflexivity].
Qed.
Print Assumptions C86_unused_partial.
Example C86_router_example : routers_used [[(100, 5000); (200, 5001)]; [(300, 5002)]] [(1, [KStr 5000; KInt 200]); (2, [KInt 300])] = true /\
  resolve_routers [(100, 5000); (200, 5001)] [(1, [KStr 5000; KInt 200]); (2, [KInt 300])] = [(1, [100; 200])].
Proof. split; reflexivity. Qed.

(** A router may list a VLAN that no datapath has: the configuration is accepted and
    that VLAN is left out. *)
Theorem C86_unknown_refuted : exists dps routers name ks k,
  routers_used dps routers = true /\ In (name, ks) routers /\ In k ks /\ forall vs v, In vs dps -> ~ router_vlan vs k v.
Proof.
  exists [[(100, 5000); (200, 5001)]], [(1, [KInt 100; KStr 5009])], 1, [KInt 100; KStr 5009], (KStr 5009).
  split; [reflexivity|]. split; [left; reflexivity|]. split; [right; left; reflexivity|].
  intros vs v [<-|[]]. cbn. intuition congruence.
Qed.
Print Assumptions C86_unknown_refuted.

(** An accepted VLAN of which a port's reference and a router's mean different VLANs:
    key 100 names VLAN 200 ("100"), while VLAN 100 has key and name "office". *)
Theorem C86_key_refuted : exists conf ports l vs dpvs k v w,
  vlans_ok (fun n => n) conf [] = true /\ NoDup (map fst conf) /\ parse_vlans (fun n => n) conf ports = Some (l, vs) /\
  port_vlan conf k v /\ (exists name, In (v, name) dpvs) /\ (forall x, In x dpvs -> exists k', In (k', x) vs) /\
  router_vlan dpvs k w /\ v <> w /\ resolve_vlan dpvs k = Some w.
Proof.
  exists [(KInt 100, (200, 100)); (KStr 5000, (100, 5000))], [(1, [KInt 100]); (2, [KStr 5000])], [(1, [200]); (2, [100])].
  eexists. exists [(200, 100); (100, 5000)], (KInt 100), 200, 100.
  split; [reflexivity|]. split; [cbn; repeat constructor; cbn; intuition congruence|]. split; [reflexivity|].
  split; [left; exists 100; left; reflexivity|]. split; [exists 100; left; reflexivity|].
  split; [intros x [<-|[<-|[]]]; eexists; cbn; eauto|]. split; [split; [reflexivity|]; exists 5000; right; left; reflexivity|]. split; [discriminate|reflexivity].
Qed.
Print Assumptions C86_key_refuted.
