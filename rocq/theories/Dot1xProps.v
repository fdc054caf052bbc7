(** * 802.1X: property C45 *)
From Coq Require Import ZArith List Bool Lia Permutation.
From Verif Require Import PyBase PyBaseProofs OpenFlow ReorderModel ReorderSpec ReorderProofs TrimModel TrimProofs
  TableModel BatchProofs ConfProofs SwitchExec AclModel AclSpec AclProofs AclMatchProofs AclStepProofs Dot1xModel Dot1xSpec Dot1xProofs.
Import ListNotations.
Open Scope Z_scope.

(** ** Helpers *)

Lemma walk_top : forall s live t q f, In f (sw_flows s) -> f_table f = t -> matches q (f_match f) = true ->
  (forall g, In g (sw_flows s) -> f_table g = t -> matches q (f_match g) = true -> g = f \/ f_prio g < f_prio f) ->
  forall es, walk s live t q es <->
    match exec_insts (group_lookup s) live (f_inst f) q with
    | (es1, q', None) => es = es1
    | (es1, q', Some t') => exists es2, walk s live t' q' es2 /\ es = es1 ++ es2
    end.
Proof.
  intros s live t q f A B C H es.
  assert (HI : hit (sw_flows s) t q f) by (repeat split; auto; intros g G1 G2 G3; destruct (H g G1 G2 G3) as [->|]; lia).
  assert (U : forall g, hit (sw_flows s) t q g -> g = f).
  { intros g [G1 [G2 [G3 G4]]]. destruct (H g G1 G2 G3) as [->|L]; auto. specialize (G4 f A B C). lia. }
  split.
  - intros W. inversion W as [t0 p0 NM|t0 p0 g es0 p' HG E|t0 p0 g es0 p' t' es' HG E W']; subst.
    + exfalso. rewrite (NM f A eq_refl) in C. discriminate.
    + apply U in HG. subst g. rewrite E. auto.
    + apply U in HG. subst g. rewrite E. eauto.
  - destruct (exec_insts _ _ _ _) as [[e q'] [t'|]] eqn:E.
    + intros [es2 [W ->]]. eapply walk_goto; eauto.
    + intros ->. eapply walk_end; eauto.
Qed.

Lemma match2 : forall q f v g w, matches q [exact f v; exact g w] = true <-> pk_get q f = Some v /\ pk_get q g = Some w.
Proof. intros. unfold exact, matches. cbn [forallb]. rewrite andb_true_r, andb_true_iff, !item_exact. tauto. Qed.
Lemma out_matches : forall q n, matches q (out_match n) = true <-> pk_in q = n /\ eapol q.
Proof. intros. unfold out_match. rewrite match2. unfold eapol, ETH_EAPOL. cbn. split; intros [A B]; split; congruence. Qed.
Lemma authed_matches : forall q n mac, matches q (authed_match n mac) = true <-> pk_in q = n /\ pk_hdr q EthSrc = Some mac.
Proof. intros. unfold authed_match. rewrite match2. cbn. split; intros [A B]; split; congruence. Qed.
Lemma back_matches : forall c q n, matches q (back_match c n) = true <-> pk_in q = dx_nfv c /\ pk_hdr q EthSrc = Some (port_mac c n) /\ eapol q.
Proof.
  intros. unfold back_match, exact, matches, eapol, ETH_EAPOL. cbn [forallb]. rewrite andb_true_r, !andb_true_iff, !item_exact. cbn [pk_get].
  split; intros [A B]; split; auto; congruence.
Qed.
Lemma mab_matches : forall q n, matches q (mab_match n) = true <-> pk_in q = n /\ dhcp_request q.
Proof.
  intros. unfold mab_match, exact, matches, dhcp_request, ETH_IP. cbn [forallb]. rewrite andb_true_r, !andb_true_iff, !item_exact. cbn [pk_get].
  split; intros [A B]; split; auto; congruence.
Qed.
Section Walks.
  Variables (c : dconf) (evs : list devent) (ups : list Z) (s : switch).
  Hypothesis OK : dconf_ok c.
  Hypothesis H : dhistory c evs ups s.
  Notation tid := (tb_id (dx_table c)).
  Notation vl := (am_to_vlan (dx_am c)).
  Let I : dinv c evs ups s := dhistory_inv c OK evs ups s H.

  Lemma host_matches : forall n mac w q, for_host c n mac w ->
    matches q (fm_match w) = true -> pk_in q = n /\ pk_hdr q EthSrc = Some mac.
  Proof.
    intros n mac w q F M. split; [eapply owns_matches; eauto; apply F|]. apply (item_exact q EthSrc mac).
    unfold matches in M. rewrite forallb_forall in M. apply M. apply F.
  Qed.

  (** the entries a frame on an 802.1X port can match *)
  Lemma matching : forall p q mac f, In p (dx_ports c) -> dp_dot1x p = true -> dp_pre p = false ->
    pk_in q = dp_num p -> pk_hdr q EthSrc = Some mac ->
    In f (sw_flows s) -> f_table f = tid -> matches q (f_match f) = true ->
    (is_up evs (dp_num p) = true /\
       ((eapol q /\ f = flow_of (eapol_out c (dp_num p))) \/
        (dp_mab p = true /\ dhcp_request q /\ f = flow_of (mab_flow c (dp_num p))))) \/
    (exists fid w, In fid (logins evs (dp_num p) mac) /\ In w (login_flows c p mac fid) /\ f = flow_of w) \/
    f = flow_of (the_drop c (dx_table c)).
  Proof.
    intros p q mac f Hp D P Q S A B M. destruct (di_all _ _ _ _ I f (conj A B)) as [->|[k O]]; [right; right; reflexivity|].
    assert (k = dp_num p) by (rewrite <- Q; symmetry; eapply owns_matches; eauto). subst k.
    destruct (di_port _ _ _ _ I p Hp D P) as [I1 _]. destruct (I1 f (conj A B) O) as [[U [->|[X ->]]]|[m [fid [w [X [Y ->]]]]]].
    - left. split; [apply (di_ups _ _ _ _ I p Hp); auto|]. left. split; auto. apply out_matches in M. tauto.
    - left. split; [apply (di_ups _ _ _ _ I p Hp); auto|]. right. split; auto. split; auto. apply mab_matches in M. tauto.
    - right. left. assert (m = mac). { destruct (host_matches (dp_num p) m w q) as [_ E]; auto; [apply (login_for_host c OK p m fid w Y)|congruence]. }
      subst m. exists fid, w. auto.
  Qed.

  Lemma lowest_under : 0 <= dx_lowest c < mab_priority.
  Proof. apply (dk_lowest c OK). Qed.
End Walks.

(** a login that has been carried out did not raise an exception *)
Lemma login_built : forall c evs ups s p mac fid a, dconf_ok c -> dhistory c evs ups s ->
  In p (dx_ports c) -> dp_dot1x p = true -> dp_dyn p = true -> acl_of c fid = Some a ->
  In fid (logins evs (dp_num p) mac) -> exists ws, acl_flows c a (dp_num p) (Some mac) = Some ws.
Proof.
  intros c evs ups s p mac fid a OK H Hp D Y EA. induction H as [|evs ups s e ms ups' sh ub out Hh IH Hsh H Ro]; [intros []|].
  intros L. destruct e as [ns|n|n|n m g|n m|n m]; cbn [logins] in L; auto.
  - destruct L.
  - destruct ((n =? dp_num p) && is_up evs (dp_num p)); [destruct L|auto].
  - destruct ((n =? dp_num p) && (m =? mac)) eqn:E; [|auto]. destruct L as [->|L]; [|auto].
    apply andb_true_iff in E as [E1 E2]. apply Z.eqb_eq in E1, E2. subst n m. cbn [dbatch] in H. injection H as H _.
    unfold dot1x_port in H. rewrite (port_of_self c OK p Hp), D in H. unfold login_flowmod, add_authenticated in H. rewrite Y, EA in H.
    apply opt_app_some in H as [y [z [_ [H _]]]]. unfold add_port_acl in H. destruct (acl_flows c a (dp_num p) (Some mac)); [eauto|discriminate].
  - destruct ((n =? dp_num p) && (m =? mac)); [destruct L|auto].
  - destruct ((n =? dp_num p) && (m =? mac)); [destruct L|auto].
Qed.

(** what a rule with an address put in matches *)
Lemma rule_mac : forall c a n mac r q, rule_ok r -> pk_in q = n -> pk_hdr q EthSrc = Some mac ->
  (matches q (add_mac (Some mac) (rule_match (dot1x_place c a n) r)) = true <-> covers_but [InPort; EthSrc] q r).
Proof.
  intros c a n mac r q [RO _] Q S. assert (SI : single (dot1x_place c a n)) by (right; reflexivity).
  unfold matches. rewrite forallb_forall. split.
  - intros X o f v m A B. apply item_agrees. apply X. apply add_mac_in; [apply mfd_keys|]. right.
    split; [|intros E; apply B; right; left; symmetry; exact E]. apply rule_match_in; auto. simpl. right. split; [intros ->; apply B; left; auto|eauto].
  - intros X [f [v m]] A. apply add_mac_in in A as [A|[A B]]; [| |apply mfd_keys].
    + injection A as -> -> ->. apply item_exact. auto.
    + apply rule_match_in in A; auto. simpl in A. destruct A as [[-> A]|[A [o A']]].
      * injection A as -> ->. apply item_exact. cbn. congruence.
      * apply item_agrees. apply (X o f v m A'). simpl in B. intros [E|[E|[]]]; congruence.
Qed.

Ltac prios := cbn [f_prio flow_of fm_prio eapol_out eapol_back mab_flow aw the_drop tb_drop tb_add tb_write tb_add_cookie];
  unfold override_priority, mab_priority, auth_priority, FILTER_PRIORITY, HIGH_PRIORITY in *; lia.

(** ** Who passes *)

(** The frames of an authenticated host pass: they are treated as if the port's table
    were not there.  On a port with dynamic ACLs, if no ACL was named that exists. *)
Theorem C45_authenticated_pass : forall c evs ups s live p q mac es,
  dconf_ok c -> dhistory c evs ups s ->
  In p (dx_ports c) -> dp_dot1x p = true -> dp_pre p = false ->
  pk_in q = dp_num p -> pk_hdr q EthSrc = Some mac -> ~ eapol q ->
  authenticated evs (dp_num p) mac ->
  dp_dyn p = false \/ (forall fid a, In fid (logins evs (dp_num p) mac) -> ~ assigned c fid a) ->
  (walk s live (tb_id (dx_table c)) q es <-> walk s live (am_to_vlan (dx_am c)) q es).
Proof.
  intros c evs ups s live p q mac es OK H Hp D P Q S NE AU Y.
  assert (I := dhistory_inv c OK evs ups s H). assert (LO := dk_lowest c OK).
  set (w := tb_add (dx_table c) auth_priority (authed_match (dp_num p) mac) [Goto (am_to_vlan (dx_am c))]).
  assert (LF : forall fid, In fid (logins evs (dp_num p) mac) -> login_flows c p mac fid = [w]).
  { intros fid Hf. unfold login_flows. destruct Y as [->|Y]; [reflexivity|]. destruct (acl_of c fid) as [a|] eqn:EA; [|destruct (dp_dyn p); reflexivity].
    exfalso. apply (Y fid a Hf). apply acl_of_in. auto. }
  destruct (di_port _ _ _ _ I p Hp D P) as [_ [_ I3]].
  unfold authenticated in AU. destruct (logins evs (dp_num p) mac) as [|fid l] eqn:EL; [congruence|].
  destruct (I3 mac fid l w EL) as [A B]; [rewrite LF; left; auto|].
  rewrite (walk_top s live (tb_id (dx_table c)) q (flow_of w) A B).
  - simpl. split; [intros [es2 [W ->]]; exact W|eauto].
  - apply authed_matches. auto.
  - intros g G1 G2 G3. destruct (matching c evs ups s OK H p q mac g Hp D P Q S G1 G2 G3) as [[_ [[X _]|[X [_ ->]]]]|[[g' [w' [L [X ->]]]]| ->]].
    + contradiction.
    + right. unfold w. prios.
    + left. rewrite (LF g') in X by (rewrite EL in L; exact L). destruct X as [<-|[]]. auto.
    + right. unfold w. prios.
Qed.
Print Assumptions C45_authenticated_pass.

(** Other hosts' frames are dropped, except those meant for the authenticator. *)
Theorem C45_others_dropped : forall c evs ups s live p q mac es,
  dconf_ok c -> dhistory c evs ups s ->
  In p (dx_ports c) -> dp_dot1x p = true -> dp_pre p = false ->
  pk_in q = dp_num p -> pk_hdr q EthSrc = Some mac ->
  (is_up evs (dp_num p) = true -> ~ eapol q /\ ~ (dp_mab p = true /\ dhcp_request q)) ->
  ~ authenticated evs (dp_num p) mac ->
  (walk s live (tb_id (dx_table c)) q es <-> es = []).
Proof.
  intros c evs ups s live p q mac es OK H Hp D P Q S NE AU.
  assert (I := dhistory_inv c OK evs ups s H).
  destruct (di_drop _ _ _ _ I) as [A B].
  rewrite (walk_top s live (tb_id (dx_table c)) q _ A B); [reflexivity|reflexivity|].
  intros g G1 G2 G3. left. destruct (matching c evs ups s OK H p q mac g Hp D P Q S G1 G2 G3) as [[U [[X _]|[X [X' ->]]]]|[[g' [w' [X _]]]| ->]]; auto.
  - destruct (NE U). contradiction.
  - destruct (NE U) as [_ Z]. exfalso. auto.
  - exfalso. apply AU. intros E. rewrite E in X. destruct X.
Qed.
Print Assumptions C45_others_dropped.

(** ** The ACL a login names *)

(** On a port with dynamic ACLs, the frames of a host are dealt with by the ACL its
    logins named: by the first rule that covers the frame, whatever the rule says
    about the port and the source address; or they are dropped. *)
Theorem C45_assigned_acl : forall c evs ups s live p q mac fid l a es,
  dconf_ok c -> dhistory c evs ups s ->
  In p (dx_ports c) -> dp_dot1x p = true -> dp_dyn p = true ->
  pk_in q = dp_num p -> pk_hdr q EthSrc = Some mac -> ~ eapol q ->
  logins evs (dp_num p) mac = fid :: l -> (forall fid', In fid' l -> fid' = fid) ->
  assigned c fid a ->
  (walk s live (tb_id (dx_table c)) q es <->
   acl_outcome (fun _ q' => walk s live (am_to_vlan (dx_am c)) q') live
     (covers_but [InPort; EthSrc] q) (al_rules a) q es).
Proof.
  intros c evs ups s live p q mac fid l a es OK H Hp D Y Q S NE EL SAME AS.
  assert (I := dhistory_inv c OK evs ups s H). assert (LO := dk_lowest c OK).
  destruct (dk_dot1x c OK p Hp D) as [_ [_ [_ [X _]]]]. destruct (X Y) as [P M]. clear X.
  destruct AS as [name [-> Ha]]. assert (EA : acl_of c (Some name) = Some a) by (apply (dict_in_get Z.eqb zspec); auto; apply (dk_acl_names c OK)).
  destruct (login_built c evs ups s p mac (Some name) a OK H Hp D Y EA) as [ws EW]; [rewrite EL; left; auto|].
  assert (LF : login_flows c p mac (Some name) = ws) by (unfold login_flows; rewrite Y, EA, EW; reflexivity).
  destruct (acl_flows_in c OK name a _ _ _ Ha EW) as [IN NF]. destruct (dk_acls c OK name a Ha) as [EX [RO LE]].
  destruct (di_port _ _ _ _ I p Hp D P) as [_ [_ I3]].
  assert (R := walk_rules s live (dot1x_place c a (dp_num p)) (fun r => add_mac (Some mac) (rule_match (dot1x_place c a (dp_num p)) r)) (al_rules a)
    auth_priority (dx_lowest c) (am_to_vlan (dx_am c)) (am_to_vlan (dx_am c)) q (covers_but [InPort; EthSrc] q) (flow_of (the_drop c (dx_table c)))).
  cbn [dot1x_place pl_table] in R. etransitivity; [apply R|]; auto.
  - intros r Hr. rewrite Forall_forall in RO. apply rule_mac; auto.
  - intros i r N. apply (I3 mac (Some name) l (aw c a (dp_num p) (Some mac) i r) EL). rewrite LF. apply IN. eauto.
  - intros f F1 F2 F3. destruct (matching c evs ups s OK H p q mac f Hp D P Q S F1 F2 F3) as [[_ [[Z _]|[Z _]]]|[[g [w [Z1 [Z2 ->]]]]| ->]]; auto.
    + contradiction.
    + congruence.
    + left. assert (g = Some name). { rewrite EL in Z1. destruct Z1 as [<-|Z1]; auto. } subst g. rewrite LF in Z2. apply IN in Z2 as [i [r [N ->]]]. exists i, r. auto.
  - destruct (di_drop _ _ _ _ I) as [A B]. repeat split; auto.
  - intros r g ns Hr X. rewrite NF in X; auto. destruct X.
  - unfold acl_outcome. split; (intros [[r [Z1 Z2]]|Z]; [left; exists r; split; auto; destruct (effect live r q) as [out [[[] q']|]]; auto|auto]).
Qed.
Print Assumptions C45_assigned_acl.

(** ** The authenticator *)

(** EAPOL frames of a host on a port that is up reach the authenticator, and only it,
    addressed to what stands for the port. *)
Theorem C45_eapol_to_authenticator : forall c evs ups s live p q mac es,
  dconf_ok c -> dhistory c evs ups s ->
  In p (dx_ports c) -> dp_dot1x p = true -> dp_pre p = false ->
  pk_in q = dp_num p -> pk_hdr q EthSrc = Some mac -> eapol q ->
  is_up evs (dp_num p) = true ->
  (walk s live (tb_id (dx_table c)) q es <-> es = [(dx_nfv c, addressed EthDst (stands_for c p) q)]).
Proof.
  intros c evs ups s live p q mac es OK H Hp D P Q S E U.
  assert (I := dhistory_inv c OK evs ups s H). assert (LO := dk_lowest c OK).
  destruct (di_port _ _ _ _ I p Hp D P) as [_ [I2 _]].
  destruct I2 as [[A B] _]; [apply (di_ups _ _ _ _ I p Hp); auto|].
  rewrite (walk_top s live (tb_id (dx_table c)) q _ A B); [reflexivity|apply out_matches; auto|].
  intros g G1 G2 G3. destruct (matching c evs ups s OK H p q mac g Hp D P Q S G1 G2 G3) as [[_ [[_ X]|[X [_ ->]]]]|[[g' [w' [_ [X ->]]]]| ->]]; auto; right.
  - prios.
  - assert (Z := fh_prio _ _ _ _ (login_for_host c OK _ _ _ _ X)). cbn [f_prio flow_of]. prios.
  - prios.
Qed.
Print Assumptions C45_eapol_to_authenticator.

(** What the authenticator sends from there comes out of that port, addressed as
    EAPOL is; nothing else it sends gets anywhere. *)
Theorem C45_eapol_to_host : forall c evs ups s live p q es,
  dconf_ok c -> dhistory c evs ups s ->
  In p (dx_ports c) -> dp_dot1x p = true -> is_up evs (dp_num p) = true ->
  pk_in q = dx_nfv c -> eapol q -> pk_hdr q EthSrc = Some (stands_for c p) ->
  (walk s live (tb_id (dx_table c)) q es <-> es = [(dp_num p, addressed EthSrc 0x0180c2000003 q)]).
Proof.
  intros c evs ups s live p q es OK H Hp D U Q E S.
  assert (I := dhistory_inv c OK evs ups s H). assert (LO := dk_lowest c OK).
  destruct (di_eapol _ _ _ _ I p Hp D) as [A B]; [apply (di_ups _ _ _ _ I p Hp); auto|].
  rewrite (walk_top s live (tb_id (dx_table c)) q _ A B); [reflexivity|apply back_matches; auto|].
  intros g G1 G2 G3. destruct (di_all _ _ _ _ I g (conj G1 G2)) as [->|[k O]]; [right; prios|].
  assert (k = dx_nfv c) by (rewrite <- Q; symmetry; eapply owns_matches; eauto). subst k.
  destruct (di_nfv _ _ _ _ I g (conj G1 G2) O) as [p' [_ [_ [_ ->]]]]. left. apply back_matches in G3 as [_ [G3 _]].
  rewrite S in G3. unfold stands_for, port_mac in G3. assert (dp_num p' = dp_num p) by (injection G3; lia). congruence.
Qed.
Print Assumptions C45_eapol_to_host.

Theorem C45_authenticator_only_eapol : forall c evs ups s live q es,
  dconf_ok c -> dhistory c evs ups s -> pk_in q = dx_nfv c ->
  (forall p, In p (dx_ports c) -> dp_dot1x p = true -> is_up evs (dp_num p) = true ->
     eapol q -> pk_hdr q EthSrc <> Some (stands_for c p)) ->
  (walk s live (tb_id (dx_table c)) q es <-> es = []).
Proof.
  intros c evs ups s live q es OK H Q X.
  assert (I := dhistory_inv c OK evs ups s H).
  destruct (di_drop _ _ _ _ I) as [A B].
  rewrite (walk_top s live (tb_id (dx_table c)) q _ A B); [reflexivity|reflexivity|].
  intros g G1 G2 G3. left. destruct (di_all _ _ _ _ I g (conj G1 G2)) as [->|[k O]]; [auto|].
  assert (k = dx_nfv c) by (rewrite <- Q; symmetry; eapply owns_matches; eauto). subst k.
  destruct (di_nfv _ _ _ _ I g (conj G1 G2) O) as [p' [Hp [D [U ->]]]]. apply back_matches in G3 as [_ [G3 G4]].
  exfalso. apply (X p'); auto. apply (di_ups _ _ _ _ I p' Hp); auto.
Qed.
Print Assumptions C45_authenticator_only_eapol.

(** MAC authentication bypass: DHCP requests of hosts not yet authenticated are what
    the authenticator learns them from. *)
Theorem C45_bypass_request : forall c evs ups s live p q mac es,
  dconf_ok c -> dhistory c evs ups s ->
  In p (dx_ports c) -> dp_dot1x p = true -> dp_mab p = true ->
  pk_in q = dp_num p -> pk_hdr q EthSrc = Some mac -> dhcp_request q ->
  is_up evs (dp_num p) = true -> ~ authenticated evs (dp_num p) mac ->
  (walk s live (tb_id (dx_table c)) q es <-> es = [(dx_nfv c, addressed EthDst (stands_for c p) q)]).
Proof.
  intros c evs ups s live p q mac es OK H Hp D M Q S E U AU.
  assert (P : dp_pre p = false). { destruct (dp_pre p) eqn:X; auto. destruct (dk_dot1x c OK p Hp D) as [_ [_ [_ [_ Y]]]]. rewrite Y in M; auto. }
  assert (I := dhistory_inv c OK evs ups s H). assert (LO := dk_lowest c OK).
  destruct (di_port _ _ _ _ I p Hp D P) as [_ [I2 _]].
  destruct I2 as [_ I2]; [apply (di_ups _ _ _ _ I p Hp); auto|]. destruct (I2 M) as [A B].
  rewrite (walk_top s live (tb_id (dx_table c)) q _ A B); [reflexivity|apply mab_matches; auto|].
  intros g G1 G2 G3. destruct (matching c evs ups s OK H p q mac g Hp D P Q S G1 G2 G3) as [[_ [[X _]|[_ [_ X]]]]|[[g' [w' [X _]]]| ->]]; auto.
  - exfalso. destruct E as [E _]. unfold eapol in X. congruence.
  - exfalso. apply AU. intros Z. rewrite Z in X. destruct X.
  - right. prios.
Qed.
Print Assumptions C45_bypass_request.

(** ** Nothing raises an exception *)

(** ACLs that logins can name: with rules, without meters and failover groups *)
Definition simple_acl (a : acl) : Prop :=
  al_rules a <> [] /\ forall r, In r (al_rules a) ->
    failovers r = [] /\ (forall ac, ru_actions r = Some ac -> ac_meter ac = None).

Lemma all_flows_some : forall ms, (forall m, In m ms -> exists w, m = FlowMod w) -> exists ws, all_flows ms = Some ws.
Proof.
  induction ms as [|m ms IH]; intros H; [exists []; reflexivity|]. destruct (H m (or_introl eq_refl)) as [w ->].
  destruct IH as [ws E]; [intros x Hx; apply H; right; auto|]. exists (w :: ws). simpl. rewrite E. reflexivity.
Qed.
Lemma simple_flows : forall c name a n mac, dconf_ok c -> In (name, a) (dx_acls c) -> simple_acl a -> exists ws, acl_flows c a n mac = Some ws.
Proof.
  intros c name a n mac OK Ha [NE S]. destruct (dk_acls c OK name a Ha) as [EX [RO LE]]. rewrite Forall_forall in RO.
  unfold acl_flows, build_acl_port. destruct (al_rules a) as [|r0 rs0] eqn:ER; [congruence|]. rewrite <- ER in *.
  destruct (existsb has_meter (al_rules a)) eqn:EM.
  { exfalso. apply existsb_exists in EM as [r [A B]]. destruct (S r A) as [_ M]. unfold has_meter in B.
    destruct (ru_actions r) as [ac|]; [|discriminate]. rewrite (M ac eq_refl) in B. discriminate. }
  destruct (all_flows_some (build_acl_ofmsgs None false (dot1x_place c a n) [a])) as [ws E].
  { intros m Hm. unfold build_acl_ofmsgs in Hm. simpl in Hm. rewrite app_nil_r in Hm. apply in_build_rules in Hm; auto.
    destruct Hm as [i [r [N [B|B]]]]; [|eauto]. exfalso. apply nth_error_In in N. apply rule_msgs in B; auto. destruct B as [g [ns [B _]]].
    rewrite (proj1 (S r N)) in B. destruct B. }
  rewrite E. simpl. eauto.
Qed.

Lemma batch_deletes : forall c ups e ms ups' d, dconf_ok c -> dbatch c ups e = (Some ms, ups') ->
  In (FlowMod d) ms -> is_delete (FlowMod d) = true -> fm_table d = OFPTT_ALL -> fm_match d = [].
Proof.
  intros c ups e ms ups' d OK H Hd D T.
  assert (TA := tid_all c OK).
  assert (AD : forall u ns ms u', ports_add c u ns = (Some ms, u') -> In (FlowMod d) ms -> False).
  { intros u ns m1 u' E Hm. apply ports_add_in in E as [_ [E _]]; auto. destruct (E _ Hm) as [w [W A]]. injection W as <-.
    apply added_own in A as [A _]; auto. rewrite add_delete_false in D; [discriminate|auto]. }
  assert (HB : forall p m1, host_batch c p m1 -> In (FlowMod d) m1 -> False).
  { intros p m1 B Hm. destruct (host_batch_about c OK p m1 B _ Hm) as [[d' [E [_ [A _]]]]|[w [E [A _]]]]; injection E as <-; [congruence|].
    rewrite add_delete_false in D; [discriminate|auto]. }
  destruct e as [ns|n|n|n mac fid|n mac|n mac]; cbn [dbatch] in H.
  - destruct (ports_add c [] ns) as [o u'] eqn:E. destruct o as [m2|]; [|discriminate]. injection H as <- <-.
    destruct Hd as [Hd|Hd]; [injection Hd as <-; reflexivity|].
    apply in_app_iff in Hd as [Hd|Hd]; [|exfalso; eapply AD; eauto]. apply in_app_iff in Hd as [Hd|Hd].
    + destruct (am_groups (dx_am c)); [|destruct Hd]. destruct Hd as [Hd|[]]. discriminate Hd.
    + unfold default_drops in Hd. apply in_map_iff in Hd as [tb [E' _]]. injection E' as <-. discriminate D.
  - destruct (existsb (Z.eqb n) ups); [injection H as <- <-; destruct Hd|]. exfalso. eapply AD; eauto.
  - destruct (existsb (Z.eqb n) ups); [|injection H as <- <-; destruct Hd]. destruct (port_of c n) as [p|] eqn:E; [|injection H as <- <-; destruct Hd].
    injection H as H <-. apply port_of_in in E as [Hp _]. destruct (port_delete_in c OK p ms Hp H) as [K _]. exfalso.
    destruct (K _ Hd) as [d' [E [[_ [A _]]|[_ A]]]]; injection E as <-; [congruence|]. rewrite A in T. apply TA. exact T.
  - injection H as H <-. destruct (dot1x_port c n) as [p|]; [|discriminate]. exfalso. eapply (HB p); eauto. left. eauto.
  - injection H as H <-. destruct (dot1x_port c n) as [p|]; [|discriminate]. exfalso. eapply (HB p); eauto. right. eauto.
  - injection H as H <-. destruct (dot1x_port c n) as [p|]; [|discriminate]. exfalso. eapply (HB p); eauto. right. eauto.
Qed.

(** On datapaths without dot1x_acl, every event is acted on: logins whose ACL, if
    there is one of that name on a port with dynamic ACLs, is a simple one. *)
Theorem C45_acted_on : forall c ups e sh ub,
  dconf_ok c ->
  (forall p, In p (dx_ports c) -> dp_pre p = false) ->
  match e with
  | DLogin n mac fid => exists p, In p (dx_ports c) /\ dp_num p = n /\ dp_dot1x p = true /\
      (dp_dyn p = true -> forall a, assigned c fid a -> simple_acl a)
  | DLogoff n mac | DFailure n mac => exists p, In p (dx_ports c) /\ dp_num p = n /\ dp_dot1x p = true
  | _ => True
  end ->
  exists ms ups' out, dbatch c ups e = (Some ms, ups') /\ valve_flowreorder sh ub ms = Some out.
Proof.
  intros c ups e sh ub OK P X.
  enough (Q : exists ms ups', dbatch c ups e = (Some ms, ups')).
  { destruct Q as [ms [ups' Q]]. destruct (reorder_total_lemma sh ub ms) as [out R]; [|eauto 6].
    intros d Hd D T. eapply batch_deletes; eauto. }
  assert (PA : forall u p, In p (dx_ports c) -> exists ms, port_add c u p = Some ms).
  { intros u p Hp. unfold port_add, manager_add, dot1x_port_up, add_unauthenticated. rewrite (P p Hp).
    destruct (dp_num p =? dx_nfv c); [eexists; reflexivity|]. destruct (dp_dot1x p); eexists; reflexivity. }
  assert (PS : forall ns u, exists ms u', ports_add c u ns = (Some ms, u')).
  { induction ns as [|n ns IH]; intros u; simpl; [eauto|]. destruct (port_of c n) as [p|] eqn:E; [|apply IH].
    destruct (IH (n :: u)) as [ms [u' ->]]. apply port_of_in in E as [E _]. destruct (PA (n :: u) p E) as [ms1 ->]. eexists. eexists. reflexivity. }
  destruct e as [ns|n|n|n mac fid|n mac|n mac]; cbn [dbatch].
  - destruct (PS ns []) as [ms [u' ->]]. eexists. eexists. reflexivity.
  - destruct (existsb (Z.eqb n) ups); [eexists; eexists; reflexivity|]. apply PS.
  - destruct (existsb (Z.eqb n) ups); [|eexists; eexists; reflexivity]. destruct (port_of c n) as [p|] eqn:E; [|eexists; eexists; reflexivity].
    apply port_of_in in E as [E _]. unfold port_delete, manager_del, dot1x_port_down, del_authenticated, del_unauthenticated. rewrite (P p E).
    destruct (dp_dot1x p); eexists; eexists; reflexivity.
  - destruct X as [p [Hp [<- [D X]]]]. unfold dot1x_port. rewrite (port_of_self c OK p Hp), D.
    unfold login_flowmod, del_unauthenticated, add_authenticated. rewrite (P p Hp). destruct (dp_dyn p); [|eexists; eexists; reflexivity].
    destruct (acl_of c fid) as [a|] eqn:EA; [|eexists; eexists; reflexivity]. apply acl_of_in in EA.
    assert (SA := X eq_refl a EA). destruct EA as [name [_ Ha]]. destruct (simple_flows c name a (dp_num p) (Some mac) OK Ha SA) as [ws E].
    unfold add_port_acl. rewrite E. eexists. eexists. reflexivity.
  - destruct X as [p [Hp [<- D]]]. unfold dot1x_port. rewrite (port_of_self c OK p Hp), D.
    unfold logoff_flowmod, del_authenticated, add_unauthenticated. rewrite (P p Hp). eexists; eexists; reflexivity.
  - destruct X as [p [Hp [<- D]]]. unfold dot1x_port. rewrite (port_of_self c OK p Hp), D.
    unfold logoff_flowmod, del_authenticated, add_unauthenticated. rewrite (P p Hp). eexists; eexists; reflexivity.
Qed.
Print Assumptions C45_acted_on.

(** ** A concrete datapath

    Port 1 with mac authentication bypass, 2 with dynamic ACLs, 3 with dot1x_acl, 4
    the port of the authenticator, 5 an ordinary one. *)
Definition ex_out7 : actions_conf := mkActions None None None None
  (Some (Unordered (mkUnordered None None None None None (Some 7) None None None None))) None.
Definition ex_ip : acl := mkAcl [mkRule [((false, EthType), (0x800, -1))] None (Some ex_out7)] false.
Definition ex_arp : acl := mkAcl [mkRule [((false, EthType), (0x806, -1))] None (Some ex_out7)] false.
Definition ex_any : acl := mkAcl [mkRule [] None (Some ex_out7)] false.
Definition ex_none : acl := mkAcl [mkRule [] None (Some (mkActions (Some 0) None None None None None))] false.
Definition ex_conf : dconf := mkDconf (mkAmanager [] (Some (mkTable 0 7 0)) None None false 1 3 6 10) (mkTable 0 7 0)
  [mkDport (mkAport 1 [] false true) true false false; mkDport (mkAport 2 [] false true) false true false;
   mkDport (mkAport 3 [] false true) false false true; mkDport (mkAport 4 [] true false) false false false;
   mkDport (mkAport 5 [ex_ip] false false) false false false]
  4 0 [(10, ex_ip); (20, ex_arp); (30, ex_any); (40, ex_none)] (Some 30) (Some 40) 0.
Definition ex_frame (n src ty : Z) : packet :=
  mkPacket n [] (fun f => match f with EthSrc => Some src | EthDst => Some 9 | EthType => Some ty | _ => None end).

Lemma ex_ok : dconf_ok ex_conf.
Proof.
  assert (RO : forall a, In a [ex_ip; ex_arp; ex_any; ex_none] -> Forall rule_ok (al_rules a) /\ Forall (fun r => failovers r = []) (al_rules a)).
  { intros a Ha. repeat destruct Ha as [<-|Ha]; try destruct Ha; (split; [|repeat constructor]); constructor; constructor; simpl;
      try (repeat constructor; simpl; intuition discriminate);
      intros a E; injection E as <-; split; auto; simpl; unfold unordered_ok; simpl; intuition discriminate. }
  constructor.
  - reflexivity.
  - split; [simpl; unfold OFPTT_ALL; intuition discriminate|]. repeat constructor; simpl; intuition discriminate.
  - reflexivity.
  - cbn. unfold mab_priority, auth_priority, HIGH_PRIORITY. lia.
  - repeat constructor; simpl; intuition discriminate.
  - intros p Hp. simpl in Hp. repeat destruct Hp as [<-|Hp]; try destruct Hp; cbn; intros E; try discriminate E; auto.
  - intros p Hp. simpl in Hp. repeat destruct Hp as [<-|Hp]; try destruct Hp; cbn; intros E; try discriminate E; repeat split; auto; try lia; discriminate.
  - intros p Hp. simpl in Hp. repeat destruct Hp as [<-|Hp]; try destruct Hp; cbn -[FILTER_PRIORITY];
      (split; [repeat constructor|]); (split; [|unfold FILTER_PRIORITY; lia]); try constructor; try constructor;
      destruct (RO ex_ip) as [X Y]; try (simpl; auto; fail); inversion X; inversion Y; auto.
  - repeat constructor; simpl; intuition discriminate.
  - intros name a Ha. assert (In a [ex_ip; ex_arp; ex_any; ex_none]) by (simpl in Ha; simpl; intuition congruence).
    split; [|split; [apply RO; auto|]]; simpl in Ha; destruct Ha as [Ha|[Ha|[Ha|[Ha|[]]]]]; injection Ha as <- <-; cbn -[auth_priority]; auto;
      unfold auth_priority, HIGH_PRIORITY; lia.
Qed.

(** running a history, earliest event first, without barriers or shuffling *)
Fixpoint drun (c : dconf) (todo : list devent) (done : list devent) (ups : list Z) (s : switch) : option (list devent * list Z * switch) :=
  match todo with
  | [] => Some (done, ups, s)
  | e :: r => match dbatch c ups e with
              | (Some ms, ups') => match valve_flowreorder (fun l => l) false ms with
                                   | Some out => drun c r (e :: done) ups' (apply_msgs out s)
                                   | None => None
                                   end
              | (None, _) => None
              end
  end.
Lemma drun_more : forall c todo done ups s evs ups' s', dhistory c done ups s -> drun c todo done ups s = Some (evs, ups', s') -> dhistory c evs ups' s'.
Proof.
  intros c todo. induction todo as [|e r IH]; intros done ups s evs ups' s' H R; cbn [drun] in R; [injection R as <- <- <-; auto|].
  destruct (dbatch c ups e) as [[ms|] u] eqn:E; [|discriminate]. destruct (valve_flowreorder _ _ ms) as [out|] eqn:EO; [|discriminate].
  eapply IH; [|exact R]. eapply dh_event; eauto. apply Permutation_refl.
Qed.
Lemma drun_history : forall c ns todo s0 evs ups s, drun c (DConnect ns :: todo) [] [] s0 = Some (evs, ups, s) -> dhistory c evs ups s.
Proof.
  intros c ns todo s0 evs ups s R. cbn [drun] in R.
  destruct (dbatch c [] (DConnect ns)) as [[ms|] u] eqn:E; [|discriminate]. destruct (valve_flowreorder _ _ ms) as [out|] eqn:EO; [|discriminate].
  eapply drun_more; [|exact R]. eapply dh_connect; eauto. intros l. apply Permutation_refl.
Qed.

Definition ex_s0 : switch := mkSwitch [] [] [].
Definition ran (todo : list devent) : list Z * switch :=
  match drun ex_conf (DConnect [1; 2; 3; 4; 5] :: todo) [] [] ex_s0 with Some (_, ups, s) => (ups, s) | None => ([], ex_s0) end.
Ltac by_running todo := apply (drun_history ex_conf [1; 2; 3; 4; 5] todo ex_s0); vm_compute; reflexivity.

(** The hypotheses of the theorems above are met: a host logs in on port 1, another
    logs in and off again, and a third one logs in on port 2 with an ACL. *)
Definition ex_events : list devent := [DLogin 1 111 None; DLogin 1 112 None; DLogin 2 113 (Some 10); DLogoff 1 112; DFailure 2 114].
Example C45_example : exists ups s, dconf_ok ex_conf /\ dhistory ex_conf (rev ex_events ++ [DConnect [1; 2; 3; 4; 5]]) ups s /\
  authenticated (rev ex_events ++ [DConnect [1; 2; 3; 4; 5]]) 1 111 /\
  ~ authenticated (rev ex_events ++ [DConnect [1; 2; 3; 4; 5]]) 1 112 /\
  (forall live es, walk s live 0 (ex_frame 1 111 0x800) es <-> walk s live 1 (ex_frame 1 111 0x800) es) /\
  (forall live es, walk s live 0 (ex_frame 1 112 0x800) es <-> es = []) /\
  (forall live es, walk s live 0 (ex_frame 2 113 0x800) es <-> es = [(7, ex_frame 2 113 0x800)]) /\
  (forall live es, walk s live 0 (ex_frame 1 112 0x888e) es <-> es = [(4, addressed EthDst 1 (ex_frame 1 112 0x888e))]) /\
  (forall live es, walk s live 0 (ex_frame 4 2 0x888e) es <-> es = [(2, addressed EthSrc 0x0180c2000003 (ex_frame 4 2 0x888e))]).
Proof.
  set (evs := rev ex_events ++ [DConnect [1; 2; 3; 4; 5]]).
  assert (X : exists ups s, dhistory ex_conf evs ups s) by (eexists; eexists; by_running ex_events). destruct X as [ups [s H]].
  assert (P1 : In (mkDport (mkAport 1 [] false true) true false false) (dx_ports ex_conf)) by (left; reflexivity).
  assert (P2 : In (mkDport (mkAport 2 [] false true) false true false) (dx_ports ex_conf)) by (right; left; reflexivity).
  assert (NE : forall n m, ~ eapol (ex_frame n m 0x800)) by (intros n m E; discriminate E).
  exists ups, s. split; [apply ex_ok|]. split; [exact H|]. split; [discriminate|]. split; [intros E; apply E; reflexivity|].
  split; [|split; [|split; [|split]]]; intros live es.
  - apply (C45_authenticated_pass ex_conf evs ups s live _ (ex_frame 1 111 0x800) 111 es ex_ok H P1); auto; try reflexivity; discriminate.
  - apply (C45_others_dropped ex_conf evs ups s live _ (ex_frame 1 112 0x800) 112 es ex_ok H P1); auto; try reflexivity.
    intros _. split; [apply NE|]. intros [_ [_ [E _]]]. discriminate E.
  - etransitivity; [apply (C45_assigned_acl ex_conf evs ups s live _ (ex_frame 2 113 0x800) 113 (Some 10) [] ex_ip es ex_ok H P2); auto; try reflexivity|].
    + intros fid [].
    + exists 10. split; auto. left. reflexivity.
    + unfold acl_outcome. assert (C : covers_but [InPort; EthSrc] (ex_frame 2 113 0x800) (mkRule [((false, EthType), (0x800, -1))] None (Some ex_out7))).
      { intros o f v m [E|[]] _. injection E as <- <- <- <-. exists 0x800. split; reflexivity. }
      split.
      * intros [[r [A B]]|[A _]]; [|exfalso; apply (A _ (or_introl eq_refl)); auto].
        inversion A as [r0 l0 Y E|r0 l0 r' Y Y' E]; subst; [exact B|contradiction].
      * intros ->. left. eexists. split; [apply decides_now; exact C|]. reflexivity.
  - apply (C45_eapol_to_authenticator ex_conf evs ups s live _ (ex_frame 1 112 0x888e) 112 es ex_ok H P1); auto; reflexivity.
  - apply (C45_eapol_to_host ex_conf evs ups s live _ (ex_frame 4 2 0x888e) es ex_ok H P2); auto; reflexivity.
Qed.

Ltac walks := apply (walk_run_sound 3); vm_compute; reflexivity.

(** ** Where the claim fails *)

(** A host that logs in again and is given another ACL keeps the rules of the old one. *)
Theorem C45_new_acl_replaces_old_refuted : exists c evs ups s p q mac a es,
  dconf_ok c /\ dhistory c evs ups s /\ In p (dx_ports c) /\ dp_dot1x p = true /\ dp_dyn p = true /\
  pk_in q = dp_num p /\ pk_hdr q EthSrc = Some mac /\ ~ eapol q /\
  hd_error (logins evs (dp_num p) mac) = Some (Some 20) /\ assigned c (Some 20) a /\
  walk s (fun _ => true) (tb_id (dx_table c)) q es /\
  ~ acl_outcome (fun _ q' => walk s (fun _ => true) (am_to_vlan (dx_am c)) q') (fun _ => true)
     (covers_but [InPort; EthSrc] q) (al_rules a) q es.
Proof.
  exists ex_conf, [DLogin 2 111 (Some 20); DLogin 2 111 (Some 10); DConnect [1; 2; 3; 4; 5]].
  eexists. eexists. exists (mkDport (mkAport 2 [] false true) false true false), (ex_frame 2 111 0x800), 111, ex_arp, [(7, ex_frame 2 111 0x800)].
  split; [apply ex_ok|]. split; [by_running ([DLogin 2 111 (Some 10); DLogin 2 111 (Some 20)])|]. split; [right; left; reflexivity|]. do 4 (split; [reflexivity|]).
  split; [intros E; discriminate E|]. split; [reflexivity|]. split; [exists 20; split; [auto|right; left; reflexivity]|].
  split; [walks|].
  intros [[r [A _]]|[_ A]]; [|discriminate A].
  inversion A as [r0 l0 Y E|r0 l0 r' Y Y' E]; subst; [|inversion Y'].
  destruct (Y false EthType 0x806 (-1)) as [x [X1 X2]]; [left; reflexivity|intros [E|[E|[]]]; discriminate E|].
  injection X1 as <-. discriminate X2.
Qed.
Print Assumptions C45_new_acl_replaces_old_refuted.

(** Ports with dot1x_acl.  The rules of noauth_acl are deleted when a host logs in,
    and not strictly: a rule that names no field, as a closing "deny", takes
    everything of the port with it.  So a host that has logged in cannot log off: its
    EAPOL frames are not sent to the authenticator any more ... *)
Theorem C45_dot1x_acl_eapol_refuted : exists c evs ups s p q es,
  dconf_ok c /\ dhistory c evs ups s /\ In p (dx_ports c) /\ dp_dot1x p = true /\ dp_pre p = true /\
  pk_in q = dp_num p /\ eapol q /\ is_up evs (dp_num p) = true /\
  walk s (fun _ => true) (tb_id (dx_table c)) q es /\ ~ (exists q', In (dx_nfv c, q') es).
Proof.
  exists ex_conf, [DLogin 3 111 None; DConnect [1; 2; 3; 4; 5]].
  eexists. eexists. exists (mkDport (mkAport 3 [] false true) false false true), (ex_frame 3 111 0x888e), [(7, ex_frame 3 111 0x888e)].
  split; [apply ex_ok|]. split; [by_running ([DLogin 3 111 None])|]. split; [right; right; left; reflexivity|]. do 5 (split; [reflexivity|]).
  split; [walks|]. intros [q' [E|[]]]. discriminate E.
Qed.
Print Assumptions C45_dot1x_acl_eapol_refuted.

(** ... a second host that logs in throws the first one out (here the authenticated
    ACL sends everything to port 7, and the first host's frames are dropped) ... *)
Theorem C45_dot1x_acl_others_refuted : exists c evs ups s p q mac,
  dconf_ok c /\ dhistory c evs ups s /\ In p (dx_ports c) /\ dp_dot1x p = true /\ dp_pre p = true /\
  pk_in q = dp_num p /\ pk_hdr q EthSrc = Some mac /\ ~ eapol q /\ authenticated evs (dp_num p) mac /\
  dx_auth c = Some 30 /\ In (30, ex_any) (dx_acls c) /\
  walk s (fun _ => true) (tb_id (dx_table c)) q [].
Proof.
  exists ex_conf, [DLogin 3 112 None; DLogin 3 111 None; DConnect [1; 2; 3; 4; 5]].
  eexists. eexists. exists (mkDport (mkAport 3 [] false true) false false true), (ex_frame 3 111 0x800), 111.
  split; [apply ex_ok|]. split; [by_running ([DLogin 3 111 None; DLogin 3 112 None])|]. split; [right; right; left; reflexivity|]. do 4 (split; [reflexivity|]).
  split; [intros E; discriminate E|]. split; [discriminate|]. split; [reflexivity|]. split; [right; right; left; reflexivity|]. walks.
Qed.
Print Assumptions C45_dot1x_acl_others_refuted.

(** ... and when one host logs off while another stays, the rules for hosts that are
    not authenticated return with the same priority as the other's: which of them a
    frame of the authenticated host meets is open. *)
Definition noauth_first : switch -> switch := fun s => mkSwitch (rev (sw_flows s)) (sw_groups s) (sw_meters s).
Lemma hit_rev : forall s t q f, hit (sw_flows (noauth_first s)) t q f -> hit (sw_flows s) t q f.
Proof.
  intros s t q f [A [B [C D]]]. simpl in *. split; [apply in_rev; auto|]. split; auto. split; auto.
  intros g G. apply D. apply in_rev. rewrite rev_involutive. auto.
Qed.
Theorem C45_dot1x_acl_ambiguous_refuted : exists c evs ups s p q mac es,
  dconf_ok c /\ dhistory c evs ups s /\ In p (dx_ports c) /\ dp_dot1x p = true /\ dp_pre p = true /\
  pk_in q = dp_num p /\ pk_hdr q EthSrc = Some mac /\ ~ eapol q /\ authenticated evs (dp_num p) mac /\ es <> [] /\
  walk s (fun _ => true) (tb_id (dx_table c)) q es /\ walk s (fun _ => true) (tb_id (dx_table c)) q [].
Proof.
  exists ex_conf, [DLogoff 3 112; DLogin 3 111 None; DLogin 3 112 None; DConnect [1; 2; 3; 4; 5]].
  assert (X : exists us, dhistory ex_conf [DLogoff 3 112; DLogin 3 111 None; DLogin 3 112 None; DConnect [1; 2; 3; 4; 5]] (fst us) (snd us) /\
     us = ran [DLogin 3 112 None; DLogin 3 111 None; DLogoff 3 112]).
  { eexists. split; [|reflexivity]. by_running ([DLogin 3 112 None; DLogin 3 111 None; DLogoff 3 112]). }
  destruct X as [us [H E]]. exists (fst us), (snd us), (mkDport (mkAport 3 [] false true) false false true), (ex_frame 3 111 0x800), 111, [(7, ex_frame 3 111 0x800)].
  split; [apply ex_ok|]. split; [exact H|]. split; [right; right; left; reflexivity|]. do 4 (split; [reflexivity|]).
  split; [intros N; discriminate N|]. split; [discriminate|]. split; [discriminate|]. rewrite E. split; [walks|].
  remember (snd (ran [DLogin 3 112 None; DLogin 3 111 None; DLogoff 3 112])) as s eqn:Es.
  assert (T := top_spec (sw_flows (noauth_first s)) 0 (ex_frame 3 111 0x800)).
  destruct (top (sw_flows (noauth_first s)) 0 (ex_frame 3 111 0x800)) as [f|] eqn:ET.
  - apply hit_rev in T. eapply walk_end; [exact T|]. revert ET. subst s. vm_compute. intros ET. injection ET as <-. reflexivity.
  - exfalso. revert ET. subst s. vm_compute. discriminate.
Qed.
Print Assumptions C45_dot1x_acl_ambiguous_refuted.

(** A login that names an ACL with a failover group, or one without rules, raises an
    exception: the host is authenticated, but nothing is sent to the switch. *)
Theorem C45_login_acted_on_refuted : exists c p mac a, forall ups,
  dconf_ok c /\ In p (dx_ports c) /\ dp_dot1x p = true /\ dp_dyn p = true /\ assigned c (Some 10) a /\
  fst (dbatch c ups (DLogin (dp_num p) mac (Some 10))) = None.
Proof.
  set (a := mkAcl [mkRule [] None (Some (mkActions None None None None
    (Some (Unordered (mkUnordered None None None None None None None (Some (5, [7; 8])) None None))) None))] false).
  exists (mkDconf (mkAmanager [] (Some (mkTable 0 7 0)) None None true 1 3 6 10) (mkTable 0 7 0)
    [mkDport (mkAport 2 [] false true) false true false] 4 0 [(10, a)] None None 0),
    (mkDport (mkAport 2 [] false true) false true false), 111, a.
  intros ups. split; [|split; [left; reflexivity|]; split; [reflexivity|]; split; [reflexivity|]; split; [exists 10; split; [auto|left; reflexivity]|reflexivity]].
  constructor.
  - reflexivity.
  - split; [simpl; unfold OFPTT_ALL; intuition discriminate|]. repeat constructor; simpl; intuition discriminate.
  - reflexivity.
  - cbn. unfold mab_priority, auth_priority, HIGH_PRIORITY. lia.
  - repeat constructor; simpl; intuition discriminate.
  - intros p [<-|[]]. cbn. intros E. discriminate E.
  - intros p [<-|[]] _. cbn. repeat split; auto; try lia; discriminate.
  - intros p [<-|[]]. cbn -[FILTER_PRIORITY]. repeat split; try constructor. unfold FILTER_PRIORITY. lia.
  - repeat constructor; simpl; intuition discriminate.
  - intros name b [E|[]]. injection E as <- <-. cbn -[auth_priority]. split; auto. split; [|unfold auth_priority, HIGH_PRIORITY; lia].
    constructor; constructor; simpl; try (repeat constructor; simpl; intuition discriminate).
    intros x E. injection E as <-. split; auto. simpl. unfold unordered_ok. simpl. repeat split; try discriminate. intros v E. injection E as <-. discriminate.
Qed.
Print Assumptions C45_login_acted_on_refuted.
