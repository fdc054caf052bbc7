(** * Tunnels and the other rules: C48, C69 *)
From Coq Require Import ZArith List Bool Lia Permutation.
From Verif Require Import PyBase PyBaseProofs OpenFlow ReorderModel ReorderSpec TableModel AclModel AclSpec StackModel StackSpec StackNextProofs StackExamples SwitchExec
  TunnelModel TunnelSpec TunnelNetProofs TunnelRestSpec TunnelRestProofs TunnelFirstProofs TunnelProps.
Import ListNotations.
Open Scope Z_scope.

(** ** C69

    After any history, an update of the tunnels leaves all flow entries that are not
    those of tunnels as they are, whatever they are, and all groups and meters: no
    other entry is added, changed or deleted. *)
Theorem C69_rest_untouched : forall c stack_ports ls name me w acls' ms sh ub out, plain_tunnels c ls -> tb_id (tc_table c) <> OFPTT_ALL ->
  treach c stack_ports ls name w -> add_tunnel_acls c me (tw_acls w) = (acls', Some ms) ->
  (forall l, Permutation (sh l) l) -> valve_flowreorder sh ub ms = Some out ->
  forall s, (forall e, ~ owned c ls (sn_name me) e -> (In e (sw_flows (apply_msgs out s)) <-> In e (sw_flows s))) /\
    sw_groups (apply_msgs out s) = sw_groups s /\ sw_meters (apply_msgs out s) = sw_meters s.
Proof.
  intros c stack_ports ls name me w acls' ms sh ub out PL NT R E Hsh V s. split.
  - exact (rest_untouched c stack_ports ls name PL NT me w acls' ms sh ub out R E Hsh V s).
  - exact (rest_groups c stack_ports ls name PL me w acls' ms sh ub out R E Hsh V s).
Qed.
Print Assumptions C69_rest_untouched.

(** A case: the tunnel of [ex_tacl], whose port has another rule, after a link of the
    next switch went down and up again; the entry of the other rule is still there. *)
Definition ex_w (f : fabric) (pre : list ofmsg) (ls : list tacl) (x : Z) : tworld := ex_after (ex_conf x) (ex_node f x) pre (ex_start ls).
Definition ex_allow_entry : flow := flow_of (tb_add ex_table (FILTER_PRIORITY - 1) [exact InPort 5] [Goto 1]).
Lemma ex_reach : treach (ex_conf 1) [1] [ex_tacl] 1 (ex_w ex_row ex_other [ex_tacl] 1).
Proof.
  eapply (treach_update _ _ _ _ (ex_node ex_row 1) (ex_start [ex_tacl])); [constructor|reflexivity|].
  assert (U : exists acls' ms out, add_tunnel_acls (ex_conf 1) (ex_node ex_row 1) (tw_acls (ex_start [ex_tacl])) = (acls', Some ms) /\
    valve_flowreorder (fun l => l) true (ex_other ++ ms) = Some out /\ ex_w ex_row ex_other [ex_tacl] 1 = mkTworld acls' (apply_msgs out (tw_sw (ex_start [ex_tacl]))) /\
    forallb (fun w => fm_cookie w =? 7) (writes_of (ex_other ++ ms)) = true).
  { eexists _, _, _. split; [vm_compute; reflexivity|]. split; [vm_compute; reflexivity|]. split; vm_compute; reflexivity. }
  destruct U as (acls' & ms & out & E & V & -> & K). apply (tupdate_batch _ _ _ _ acls' ex_other ms (fun l => l) true out); auto; [apply ex_ordinary|].
  intros a b IA IB WA WB _. rewrite forallb_forall in K. assert (IB' : In (FlowMod b) (ex_other ++ ms)) by (apply in_or_app; auto).
  assert (X := K a (writes_of_in _ _ IA WA)). assert (Y := K b (writes_of_in _ _ IB' WB)). apply Z.eqb_eq in X, Y. congruence.
Qed.
Example C69_case : plain_tunnels (ex_conf 1) [ex_tacl] /\ treach (ex_conf 1) [1] [ex_tacl] 1 (ex_w ex_row ex_other [ex_tacl] 1) /\
  ~ owned (ex_conf 1) [ex_tacl] 1 ex_allow_entry /\ In ex_allow_entry (sw_flows (tw_sw (ex_w ex_row ex_other [ex_tacl] 1))) /\
  exists acls' ms out, add_tunnel_acls (ex_conf 1) (ex_node ex_row 1) (tw_acls (ex_w ex_row ex_other [ex_tacl] 1)) = (acls', Some ms) /\
    valve_flowreorder (fun l => l) true ms = Some out /\ out <> [] /\
    In ex_allow_entry (sw_flows (apply_msgs out (tw_sw (ex_w ex_row ex_other [ex_tacl] 1)))).
Proof.
  split.
  { split; [intros r []|]. intros l [<-|[]]. split.
    - intros r [<-|[<-|[]]]; (split; [reflexivity|]); intros a o A O; injection A as <-; cbn in O; [injection O as <-; repeat constructor|discriminate O].
    - intros d [<-|[]]. constructor. }
  split; [exact ex_reach|]. split.
  { intros [_ [[P _]|[(l & s & r & i & [<-|[]] & [<-|[]] & _ & NI & RT & P & _)|(l & s & r & i & _ & _ & _ & [] & _)]]].
    - vm_compute in P. discriminate P.
    - destruct i as [|[|i]]; cbn in NI; [|injection NI as <-; apply RT; reflexivity|destruct i; discriminate NI]. vm_compute in P. discriminate P. }
  split; [vm_compute; auto|]. eexists _, _, _. split; [vm_compute; reflexivity|]. split; [vm_compute; reflexivity|]. split; [discriminate|]. vm_compute. auto.
Qed.

(** The rule with the tunnel has a cookie of its own: the update deletes, with its
    entry, the entries of all rules of the port that match less, and does not add
    them again.  Here the port has a rule that denies TCP, and one that sends all IP
    into a tunnel: after the next change of the stack TCP is sent into the tunnel. *)
Definition ex_deny_tcp : rule := mkRule [((false, EthType), (0x800, -1)); ((false, IpProto), (6, -1))] None (Some (mkActions (Some 0) None None None None None)).
Definition ex_cookie : rule :=
  mkRule [((false, EthType), (0x800, -1))] (Some 99) (Some (mkActions (Some 0) None None None (Some (Ordered [OTunnel 3000])) None)).
Definition ex_cacl : tacl := mkTacl (mkAcl [ex_deny_tcp; ex_cookie] false) [ex_dest] [ex_source].
Definition ex_cport : aport := mkAport 5 [mkAcl [ex_deny_tcp; ex_cookie] false] false false.
Definition ex_connect (p : aport) : list ofmsg := abatch (tc_am (ex_conf 1)) 0 (AConnect [] [p]).
Definition ex_deny_entry : flow := flow_of (tb_add ex_table FILTER_PRIORITY [exact InPort 5; exact EthType 0x800; exact IpProto 6] []).
Definition ex_tcp : packet := mkPacket 5 [] (fun g => match g with EthType => Some 0x800 | IpProto => Some 6 | _ => None end).
Definition flowmods (ms : list ofmsg) : list flowmod := flat_map (fun m => match m with FlowMod w => [w] | _ => [] end) ms.
Lemma flowmods_in : forall ms w, In (FlowMod w) ms -> In w (flowmods ms).
Proof. intros ms w I. unfold flowmods. apply in_flat_map. exists (FlowMod w). split; [exact I|left; reflexivity]. Qed.
Definition low (w : flowmod) : bool := match fm_cmd w with FModify => false | _ => fm_prio w <? OVERRIDE_PRIORITY end.
Definition agree (ws : list flowmod) : bool := forallb (fun a => forallb (fun b => negb (fmatch_eqb (fm_match a) (fm_match b)) || (fm_cookie a =? fm_cookie b)) ws) ws.
Lemma reach_after : forall c sp ls me pre acls' ms out, add_tunnel_acls c me (tw_acls (ex_start ls)) = (acls', Some ms) ->
  forallb low (flowmods pre) = true -> agree (writes_of (pre ++ ms)) = true -> valve_flowreorder (fun l => l) true (pre ++ ms) = Some out ->
  treach c sp ls (sn_name me) (mkTworld acls' (apply_msgs out empty_switch)).
Proof.
  intros c sp ls me pre acls' ms out E H A V. apply (treach_update _ _ _ _ me (ex_start ls)); [constructor|reflexivity|].
  apply (tupdate_batch _ _ _ (ex_start ls) acls' pre ms (fun l => l) true out); auto.
  - intros w W. rewrite forallb_forall in H. assert (X := H w (flowmods_in pre w W)). unfold low in X. destruct (fm_cmd w); try discriminate X; apply Z.ltb_lt in X; (split; [discriminate|auto]).
  - intros a b IA IB WA WB (_ & _ & M). unfold agree in A. rewrite forallb_forall in A. specialize (A a (writes_of_in _ _ IA WA)). rewrite forallb_forall in A.
    assert (IB' : In (FlowMod b) (pre ++ ms)) by (apply in_or_app; auto). specialize (A b (writes_of_in _ _ IB' WB)). apply orb_true_iff in A as [A|A].
    + exfalso. unfold fmatch_eqb in A. destruct (fmatch_eq_dec (fm_match a) (fm_match b)); [discriminate A|contradiction].
    + apply Z.eqb_eq. exact A.
Qed.
Theorem C69_cookie_refuted : exists c sp ls me w acls' ms out e pk es, treach c sp ls (sn_name me) w /\ tb_id (tc_table c) <> OFPTT_ALL /\
  add_tunnel_acls c me (tw_acls w) = (acls', Some ms) /\ valve_flowreorder (fun l => l) true ms = Some out /\
  ~ owned c ls (sn_name me) e /\ In e (sw_flows (tw_sw w)) /\ ~ In e (sw_flows (apply_msgs out (tw_sw w))) /\
  walk (tw_sw w) (fun _ => true) 0 pk [] /\ walk (apply_msgs out (tw_sw w)) (fun _ => true) 0 pk es /\ es <> [].
Proof.
  destruct (add_tunnel_acls (ex_conf 1) (ex_node ex_row 1) (tw_acls (ex_start [ex_cacl]))) as [a0 [m0|]] eqn:E0; [|vm_compute in E0; discriminate E0].
  destruct (valve_flowreorder (fun l => l) true (ex_connect ex_cport ++ m0)) as [o0|] eqn:V0; [|exfalso; vm_compute in E0; injection E0 as _ <-; vm_compute in V0; discriminate V0].
  set (w := mkTworld a0 (apply_msgs o0 empty_switch)).
  assert (R : treach (ex_conf 1) [1] [ex_cacl] (sn_name (ex_node ex_row 1)) w).
  { apply (reach_after _ _ _ _ (ex_connect ex_cport) a0 m0 o0 E0); [vm_compute; reflexivity| |exact V0]. vm_compute in E0. injection E0 as _ <-. vm_compute. reflexivity. }
  exists (ex_conf 1), [1], [ex_cacl], (ex_node ex_row 1), w. vm_compute in E0. injection E0 as <- <-. vm_compute in V0. injection V0 as <-.
  eexists _, _, _, ex_deny_entry, ex_tcp, _. split; [exact R|]. split; [discriminate|]. split; [vm_compute; reflexivity|]. split; [vm_compute; reflexivity|]. split.
  { intros [_ [[P _]|[(l & s & r & i & [<-|[]] & [<-|[]] & _ & NI & RT & P & M)|(l & s & r & i & _ & _ & _ & [] & _)]]].
    - vm_compute in P. discriminate P.
    - destruct i as [|[|i]]; cbn in NI; [injection NI as <-; apply RT; reflexivity|injection NI as <-|destruct i; discriminate NI]. vm_compute in P. discriminate P. }
  split; [vm_compute; auto|]. split.
  { intros I. vm_compute in I. repeat (destruct I as [I|I]; [discriminate I|]). exact I. }
  split; [apply (walk_run_sound 5); vm_compute; reflexivity|]. split; [apply (walk_run_sound 5); vm_compute; reflexivity|discriminate].
Qed.
Print Assumptions C69_cookie_refuted.

(** ** C48: the first rule that covers a frame decides

    A port where tunnels start has one ACL, and only messages that keep to its rules
    are sent, beside updates of the tunnels, in any order. *)
Theorem C48_first_rule : forall c ls name l s n w pk r, In l ls -> ts_dp s = name -> ts_port s = Some n -> alone c ls l s ->
  (forall l r, In l ls -> In r (al_rules (tl_acl l)) -> fields_once r) -> (forall l d, In l ls -> In d (tl_dests l) -> 0 <= td_id d < 4096) ->
  settled c ls name l s n w -> pk_in pk = n -> untunnelled ls pk ->
  decides (rule_covers (Some InPort) pk) (al_rules (tl_acl l)) r ->
  exists i, first_at r i (al_rules (tl_acl l)) /\ decides_at (tw_sw w) (tb_id (tc_table c)) s r i pk.
Proof. intros c ls name l s n w pk r L DP P AL ON IDS R PI UT D. exact (first_rule c ls name l s n L DP P AL ON IDS w pk r R PI UT D). Qed.
Print Assumptions C48_first_rule.

(** The messages of the ACL manager keep to the rules of the ACL, if that is the only
    one of the port. *)
Theorem C48_manager_keeps : forall c l s n lowest e, am_dp_acls (tc_am c) = [] -> am_port (tc_am c) = Some (tc_table c) -> al_exact (tl_acl l) = false -> ts_port s = Some n ->
  (forall t, am_vlan (tc_am c) = Some t \/ am_egress (tc_am c) = Some t -> tb_id t <> tb_id (tc_table c)) ->
  lowest <= FILTER_PRIORITY - Z.of_nat (length (al_rules (tl_acl l))) ->
  event_keeps (tl_acl l) n e -> keeps c l s n (abatch (tc_am c) lowest e).
Proof. intros c l s n lowest e A B C D E F. exact (manager_keeps c l s n lowest A B C D E F e). Qed.
Print Assumptions C48_manager_keeps.

(** Together: a frame without the tag of a tunnel that enters at a source port, where
    the first rule of the port's ACL that covers it has a tunnel, leaves at the end
    of the tunnel as it entered it, once. *)
Theorem C48_by_first_rule : forall f root ls cf sw live l d s n w r pk n0, tunnel_net f root ls cf sw ->
  In l ls -> In d (tl_dests l) -> In s (tl_sources l) -> td_exit d = [] -> td_port d = Some n0 -> n0 <> 0 -> td_maintain d = false ->
  ts_dp s <> td_dp d -> joined f (ts_dp s) (td_dp d) -> ts_port s = Some n ->
  (forall t, In t f -> sn_name t = ts_dp s -> ~ In n (map sp_no (sn_ports t))) ->
  alone (cf (ts_dp s)) ls l s -> settled (cf (ts_dp s)) ls (ts_dp s) l s n w -> tw_sw w = sw (ts_dp s) ->
  pk_in pk = n -> untunnelled ls pk -> decides (rule_covers (Some InPort) pk) (al_rules (tl_acl l)) r -> only_tunnel r (td_id d) ->
  let first := fun x => tb_id (tc_table (cf x)) in
  exists p y q m k inside, pk_tags inside = (td_id d, pcp_of d) :: pk_tags pk /\ pk_hdr inside = pk_hdr pk /\
    link_up f (ts_dp s) p y q /\
    (forall es, walk (sw (ts_dp s)) (live (ts_dp s)) (first (ts_dp s)) pk es ->
      exists es', then_ (sw (ts_dp s)) (live (ts_dp s)) (goes_on (cf (ts_dp s)) r) pk es' /\ es = (sp_no p, inside) :: es') /\
    transits f sw live first m y (entering (sp_no q) inside) (td_dp d) (entering k inside) /\
    forall es, walk (sw (td_dp d)) (live (td_dp d)) (first (td_dp d)) (entering k inside) es ->
      exists out, es = [(n0, out)] /\ pk_tags out = pk_tags pk /\ pk_hdr out = pk_hdr pk.
Proof.
  intros f root ls cf sw live l d s n w r pk n0 N L D S EX EP P EM NE J PORT NS AL ST EW PI UT DC O first.
  destruct (C48_first_rule (cf (ts_dp s)) ls (ts_dp s) l s n w pk r L eq_refl PORT AL (tn_once _ _ _ _ _ N) (tn_ids _ _ _ _ _ N) ST PI UT DC) as (i & FA & DEC).
  rewrite EW in DEC. apply (C48_as_it_entered f root ls cf sw live l d s r i pk n0 N L D S EX EP P EM NE J); auto.
  - intros t T TN. rewrite PI. apply NS; assumption.
  - unfold rules_at. rewrite PORT. exact FA.
  - apply (tn_once _ _ _ _ _ N l r L). exact (nth_error_In _ _ (proj1 FA)).
  - rewrite PORT. discriminate.
Qed.
Print Assumptions C48_by_first_rule.

Lemma ex_keeps : keeps (ex_conf 1) ex_tacl ex_source 5 ex_other.
Proof.
  intros w [E|[E|[]]]; injection E as <-; (split; [discriminate|]); intros _ T; [|vm_compute in T; discriminate T].
  right. left. exists 1%nat, ex_allow. repeat split.
Qed.
Example C48_first_case : exists w, settled (ex_conf 1) [ex_tacl] 1 ex_tacl ex_source 5 w /\ tw_sw w = ex_sw 1 /\ untunnelled [ex_tacl] ex_pk /\
  decides (rule_covers (Some InPort) ex_pk) (al_rules (tl_acl ex_tacl)) ex_tunnel /\
  event_keeps (tl_acl ex_tacl) 5 (AConnect [] [mkAport 5 [tl_acl ex_tacl] false false; mkAport 6 [] false false]).
Proof.
  assert (U : exists acls' ms out, add_tunnel_acls (ex_conf 1) (ex_node ex_row 1) (tw_acls (ex_start [ex_tacl])) = (acls', Some ms) /\
    valve_flowreorder (fun l => l) true (ex_other ++ ms) = Some out /\ ex_sw 1 = apply_msgs out (tw_sw (ex_start [ex_tacl]))).
  { eexists _, _, _. split; [vm_compute; reflexivity|]. split; vm_compute; reflexivity. }
  destruct U as (acls' & ms & out & E & V & ->). exists (mkTworld acls' (apply_msgs out (tw_sw (ex_start [ex_tacl])))). split.
  { apply (settled_update _ _ _ _ _ _ (ex_node ex_row 1) (ex_start [ex_tacl]) acls' ex_other ms (fun l => l) true out); auto; [constructor|exact ex_keeps]. }
  split; [reflexivity|]. split.
  { intros v p r l d T [<-|[]] [<-|[]]. injection T as <- <- <-. cbn. lia. }
  split.
  { apply decides_now. intros o g v m [E1|[]] _. injection E1 as <- <- <- <-. exists 0x800. split; reflexivity. }
  intros p [<-|[<-|[]]]; (split; [cbn; intros X; (reflexivity || discriminate X)|]).
  - intros r [<-|[<-|[]]]; repeat constructor; intros [].
  - intros r [].
Qed.

(** A rule with a tunnel in the second ACL of a port: its entry takes the place of
    the rule at its position in the first ACL.  Here the first ACL denies all IP, the
    second sends it into a tunnel; the frame that is to be denied is sent. *)
Definition ex_deny_ip : rule := mkRule [((false, EthType), (0x800, -1))] None (Some (mkActions (Some 0) None None None None None)).
Definition ex_second : aport := mkAport 5 [mkAcl [ex_deny_ip] false; tl_acl ex_tacl] false false.
Theorem C48_second_acl_refuted : exists c sp ls me p l s acls' ms out pk r es, agreed ex_row 1 /\ In me ex_row /\
  In l ls /\ In s (tl_sources l) /\ ts_dp s = sn_name me /\ ts_port s = Some (ap_num p) /\ In (tl_acl l) (ap_acls p) /\ alone c ls l s /\
  add_tunnel_acls c me (tw_acls (ex_start ls)) = (acls', Some ms) /\ ordinary c sp (abatch (tc_am c) 0 (AConnect [] [p])) /\
  valve_flowreorder (fun l => l) true (abatch (tc_am c) 0 (AConnect [] [p]) ++ ms) = Some out /\
  pk_in pk = ap_num p /\ untunnelled ls pk /\
  decides (rule_covers (Some InPort) pk) (rules_of (ap_acls p)) r /\ ru_actions r = Some (mkActions (Some 0) None None None None None) /\
  walk (apply_msgs out empty_switch) (fun _ => true) (tb_id (tc_table c)) pk es /\ es <> [].
Proof.
  exists (ex_conf 1), [1], [ex_tacl], (ex_node ex_row 1), ex_second, ex_tacl, ex_source. eexists _, _, _, ex_pk, ex_deny_ip, _.
  split; [apply (tn_agreed _ _ _ _ _ ex_net)|]. split; [vm_compute; auto|]. split; [left; reflexivity|]. split; [left; reflexivity|]. split; [reflexivity|]. split; [reflexivity|].
  split; [right; left; reflexivity|]. split.
  { split; [reflexivity|]. split; [reflexivity|]. intros l' s' [<-|[]] [<-|[]] _. split; [discriminate|reflexivity]. }
  split; [vm_compute; reflexivity|]. split.
  { intros w W. assert (X : forallb low (flowmods (abatch (tc_am (ex_conf 1)) 0 (AConnect [] [ex_second]))) = true) by (vm_compute; reflexivity).
    rewrite forallb_forall in X. specialize (X w (flowmods_in _ w W)). unfold low in X. destruct (fm_cmd w); try discriminate X; apply Z.ltb_lt in X; (split; [discriminate|auto]). }
  split; [vm_compute; reflexivity|]. split; [reflexivity|]. split.
  { intros v p r l d T [<-|[]] [<-|[]]. injection T as <- <- <-. cbn. lia. }
  split.
  { apply decides_now. intros o g v m [E1|[]] _. injection E1 as <- <- <- <-. exists 0x800. split; reflexivity. }
  split; [reflexivity|]. split; [apply (walk_run_sound 5); vm_compute; reflexivity|discriminate].
Qed.
Print Assumptions C48_second_acl_refuted.
