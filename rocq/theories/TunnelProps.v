(** * Tunnels: C48 *)
From Coq Require Import ZArith List Bool Lia Permutation.
From Verif Require Import PyBase PyBaseProofs OpenFlow ReorderModel ReorderSpec TableModel AclModel AclSpec StackModel StackSpec StackNextProofs StackExamples SwitchExec
  TunnelModel TunnelSpec TunnelNetProofs.
Import ListNotations.
Open Scope Z_scope.

(** ** C48

    In every network of switches that agree about the stack and are up to date,
    whatever happened before: a frame that a rule with the tunnel [d] decides at a
    source of it is sent once into the tunnel, over a link that is up, with exactly
    one more tag (and goes on otherwise as the rule says, without that tag);
    the switches on the way send it on, as it is, out of one port each, along a
    shortest way; at the destination it loses the tag (unless that is to be kept),
    and is handed over. *)
Theorem C48_through : forall f root ls cf sw live l d s r i pk, tunnel_net f root ls cf sw ->
  In l ls -> In d (tl_dests l) -> In s (tl_sources l) -> exit_ok d -> td_port d <> Some 0 ->
  ts_dp s <> td_dp d -> joined f (ts_dp s) (td_dp d) ->
  (forall t, In t f -> sn_name t = ts_dp s -> ~ In (pk_in pk) (map sp_no (sn_ports t))) ->
  only_tunnel r (td_id d) -> first_at r i (rules_at (cf (ts_dp s)) l s) -> alone (cf (ts_dp s)) ls l s ->
  fields_once r -> (ts_port s = None -> any_port r) ->
  let first := fun x => tb_id (tc_table (cf x)) in
  decides_at (sw (ts_dp s)) (first (ts_dp s)) s r i pk ->
  let inside := tagged (td_id d) (pcp_of d) pk in
  exists p y q n k, link_up f (ts_dp s) p y q /\
    (forall es, walk (sw (ts_dp s)) (live (ts_dp s)) (first (ts_dp s)) pk es <->
      exists es', then_ (sw (ts_dp s)) (live (ts_dp s)) (goes_on (cf (ts_dp s)) r) pk es' /\ es = (sp_no p, inside) :: es') /\
    transmit (pk_in pk) (sp_no p, inside) = Some (sp_no p, inside) /\
    distance f (ts_dp s) (td_dp d) (S n) /\
    transits f sw live first n y (entering (sp_no q) inside) (td_dp d) (entering k inside) /\
    forall es, walk (sw (td_dp d)) (live (td_dp d)) (first (td_dp d)) (entering k inside) es <->
      handed_over (sw (td_dp d)) (live (td_dp d)) (cf (td_dp d)) d (entering k (emerging d pk)) es.
Proof. intros f root ls cf sw live l d s r i pk N L D S EX P NE J NS O FA AL OR NP first DEC inside. exact (through f root ls cf sw N l d s L D S EX P live r i pk NE J NS O FA AL OR NP DEC). Qed.
Print Assumptions C48_through.

(** A tunnel without exit instructions to a port, that does not keep the tag: what
    leaves there is what entered the tunnel, once. *)
Theorem C48_as_it_entered : forall f root ls cf sw live l d s r i pk n0, tunnel_net f root ls cf sw ->
  In l ls -> In d (tl_dests l) -> In s (tl_sources l) -> td_exit d = [] -> td_port d = Some n0 -> n0 <> 0 -> td_maintain d = false ->
  ts_dp s <> td_dp d -> joined f (ts_dp s) (td_dp d) ->
  (forall t, In t f -> sn_name t = ts_dp s -> ~ In (pk_in pk) (map sp_no (sn_ports t))) ->
  only_tunnel r (td_id d) -> first_at r i (rules_at (cf (ts_dp s)) l s) -> alone (cf (ts_dp s)) ls l s ->
  fields_once r -> (ts_port s = None -> any_port r) ->
  let first := fun x => tb_id (tc_table (cf x)) in
  decides_at (sw (ts_dp s)) (first (ts_dp s)) s r i pk ->
  exists p y q n k inside, pk_tags inside = (td_id d, pcp_of d) :: pk_tags pk /\ pk_hdr inside = pk_hdr pk /\
    link_up f (ts_dp s) p y q /\
    (forall es, walk (sw (ts_dp s)) (live (ts_dp s)) (first (ts_dp s)) pk es ->
      exists es', then_ (sw (ts_dp s)) (live (ts_dp s)) (goes_on (cf (ts_dp s)) r) pk es' /\ es = (sp_no p, inside) :: es') /\
    transits f sw live first n y (entering (sp_no q) inside) (td_dp d) (entering k inside) /\
    forall es, walk (sw (td_dp d)) (live (td_dp d)) (first (td_dp d)) (entering k inside) es ->
      exists out, es = [(n0, out)] /\ pk_tags out = pk_tags pk /\ pk_hdr out = pk_hdr pk.
Proof.
  intros f root ls cf sw live l d s r i pk n0 N L D S EX EP P EM NE J NS O FA AL OR NP first DEC.
  destruct (C48_through f root ls cf sw live l d s r i pk N L D S) as (p & y & q & n & k & LK & W & _ & _ & T & H); auto.
  - unfold exit_ok. rewrite EX. constructor.
  - congruence.
  - exists p, y, q, n, k, (tagged (td_id d) (pcp_of d) pk). split; [reflexivity|]. split; [reflexivity|]. split; [exact LK|]. split; [intros es; apply W|]. split; [exact T|].
    intros es WE. apply H in WE. unfold handed_over, emerging in WE. rewrite EP, EX, EM in WE. cbn in WE. subst es. eexists. split; [reflexivity|]. split; reflexivity.
Qed.
Print Assumptions C48_as_it_entered.

(** The same for a tunnel from and to one switch. *)
Theorem C48_one_switch : forall f root ls cf sw live l d s r i pk n, tunnel_net f root ls cf sw ->
  In l ls -> In d (tl_dests l) -> In s (tl_sources l) -> exit_ok d -> td_port d = Some n -> n <> 0 ->
  ts_dp s = td_dp d -> In (ts_dp s) (names f) ->
  only_tunnel r (td_id d) -> first_at r i (rules_at (cf (ts_dp s)) l s) -> alone (cf (ts_dp s)) ls l s ->
  fields_once r -> (ts_port s = None -> any_port r) ->
  let first := fun x => tb_id (tc_table (cf x)) in
  decides_at (sw (ts_dp s)) (first (ts_dp s)) s r i pk ->
  let out := emerging d (snd (perform live (td_exit d) pk)) in
  forall es, walk (sw (ts_dp s)) live (first (ts_dp s)) pk es <->
    exists es', then_ (sw (ts_dp s)) live (goes_on (cf (ts_dp s)) r) out es' /\ es = fst (perform live (td_exit d) pk) ++ (n, out) :: es'.
Proof.
  intros f root ls cf sw live l d s r i pk n N L D S EX P NZ E IN O FA AL OR NP first DEC out. assert (P0 : td_port d <> Some 0) by congruence.
  exact (through_one f root ls cf sw N l d s L D S EX P0 live r i pk n E IN P O FA AL OR NP DEC).
Qed.
Print Assumptions C48_one_switch.

(** The way back through a tunnel that is bi-directional and has one source: a frame
    that enters the switch of the destination with the tag for the way back gets to
    the switch of the source as it is, over a shortest way, loses that tag there and
    is handed back. *)
Theorem C48_back : forall f root ls cf sw live l d s pk r, tunnel_net f root ls cf sw ->
  In l ls -> In d (tl_dests l) -> In s (tl_sources l) -> td_bidir d = true -> ts_port s <> Some 0 ->
  (forall l' s', In l' ls -> In d (tl_dests l') -> In s' (tl_sources l') -> s' = s) ->
  ts_dp s <> td_dp d -> joined f (td_dp d) (ts_dp s) ->
  (forall t, In t f -> sn_name t = td_dp d -> ~ In (pk_in pk) (map sp_no (sn_ports t))) ->
  let first := fun x => tb_id (tc_table (cf x)) in
  not_overridden (sw (td_dp d)) (first (td_dp d)) pk -> pk_tags pk = (td_id d, PCP_TUNNEL_REVERSE_DIRECTION_FLAG) :: r ->
  exists n k, distance f (td_dp d) (ts_dp s) n /\
    transits f sw live first n (td_dp d) pk (ts_dp s) (entering k pk) /\
    forall es, walk (sw (ts_dp s)) (live (ts_dp s)) (first (ts_dp s)) (entering k pk) es <->
      handed_back (sw (ts_dp s)) (live (ts_dp s)) (cf (ts_dp s)) s (entering k (popped 1 pk)) es.
Proof. intros f root ls cf sw live l d s pk r N L D S B SP ONLY NE J NS first NO TG. exact (back f root ls cf sw N l d s L D S B ONLY SP live pk r NE J NS NO TG). Qed.
Print Assumptions C48_back.

(** ** A case: three switches in a row, a tunnel from port 5 of the first to port 6 of the last *)
Definition ex_row : fabric := wired [1; 2; 3] 1 [(1, 1, (2, 1), true); (2, 2, (3, 1), true)].
Definition ex_tunnel : rule :=
  mkRule [((false, EthType), (0x800, -1))] None (Some (mkActions (Some 1) None None None (Some (Ordered [OTunnel 3000])) None)).
Definition ex_allow : rule := mkRule [] None (Some (mkActions (Some 1) None None None None None)).
Definition ex_dest : tdest := mkTdest 3000 3 (Some 6) false true false [].
Definition ex_source : tsource := mkTsource 1 (Some 5).
Definition ex_tacl : tacl := mkTacl (mkAcl [ex_tunnel; ex_allow] false) [ex_dest] [ex_source].
Definition ex_table : table := mkTable 0 7 0.
Definition ex_conf (x : Z) : tconf := mkTconf (mkAmanager [] (Some ex_table) None None false 1 2 3 9) ex_table 4.
(** the rules of port 5 that have nothing to do with tunnels, a rule in table 1 *)
Definition ex_other : list ofmsg :=
  [FlowMod (tb_add ex_table (FILTER_PRIORITY - 1) [exact InPort 5] [Goto 1]);
   FlowMod (tb_add (mkTable 1 7 0) 9 [exact InPort 5] [Apply [Output 7 0]])].
Definition ex_start (ls : list tacl) : tworld := mkTworld (map (fun l => (l, [])) ls) empty_switch.
Definition ex_after (c : tconf) (me : snode) (pre : list ofmsg) (w : tworld) : tworld :=
  match add_tunnel_acls c me (tw_acls w) with
  | (acls', Some ms) => match valve_flowreorder (fun l => l) true (pre ++ ms) with
                        | Some out => mkTworld acls' (apply_msgs out (tw_sw w))
                        | None => w end
  | _ => w
  end.
Definition ex_node (f : fabric) (x : Z) : snode := hd (mkSnode 0 [] 0 (mkGraph [] [])) (filter (fun s => sn_name s =? x) f).
Definition ex_sw (x : Z) : switch := tw_sw (ex_after (ex_conf x) (ex_node ex_row x) ex_other (ex_start [ex_tacl])).
Definition ex_pk : packet := mkPacket 5 [(100, 1)] (fun g => match g with EthType => Some 0x800 | _ => None end).

Definition writes_of (ms : list ofmsg) : list flowmod := flat_map (fun m => if is_flow_write m then match m with FlowMod w => [w] | _ => [] end else []) ms.
Lemma writes_of_in : forall ms w, In (FlowMod w) ms -> is_flow_write (FlowMod w) = true -> In w (writes_of ms).
Proof. intros ms w I W. unfold writes_of. apply in_flat_map. exists (FlowMod w). rewrite W. split; [exact I|left; reflexivity]. Qed.
Lemma after_update : forall c sp ls name me pre acls' ms out, sn_name me = name ->
  add_tunnel_acls c me (tw_acls (ex_start ls)) = (acls', Some ms) -> ordinary c sp pre ->
  forallb (fun w => fm_cookie w =? 7) (writes_of (pre ++ ms)) = true ->
  valve_flowreorder (fun l => l) true (pre ++ ms) = Some out ->
  up_to_date c sp ls name me (mkTworld acls' (apply_msgs out empty_switch)).
Proof.
  intros c sp ls name me pre acls' ms out N A O K V. apply (up_to_date_now c sp ls name me (ex_start ls)); [constructor|].
  apply (tupdate_batch c sp me (ex_start ls) acls' pre ms (fun l => l) true out); auto.
  intros a b IA IB WA WB _. rewrite forallb_forall in K. assert (IB' : In (FlowMod b) (pre ++ ms)) by (apply in_or_app; auto).
  assert (X := K a (writes_of_in _ _ IA WA)). assert (Y := K b (writes_of_in _ _ IB' WB)). apply Z.eqb_eq in X, Y. congruence.
Qed.
Lemma ex_ordinary : forall x sp, ordinary (ex_conf x) sp ex_other.
Proof.
  intros x sp w [E|[E|[]]]; injection E as <-; (split; [discriminate|]); intros _ T.
  - left. vm_compute. reflexivity.
  - vm_compute in T. discriminate T.
Qed.
Lemma ex_net : tunnel_net ex_row 1 [ex_tacl] ex_conf ex_sw.
Proof.
  constructor.
  - apply agreed_check; vm_compute; reflexivity.
  - intros s p I P. vm_compute in I. repeat (destruct I as [I|I]; [subst s|]); try contradiction; cbn in P; repeat (destruct P as [P|P]; [subst p; reflexivity|]); contradiction.
  - intros s p I P. vm_compute in I. repeat (destruct I as [I|I]; [subst s|]); try contradiction; cbn in P; repeat (destruct P as [P|P]; [subst p; vm_compute; split; [reflexivity|discriminate]|]); contradiction.
  - intros x. vm_compute. discriminate.
  - intros s I. assert (U : exists x, s = ex_node ex_row x /\ In x [1; 2; 3]).
    { vm_compute in I. destruct I as [<-|[<-|[<-|[]]]]; [exists 1|exists 2|exists 3]; (split; [vm_compute; reflexivity|cbn; auto]). }
    destruct U as (x & -> & X). destruct X as [<-|[<-|[<-|[]]]];
      (eexists; split; [eapply after_update; [vm_compute; reflexivity|vm_compute; reflexivity|apply (ex_ordinary 1)|vm_compute; reflexivity|vm_compute; reflexivity]|vm_compute; reflexivity]).
  - intros l d [<-|[]] [<-|[]]. vm_compute. split; [discriminate|reflexivity].
  - intros l d l' d' [<-|[]] [<-|[]] [<-|[]] [<-|[]] _. reflexivity.
  - intros l d [<-|[]] [<-|[]] E. discriminate E.
  - intros l r [<-|[]] [<-|[<-|[]]]; repeat constructor; intros [].
Qed.
Lemma ex_not_stack : forall n t, In t ex_row -> ~ In n [1; 2] -> ~ In n (map sp_no (sn_ports t)).
Proof. intros n t I N J. apply N. vm_compute in I. destruct I as [<-|[<-|[<-|[]]]]; cbn in J; cbn; tauto. Qed.
Lemma ex_joined_row : joined ex_row 1 3 /\ joined ex_row 3 1.
Proof. split; [apply (joined_trans _ 1 2 3)|apply (joined_trans _ 3 2 1)]; apply joined_one; vm_compute; auto 10. Qed.
Example C48_case :
  tunnel_net ex_row 1 [ex_tacl] ex_conf ex_sw /\ joined ex_row 1 3 /\ exit_ok ex_dest /\
  (forall t, In t ex_row -> sn_name t = 1 -> ~ In (pk_in ex_pk) (map sp_no (sn_ports t))) /\
  only_tunnel ex_tunnel 3000 /\ first_at ex_tunnel 0 (rules_at (ex_conf 1) ex_tacl ex_source) /\ alone (ex_conf 1) [ex_tacl] ex_tacl ex_source /\
  fields_once ex_tunnel /\ decides_at (ex_sw 1) 0 ex_source ex_tunnel 0 ex_pk /\
  (** what the switches do: the tagged frame; the frame itself, which is also allowed *)
  (exists es, walk (ex_sw 1) (fun _ => true) 0 ex_pk es /\ map (fun e => (fst e, pk_tags (snd e))) es = [(1, [(3000, 3); (100, 1)]); (7, [(100, 1)])]) /\
  (exists es, walk (ex_sw 3) (fun _ => true) 0 (entering 1 (tagged 3000 3 ex_pk)) es /\ map (fun e => (fst e, pk_tags (snd e))) es = [(6, [(100, 1)])]).
Proof.
  split; [exact ex_net|]. split; [apply ex_joined_row|]. split; [constructor|]. split.
  { intros t I _. apply ex_not_stack; [exact I|]. cbn. lia. }
  split. { eexists. split; [reflexivity|]. split; [reflexivity|]. split; [reflexivity|]. left. reflexivity. }
  split. { split; [reflexivity|]. intros j J. lia. }
  split. { split; [reflexivity|]. split; [reflexivity|]. intros l' s' [<-|[]] [<-|[]] _. split; [discriminate|reflexivity]. }
  split. { repeat constructor. intros []. }
  split.
  { split.
    - split; [reflexivity|]. intros o g v m [E|[]] _. injection E as <- <- <- <-. exists 0x800. split; reflexivity.
    - intros e I. vm_compute in I. repeat (destruct I as [<-|I]; [intros T M P; vm_compute in T; try discriminate T; vm_compute in M; try discriminate M; vm_compute in P; try (exfalso; apply P; reflexivity); split; vm_compute; reflexivity|]); contradiction. }
  split; (eexists; split; [apply (walk_run_sound 5); vm_compute; reflexivity|vm_compute; reflexivity]).
Qed.
Definition ex_back : packet := mkPacket 6 [(3000, 4); (100, 1)] (fun g => match g with EthType => Some 0x800 | _ => None end).
Example C48_back_case :
  joined ex_row 3 1 /\ (forall l' s', In l' [ex_tacl] -> In ex_dest (tl_dests l') -> In s' (tl_sources l') -> s' = ex_source) /\
  (forall t, In t ex_row -> sn_name t = 3 -> ~ In (pk_in ex_back) (map sp_no (sn_ports t))) /\ not_overridden (ex_sw 3) 0 ex_back /\
  (exists es, walk (ex_sw 3) (fun _ => true) 0 ex_back es /\ map (fun e => (fst e, pk_tags (snd e))) es = [(1, [(3000, 4); (100, 1)])]) /\
  (exists es, walk (ex_sw 2) (fun _ => true) 0 (entering 2 ex_back) es /\ map (fun e => (fst e, pk_tags (snd e))) es = [(1, [(3000, 4); (100, 1)])]) /\
  (exists es, walk (ex_sw 1) (fun _ => true) 0 (entering 1 ex_back) es /\ map (fun e => (fst e, pk_tags (snd e))) es = [(5, [(100, 1)])]).
Proof.
  split; [apply ex_joined_row|]. split; [intros l' s' [<-|[]] _ [<-|[]]; reflexivity|]. split.
  { intros t I _. apply ex_not_stack; [exact I|]. cbn. lia. }
  split.
  { intros e I. vm_compute in I. repeat (destruct I as [<-|I]; [intros _ M; vm_compute in M; repeat (destruct M as [M|M]; [discriminate M|]); try contradiction; vm_compute; reflexivity|]); contradiction. }
  split; [|split]; (eexists; split; [apply (walk_run_sound 5); vm_compute; reflexivity|vm_compute; reflexivity]).
Qed.

(** ** Where tunnels fail *)

(** A rule whose output has two tunnels: while one of the destinations cannot be
    reached, the update ends with a KeyError, and the tunnel to the other
    destination, that can be reached, is not set up either. *)
Definition ex_two : rule := mkRule [] None (Some (mkActions None None None None (Some (Ordered [OTunnel 3000; OTunnel 3001])) None)).
Definition ex_two_acl : tacl :=
  mkTacl (mkAcl [ex_two] false) [mkTdest 3000 2 (Some 6) false false false []; mkTdest 3001 3 (Some 6) false false false []] [ex_source].
Theorem C48_two_tunnels_refuted : exists f root c me l d s, agreed f root /\ In me f /\ sn_name me = ts_dp s /\
  In d (tl_dests l) /\ In s (tl_sources l) /\ joined f (ts_dp s) (td_dp d) /\ alone c [l] l s /\
  snd (add_tunnel_acls c me [(l, [])]) = None.
Proof.
  set (f := wired [1; 2; 3] 1 [(1, 1, (2, 1), true); (2, 2, (3, 1), false)]).
  exists f, 1, (ex_conf 1), (ex_node f 1), ex_two_acl, (mkTdest 3000 2 (Some 6) false false false []), ex_source.
  split; [apply agreed_check; vm_compute; reflexivity|]. split; [vm_compute; auto|]. split; [vm_compute; reflexivity|]. split; [left; reflexivity|]. split; [left; reflexivity|].
  split; [apply joined_one; vm_compute; auto|]. split; [|vm_compute; reflexivity].
  split; [reflexivity|]. split; [reflexivity|]. intros l' s' [<-|[]] [<-|[]] _. split; [discriminate|reflexivity].
Qed.
Print Assumptions C48_two_tunnels_refuted.

(** Two tunnels to the same destination share an id.  If one of them is to keep the
    tag, so does the other: a switch that is up to date sends a frame of the tunnel
    [d] out of its destination with the tag of the tunnel on, although [d] is not to
    keep it. *)
Definition ex_keep : tacl :=
  mkTacl (mkAcl [mkRule [] None (Some (mkActions None None None None (Some (Ordered [OTunnel 3000])) None))] false)
    [mkTdest 3000 3 (Some 6) false true true []] [mkTsource 2 (Some 5)].
Theorem C48_shared_destination_refuted : exists f root ls c me w l d s pk es, agreed f root /\ In me f /\ In l ls /\ In d (tl_dests l) /\ In s (tl_sources l) /\
  up_to_date c (map sp_no (sn_ports me)) ls (sn_name me) me w /\ sn_name me = td_dp d /\ td_maintain d = false /\
  walk (tw_sw w) (fun _ => true) (tb_id (tc_table c)) (entering 1 (tagged (td_id d) (pcp_of d) pk)) es /\
  map (fun e => pk_tags (snd e)) es = [(td_id d, pcp_of d) :: pk_tags pk].
Proof.
  set (ls := [ex_tacl; ex_keep]). destruct (add_tunnel_acls (ex_conf 3) (ex_node ex_row 3) (tw_acls (ex_start ls))) as [acls' [ms|]] eqn:A; [|vm_compute in A; discriminate A].
  destruct (valve_flowreorder (fun l => l) true (ex_other ++ ms)) as [out|] eqn:V.
  - exists ex_row, 1, ls, (ex_conf 3), (ex_node ex_row 3), (mkTworld acls' (apply_msgs out empty_switch)), ex_tacl, ex_dest, ex_source, ex_pk. eexists.
    split; [apply (tn_agreed _ _ _ _ _ ex_net)|]. split; [vm_compute; auto|]. split; [left; reflexivity|]. split; [left; reflexivity|]. split; [left; reflexivity|]. split.
    { apply (after_update _ _ _ _ _ ex_other acls' ms out); [reflexivity|exact A|apply (ex_ordinary 3)| |exact V]. vm_compute in A. injection A as _ <-. vm_compute. reflexivity. }
    split; [vm_compute; reflexivity|]. split; [reflexivity|].
    vm_compute in A. injection A as <- <-. vm_compute in V. injection V as <-. split; [apply (walk_run_sound 5); vm_compute; reflexivity|vm_compute; reflexivity].
  - exfalso. vm_compute in A. injection A as _ <-. vm_compute in V. discriminate V.
Qed.
Print Assumptions C48_shared_destination_refuted.

(** A bi-directional tunnel with two sources: the entries for the way back are one
    and the same flow, so there is no way back to one of the sources. *)
Definition ex_pair : tacl :=
  mkTacl (mkAcl [mkRule [] None (Some (mkActions None None None None (Some (Ordered [OTunnel 3000])) None))] false)
    [mkTdest 3000 2 (Some 6) false true false []] [mkTsource 1 (Some 5); mkTsource 3 (Some 5)].
Definition ex_pair_sw (x : Z) : switch := tw_sw (ex_after (ex_conf x) (ex_node ex_row x) [] (ex_start [ex_pair])).
Lemma ex_pair_net : tunnel_net ex_row 1 [ex_pair] ex_conf ex_pair_sw.
Proof.
  constructor; try apply ex_net.
  - intros s I. assert (U : exists x, s = ex_node ex_row x /\ In x [1; 2; 3]).
    { vm_compute in I. destruct I as [<-|[<-|[<-|[]]]]; [exists 1|exists 2|exists 3]; (split; [vm_compute; reflexivity|cbn; auto]). }
    destruct U as (x & -> & X). destruct X as [<-|[<-|[<-|[]]]];
      (eexists; split; [eapply (after_update _ _ _ _ _ []); [vm_compute; reflexivity|vm_compute; reflexivity|intros w []|vm_compute; reflexivity|vm_compute; reflexivity]|vm_compute; reflexivity]).
  - intros l d [<-|[]] [<-|[]]. vm_compute. split; [discriminate|reflexivity].
  - intros l d l' d' [<-|[]] [<-|[]] [<-|[]] [<-|[]] _. reflexivity.
  - intros l d [<-|[]] [<-|[]] E. discriminate E.
  - intros l r [<-|[]] [<-|[]]; repeat constructor; intros [].
Qed.
Theorem C48_two_sources_refuted : exists f root ls cf sw l d s pk r, tunnel_net f root ls cf sw /\
  In l ls /\ In d (tl_dests l) /\ In s (tl_sources l) /\ td_bidir d = true /\ ts_dp s <> td_dp d /\ joined f (td_dp d) (ts_dp s) /\
  (forall t, In t f -> sn_name t = td_dp d -> ~ In (pk_in pk) (map sp_no (sn_ports t))) /\
  not_overridden (sw (td_dp d)) (tb_id (tc_table (cf (td_dp d)))) pk /\ pk_tags pk = (td_id d, PCP_TUNNEL_REVERSE_DIRECTION_FLAG) :: r /\
  forall n k, ~ transits f sw (fun _ _ => true) (fun x => tb_id (tc_table (cf x))) n (td_dp d) pk (ts_dp s) (entering k pk).
Proof.
  exists ex_row, 1, [ex_pair], ex_conf, ex_pair_sw, ex_pair, (mkTdest 3000 2 (Some 6) false true false []), (mkTsource 1 (Some 5)), ex_back, [(100, 1)].
  split; [exact ex_pair_net|]. split; [left; reflexivity|]. split; [left; reflexivity|]. split; [left; reflexivity|]. split; [reflexivity|]. split; [discriminate|].
  split; [apply joined_one; vm_compute; auto|]. split. { intros t I _. apply ex_not_stack; [exact I|]. cbn. lia. }
  split.
  { intros e I. vm_compute in I. repeat (destruct I as [<-|I]; [intros _ M; vm_compute in M; repeat (destruct M as [M|M]; [discriminate M|]); try contradiction; vm_compute; reflexivity|]); contradiction. }
  split; [reflexivity|].
  assert (W2 : exists p', walk (ex_pair_sw 2) (fun _ => true) 0 ex_back [(2, p')]) by (eexists; apply (walk_run_sound 5); vm_compute; reflexivity).
  assert (W3 : forall pk', pk_in pk' = 1 -> pk_tags pk' = [(3000, 4); (100, 1)] -> exists p', walk (ex_pair_sw 3) (fun _ => true) 0 pk' [(5, p')]).
  { intros [i tags h] PI PT. cbn in PI, PT. subst i tags. eexists. apply (walk_run_sound 5). vm_compute. reflexivity. }
  intros n k T. cbn [td_dp ts_dp] in T. inversion T as [|n' x pk0 p y q z pk' LK W TM T' E1 E2]; subst.
  destruct W2 as (p2 & W2). apply W in W2. assert (E : sp_no p = 2) by congruence. destruct LK as (s1 & t & Is & Ns & Ip & Up & It & Nt & Iq & Uq & DP & PE & DQ & QE).
  assert (Y : y = 3 /\ sp_no q = 1).
  { vm_compute in Is. repeat (destruct Is as [<-|Is]); try contradiction; cbn in Ns; try discriminate Ns. cbn in Ip. destruct Ip as [<-|[<-|[]]]; cbn in *; [discriminate E|]. split; congruence. }
  destruct Y as [-> Q]. rewrite Q in T'. inversion T' as [|n2 x2 pk2 p3 y3 q3 z3 pk3 LK3 W3' TM3 T3 E3 E4]; subst.
  destruct (W3 (entering 1 ex_back) eq_refl eq_refl) as (p5 & W5). apply W3' in W5. assert (E5 : sp_no p3 = 5) by congruence. destruct LK3 as (s3 & _ & Is3 & Ns3 & Ip3 & _).
  vm_compute in Is3. repeat (destruct Is3 as [<-|Is3]); try contradiction; cbn in Ns3; try discriminate Ns3. cbn in Ip3. destruct Ip3 as [<-|[]]. discriminate E5.
Qed.
Print Assumptions C48_two_sources_refuted.
