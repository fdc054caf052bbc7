(** * Routing: longest prefix (C24), next hop resolution (C25, C26), the route
      table (C27) and the FIB (C54) *)
From Coq Require Import ZArith List Bool Lia Permutation.
From Verif Require Import PyBase PyBaseProofs OpenFlow TrimModel TableModel ReorderModel ReorderSpec IpModel IpSpec IpProofs RouteModel RouteSpec
  RouteFib RouteRib RouteMicro RouteShape RouteInv RouteCalm RouteTidy RouteHistory RouteWanted RouteResolve RouteHits RouterCheckModel RouterCheckProps.
Import ListNotations.
Open Scope Z_scope.

(** ** An example: two VLANs and a router between them *)

Definition ex_env : renv := mkRenv (fun v _ => [([v / 100], 7)]) (fun _ _ _ => 8) (fun _ _ => 0) (fun l => l) (fun _ => 10).
Definition ex_c : rconf :=
  mkRconf 4 [mkVlan 100 0xe01 [mkVip (ip4 10 0 0 254) 24] false None [1]; mkVlan 200 0xe02 [mkVip (ip4 10 0 1 254) 24] true None [2]]
    [[100; 200]] 0 (mkTable 4 0x5ad 0) 8 6 0 true true 250 2 3 64.
Definition ex_gw : ip := ip4 10 0 1 1.
Definition ex_dst : net := mkNet 4 (ip_val (ip4 10 99 0 0)) 16.
Definition ex_static (v : Z) : list (net * ip) := if v =? 200 then [(ex_dst, ex_gw)] else [].
(** An ARP reply from [a] in VLAN [v], and an IP packet to a host that the FIB sent
    to the controller. *)
Definition ex_reply (v port eth : Z) (a : ip) : rpkt := mkRpkt v port eth true false a (ip4 10 0 1 254) false true false (PAdvert a) 0.
Definition ex_ip (v port eth : Z) (a b : ip) : rpkt := mkRpkt v port eth true false a b true true false PPlain 0.

Lemma ex_env_ok : env_ok ex_env.
Proof. split; [cbn; lia|auto]. Qed.
Lemma ex_cfg : route_cfg ex_c.
Proof.
  constructor.
  - now left.
  - repeat constructor; cbn; intuition discriminate.
  - intros v H. cbn in H. destruct H as [<-|[<-|[]]]; lia.
  - intros v p [<-|[<-|[]]] [<-|[]]; (split; [left; cbn; lia|cbn; lia]).
  - intros r v [<-|[]] H. exact H.
  - cbn. lia.
  - discriminate.
  - reflexivity.
  - reflexivity.
Qed.
Lemma ex_net : my_net ex_c ex_dst.
Proof. split; [|reflexivity]. split; [now left|]. split; [cbn; lia|]. split; [cbn; lia|]. split; [vm_compute; discriminate|]. exists 2659. reflexivity. Qed.
Lemma ex_gw_ok : my_ip ex_c ex_gw.
Proof. split; [left; cbn; lia|reflexivity]. Qed.
Lemma ex_static_ok : static_ok ex_c ex_static.
Proof.
  split.
  - intros v H. unfold ex_static. destruct (v =? 200) eqn:E; [|reflexivity]. apply Z.eqb_eq in E as ->. destruct H. cbn. auto.
  - intros v d g. unfold ex_static. destruct (v =? 200); [|intros []]. intros [E|[]]. injection E as <- <-. split; [apply ex_net|apply ex_gw_ok].
Qed.
Lemma ex_on_link v a : on_link ex_c v a -> (v = 100 /\ belongs a (mkNet 4 167772160 24)) \/ (v = 200 /\ belongs a (mkNet 4 167772416 24)).
Proof. intros (x & p & [<-|[<-|[]]] & <- & [<-|[]] & B); [left|right]; (split; [reflexivity|exact B]). Qed.
Lemma ex_gw_link : on_link ex_c 200 ex_gw.
Proof.
  eexists (mkVlan 200 _ _ _ _ _), _. split; [right; left; reflexivity|]. split; [reflexivity|]. split; [left; reflexivity|]. split; [reflexivity|vm_compute; split; discriminate || reflexivity].
Qed.
Lemma ex_static_unique : static_unique ex_c ex_static.
Proof.
  assert (forall v d g, In (d, g) (ex_static v) -> v = 200 /\ d = ex_dst /\ g = ex_gw) as H.
  { intros v d g. unfold ex_static. destruct (v =? 200) eqn:E; [|intros []]. apply Z.eqb_eq in E. intros [X|[]]. injection X as <- <-. auto. }
  split.
  - intros v v' d g g' I I'. destruct (H _ _ _ I) as (_ & _ & ->), (H _ _ _ I') as (_ & _ & ->). reflexivity.
  - intros v v' h g I. destruct (H _ _ _ I) as (_ & X & _). unfold host_net, ex_dst in X. injection X as Hv _ Hl. rewrite Hv in Hl. discriminate.
  - intros v d g I. destruct (H _ _ _ I) as (-> & _ & ->). apply ex_gw_link.
Qed.
Lemma ex_apart : subnets_apart ex_c.
Proof.
  intros v v' u a _ _ _ _ _ O O'. apply ex_on_link in O as [[-> B]|[-> B]], O' as [[-> B']|[-> B']]; auto;
    destruct B as [_ B], B' as [_ B']; cbn in B, B'; lia.
Qed.
Lemma ex_one_router : one_router ex_c.
Proof. intros r r' v [<-|[]] [<-|[]]. auto. Qed.

(** Playing events, oldest first. *)
Fixpoint play (c : rconf) (evs : list revent) (w : rworld) : option rworld :=
  match evs with
  | [] => Some w
  | ev :: rest =>
      match route_step c ex_env ev (rw_st w) with
      | None => None
      | Some (s, ms) =>
          match valve_flowreorder (fun l => l) true ms with
          | None => None
          | Some out =>
              play c rest match ev with
                          | RConnect => mkRworld s (apply_msgs out (rw_sw w)) true
                          | _ => mkRworld s (if rw_up w then apply_msgs out (rw_sw w) else rw_sw w) (rw_up w)
                          end
          end
      end
  end.
Lemma play_reach c static (P : rst -> revent -> Prop) evs : forall h w w', play c evs w = Some w' -> rreach c static P h w ->
  (forall ev, In ev evs -> event_ok c ev /\ forall s, P s ev) -> rreach c static P (rev evs ++ h) w'.
Proof.
  induction evs as [|ev evs IH]; intros h w w' E R H; cbn [play] in E.
  - injection E as <-. exact R.
  - destruct (route_step c ex_env ev (rw_st w)) as [[s ms]|] eqn:St; [|discriminate].
    destruct (valve_flowreorder _ _ ms) as [out|] eqn:Ro; [|discriminate].
    cbn [rev]. rewrite <- app_assoc. cbn [app].
    assert (forall ev', In ev' evs -> event_ok c ev' /\ forall s, P s ev') as H' by (intros; apply H; now right).
    destruct (H ev (or_introl eq_refl)) as [Ok Hp].
    assert (ev = RConnect \/ ev <> RConnect) as [->|Ne] by (destruct ev; (now left) || (right; discriminate)).
    + eapply IH; [exact E| |exact H']. eapply rr_connect; eauto. intros l. apply Permutation_refl.
    + eapply IH; [destruct ev; try exact E; congruence| |exact H']. eapply rr_event; eauto; [apply ex_env_ok|intros l; apply Permutation_refl].
Qed.
Definition idle (static : Z -> list (net * ip)) : rworld := mkRworld (start static) (mkSwitch [] [] []) false.
Definition after (c : rconf) (static : Z -> list (net * ip)) (evs : list revent) : rworld :=
  match play c evs (idle static) with Some w => w | None => idle static end.
Lemma after_reach c static (P : rst -> revent -> Prop) evs : play c evs (idle static) <> None -> (forall ev, In ev evs -> event_ok c ev /\ forall s, P s ev) ->
  rreach c static P (rev evs) (after c static evs).
Proof.
  intros N H. unfold after. destruct (play c evs (idle static)) as [w|] eqn:E; [|congruence].
  rewrite <- (app_nil_r (rev evs)). eapply play_reach; eauto. apply rr_start.
Qed.

(** The switch connects, and the gateway announces itself. *)
Definition ex_evs : list revent := [RConnect; RPacket 10 (ex_reply 200 2 0xaa ex_gw)].
Definition ex_w : rworld := after ex_c ex_static ex_evs.
Lemma ex_reach (P : rst -> revent -> Prop) : (forall s, P s RConnect) -> (forall s now p, P s (RPacket now p)) -> rreach ex_c ex_static P (rev ex_evs) ex_w.
Proof.
  intros H1 H2. apply after_reach; [vm_compute; discriminate|]. intros ev [<-|[<-|[]]]; (split; [|auto]); [exact Logic.I|].
  split; [apply ex_gw_ok|]. split; [split; [left; cbn; lia|reflexivity]|apply ex_gw_ok].
Qed.

(** ** C24: longest prefix *)

(** An IP packet in VLAN [u] to [a] is handled by an entry for a destination [d]
    that contains [a]; there is no entry for a longer destination that contains it.
    The entry drops the packet, sends it to the router itself, or forwards it into
    a VLAN routed together with [u].  If no entry is for a destination that contains
    [a], the packet is dropped. *)
Theorem C24_longest_prefix : forall c static P evs w u a p f,
  route_cfg c -> static_ok c static -> rreach c static P evs w -> rw_up w = true ->
  0 <= u <= 0xfff -> my_ip c a -> ip_packet c u a p -> hit (sw_flows (rw_sw w)) (tb_id (rc_fib c)) p f ->
  (exists d, my_net c d /\ serves c f u d /\ belongs a d /\
     (forall f' d', In f' (sw_flows (rw_sw w)) -> my_net c d' -> serves c f' u d' -> belongs a d' -> n_len d' <= n_len d) /\
     (drops f \/ to_router c f \/ exists v e, configured c v /\ routed_from c v u /\ forwards c f v (vl_mac (get_vlan c v)) e)) \/
  (drops f /\ forall f' d', In f' (sw_flows (rw_sw w)) -> my_net c d' -> serves c f' u d' -> ~ belongs a d').
Proof.
  intros c static P evs w u a p f K So R Up U A Pk H.
  destruct (history_shape c K static P evs w So R) as [_ F]. specialize (F Up).
  destruct (hit_cases c K _ unconditional F u a p U A Pk f H) as [(d & D & S & B & _ & _ & L & X)|[-> N]].
  - left. exists d. split; [exact D|]. split; [exact S|]. split; [exact B|]. split; [exact L|].
    destruct X as [X|[X|(v & e & C & Rf & _ & X)]]; [now left|right; now left|right; right; eauto].
  - right. split; [reflexivity|exact N].
Qed.
Print Assumptions C24_longest_prefix.

(** Exactly one entry handles each packet. *)
Theorem C24_one_entry : forall c static P evs w u a p,
  route_cfg c -> static_ok c static -> rreach c static P evs w -> rw_up w = true ->
  0 <= u <= 0xfff -> my_ip c a -> ip_packet c u a p ->
  exists f, hit (sw_flows (rw_sw w)) (tb_id (rc_fib c)) p f /\ forall f', hit (sw_flows (rw_sw w)) (tb_id (rc_fib c)) p f' -> f' = f.
Proof.
  intros c static P evs w u a p K So R Up U A Pk.
  destruct (history_shape c K static P evs w So R) as [_ F]. specialize (F Up).
  pose proof (history_uniq c static P evs w R Up) as Un.
  pose proof (miss_present c K static P evs w So R Up) as M.
  destruct (hit_exists c (sw_flows (rw_sw w)) M p) as [f H]. exists f. split; [exact H|].
  intros f' H'. eapply (hit_unique c K (sw_flows (rw_sw w)) unconditional F Un u a p); eauto.
Qed.
Print Assumptions C24_one_entry.

(** The packet to 10.99.3.4 is handled by the entry for 10.99.0.0/16; there are five
    entries (the two VIPs, two for each connected subnet, two for the route, and
    the last resort). *)
Example C24_example :
  rreach ex_c ex_static anything (rev ex_evs) ex_w /\ rw_up ex_w = true /\ my_ip ex_c (ip4 10 99 3 4) /\
  ip_packet ex_c 100 (ip4 10 99 3 4) (sample ex_c 100 (ip4 10 99 3 4)) /\ length (sw_flows (rw_sw ex_w)) = 9%nat /\
  exists f, hit (sw_flows (rw_sw ex_w)) (tb_id (rc_fib ex_c)) (sample ex_c 100 (ip4 10 99 3 4)) f /\
            serves ex_c f 100 ex_dst /\ forwards ex_c f 200 0xe02 0xaa.
Proof.
  split; [apply ex_reach; intros; exact Logic.I|]. split; [vm_compute; reflexivity|]. split; [split; [left; cbn; lia|reflexivity]|].
  split; [apply sample_ok|]. split; [vm_compute; reflexivity|].
  exists (entry ex_c 100 ex_dst (nexthop_inst ex_c 200 0xaa) 0). split; [|split; [apply entry_serves; [lia|apply ex_net]|]].
  - split; [vm_compute; tauto|]. split; [reflexivity|]. split; [vm_compute; reflexivity|].
    intros g I T M. vm_compute in I. repeat destruct I as [<-|I]; try destruct I; vm_compute in M; discriminate || (vm_compute; discriminate).
  - apply (entry_forwards ex_c ex_cfg 200). cbn. auto.
Qed.

(** ** C54: the FIB follows the routes *)

(** While routes are not replaced: every entry that forwards goes to the current
    gateway of a current route for its destination, at its current MAC, if the MAC
    is known.  Excepted are entries for single hosts on connected subnets, see
    [C54_host_entry_refuted]. *)
Theorem C54_fib_sound_partial : forall c static evs w f,
  route_cfg c -> static_ok c static -> static_unique c static -> rreach c static (no_replacement c) evs w -> rw_up w = true ->
  In f (sw_flows (rw_sw w)) ->
  drops f \/ to_router c f \/
  exists u v d e, configured c v /\ routed_from c v u /\ my_net c d /\ serves c f u d /\ forwards c f v (vl_mac (get_vlan c v)) e /\
    ((exists h x, my_ip c h /\ d = host_net h /\ on_link c x h) \/
     exists g, route (rw_st w v) d g /\ forall e', resolved (rw_st w v) g e' -> e' = e).
Proof.
  intros c static evs w f K So Su R Up I.
  destruct (calm_history c K static So Su evs w R) as ([B _] & F & _). specialize (F Up f I).
  destruct (fibent_cases c K _ f F) as [->|(u & d & U & D & S & _ & _ & X)]; [left; reflexivity|].
  destruct X as [X|[X|(v & e & C & Rf & Lv & Fw)]]; [now left|right; now left|]. right; right.
  exists u, v, d, e. split; [exact C|]. split; [exact Rf|]. split; [exact D|]. split; [exact S|]. split; [exact Fw|].
  destruct Lv as [Lv|(g & G & E)]; [now left|]. right. pose proof (ba_rib c _ _ B v) as O. exists g. split; [now apply route_get|].
  intros e' Re. apply resolved_cached in Re; [|exact O]. destruct E; congruence.
Qed.
Print Assumptions C54_fib_sound_partial.

(** ... and every route through a resolved gateway is in force: packets to its
    destination from the VLANs routed together go to the gateway's MAC, in the
    gateway's VLAN, from the router's MAC, unless there is an entry for a longer
    prefix. *)
Theorem C54_fib_complete : forall c static evs w v d g e u a p,
  route_cfg c -> static_ok c static -> static_unique c static -> subnets_apart c ->
  rreach c static (no_replacement c) evs w -> rw_up w = true ->
  route (rw_st w v) d g -> resolved (rw_st w v) g e -> routed_from c v u -> my_ip c a -> ip_packet c u a p -> belongs a d ->
  (forall f' d', In f' (sw_flows (rw_sw w)) -> my_net c d' -> serves c f' u d' -> belongs a d' -> n_len d' <= n_len d) ->
  exists f, hit (sw_flows (rw_sw w)) (tb_id (rc_fib c)) p f /\ serves c f u d /\ forwards c f v (vl_mac (get_vlan c v)) e.
Proof.
  intros c static evs w v d g e u a p K So Su SA R Up Ro Re Rf A Pk B L.
  destruct (calm_history c K static So Su evs w R) as ([Ba Ca] & F & Co). specialize (F Up). specialize (Co SA Up).
  pose proof (ba_rib c _ _ Ba v) as O. apply route_get in Ro; [|exact O]. apply resolved_cached in Re; [|exact O].
  apply routed_vlans_spec in Rf. specialize (Co v d g e u Ro Re Rf).
  pose proof (route_linked c _ v d g Ba Ro) as Lk. pose proof (lk_conf c v g Lk) as C.
  pose proof (routed_vid c v u K C Rf) as U.
  assert (my_net c d) as D. { apply (ba_net c _ _ Ba v g d). apply (ro_filed (rw_st w v) O d g Ro). }
  set (f0 := entry c u d (nexthop_inst c v e) 0) in *.
  assert (serves c f0 u d) as S0 by (now apply entry_serves).
  pose proof (history_uniq c static _ evs w R Up) as Un.
  pose proof (miss_present c K static _ evs w So R Up) as M.
  destruct (hit_exists c (sw_flows (rw_sw w)) M p) as [f H].
  assert (f = f0) as ->.
  { destruct (hit_cases c K _ _ F u a p U A Pk f H) as [(d2 & D2 & S2 & B2 & P2 & E2 & L2 & _)|[_ N]].
    - assert (d2 = d) as ->.
      { apply (same_len_net c a); auto. pose proof (L2 f0 d Co D S0 B). pose proof (L f d2 (proj1 H) D2 S2 B2). lia. }
      apply Un; [apply H|exact Co|exact (proj1 S2)|exact P2|exact E2].
    - destruct (N f0 d Co D S0 B). }
  exists f0. split; [exact H|]. split; [exact S0|]. now apply entry_forwards.
Qed.
Print Assumptions C54_fib_complete.

Example C54_example :
  rreach ex_c ex_static (no_replacement ex_c) (rev ex_evs) ex_w /\ route (rw_st ex_w 200) ex_dst ex_gw /\
  resolved (rw_st ex_w 200) ex_gw 0xaa /\ routed_from ex_c 200 100.
Proof.
  split; [apply ex_reach; intros; exact Logic.I|]. split; [vm_compute; tauto|]. split.
  - eexists. split; [vm_compute; left; reflexivity|reflexivity].
  - right. exists [100; 200]. cbn. auto.
Qed.

(** Findings. *)
Definition no_static (v : Z) : list (net * ip) := [].
Lemma no_static_ok : static_ok ex_c no_static.
Proof. split; [reflexivity|intros v d g []]. Qed.
Lemma no_static_unique : static_unique ex_c no_static.
Proof. split; intros; contradiction. Qed.
Ltac my_addr := split; [left; cbn; lia|reflexivity].
Ltac ok_event := cbv [event_ok]; first [exact Logic.I | apply ex_net | split; [my_addr|first [apply ex_net | split; [my_addr|first [my_addr|exact Logic.I]]]]].
Ltac ex_events := apply Forall_forall; repeat (apply Forall_cons; [split; [ok_event|intros; exact Logic.I]|]); apply Forall_nil.

(** A host announces itself and goes away.  A packet to it makes the controller
    route to it, which installs the entry for the MAC it still knows and at the same
    time forgets the MAC.  When the controller gives up on the host it removes the
    route but not the entry, which stays for good. *)
Definition ex_gone : list revent :=
  [RConnect; RPacket 10 (ex_reply 100 1 0xbb (ip4 10 0 0 7)); RPacket 20 (ex_ip 200 2 0xcc (ip4 10 0 1 9) (ip4 10 0 0 7));
   RExpire 100; RExpire 200; RExpire 300].
Theorem C54_host_entry_refuted : exists c static evs w f u v e d,
  route_cfg c /\ static_ok c static /\ static_unique c static /\ subnets_apart c /\
  rreach c static (no_replacement c) evs w /\ rw_up w = true /\
  In f (sw_flows (rw_sw w)) /\ serves c f u d /\ forwards c f v (vl_mac (get_vlan c v)) e /\ f_hard f = 0 /\ f_idle f = 0 /\
  forall x g, configured c x -> ~ route (rw_st w x) d g.
Proof.
  exists ex_c, no_static, (rev ex_gone), (after ex_c no_static ex_gone), (entry ex_c 200 (host_net (ip4 10 0 0 7)) (nexthop_inst ex_c 100 0xbb) 0), 200, 100, 0xbb, (host_net (ip4 10 0 0 7)).
  split; [apply ex_cfg|]. split; [apply no_static_ok|]. split; [apply no_static_unique|]. split; [apply ex_apart|].
  split; [apply after_reach; [vm_compute; discriminate|ex_events]|]. split; [vm_compute; reflexivity|].
  split; [vm_compute; tauto|].
  split; [apply entry_serves; [lia|split; [apply host_net_good; left; cbn; lia|reflexivity]]|].
  split; [apply (entry_forwards ex_c ex_cfg 100); cbn; auto|]. split; [reflexivity|]. split; [reflexivity|].
  intros x g [<-|[<-|[]]] I; vm_compute in I; repeat destruct I as [I|I]; discriminate || destruct I.
Qed.

(** A packet that was on its way to the controller when the entry for its
    destination was installed makes the controller forget the host and replace the
    entry by a drop. *)
Definition ex_live : list revent :=
  [RConnect; RPacket 10 (ex_ip 100 1 0xbb (ip4 10 0 0 7) (ip4 10 0 1 9))].
Theorem C54_live_host_refuted : exists c static evs w w' h p f,
  route_cfg c /\ static_ok c static /\ static_unique c static /\ subnets_apart c /\
  rreach c static (no_replacement c) evs w /\ rw_up w = true /\ route (rw_st w 100) (host_net h) h /\ resolved (rw_st w 100) h 0xbb /\
  rp_dst p = h /\ rreach c static (no_replacement c) (RPacket 11 p :: evs) w' /\ rw_up w' = true /\
  In f (sw_flows (rw_sw w')) /\ serves c f 200 (host_net h) /\ drops f.
Proof.
  pose (p := ex_ip 200 2 0xcc (ip4 10 0 1 9) (ip4 10 0 0 7)).
  exists ex_c, no_static, (rev ex_live), (after ex_c no_static ex_live), (after ex_c no_static (ex_live ++ [RPacket 11 p])), (ip4 10 0 0 7), p, (entry ex_c 200 (host_net (ip4 10 0 0 7)) [] 10).
  split; [apply ex_cfg|]. split; [apply no_static_ok|]. split; [apply no_static_unique|]. split; [apply ex_apart|].
  split; [apply after_reach; [vm_compute; discriminate|ex_events]|]. split; [vm_compute; reflexivity|].
  split; [vm_compute; tauto|]. split; [eexists; split; [vm_compute; left; reflexivity|reflexivity]|]. split; [reflexivity|].
  split; [apply (after_reach ex_c no_static (no_replacement ex_c) (ex_live ++ [RPacket 11 p])); [vm_compute; discriminate|ex_events]|].
  split; [vm_compute; reflexivity|]. split; [vm_compute; tauto|].
  split; [apply entry_serves; [lia|split; [apply host_net_good; left; cbn; lia|reflexivity]]|reflexivity].
Qed.

(** A host that sends from the router's own address takes over the entry for it. *)
Definition ex_hijack : list revent := [RConnect; RPacket 10 (ex_ip 100 1 0xbad (ip4 10 0 0 254) (ip4 10 0 1 254))].
Theorem C54_vip_hijack_refuted : exists c static evs w x p f,
  route_cfg c /\ static_ok c static /\ static_unique c static /\ subnets_apart c /\
  rreach c static (no_replacement c) evs w /\ rw_up w = true /\ In x (rc_vlans c) /\ In p (vl_vips x) /\
  In f (sw_flows (rw_sw w)) /\ serves c f (vl_id x) (host_net (v_ip p)) /\ forwards c f (vl_id x) (vl_mac x) 0xbad.
Proof.
  exists ex_c, no_static, (rev ex_hijack), (after ex_c no_static ex_hijack), (mkVlan 100 0xe01 [mkVip (ip4 10 0 0 254) 24] false None [1]), (mkVip (ip4 10 0 0 254) 24),
    (entry ex_c 100 (host_net (ip4 10 0 0 254)) (nexthop_inst ex_c 100 0xbad) 0).
  split; [apply ex_cfg|]. split; [apply no_static_ok|]. split; [apply no_static_unique|]. split; [apply ex_apart|].
  split; [apply after_reach; [vm_compute; discriminate|ex_events]|]. split; [vm_compute; reflexivity|].
  split; [now left|]. split; [now left|]. split; [vm_compute; tauto|].
  split; [apply entry_serves; [cbn; lia|split; [apply host_net_good; left; cbn; lia|reflexivity]]|].
  apply (entry_forwards ex_c ex_cfg 100). cbn; auto.
Qed.

(** ** C27: the route table *)

(** The routes of a VLAN are those of the latest additions not followed by a
    deletion, starting from the configuration (single hosts on connected subnets
    are learned from packets and not covered). *)
Theorem C27_last_addition : forall c static P evs w v d g,
  route_cfg c -> one_router c -> subnets_apart c -> static_ok c static -> (forall v d g, In (d, g) (static v) -> on_link c v g) ->
  rreach c static P evs w -> (forall h, on_link c v h -> d <> host_net h) ->
  (route (rw_st w v) d g <-> wants c static v d evs g).
Proof. intros c static P evs w v d g K One SA So Sl R H. now apply (history_wanted c K One SA static So Sl P). Qed.
Print Assumptions C27_last_addition.

Definition ex_gw2 : ip := ip4 10 0 1 2.
Definition ex_dst2 : net := mkNet 4 (ip_val (ip4 10 98 0 0)) 16.
Lemma ex_net2 : my_net ex_c ex_dst2.
Proof. split; [|reflexivity]. split; [now left|]. split; [cbn; lia|]. split; [cbn; lia|]. split; [vm_compute; discriminate|]. exists 2658. reflexivity. Qed.
Example C27_example :
  rreach ex_c ex_static anything [RAdd 100 ex_gw2 ex_dst] (after ex_c ex_static [RAdd 100 ex_gw2 ex_dst]) /\
  (forall h, on_link ex_c 200 h -> ex_dst <> host_net h) /\
  wants ex_c ex_static 200 ex_dst [RAdd 100 ex_gw2 ex_dst] ex_gw2 /\ route (rw_st (after ex_c ex_static [RAdd 100 ex_gw2 ex_dst]) 200) ex_dst ex_gw2.
Proof.
  split; [apply (after_reach ex_c ex_static anything [RAdd 100 ex_gw2 ex_dst]); [vm_compute; discriminate|ex_events]|].
  split; [intros h _ X; unfold host_net, ex_dst in X; injection X as Hv _ Hl; rewrite <- Hv in Hl; discriminate|].
  split; [|vm_compute; tauto]. apply wt_add. split.
  - eexists (mkVlan 200 _ _ _ _ _), _. split; [right; left; reflexivity|]. split; [reflexivity|]. split; [left; reflexivity|]. split; [reflexivity|vm_compute; split; discriminate || reflexivity].
  - left. exists [100; 200]. cbn. auto.
Qed.

(** A destination has one gateway; the route is filed under it, so that it is set
    up when the gateway is heard of; and the gateway is looked after by exactly one
    of the two resolvers. *)
Theorem C27_filed : forall c static P evs w v d g,
  route_cfg c -> static_ok c static -> rreach c static P evs w -> route (rw_st w v) d g ->
  (forall g', route (rw_st w v) d g' -> g' = g) /\ filed (rw_st w v) d g /\
  ((watched_route (rw_st w v) g /\ ~ watched_host (rw_st w v) g) \/ (watched_host (rw_st w v) g /\ ~ watched_route (rw_st w v) g)).
Proof.
  intros c static P evs w v d g K So R H. pose proof (history_mine c K static P evs w So R) as B.
  pose proof (ba_rib c _ _ B v) as O. apply route_get in H; [|exact O]. pose proof (ro_filed _ O d g H) as F.
  split; [intros g' H'; apply route_get in H'; [congruence|exact O]|]. split.
  - unfold dsts_for_gw in F. destruct (dict_get ip_eqb g _) as [l|] eqn:E; [|destruct F]. exists l. split; [now apply (dict_get_in ip_eqb ip_eqb_eq)|exact F].
  - assert (dsts_for_gw (rw_st w v) g <> []) as N by (intros Z0; rewrite Z0 in F; destruct F).
    destruct (ro_used _ O g N) as [X|X]; [right|left]; (split; [exact X|]); intros Y.
    + pose proof (ro_host _ O g X). pose proof (ro_route _ O g Y). congruence.
    + pose proof (ro_host _ O g Y). pose proof (ro_route _ O g X). congruence.
Qed.
Print Assumptions C27_filed.

(** No event ever fails (with a KeyError). *)
Theorem C27_never_fails : forall c static P evs w e ev,
  route_cfg c -> static_ok c static -> rreach c static P evs w -> event_ok c ev -> exists s ms, route_step c e ev (rw_st w) = Some (s, ms).
Proof.
  intros c static P evs w e ev K So R Ok. destruct (history_shape c K static P evs w So R) as [B _].
  eapply (step_total c K no_limit no_rule); eauto. intros; exact Logic.I.
Qed.
Print Assumptions C27_never_fails.

(** While routes are not replaced, they are filed under their gateway only.
    Otherwise they may stay filed under gateways they had before, see
    [C55_old_gateway_refuted]. *)
Theorem C55_filed_only_partial : forall c static evs w v d g,
  route_cfg c -> static_ok c static -> static_unique c static -> rreach c static (no_replacement c) evs w ->
  (filed (rw_st w v) d g <-> route (rw_st w v) d g).
Proof.
  intros c static evs w v d g K So Su R. destruct (calm_history c K static So Su evs w R) as ([B C] & _).
  pose proof (ba_rib c _ _ B v) as O. split.
  - intros (l & I & J). apply route_get; [exact O|]. apply (ca_filed c _ C). unfold dsts_for_gw.
    apply (dict_in_get ip_eqb ip_eqb_eq) in I; [|apply O]. now rewrite I.
  - intros H. now apply (C27_filed c static (no_replacement c) evs w v d g K So R H).
Qed.
Print Assumptions C55_filed_only_partial.

(** Findings.  After a route is replaced and then deleted, word from its first
    gateway puts it back into force. *)
Definition ex_replaced : list revent :=
  [RConnect; RAdd 200 ex_gw ex_dst; RAdd 200 ex_gw2 ex_dst; RDel 200 ex_dst; RPacket 10 (ex_reply 200 2 0xaa ex_gw)].
Theorem C55_old_gateway_refuted : exists c static evs w d f g,
  route_cfg c /\ static_ok c static /\ subnets_apart c /\ one_router c /\ rreach c static anything evs w /\ rw_up w = true /\
  (forall v g, configured c v -> ~ route (rw_st w v) d g) /\ filed (rw_st w 200) d g /\
  In f (sw_flows (rw_sw w)) /\ serves c f 100 d /\ forwards c f 200 (vl_mac (get_vlan c 200)) 0xaa.
Proof.
  exists ex_c, no_static, (rev ex_replaced), (after ex_c no_static ex_replaced), ex_dst, (entry ex_c 100 ex_dst (nexthop_inst ex_c 200 0xaa) 0), ex_gw.
  split; [apply ex_cfg|]. split; [apply no_static_ok|]. split; [apply ex_apart|]. split; [apply ex_one_router|].
  split; [apply after_reach; [vm_compute; discriminate|ex_events]|]. split; [vm_compute; reflexivity|].
  split; [intros x g [<-|[<-|[]]] I; vm_compute in I; repeat destruct I as [I|I]; discriminate || destruct I|].
  split; [eexists; split; [vm_compute; left; reflexivity|vm_compute; tauto]|].
  split; [vm_compute; tauto|]. split; [apply entry_serves; [lia|apply ex_net]|]. apply (entry_forwards ex_c ex_cfg 200). cbn; auto.
Qed.
(** A gateway is resolved although its only route was deleted. *)
Definition ex_unused : list revent := [RConnect; RAdd 200 ex_gw ex_dst; RDel 200 ex_dst; RResolve 10].
Theorem C55_unused_gateway_refuted : exists c static evs w s ms m,
  route_cfg c /\ static_ok c static /\ rreach c static anything evs w /\
  (forall v d g, configured c v -> ~ route (rw_st w v) d g) /\
  route_step c ex_env (RResolve 11) (rw_st w) = Some (s, ms) /\ In m ms /\ request ex_env 200 ex_gw m.
Proof.
  set (w := after ex_c no_static ex_unused).
  destruct (route_step ex_c ex_env (RResolve 11) (rw_st w)) as [[s ms]|] eqn:E; [|exfalso; revert E; vm_compute; discriminate].
  exists ex_c, no_static, (rev ex_unused), w, s, ms, (PacketOut [2] 7).
  split; [apply ex_cfg|]. split; [apply no_static_ok|].
  split; [apply after_reach; [vm_compute; discriminate|ex_events]|].
  split; [intros x d g [<-|[<-|[]]] I; vm_compute in I; exact I|].
  split; [exact E|]. split.
  - assert (option_map snd (route_step ex_c ex_env (RResolve 11) (rw_st w)) = Some [PacketOut [2] 7]) as X by (vm_compute; reflexivity).
    rewrite E in X. injection X as ->. now left.
  - right. exists ([2], 7). split; [now left|reflexivity].
Qed.

(** ** C25: waiting between attempts *)

(** The wait after an attempt is at most the configured maximum, and grows with the
    number of attempts. *)
Theorem C25_wait_bounded : forall c k w, waits c k w -> w <= rc_max_backoff c.
Proof. intros c k w (j & _ & ->). lia. Qed.
Print Assumptions C25_wait_bounded.
Theorem C25_wait_grows : forall c k k' w w', 0 <= k < k' -> waits c k w -> waits c k' w' -> w <= w'.
Proof.
  intros c k k' w w' H (j & J & ->) (j' & J' & ->).
  assert (k < 2 ^ k) by (apply Z.pow_gt_lin_r; lia).
  assert (2 ^ (k + 1) <= 2 ^ k') by (apply Z.pow_le_mono_r; lia). rewrite Z.pow_add_r in H1 by lia. change (2 ^ 1) with 2 in H1. lia.
Qed.
Print Assumptions C25_wait_grows.
Example C25_waits : waits ex_c 3 8 /\ waits ex_c 3 11 /\ waits ex_c 4 16 /\ waits ex_c 40 64.
Proof. repeat split; [exists 0|exists 3|exists 0|exists 7]; (split; [lia|reflexivity]). Qed.

(** After a resolution cycle that tried [g] once more, [g] is not tried again until
    the wait is over, whatever happens, short of packets from, to or about [g], a
    port going down and the switch reconnecting (see [C25_reset_refuted]). *)
Theorem C25_not_before_its_time : forall c static P evs w e ev now v g k s ms,
  route_cfg c -> static_ok c static -> rreach c static P evs w -> env_ok e ->
  ev = RResolve now \/ ev = RExpire now -> route_step c e ev (rw_st w) = Some (s, ms) ->
  tries (rw_st w v) g k -> tries (s v) g (k + 1) ->
  exists wait, waits c (k + 1) wait /\
    forall later s', rrun c s later s' -> (forall ev', In ev' later -> ~ about g ev' /\ by_then (now + wait) ev') ->
      tries (s' v) g (k + 1) /\ must_wait (now + wait) (s' v) g.
Proof.
  intros c static P evs w e ev now v g k s ms K So R Eo Hev St T T'.
  pose proof (history_mine c K static P evs w So R) as B.
  assert (base c (fun _ a => my_ip c a) s) as B'.
  { eapply step_base; eauto. destruct Hev as [->| ->]; exact Logic.I. }
  assert (forall r r', tries r g k -> tries r' g (k + 1) -> rib_ok r' -> r' = r -> False) as Ne.
  { intros r r' (n & I & E) (n' & I' & E') O ->. apply (dict_in_get ip_eqb ip_eqb_eq) in I; [|apply O]. apply (dict_in_get ip_eqb ip_eqb_eq) in I'; [|apply O].
    rewrite I in I'. injection I' as <-. lia. }
  assert (backs_off c now (rw_st w v) g k (s v)) as (wait & n & Hw & I & Er & Nx).
  { destruct (in_dec Z.eq_dec v (map vl_id (rc_vlans c))) as [C|C].
    - destruct Hev as [->| ->].
      + destruct (resolve_event c K e now (rw_st w) s ms Eo B St) as (_ & m & t & _ & H).
        destruct (cy_change _ _ _ _ _ _ _ _ _ _ _ _ (H v C) g k (k + 1) T T') as [X|X]; [lia|exact X].
      + destruct (expire_event c K e now (rw_st w) s ms Eo B St) as (_ & m & t & _ & H).
        destruct (cy_change _ _ _ _ _ _ _ _ _ _ _ _ (H v C) g k (k + 1) T T') as [X|X]; [lia|exact X].
    - exfalso. apply (Ne (rw_st w v) (s v) T T'); [apply (ba_rib c _ _ B')|].
      destruct Hev as [->| ->]; [apply (resolve_event c K e now (rw_st w) s ms Eo B St)|apply (expire_event c K e now (rw_st w) s ms Eo B St)]; exact C. }
  exists wait. split; [exact Hw|]. intros later s' Rn H.
  pose proof (dict_in_get ip_eqb ip_eqb_eq _ _ _ (ro_nkeys _ (ba_rib c _ _ B' v)) I) as G.
  destruct (run_keeps c K later s s' v g n (now + wait) B' Rn H Nx G) as [G' B2].
  apply (dict_get_in ip_eqb ip_eqb_eq) in G'. split; [exists n; auto|]. exists n, (now + wait). split; [exact G'|]. split; [exact Nx|lia].
Qed.
Print Assumptions C25_not_before_its_time.

Lemma play_run c evs : forall w w', play c evs w = Some w' -> (forall ev, In ev evs -> event_ok c ev) -> rrun c (rw_st w) evs (rw_st w').
Proof.
  induction evs as [|ev evs IH]; intros w w' E H; cbn [play] in E.
  - injection E as <-. constructor.
  - destruct (route_step c ex_env ev (rw_st w)) as [[s ms]|] eqn:St; [|discriminate].
    destruct (valve_flowreorder _ _ ms) as [out|]; [|discriminate].
    econstructor; [apply ex_env_ok|apply H; now left|exact St|].
    assert (forall ev', In ev' evs -> event_ok c ev') as H' by (intros; apply H; now right).
    destruct ev; apply (IH _ _ E H').
Qed.
(** A packet to an unknown host starts resolving it. *)
Definition ex_lost : list revent := [RConnect; RPacket 10 (ex_ip 200 2 0xcc (ip4 10 0 1 9) (ip4 10 0 0 7)); RExpire 100].
Definition ex_meanwhile : list revent := [RExpire 203; RAdd 200 ex_gw ex_dst; RResolve 205; RExpire 208].
Example C25_example :
  let w := after ex_c no_static ex_lost in
  rreach ex_c no_static anything (rev ex_lost) w /\ tries (rw_st w 100) (ip4 10 0 0 7) 2 /\
  exists s ms s', route_step ex_c ex_env (RExpire 200) (rw_st w) = Some (s, ms) /\ tries (s 100) (ip4 10 0 0 7) 3 /\
    rrun ex_c s ex_meanwhile s' /\ forall ev, In ev ex_meanwhile -> ~ about (ip4 10 0 0 7) ev /\ by_then (200 + 8) ev.
Proof.
  intros w. split; [apply after_reach; [vm_compute; discriminate|ex_events]|]. split; [eexists; split; [vm_compute; left; reflexivity|reflexivity]|].
  destruct (route_step ex_c ex_env (RExpire 200) (rw_st w)) as [[s ms]|] eqn:E; [|exfalso; revert E; vm_compute; discriminate].
  destruct (play ex_c ex_meanwhile (mkRworld s (mkSwitch [] [] []) false)) as [w'|] eqn:E'.
  - exists s, ms, (rw_st w'). split; [reflexivity|]. split; [|split].
    + assert (match route_step ex_c ex_env (RExpire 200) (rw_st w) with Some (s, _) => r_neigh (s 100) | None => [] end =
              [(ip4 10 0 0 7, mkNexthop None None 10 3 (Some 200) (Some 208))]) as X by (vm_compute; reflexivity).
      rewrite E in X. eexists. split; [rewrite X; left; reflexivity|reflexivity].
    + apply (play_run ex_c ex_meanwhile _ _ E'). apply Forall_forall. repeat (apply Forall_cons; [ok_event|]). apply Forall_nil.
    + intros ev [<-|[<-|[<-|[<-|[]]]]]; cbn; split; try tauto; lia.
  - exfalso.
    assert (match route_step ex_c ex_env (RExpire 200) (rw_st w) with Some (s, _) => play ex_c ex_meanwhile (mkRworld s (mkSwitch [] [] []) false) | None => None end <> None) as X
      by (vm_compute; discriminate).
    rewrite E in X. congruence.
Qed.

(** Finding: a packet to the host makes the controller start over, so that the host
    is tried again long before its time. *)
Definition ex_reset : list revent := ex_lost ++ [RExpire 200; RPacket 201 (ex_ip 200 2 0xcc (ip4 10 0 1 9) (ip4 10 0 0 7))].
Theorem C25_reset_refuted : exists c static evs w w' ev s ms m,
  route_cfg c /\ static_ok c static /\ rreach c static anything evs w /\ must_wait 208 (rw_st w 100) (ip4 10 0 0 7) /\
  rreach c static anything (ev :: evs) w' /\
  route_step c ex_env (RExpire 202) (rw_st w') = Some (s, ms) /\ In m ms /\ request ex_env 100 (ip4 10 0 0 7) m.
Proof.
  set (w' := after ex_c no_static ex_reset).
  destruct (route_step ex_c ex_env (RExpire 202) (rw_st w')) as [[s ms]|] eqn:E; [|exfalso; revert E; vm_compute; discriminate].
  exists ex_c, no_static, (rev (ex_lost ++ [RExpire 200])), (after ex_c no_static (ex_lost ++ [RExpire 200])), w', (RPacket 201 (ex_ip 200 2 0xcc (ip4 10 0 1 9) (ip4 10 0 0 7))), s, ms, (PacketOut [1] 7).
  split; [apply ex_cfg|]. split; [apply no_static_ok|].
  split; [apply after_reach; [vm_compute; discriminate|ex_events]|].
  split; [eexists _, 208; split; [vm_compute; left; reflexivity|]; split; [reflexivity|lia]|].
  split; [apply (after_reach ex_c no_static anything ex_reset); [vm_compute; discriminate|ex_events]|].
  split; [exact E|]. split.
  - assert (option_map snd (route_step ex_c ex_env (RExpire 202) (rw_st w')) = Some [PacketOut [1] 7]) as X by (vm_compute; reflexivity).
    rewrite E in X. injection X as ->. now left.
  - right. exists ([1], 7). split; [now left|reflexivity].
Qed.

(** ** C26: resolution cycles *)

(** Which of the two cycles a gateway takes part in: that of the hosts exactly when
    the only destination filed under it is itself, otherwise that of the gateways. *)
Theorem C26_watched : forall c static P evs w v g,
  route_cfg c -> static_ok c static -> rreach c static P evs w ->
  let r := rw_st w v in
  ((exists d, filed r d g) -> In g (r_host_gws r) \/ In g (r_route_gws r))
  /\ (In g (r_host_gws r) <-> filed r (host_net g) g /\ forall d, filed r d g -> d = host_net g)
  /\ (In g (r_route_gws r) -> ~ In g (r_host_gws r)).
Proof.
  intros c static P evs w v g K So R r. destruct (history_shape c K static P evs w So R) as [B _].
  pose proof (ba_rib c _ _ B v) as O. fold r in O.
  assert (FI : forall d, filed r d g <-> In d (dsts_for_gw r g)).
  { intros d. unfold filed, dsts_for_gw. split.
    - intros (l & I & J). apply (dict_in_get ip_eqb ip_eqb_eq) in I; [|apply O]. now rewrite I.
    - destruct (dict_get ip_eqb g (r_gws r)) as [l|] eqn:E; [|intros []]. intros J. exists l. split; [|exact J].
      now apply (dict_get_in ip_eqb ip_eqb_eq). }
  assert (US : (exists d, filed r d g) -> In g (r_host_gws r) \/ In g (r_route_gws r)).
  { intros [d F]. apply (ro_used r O). apply FI in F. intros E. rewrite E in F. exact F. }
  assert (HF : is_host_fib_route r g = true <-> dsts_for_gw r g = [host_net g]).
  { unfold is_host_fib_route. destruct (dsts_for_gw r g) as [|d [|d' l]].
    - split; discriminate.
    - rewrite !andb_true_iff, !Z.eqb_eq. unfold host_net. split.
      + intros [[A A'] A'']. destruct d; cbn in *. subst. reflexivity.
      + intros A. injection A as ->. cbn. auto.
    - split; discriminate. }
  assert (HH : In g (r_host_gws r) <-> is_host_fib_route r g = true).
  { split; [apply (ro_host r O)|]. intros E. destruct US as [U|U]; [|exact U|].
    - exists (host_net g). apply FI. rewrite (proj1 HF E). now left.
    - rewrite (ro_route r O g U) in E. discriminate. }
  split; [exact US|split].
  - rewrite HH, HF. split.
    + intros E. split; [apply FI; rewrite E; now left|]. intros d F. apply FI in F. rewrite E in F. now destruct F as [<-|[]].
    + intros [F U]. pose proof (ro_nodup r O g) as N. apply FI in F.
      assert (U' : forall d, In d (dsts_for_gw r g) -> d = host_net g) by (intros d I; apply U, FI, I).
      destruct (dsts_for_gw r g) as [|d [|d' l]]; [destruct F|now rewrite (U' d (or_introl eq_refl))|].
      exfalso. inversion N as [|? ? N1 _]. apply N1. left.
      rewrite (U' d (or_introl eq_refl)). apply U'. right. now left.
  - intros I J. apply (ro_route r O) in I. apply (ro_host r O) in J. congruence.
Qed.
Print Assumptions C26_watched.

(** A cycle over the gateways of routes.  For each VLAN it tries, one after the
    other, at most the configured number of gateways, all of them watched, not heard
    of lately and not waiting; those tried less often come first, and none is passed
    over for one that was tried more often, unless the request for it has nowhere to
    go.  The messages are the requests for the gateways tried, each of which has to
    wait afterwards; the entries of the gateways that are not due do not change. *)
Theorem C26_gateway_cycle : forall c static P evs w e now s ms,
  route_cfg c -> static_ok c static -> rreach c static P evs w -> env_ok e ->
  route_step c e (RResolve now) (rw_st w) = Some (s, ms) ->
  exists m t, ms = flat_map m (map vl_id (rc_vlans c)) /\
    forall v, configured c v ->
      cycle c e now v (r_route_gws (rw_st w v)) (rw_st w v) (s v) (m v) (t v) (request e v) (fun g _ => nowhere c e v g) (backs_off c).
Proof.
  intros c static P evs w e now s ms K So R Eo St.
  now apply (resolve_event c K e now (rw_st w) s ms Eo (history_mine c K static P evs w So R) St).
Qed.
Print Assumptions C26_gateway_cycle.

(** The same for hosts, which are forgotten after the configured number of tries. *)
Theorem C26_host_cycle : forall c static P evs w e now s ms,
  route_cfg c -> static_ok c static -> rreach c static P evs w -> env_ok e ->
  route_step c e (RExpire now) (rw_st w) = Some (s, ms) ->
  exists m t, ms = flat_map m (map vl_id (rc_vlans c)) /\
    forall v, configured c v ->
      cycle c e now v (r_host_gws (rw_st w v)) (rw_st w v) (s v) (m v) (t v) (fun g m => request e v g m \/ forget_host c g m)
        (fun g k => rc_max_retries c <= k \/ nowhere c e v g) (backs_off_or_gone c).
Proof.
  intros c static P evs w e now s ms K So R Eo St.
  now apply (expire_event c K e now (rw_st w) s ms Eo (history_mine c K static P evs w So R) St).
Qed.
Print Assumptions C26_host_cycle.

(** Three gateways to resolve, two at a time. *)
Definition ex_gw3 : ip := ip4 10 0 1 3.
Definition ex_dst3 (k : Z) : net := mkNet 4 (ip_val (ip4 10 k 0 0)) 16.
Definition ex_static3 (v : Z) : list (net * ip) := if v =? 200 then [(ex_dst3 1, ex_gw); (ex_dst3 2, ex_gw2); (ex_dst3 3, ex_gw3)] else [].
Lemma ex_static3_ok : static_ok ex_c ex_static3.
Proof.
  split.
  - intros v H. unfold ex_static3. destruct (v =? 200) eqn:E; [|reflexivity]. apply Z.eqb_eq in E as ->. destruct H. cbn. auto.
  - assert (forall k, 1 <= k <= 3 -> my_net ex_c (ex_dst3 k)) as N.
    { intros k Hk. assert (k = 1 \/ k = 2 \/ k = 3) as [->|[->| ->]] by lia; (split; [|reflexivity]);
        (split; [now left|]); (split; [cbn; lia|]); (split; [cbn; lia|]); (split; [vm_compute; discriminate|]); [exists 2561|exists 2562|exists 2563]; reflexivity. }
    intros v d g. unfold ex_static3. destruct (v =? 200); [|intros []].
    intros [E|[E|[E|[]]]]; injection E as <- <-; (split; [apply N; lia|my_addr]).
Qed.
Definition ex_w3 : rworld := after ex_c ex_static3 [RConnect; RResolve 10].
Example C26_example :
  rreach ex_c ex_static3 anything [RResolve 10; RConnect] ex_w3 /\ env_ok ex_env /\ rc_max_hosts ex_c = 2 /\
  option_map snd (route_step ex_c ex_env (RResolve 11) (rw_st ex_w3)) = Some [PacketOut [2] 7; PacketOut [2] 7] /\
  option_map snd (route_step ex_c ex_env (RResolve 12) (rw_st (after ex_c ex_static3 [RConnect; RResolve 10; RResolve 11]))) = Some [PacketOut [2] 7].
Proof.
  split; [apply (after_reach ex_c ex_static3 anything [RConnect; RResolve 10]); [vm_compute; discriminate|ex_events]|].
  split; [apply ex_env_ok|]. split; [reflexivity|]. split; vm_compute; reflexivity.
Qed.

(** Findings.  A negative limit is no limit. *)
Definition ex_negative : rconf :=
  mkRconf 4 (rc_vlans ex_c) (rc_routers ex_c) 0 (rc_fib ex_c) 8 6 0 true true 250 (-1) 3 64.
Theorem C26_negative_limit_refuted :
  rc_max_hosts ex_negative < 0 /\
  option_map snd (route_step ex_negative ex_env (RResolve 11) (rw_st (after ex_negative ex_static3 [RConnect; RResolve 10]))) = Some [PacketOut [2] 7; PacketOut [2] 7; PacketOut [2] 7].
Proof. split; [reflexivity|vm_compute; reflexivity]. Qed.
(** Attempts that send nothing are not counted: with no port up, all gateways are
    tried in one cycle whatever the limit. *)
Definition ex_dark : renv := mkRenv (fun _ _ => []) (fun _ _ _ => 8) (fun _ _ => 0) (fun l => l) (fun _ => 10).
Theorem C26_silent_attempts_refuted : exists s,
  route_step ex_c ex_dark (RResolve 11) (rw_st ex_w3) = Some (s, []) /\ rc_max_hosts ex_c = 2 /\
  tries (rw_st ex_w3 200) ex_gw 0 /\ tries (rw_st ex_w3 200) ex_gw2 0 /\ tries (rw_st ex_w3 200) ex_gw3 0 /\
  tries (s 200) ex_gw 1 /\ tries (s 200) ex_gw2 1 /\ tries (s 200) ex_gw3 1.
Proof.
  destruct (route_step ex_c ex_dark (RResolve 11) (rw_st ex_w3)) as [[s ms]|] eqn:E; [|exfalso; revert E; vm_compute; discriminate].
  assert (match route_step ex_c ex_dark (RResolve 11) (rw_st ex_w3) with Some (s, ms) => (map (fun q => (fst q, nh_retries (snd q))) (r_neigh (s 200)), ms) | None => ([], []) end =
          ([(ex_gw, 1); (ex_gw2, 1); (ex_gw3, 1)], [])) as X by (vm_compute; reflexivity).
  rewrite E in X. injection X as X ->. exists s. split; [reflexivity|]. split; [reflexivity|].
  assert (forall r l, map (fun q => (fst q, nh_retries (snd q))) (r_neigh r) = l -> forall g k, In (g, k) l -> tries r g k) as T.
  { intros r l <- g k I. apply in_map_iff in I as ([g' n] & Y & I). injection Y as <- <-. exists n. auto. }
  assert (map (fun q => (fst q, nh_retries (snd q))) (r_neigh (rw_st ex_w3 200)) = [(ex_gw, 0); (ex_gw2, 0); (ex_gw3, 0)]) as Y by (vm_compute; reflexivity).
  repeat split; [apply (T _ _ Y)|apply (T _ _ Y)|apply (T _ _ Y)|apply (T _ _ X)|apply (T _ _ X)|apply (T _ _ X)]; cbn; auto.
Qed.
