(** * Properties: packet checks, proxy addresses, LACP identifiers, rate limit

    C21, C44, C46, C47, C52, C53. *)

From Coq Require Import List Bool Arith NArith String Ascii Lia.
From Verif Require Import PacketModel PacketSpec PacketProofs.
Import ListNotations.
Open Scope N_scope.

(** ** C46: only unfragmented, well-formed IPv4 packets are parsed *)

(** Exactly which headers pass.  Missing from the full statement: a fragment
    whose offset is a multiple of 4096 units passes (see the refutation). *)
Theorem C46_ipv4_parseable_partial l ihl mf frag proto :
  ipv4_header l ihl mf frag proto ->
  (ipv4_parseable l = PyVal true <->
   20 <= 4 * ihl /\ mf = false /\ frag mod 4096 = 0 /\ known_protocol proto) /\
  (ipv4_parseable l = PyVal true \/ ipv4_parseable l = PyVal false).
Proof.
  intros H. rewrite (ipv4_parseable_iff _ _ _ _ _ H). unfold known_protocol. split.
  - split.
    + intros E. injection E. rewrite !andb_true_iff, !orb_true_iff, negb_true_iff, N.leb_le, !N.eqb_eq.
      intros (((A & B) & C) & D). split; [lia|]. tauto.
    + intros (A & -> & C & D). f_equal. rewrite !andb_true_iff, !orb_true_iff, N.leb_le, !N.eqb_eq. split; [split; [split; [lia|reflexivity]|exact C]|tauto].
  - destruct (_ && _)%bool; auto.
Qed.
Print Assumptions C46_ipv4_parseable_partial.

(** The IPv4 header of a ping. *)
Definition ping_header : list N :=
  [0x45; 0; 0; 84; 0x12; 0x34; 0x40; 0; 64; 1; 0; 0; 10; 0; 0; 1; 10; 0; 0; 2].

Example ping_header_ok : ipv4_header ping_header 5 false 0 1.
Proof.
  constructor; [repeat constructor|..].
  - exists 4. eexists. split; [reflexivity|reflexivity].
  - exists 0x40, 0, false, true. repeat split; reflexivity.
  - reflexivity.
  - cbn. lia.
Qed.

Example ping_parses : ipv4_parseable ping_header = PyVal true.
Proof. reflexivity. Qed.

(** The last fragment at offset 4096 (32768 bytes into the packet). *)
Definition late_fragment : list N :=
  [0x45; 0; 0; 84; 0x12; 0x34; 0x10; 0; 64; 17; 0; 0; 10; 0; 0; 1; 10; 0; 0; 2].

(** Finding: the mask for the fragment offset is one bit short, so a fragment
    is accepted. *)
Theorem C46_fragment_refuted :
  exists l ihl mf frag proto,
    ipv4_header l ihl mf frag proto /\ is_fragment mf frag /\ ipv4_parseable l = PyVal true.
Proof.
  exists late_fragment, 5, false, 4096, 17. split; [|split; [right; discriminate|reflexivity]].
  constructor; [repeat constructor|..].
  - exists 4. eexists. split; [reflexivity|reflexivity].
  - exists 0x10, 0, false, false. repeat split; reflexivity.
  - reflexivity.
  - cbn. lia.
Qed.

(** An IPv4 or IPv6 packet reaches the library parser only with the right
    version in its first header byte, and no more than the headers and the
    requested payload is parsed; an IPv4 packet also only if it passes the check. *)
Theorem C46_gate eth_type size_check data payload limit :
  reparse_ip eth_type size_check data payload = GateParse limit ->
  (eth_type = 0x0800 ->
     limit = 38 + payload /\ (exists x, nth_error data 18 = Some x /\ N.shiftr x 4 = 4) /\
     (38 <= N.of_nat (List.length data)) /\ ipv4_parseable (skipn 18 data) = PyVal true) /\
  (eth_type = 0x86DD ->
     limit = 58 + payload /\ (exists x, nth_error data 18 = Some x /\ N.shiftr x 4 = 6) /\
     (size_check = true -> 58 <= N.of_nat (List.length data))) /\
  (eth_type = 0x0800 \/ eth_type = 0x0806 \/ eth_type = 0x86DD).
Proof.
  unfold reparse_ip, eth_parser, ETH_TYPE_IP, ETH_TYPE_ARP, ETH_TYPE_IPV6.
  assert (forall v, opt_N_eqb (Some v) (ip_ver data) = true ->
    exists x, nth_error data 18 = Some x /\ N.shiftr x 4 = v) as Ver.
  { intros v. unfold ip_ver, ETH_VLAN_HEADER_SIZE.
    destruct (N.ltb_spec 18 (N.of_nat (List.length data))) as [L|]; [|discriminate].
    unfold opt_N_eqb. rewrite N.eqb_eq. intros ->. unfold byte. exists (nth 18 data 0). split; [|reflexivity].
    apply nth_error_nth'. lia. }
  destruct (N.eqb_spec eth_type 2048) as [->|N1].
  { destruct (opt_N_eqb _ _) eqn:V; cbn [negb]; [|discriminate].
    destruct (size_check && _)%bool; [discriminate|].
    destruct (ipv4_parseable (skipn 18 data)) as [|[|]] eqn:P; try discriminate.
    intros H. injection H. intros <-. split; [|split; [discriminate|auto]]. intros _.
    split; [reflexivity|]. split; [apply Ver; exact V|]. split; [|reflexivity].
    unfold ipv4_parseable in P. rewrite skipn_length in P.
    destruct (N.ltb_spec (N.of_nat (List.length data - 18)) IPV4_HEADER_SIZE) as [|L]; [discriminate|].
    unfold IPV4_HEADER_SIZE in L. lia. }
  destruct (N.eqb_spec eth_type 2054) as [->|N2].
  { intros _. split; [discriminate|]. split; [discriminate|]. auto. }
  destruct (N.eqb_spec eth_type 34525) as [->|N3]; [|discriminate].
  destruct (opt_N_eqb _ _) eqn:V; cbn [negb]; [|discriminate].
  destruct (size_check && _)%bool eqn:C; [discriminate|]. cbn [andb].
  intros H. injection H. intros <-. split; [discriminate|]. split; [|auto]. intros _.
  split; [reflexivity|]. split; [apply Ver; exact V|]. intros ->. cbn [andb] in C. apply N.ltb_ge in C. exact C.
Qed.
Print Assumptions C46_gate.

Example gate_parses : reparse_ip 0x0800 true (repeat 0 18 ++ ping_header) 0 = GateParse 38.
Proof. reflexivity. Qed.

(** With the VLAN's size check on, no packet makes the check raise. *)
Theorem C46_size_check_prevents_exception eth_type data payload :
  reparse_ip eth_type true data payload <> GateRaise.
Proof.
  unfold reparse_ip, eth_parser. destruct (eth_type =? ETH_TYPE_IP).
  - destruct (opt_N_eqb _ _); cbn [negb]; [|discriminate].
    destruct (N.ltb_spec (N.of_nat (List.length data)) (ETH_VLAN_HEADER_SIZE + IPV4_HEADER_SIZE)) as [|L];
      cbn [andb]; [discriminate|].
    unfold ipv4_parseable. rewrite skipn_length.
    unfold ETH_VLAN_HEADER_SIZE, IPV4_HEADER_SIZE in *.
    destruct (N.ltb_spec (N.of_nat (List.length data - 18)) 20); [lia|].
    cbv zeta. repeat match goal with |- context [if ?b then _ else _] => destruct b end; discriminate.
  - destruct (eth_type =? ETH_TYPE_ARP); [discriminate|]. destruct (eth_type =? ETH_TYPE_IPV6); [|discriminate].
    destruct (negb _); [discriminate|]. destruct (true && _)%bool; discriminate.
Qed.
Print Assumptions C46_size_check_prevents_exception.

(** Finding: without it, a short IPv4 packet raises. *)
Theorem C46_short_packet_raises_refuted :
  exists data payload, bytes data /\ reparse_ip 0x0800 false data payload = GateRaise.
Proof. exists (repeat 0 18 ++ [0x45]), 0. split; [repeat constructor|reflexivity]. Qed.

(** ** C44: each 802.1X port has its own proxy address *)

Theorem C44_proxy_address_unique i p j q :
  get_mac_str i p = get_mac_str j q -> i = j /\ p = q.
Proof. apply get_mac_str_inj. Qed.
Print Assumptions C44_proxy_address_unique.

(** For every switch index and port number that fit, it is the text of a MAC
    address. *)
Theorem C44_proxy_address_text i p :
  i < 256 -> p < 65536 -> get_mac_str i p = mac_text 0 0 0 i (p / 256) (p mod 256).
Proof. apply get_mac_str_text. Qed.
Print Assumptions C44_proxy_address_text.

Example proxy_address : get_mac_str 3 0x1234 = "00:00:00:03:12:34"%string.
Proof. reflexivity. Qed.

(** Whatever the maps [m] left by earlier configurations, an authentication result carrying the
    address used for a port is attributed to that port of that switch. *)
Theorem C44_attribution (m m' : dot1x_maps)
        (valves : list dot1x_valve) v p :
  dot1x_reset m valves = PyVal m' ->
  NoDup (map dv_id valves) -> In v valves -> In p (dv_ports v) ->
  exists address, port_mac m' (dv_id v) p = Some address /\
                  get_valve_and_port m' address = Some (dv_id v, p).
Proof.
  unfold dot1x_reset. destruct (255 <=? _); [discriminate|]. intros H. injection H. intros <- ND V P.
  destruct (reset_loop 0 valves m v p V P ND) as (i & _ & A & B).
  exists (get_mac_str i p). unfold port_mac, get_valve_and_port. rewrite A. auto.
Qed.
Print Assumptions C44_attribution.

Example attribution_example :
  exists m', dot1x_reset dot1x_maps0 [mk_dot1x_valve 7 [1; 2]; mk_dot1x_valve 9 [2]] = PyVal m' /\
    port_mac m' 9 2 = Some "00:00:00:01:00:02"%string /\
    get_valve_and_port m' "00:00:00:01:00:02" = Some (9, 2).
Proof. eexists. split; [reflexivity|]. split; reflexivity. Qed.

(** Finding: addresses of an earlier configuration are never forgotten, so a
    late result for a port that no longer exists is attributed to it, here on
    a switch (7) that is not configured for 802.1X any more. *)
Theorem C44_stale_attribution_refuted :
  exists m1 m2 address,
    dot1x_reset dot1x_maps0 [mk_dot1x_valve 7 [1]] = PyVal m1 /\
    dot1x_reset m1 [mk_dot1x_valve 9 [2]] = PyVal m2 /\
    get_valve_and_port m2 address = Some (7, 1).
Proof.
  eexists. eexists. exists "00:00:00:00:00:01"%string.
  split; [reflexivity|]. split; reflexivity.
Qed.

(** ** C47: LACP port ids are unique *)

(** Partial: holds for automatically numbered ports with numbers 1 to 100. *)
Theorem C47_lacp_port_id_unique_partial d1 p1 d2 p2 i :
  lc_id p1 = None -> lc_id p2 = None ->
  1 <= lc_number p1 <= 100 -> 1 <= lc_number p2 <= 100 ->
  lacp_port_id d1 p1 = Some i -> lacp_port_id d2 p2 = Some i ->
  d1 = d2 /\ lc_number p1 = lc_number p2.
Proof.
  unfold lacp_port_id. intros -> -> A B.
  destruct (lc_lacp p1), (lc_lacp p2); try discriminate.
  intros E1 E2. injection E1. injection E2. lia.
Qed.
Print Assumptions C47_lacp_port_id_unique_partial.

Example lacp_ids :
  lacp_port_id 1 (mk_lacp_conf 7 true None) = Some 107 /\ 1 <= 7 <= 100.
Proof. split; [reflexivity|lia]. Qed.

(** Finding: port 101 of the first switch and port 1 of the second share an
    identifier; so do an explicit and an automatic one. *)
Theorem C47_port_101_refuted :
  exists d1 p1 d2 p2 i,
    d1 <> d2 /\ lc_lacp p1 = true /\ lc_lacp p2 = true /\ lc_id p1 = None /\ lc_id p2 = None /\
    lacp_port_id d1 p1 = Some i /\ lacp_port_id d2 p2 = Some i.
Proof.
  exists 0, (mk_lacp_conf 101 true None), 1, (mk_lacp_conf 1 true None), 101.
  repeat split; discriminate.
Qed.

Theorem C47_explicit_id_refuted :
  exists p1 p2 i,
    lc_number p1 <> lc_number p2 /\ lc_lacp p1 = true /\ lc_lacp p2 = true /\
    lacp_port_id 0 p1 = Some i /\ lacp_port_id 0 p2 = Some i.
Proof.
  exists (mk_lacp_conf 1 true (Some 2)), (mk_lacp_conf 2 true None), 2.
  repeat split; discriminate.
Qed.

(** ** C21: packet-in rate limit *)

(** For every arrival sequence in time order, of the [n] packets that arrive at
    one time exactly [n / limit] are ignored. *)
Theorem C21_rate limit ts s' ignored t :
  limit <> 0 -> in_order ts -> rate_run limit limiter0 ts = (s', ignored) ->
  List.length ignored = List.length ts /\
  processed t ts ignored = arrivals t ts - arrivals t ts / limit.
Proof.
  intros L O H. split; [apply (rate_run_ignored _ _ _ _ _ H)|].
  assert (Forall (fun u => lm_sec limiter0 <= u) ts) as G by (apply Forall_forall; intros; cbn; lia).
  pose proof (rate_run_processed limit t ts L _ _ _ G O H) as E.
  assert (count_at limiter0 t = 0) as Z by (unfold count_at; cbn; destruct t; reflexivity).
  rewrite Z, N.div_0_l, N.add_0_l, N.add_0_r in E by exact L. lia.
Qed.
Print Assumptions C21_rate.

(** The counter of ignored packets is exact for every arrival sequence. *)
Theorem C21_counter_exact limit ts s' ignored :
  rate_run limit limiter0 ts = (s', ignored) -> lm_ignored s' = dropped ignored.
Proof. intros H. apply rate_run_ignored in H. cbn in H. tauto. Qed.
Print Assumptions C21_counter_exact.

(** Below the limit, or without one, nothing is ignored, whatever the order of
    the arrival times. *)
Theorem C21_below_limit limit ts s' ignored :
  (limit = 0 \/ forall t, arrivals t ts < limit) ->
  rate_run limit limiter0 ts = (s', ignored) -> Forall (fun b => b = false) ignored.
Proof.
  intros [->|L] H.
  - revert s' ignored H. generalize limiter0. induction ts as [|t ts IH]; intros s s' bs H; cbn [rate_run] in H.
    + injection H. intros <- _. constructor.
    + destruct (rate_limit 0 s t) as [s1 b] eqn:E1. destruct (rate_run 0 s1 ts) as [s2 bs2] eqn:E2.
      injection H. intros <- _. apply rate_limit_counts in E1. constructor; [apply E1|]. eapply IH; eauto.
  - apply (rate_run_none limit ts _ _ _) in H; [exact H|]. intros t. left.
    assert (count_at limiter0 t = 0) as -> by (unfold count_at; cbn; destruct t; reflexivity). apply L.
Qed.
Print Assumptions C21_below_limit.

Example rate_example :
  snd (rate_run 3 limiter0 [5; 5; 5; 6; 6]) = [false; false; true; false; false].
Proof. reflexivity. Qed.

Lemma in_order_repeat t n : in_order (repeat t n).
Proof.
  induction n as [|n IH]; [exact I|]. split; [|exact IH].
  apply Forall_forall. intros u H. apply repeat_spec in H. lia.
Qed.

(** Finding: the limit is not a limit: of 20 packets in one second with a limit
    of 10, 18 are processed. *)
Theorem C21_limit_refuted :
  exists limit ts s' ignored t,
    limit <> 0 /\ in_order ts /\ rate_run limit limiter0 ts = (s', ignored) /\
    limit < processed t ts ignored.
Proof.
  exists 10, (repeat 5 20). eexists. eexists. exists 5.
  split; [discriminate|]. split; [apply in_order_repeat|]. split; [vm_compute; reflexivity|].
  vm_compute. reflexivity.
Qed.

(** ** C52: the VLAN id carried in a router's MAC address survives *)

Theorem C52_vlan_in_mac mac vid : int_from_mac (int_in_mac mac vid) = Some vid.
Proof. apply int_round_trip. Qed.
Print Assumptions C52_vlan_in_mac.

(** The rest of the address is kept: the first four groups are those of the
    router's address. *)
Theorem C52_prefix_kept mac vid :
  firstn (List.length (firstn 4 (split_colon mac))) (split_colon (int_in_mac mac vid)) =
  firstn 4 (split_colon mac).
Proof. rewrite int_in_mac_pieces. rewrite <- (Nat.add_0_r (List.length (firstn 4 (split_colon mac)))), firstn_app_2. apply app_nil_r. Qed.
Print Assumptions C52_prefix_kept.

Theorem C52_distinct_vlans mac v w : int_in_mac mac v = int_in_mac mac w -> v = w.
Proof. intros H. pose proof (int_round_trip mac v) as A. rewrite H, int_round_trip in A. congruence. Qed.
Print Assumptions C52_distinct_vlans.

Example vlan_in_mac : int_in_mac "0e:00:00:00:00:01" 0x123 = "0e:00:00:00:1:23"%string.
Proof. reflexivity. Qed.

(** ** C53: the priority of a flood rule follows the length of its mask *)

Theorem C53_mask_bits m k : is_prefix_mask m k -> mac_mask_bits (Some m) = k.
Proof. apply mac_mask_bits_prefix. Qed.
Print Assumptions C53_mask_bits.

Theorem C53_mask_bits_only m :
  mac_mask_bits (Some m) <> 0 -> is_prefix_mask m (mac_mask_bits (Some m)).
Proof. apply mac_mask_bits_only. Qed.
Print Assumptions C53_mask_bits_only.

Theorem C53_byte_mask n m : mac_byte_mask n = PyVal m -> is_prefix_mask m (8 * n) /\ n <= 6.
Proof.
  unfold mac_byte_mask. destruct (N.ltb_spec 6 n) as [|L]; [discriminate|]. intros H.
  assert (m = 2 ^ 48 - 2 ^ (8 * (6 - n))) as -> by congruence.
  split; [|exact L]. split; [lia|]. intros i. rewrite mask_bits by lia.
  replace (8 * (6 - n)) with (48 - 8 * n) by lia. reflexivity.
Qed.
Print Assumptions C53_byte_mask.

Example mask_example : is_prefix_mask 0xFFFFFF000000 24 /\ mac_mask_bits (Some 0xFFFFFF000000) = 24.
Proof.
  split; [|reflexivity]. apply (C53_byte_mask 3). reflexivity.
Qed.

(** A unicast address is one whose first byte is even. *)
Theorem C53_unicast mac :
  List.length mac = 6%nat -> bytes mac ->
  (mac_addr_is_unicast mac = true <-> exists b r, mac = b :: r /\ b mod 2 = 0).
Proof.
  intros L B. destruct mac as [|b r]; [discriminate|]. unfold mac_addr_is_unicast, byte. cbn [nth].
  assert (N.testbit b 0 = N.odd b) as -> by apply N.bit0_odd.
  assert (negb (N.odd b) = true <-> b mod 2 = 0) as Ev.
  { rewrite N.negb_odd, N.even_spec. split.
    - intros (q & ->). rewrite N.mul_comm. apply N.mod_mul. lia.
    - intros E. exists (b / 2). pose proof (N.div_mod b 2). lia. }
  split.
  - destruct (forallb _ _); [discriminate|]. intros H. exists b, r. split; [reflexivity|]. apply Ev. exact H.
  - intros (b' & r' & E & M). injection E. intros <- <-. apply Ev in M.
    destruct (forallb (N.eqb 255) (b :: r)) eqn:F; [|exact M].
    cbn [forallb] in F. apply andb_true_iff in F. destruct F as [F _]. apply N.eqb_eq in F. subst b. discriminate M.
Qed.
Print Assumptions C53_unicast.
