(** * Properties of LLDP beacons *)

From Coq Require Import ZArith List Bool Lia.
From Verif Require Import PyBase LldpModel LldpSpec LldpProofs.
Import ListNotations.
Open Scope Z_scope.

(** ** C71 *)

(** The beacon a port sends is understood by every FAUCET datapath with the same OUI
    that it gets to: the state it reports is heard, and if it comes in on a stack port
    the cabling is found to be right just if that port is configured to lead to the
    very port that sent it. *)
Theorem C71_beacon_understood : forall (c : beacon_conf) (mac data : bytes) (p : lldp_port),
  sane c -> plain c -> firstn 3 mac = firstn 3 (b_mac c) ->
  (length (beacon_frame c) <= 128)%nat -> arrives (beacon_frame c) data ->
  exists found,
    lldp_packet_in mac p data = Some (Handled (b_stack c) found) /\
    match l_peer p with
    | None => found = None
    | Some peer => found = Some true /\ leads_to peer c \/ found = Some false /\ ~ leads_to peer c
    end.
Proof.
  intros c mac data p Hs Hp Hm Hl Ha. unfold lldp_packet_in. rewrite (beacon_parsed c data Hs Hl Ha).
  cbn [option_map]. unfold lldp_handler. rewrite (beacon_read c mac Hp Hm).
  cbn [r_dp_id r_dp_name r_port r_state].
  destruct Hs as (_ & Hi & Hk & _ & _ & _ & _ & _ & Hst).
  assert (match b_stack c with Some s => negb (known_state s) | None => false end = false) as ->.
  { destruct (b_stack c) as [s|]; [|reflexivity]. rewrite (proj2 (known_known s) (Hst s eq_refl)). reflexivity. }
  rewrite andb_false_r.
  destruct (Z.eqb_spec (b_dp_id c) 0) as [E|_]; [rewrite E in Hi; destruct Hi as [X _]; inversion X|].
  destruct (Z.eqb_spec (b_port c) 0) as [E|_]; [rewrite E in Hk; destruct Hk as [X _]; inversion X|].
  cbn [negb andb]. eexists. split; [reflexivity|].
  destruct (l_peer p) as [peer|]; [|reflexivity].
  destruct (stack_correct_spec peer c) as (b & -> & Hb).
  destruct b; [left|right]; (split; [reflexivity|]); [apply Hb; reflexivity|].
  intro X. apply Hb in X. discriminate X.
Qed.
Print Assumptions C71_beacon_understood.

(** A beacon of a datapath with another OUI counts for nothing. *)
Theorem C71_other_oui_ignored : forall (c : beacon_conf) (mac data : bytes) (p : lldp_port),
  sane c -> firstn 3 mac <> firstn 3 (b_mac c) ->
  (forall oui s info, In (oui, s, info) (b_org_tlvs c) -> oui <> firstn 3 mac) ->
  (length (beacon_frame c) <= 128)%nat -> arrives (beacon_frame c) data ->
  lldp_packet_in mac p data = Some (Handled None None).
Proof.
  intros c mac data p Hs Hm Ho Hl Ha. unfold lldp_packet_in. rewrite (beacon_parsed c data Hs Hl Ha).
  cbn [option_map]. f_equal. apply no_faucet_ignored.
  intros t Hin (s & info & ->). rewrite beacon_split in Hin. rewrite !in_app_iff in Hin.
  destruct Hin as [[H|[H|[H|H]]]|[H|[H|H]]].
  - cbn in H. intuition discriminate.
  - cbn in H. intuition discriminate.
  - unfold opt_tlv in H. destruct (b_port_descr c); cbn in H; intuition discriminate.
  - apply in_map_iff in H. destruct H as (((o & s') & i) & E & Hin). injection E as -> -> ->. eapply Ho; eauto.
  - destruct H as [H|[]]. injection H as H _ _. apply Hm. symmetry. exact H.
  - destruct (b_stack c); [|destruct H]. destruct H as [H|[]]. injection H as H _ _. apply Hm. symmetry. exact H.
  - cbn in H. intuition discriminate.
Qed.
Print Assumptions C71_other_oui_ignored.

(** A beacon of more than 194 bytes is never understood, and one of more than 128 is
    not if the switch sends what it is told to. *)
Theorem C71_long_beacon_lost : forall (c : beacon_conf) (mac data : bytes) (p : lldp_port),
  sane c -> (194 < length (beacon_frame c))%nat -> arrives (beacon_frame c) data ->
  lldp_packet_in mac p data = None.
Proof. intros c mac data p Hs Hl Ha. unfold lldp_packet_in. rewrite (long_beacon_lost c data Hs Hl Ha). reflexivity. Qed.
Print Assumptions C71_long_beacon_lost.
Theorem C71_cut_beacon_lost : forall (c : beacon_conf) (mac : bytes) (p : lldp_port),
  sane c -> (128 < length (beacon_frame c))%nat ->
  lldp_packet_in mac p (firstn 128 (beacon_frame c)) = None.
Proof. intros c mac p Hs Hl. unfold lldp_packet_in. rewrite (cut_beacon_lost c Hs Hl). reflexivity. Qed.
Print Assumptions C71_cut_beacon_lost.

(** Port 7 of "sw1", a stack port that is up, with a description and a TLV of its own. *)
Definition mac_ : bytes := [14; 0; 0; 0; 0; 1].
Definition conf_ (sysname : option bytes) (orgs : list (bytes * Z * bytes)) (descr : bytes) : beacon_conf :=
  mkBeaconConf mac_ 281474976710657 [115; 119; 49] sysname 5 7 None (Some descr) orgs (Some 3).
Lemma sane_conf sysname orgs descr :
  (forall n, sysname = Some n -> (length n <= 511)%nat) -> (length descr <= 511)%nat ->
  (forall o s i, In (o, s, i) orgs -> length o = 3%nat /\ (length i <= 507)%nat) ->
  sane (conf_ sysname orgs descr).
Proof.
  intros H1 H2 H3. unfold sane, conf_; cbn [b_mac b_dp_id b_dp_name b_dp_system_name b_send_interval b_port b_port_system_name b_port_descr b_org_tlvs b_stack].
  split; [reflexivity|]. split; [split; vm_compute; reflexivity|]. split; [split; vm_compute; reflexivity|].
  split; [lia|]. split; [cbn; lia|]. split; [intros n [H|H]; [apply H1; exact H|discriminate H]|].
  split; [intros d H; injection H as <-; exact H2|]. split; [exact H3|].
  intros s H. injection H as <-. cbn. tauto.
Qed.
Definition good_conf := conf_ None [([0; 18; 15], 9, [1; 2; 3])] [112; 111; 114; 116; 32; 55].
Lemma arrives_whole f : (length f <= 128)%nat -> arrives f f.
Proof. intros H. exists [], 128%nat. split; [lia|]. rewrite app_nil_r, firstn_all2; [reflexivity|exact H]. Qed.
Example ex_understood :
  sane good_conf /\ plain good_conf /\ length (beacon_frame good_conf) = 83%nat /\
  arrives (beacon_frame good_conf) (beacon_frame good_conf) /\
  lldp_packet_in [14; 0; 0; 9; 9; 9] (mkLldpPort (Some (281474976710657, [115; 119; 49], 7)) None) (beacon_frame good_conf)
    = Some (Handled (Some 3) (Some true)) /\
  lldp_packet_in mac_ (mkLldpPort (Some (281474976710657, [115; 119; 49], 8)) (Some 3)) (beacon_frame good_conf)
    = Some (Handled (Some 3) (Some false)).
Proof.
  split; [|split; [|split; [|split; [|split]]]].
  - apply sane_conf; [discriminate|cbn; lia|]. intros o s i [H|[]]. injection H as <- <- <-. cbn. lia.
  - split; [left; reflexivity|split; [left; reflexivity|]].
    intros o s i [H|[]]. injection H as <- <- <-. discriminate.
  - vm_compute. reflexivity.
  - apply arrives_whole. vm_compute. lia.
  - vm_compute. reflexivity.
  - vm_compute. reflexivity.
Qed.

(** *** What goes wrong otherwise *)

(** If the datapath is given a system name of its own for its beacons, the other end of
    a correctly cabled link finds the cabling wrong. *)
Theorem C71_system_name_refuted : exists (c : beacon_conf) (peer : Z * bytes * Z),
  sane c /\ b_org_tlvs c = [] /\ (length (beacon_frame c) <= 128)%nat /\ leads_to peer c /\
  lldp_packet_in (b_mac c) (mkLldpPort (Some peer) None) (beacon_frame c) = Some (Handled (b_stack c) (Some false)).
Proof.
  exists (conf_ (Some [99; 111; 114; 101]) [] [112]), (281474976710657, [115; 119; 49], 7).
  split; [|split; [|split; [|split]]].
  - apply sane_conf; [intros n H; injection H as <-; cbn; lia|cbn; lia|intros o s i []].
  - reflexivity.
  - vm_compute. lia.
  - reflexivity.
  - vm_compute. reflexivity.
Qed.
Print Assumptions C71_system_name_refuted.

(** A TLV configured for the port that has the OUI FAUCET uses comes before FAUCET's
    own and is read in its place. *)
Theorem C71_org_tlv_refuted : exists (c : beacon_conf) (peer : Z * bytes * Z),
  sane c /\ b_dp_system_name c = None /\ b_port_system_name c = None /\
  (length (beacon_frame c) <= 128)%nat /\ leads_to peer c /\
  lldp_packet_in (b_mac c) (mkLldpPort (Some peer) None) (beacon_frame c) = Some (Handled (b_stack c) (Some false)).
Proof.
  exists (conf_ None [([14; 0; 0], 1, [49])] [112]), (281474976710657, [115; 119; 49], 7).
  split; [|split; [|split; [|split; [|split]]]].
  - apply sane_conf; [discriminate|cbn; lia|]. intros o s i [H|[]]. injection H as <- <- <-. cbn. lia.
  - reflexivity.
  - reflexivity.
  - vm_compute. lia.
  - reflexivity.
  - vm_compute. reflexivity.
Qed.
Print Assumptions C71_org_tlv_refuted.

(** A description of 64 characters is enough for a beacon not to be understood where
    the switch sends the 128 bytes it is told to. *)
Theorem C71_description_refuted : exists (c : beacon_conf) (peer : Z * bytes * Z) (data : bytes),
  sane c /\ plain c /\ leads_to peer c /\ b_port_descr c = Some (repeat 120 64) /\
  arrives (beacon_frame c) data /\
  lldp_packet_in (b_mac c) (mkLldpPort (Some peer) None) data = None.
Proof.
  set (c := conf_ None [] (repeat 120 64)).
  exists c, (281474976710657, [115; 119; 49], 7), (firstn 128 (beacon_frame c)).
  assert (Hs : sane c) by (apply sane_conf; [discriminate|rewrite repeat_length; lia|intros o s i []]).
  split; [exact Hs|]. split; [split; [left; reflexivity|split; [left; reflexivity|intros o s i []]]|].
  split; [reflexivity|]. split; [reflexivity|].
  split; [exists [], 128%nat; split; [lia|rewrite app_nil_r; reflexivity]|].
  vm_compute. reflexivity.
Qed.
Print Assumptions C71_description_refuted.

(** The checks of the configuration let a datapath have the identifier zero; its beacons
    are taken for those of something else, and its stack links do not come up. *)
Theorem C71_dp_id_zero_refuted : exists (c : beacon_conf) (peer : Z * bytes * Z),
  b_dp_id c = 0 /\ plain c /\ leads_to peer c /\ (length (beacon_frame c) <= 128)%nat /\
  lldp_packet_in (b_mac c) (mkLldpPort (Some peer) None) (beacon_frame c) = Some (Handled (b_stack c) None).
Proof.
  exists (mkBeaconConf mac_ 0 [115; 119; 49] None 5 7 None None [] (Some 3)), (0, [115; 119; 49], 7).
  split; [reflexivity|]. split; [split; [left; reflexivity|split; [left; reflexivity|intros o s i []]]|].
  split; [reflexivity|]. split; [vm_compute; lia|]. vm_compute. reflexivity.
Qed.
Print Assumptions C71_dp_id_zero_refuted.

(** ** C72 *)

(** What is proved of "no LLDP frame raises an exception": frames without a TLV of
    FAUCET's OUI do not, and are ignored; neither do those which report the state
    already heard, no state, the state 0, or a known state along with a port that is a
    number. *)
Theorem C72_no_exception_partial : forall (mac : bytes) (p : lldp_port) (tlvs : list tlv),
  (forall t, In t tlvs -> ~ has_oui mac t) \/
  r_state (parse_faucet_lldp tlvs mac) = l_heard p \/
  (forall s, r_state (parse_faucet_lldp tlvs mac) = Some s -> s = 0) \/
  (exists s n, r_state (parse_faucet_lldp tlvs mac) = Some s /\ In s [-1; 0; 1; 2; 3; 4] /\
     r_port (parse_faucet_lldp tlvs mac) = Some n) ->
  lldp_handler mac p tlvs <> Raised.
Proof.
  intros mac p tlvs [H|[H|[H|(s & n & H & Hk & Hn)]]].
  - rewrite no_faucet_ignored by exact H. discriminate.
  - unfold lldp_handler. rewrite H.
    assert (opt_eqb (l_heard p) (l_heard p) = true) as ->.
    { destruct (l_heard p); cbn; [apply Z.eqb_refl|reflexivity]. }
    cbn [negb andb]. discriminate.
  - unfold lldp_handler. destruct (r_state (parse_faucet_lldp tlvs mac)) as [s|].
    + rewrite (H s eq_refl). cbn. rewrite andb_false_r. cbn. discriminate.
    + cbn. rewrite andb_false_r. cbn. discriminate.
  - unfold lldp_handler. rewrite H, Hn. rewrite (proj2 (known_known s) Hk). cbn.
    rewrite andb_false_r. discriminate.
Qed.
Print Assumptions C72_no_exception_partial.

(** In every other case it is raised. *)
Theorem C72_exception_otherwise : forall (mac : bytes) (p : lldp_port) (tlvs : list tlv) (s : Z),
  r_state (parse_faucet_lldp tlvs mac) = Some s -> s <> 0 -> l_heard p <> Some s ->
  (r_port (parse_faucet_lldp tlvs mac) = None \/ ~ In s [-1; 0; 1; 2; 3; 4]) ->
  lldp_handler mac p tlvs = Raised.
Proof.
  intros mac p tlvs s Hs H0 Hh H. unfold lldp_handler. rewrite Hs.
  assert (opt_eqb (l_heard p) (Some s) = false) as ->.
  { destruct (l_heard p) as [h|]; [|reflexivity]. cbn. apply Z.eqb_neq. congruence. }
  apply Z.eqb_neq in H0. rewrite H0. cbn [negb andb].
  destruct H as [->|H]; [reflexivity|].
  destruct (known_state s) eqn:E; [exfalso; apply H, known_known, E|].
  cbn [negb]. rewrite orb_true_r. reflexivity.
Qed.
Print Assumptions C72_exception_otherwise.

(** The port is a number just if the text of the first port id of the right kind
    is one; everything else counts as none. *)
Theorem C72_numbers : forall b, py_int b <> None <-> number_text b.
Proof. exact py_int_number. Qed.
Print Assumptions C72_numbers.
Example C72_numbers_case : number_text [32; 43; 49; 95; 48; 10] /\ py_int [32; 43; 49; 95; 48; 10] = Some 10 /\
  ~ number_text [101; 116; 104; 48] /\ ~ number_text [49; 95; 95; 48].
Proof.
  split; [exists [32], [43], [49; 95; 48], [10]; repeat split; cbn; auto; [intros c [<-|[]]; lia..|apply num_underscore; [lia|apply num_one; lia]]|].
  split; [reflexivity|]. split; rewrite <- C72_numbers; vm_compute; congruence.
Qed.

(** A host on a port that receives LLDP can have it raised: one frame, of 40 bytes, with
    state 9; or one whose port is named rather than numbered. *)
Definition host_frame (port_id state : bytes) : bytes :=
  lldp_frame [2; 0; 0; 0; 0; 66]
    [ChassisId 4 [2; 0; 0; 0; 0; 66]; PortId 5 port_id; Ttl 120; Org [14; 0; 0] 2 state; End].
Theorem C72_host_frame_refuted : exists data,
  forall (rest : bytes) (p : lldp_port), arrives data (data ++ rest) /\
  ((length (data ++ rest) <= 194)%nat -> l_heard p <> Some 9 ->
   lldp_packet_in mac_ p (data ++ rest) = Some Raised).
Proof.
  exists (host_frame [49] [57]). intros rest p. split.
  - exists rest, (Nat.add 128 (length (host_frame [49] [57] ++ rest))). split; [lia|].
    rewrite firstn_all2 by lia. reflexivity.
  - intros Hl Hh. unfold lldp_packet_in, packet_in_lldp, MAX_PACKET_IN_BYTES.
    rewrite firstn_all2 by exact Hl.
    set (ts := [ChassisId 4 [2; 0; 0; 0; 0; 66]; PortId 5 [49]; Ttl 120; Org [14; 0; 0] 2 [57]]).
    assert (skipn 14 (host_frame [49] [57] ++ rest) = flat_map enc_tlv (ts ++ [End]) ++ rest) as -> by reflexivity.
    assert (parse_lldp (flat_map enc_tlv (ts ++ [End]) ++ rest) = Some (ts ++ [End])) as ->.
    { unfold parse_lldp. rewrite parse_all; [reflexivity| | |rewrite app_length; cbn; lia].
      - repeat (constructor; [split; cbn; [lia|try exact I; lia]|]). constructor.
      - cbn. intuition discriminate. }
    cbn [option_map]. f_equal.
    apply (C72_exception_otherwise mac_ p (ts ++ [End]) 9); [reflexivity|lia|exact Hh|right].
    cbn. intuition discriminate.
Qed.
Print Assumptions C72_host_frame_refuted.
Example ex_named_port : lldp_packet_in mac_ (mkLldpPort None None) (host_frame [101; 116; 104; 48] [51]) = Some Raised.
Proof. vm_compute. reflexivity. Qed.
Example ex_no_exception :
  lldp_packet_in mac_ (mkLldpPort None (Some 3)) (host_frame [101; 116; 104; 48] [51]) = Some (Handled (Some 3) None) /\
  lldp_packet_in mac_ (mkLldpPort None None) (host_frame [53] [51]) = Some (Handled (Some 3) None).
Proof. vm_compute. split; reflexivity. Qed.
(** A TLV that was configured for a port does it to the controller of the other end. *)
Theorem C72_org_tlv_refuted : exists (c : beacon_conf) (p : lldp_port),
  sane c /\ (length (beacon_frame c) <= 128)%nat /\ lldp_packet_in (b_mac c) p (beacon_frame c) = Some Raised.
Proof.
  exists (conf_ None [([14; 0; 0], 2, [57])] [112]), (mkLldpPort None None).
  split; [|split].
  - apply sane_conf; [discriminate|cbn; lia|]. intros o s i [H|[]]. injection H as <- <- <-. cbn. lia.
  - vm_compute. lia.
  - vm_compute. reflexivity.
Qed.
Print Assumptions C72_org_tlv_refuted.
