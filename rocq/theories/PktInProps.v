(** * Which packets the controller looks at: properties *)
From Coq Require Import List Bool ZArith Lia.
From Verif Require Import PyBase PktInModel PktInSpec PktInProofs.
Import ListNotations.
Open Scope Z_scope.

(** A frame of a host is looked at exactly if it was asked for, has a source that can be a
    host's, and is untagged or tagged with a VLAN of the configuration (in a stack: one
    that the port carries); then it is taken to be of the VLAN of its tag, from the port
    it came in on, and with its own addresses and type. *)
Theorem C96_frames : forall cfg msg f m, wf_iconf cfg -> wf_frame f -> pi_data msg = wire f ->
  (forall pcp vid, ef_tag f = Some (pcp, vid) -> vid <> ic_global cfg /\ 0 < vid) ->
  (parse_pkt_meta cfg msg = Meta m <->
   exists p v, asked_for cfg msg p /\ host_address (ef_src f) /\ in_vlan cfg f v /\ member cfg p v /\
     m = {| pm_port := ip_num p; pm_vlan := v; pm_src := mac_num (ef_src f); pm_dst := mac_num (ef_dst f);
            pm_type := ef_type f |}).
Proof.
  intros cfg msg f m WC WF Da TG.
  assert (NT : ~ null_tag f).
  { unfold null_tag. destruct (ef_tag f) as [[pcp vid]|] eqn:E; [|intros []]. intros [_ [-> _]].
    destruct (TG pcp 0 eq_refl). lia. }
  assert (Wz : wire f <> []) by (unfold wire; discriminate).
  assert (Nz : mac_num (ef_src f) <> 0 -> forall p, rest cfg p (wire f) = Meta m <->
            exists v, host_address (ef_src f) /\ in_vlan cfg f v /\ member cfg p v /\
     m = {| pm_port := ip_num p; pm_vlan := v; pm_src := mac_num (ef_src f); pm_dst := mac_num (ef_dst f);
            pm_type := ef_type f |}).
  { intros NZ p. unfold rest. destruct (wire f) as [|b d] eqn:Ew; [contradiction|]. rewrite <- Ew.
    rewrite (proj1 (parse_wire f WF NZ) NT).
    assert (PR : forall vid, vid = option_map snd (ef_tag f) ->
       parse_rcv_packet cfg p vid {| et_dst := mac_num (ef_dst f); et_src := mac_num (ef_src f); et_type := tag_type f |} (ef_type f)
       = {| pm_port := ip_num p; pm_vlan := match vid with Some v => if mem Z.eqb v (map fst (ic_vlans cfg)) then Some v else None | None => None end;
            pm_src := mac_num (ef_src f); pm_dst := mac_num (ef_dst f); pm_type := ef_type f |}).
    { intros vid ->. unfold parse_rcv_packet. cbn [et_src et_dst].
      destruct (ef_tag f) as [[pcp vid]|] eqn:E; cbn [option_map snd opt_is]; [|reflexivity].
      destruct (Z.eqb_spec vid (ic_global cfg)) as [X|_]; [|reflexivity]. destruct (TG pcp vid eq_refl). contradiction. }
    rewrite (PR _ eq_refl). cbv zeta. cbn [pm_src pm_vlan].
    rewrite unicast_ok by (destruct WF as [_ [W _]]; exact W).
    assert (HA : host_address (ef_src f) <-> (m0 (ef_src f) mod 2 =? 0) = true).
    { unfold host_address. rewrite Z.eqb_eq. tauto. }
    assert (Z0 : mac_addr_all_zeros (mac_num (ef_src f)) = false) by (apply Z.eqb_neq; exact NZ).
    rewrite Z0. setoid_rewrite HA. clear HA.
    destruct (m0 (ef_src f) mod 2 =? 0); cbn [negb].
    2:{ split; [destruct (match option_map snd (ef_tag f) with Some _ => _ | None => _ end); discriminate|].
        intros [v [X _]]. discriminate. }
    unfold in_vlan, member. destruct (ef_tag f) as [[pcp vid]|] eqn:E; cbn [option_map snd].
    - destruct (TG pcp vid eq_refl) as [NG _]. rewrite (proj2 (Z.eqb_neq vid (ic_global cfg)) NG). cbn [negb].
      destruct (mem Z.eqb vid (map fst (ic_vlans cfg))) eqn:M; cbn [negb andb].
      + apply mem_z in M. destruct (ic_stacked cfg) eqn:S, (ip_stack p) eqn:P; cbn [negb andb].
        * split; [intros H; injection H as <-; exists (Some vid); repeat split; auto; intros; discriminate|].
          intros [v [_ [[_ [_ ->]] [_ ->]]]]. reflexivity.
        * destruct (mem Z.eqb vid (ip_tagged p)) eqn:T; cbn [negb andb].
          -- apply mem_z in T. split; [intros H; injection H as <-; exists (Some vid); repeat split; auto|].
             ++ intros w Hw _ _. injection Hw as <-. auto.
             ++ intros [v [_ [[_ [_ ->]] [_ ->]]]]. reflexivity.
          -- apply mem_z_false in T. destruct (ip_native p) as [nv|] eqn:N; cbn [opt_is].
             ++ destruct (Z.eqb_spec nv vid) as [->|Nn]; cbn [negb].
                ** split; [intros H; injection H as <-; exists (Some vid); repeat split; auto|].
                   intros [v [_ [[_ [_ ->]] [_ ->]]]]. reflexivity.
                ** split; [discriminate|]. intros [v [_ [[_ [_ ->]] [H _]]]].
                   destruct (H vid eq_refl eq_refl eq_refl) as [X|X]; [contradiction|congruence].
             ++ cbn [negb]. split; [discriminate|]. intros [v [_ [[_ [_ ->]] [H _]]]].
                destruct (H vid eq_refl eq_refl eq_refl) as [X|X]; [contradiction|congruence].
        * split; [intros H; injection H as <-; exists (Some vid); repeat split; auto; intros; discriminate|].
          intros [v [_ [[_ [_ ->]] [_ ->]]]]. reflexivity.
        * split; [intros H; injection H as <-; exists (Some vid); repeat split; auto; intros; discriminate|].
          intros [v [_ [[_ [_ ->]] [_ ->]]]]. reflexivity.
      + apply mem_z_false in M. split; [discriminate|]. intros [v [_ [[_ [X _]] _]]]. contradiction.
    - rewrite andb_false_r. split.
      + intros H. injection H as <-. exists None. repeat split. intros; discriminate.
      + intros [v [_ [-> [_ ->]]]]. reflexivity. }
  split.
  - intros H. destruct (not_ignored cfg msg WC) as [p A]; [rewrite H; discriminate|].
    rewrite (asked_rest cfg msg p WC A), Da in H.
    destruct (Z.eq_dec (mac_num (ef_src f)) 0) as [Z0|NZ].
    + exfalso. unfold rest in H. destruct (wire f) as [|b d] eqn:Ew; [contradiction|]. rewrite <- Ew in H.
      destruct (parse_packet_in_pkt (wire f)) as [[[[e|] ty] vid]|] eqn:P; try discriminate.
      assert (Se : et_src e = 0).
      { unfold parse_packet_in_pkt in P. destruct (parse_eth (wire f)) as [e'|] eqn:Pe; [|discriminate].
        assert (e' = e) by (destruct (_ =? _); [destruct (all_zeros _); [discriminate|]; destruct (Nat.eqb _ _)|]; congruence).
        subst e'. unfold parse_eth in Pe. destruct (_ || _); [discriminate|]. 
        assert (Q : Some (from_be (mac_bytes (ef_src f))) = option_map et_src (Some e)) by (rewrite <- Pe; reflexivity).
        rewrite be_mac, Z0 in Q. cbn [option_map] in Q. congruence. }
      destruct (match vid with Some _ => _ | None => _ end); [discriminate|]. cbv zeta in H.
      assert (Sm : pm_src (parse_rcv_packet cfg p vid e ty) = 0).
      { unfold parse_rcv_packet. destruct (opt_is vid (ic_global cfg)); [destruct (find _ _) as [[? ?]|]|]; exact Se. }
      rewrite Sm in H. cbn in H. discriminate.
    + apply (Nz NZ p) in H. destruct H as [v H]. exists p, v. tauto.
  - intros [p [v [A H]]]. rewrite (asked_rest cfg msg p WC A), Da.
    assert (NZ : mac_num (ef_src f) <> 0) by (destruct H as [[_ X] _]; exact X).
    apply (Nz NZ p). exists v. exact H.
Qed.
Print Assumptions C96_frames.

(** A frame in the global VLAN, in which all VLANs are routed, is taken to be in the VLAN
    whose ID is the last two bytes of its destination, and sent to the router. *)
Theorem C96_global : forall cfg msg f p pcp mac, wf_iconf cfg -> wf_frame f -> pi_data msg = wire f ->
  ef_tag f = Some (pcp, ic_global cfg) -> 0 < ic_global cfg -> asked_for cfg msg p -> host_address (ef_src f) ->
  let vid := m4 (ef_dst f) * 256 + m5 (ef_dst f) in
  In (vid, mac) (ic_vlans cfg) -> member cfg p (Some vid) ->
  parse_pkt_meta cfg msg =
    Meta {| pm_port := ip_num p; pm_vlan := Some vid; pm_src := mac_num (ef_src f); pm_dst := mac; pm_type := ef_type f |}.
Proof.
  intros cfg msg f p pcp mac WC WF Da TG G0 A HA vid V M.
  rewrite (asked_rest cfg msg p WC A), Da. unfold rest.
  destruct (wire f) as [|b d] eqn:Ew; [unfold wire in Ew; discriminate|]. rewrite <- Ew.
  destruct HA as [Ev NZ].
  assert (NT : ~ null_tag f) by (unfold null_tag; rewrite TG; lia).
  rewrite (proj1 (parse_wire f WF NZ) NT), TG. cbn [option_map snd]. rewrite Z.eqb_refl, andb_false_r.
  assert (I : int_from_mac (mac_num (ef_dst f)) = vid).
  { destruct WF as [W _]. unfold wf_mac, mac_bytes, byte in W.
    repeat match goal with H : Forall _ (_ :: _) |- _ => inversion H; clear H; subst end.
    unfold int_from_mac. symmetry. unfold vid.
    apply (Z.mod_unique _ _ (m0 (ef_dst f) * 2 ^ 24 + m1 (ef_dst f) * 2 ^ 16 + m2 (ef_dst f) * 2 ^ 8 + m3 (ef_dst f))).
    - left. lia.
    - unfold mac_num. change (2 ^ 40) with 1099511627776. change (2 ^ 32) with 4294967296. change (2 ^ 24) with 16777216.
      change (2 ^ 16) with 65536. change (2 ^ 8) with 256. lia. }
  assert (F : find (fun q => fst q =? vid) (ic_vlans cfg) = Some (vid, mac)).
  { clear - V WC. destruct WC as [_ [ND _]]. induction (ic_vlans cfg) as [|[x y] l IH]; [destruct V|].
    cbn in ND |- *. inversion ND; subst. destruct V as [E|V].
    - injection E as -> ->. rewrite Z.eqb_refl. reflexivity.
    - destruct (Z.eqb_spec x vid) as [->|_]; [|apply IH; assumption].
      exfalso. apply H1. apply (in_map fst) in V. exact V. }
  unfold parse_rcv_packet. cbn [opt_is et_dst et_src]. rewrite Z.eqb_refl, I, F. cbv zeta. cbn [pm_src pm_vlan].
  rewrite unicast_ok by (destruct WF as [_ [W _]]; exact W). rewrite Ev. cbn [Z.eqb negb].
  unfold mac_addr_all_zeros. rewrite (proj2 (Z.eqb_neq _ _) NZ).
  destruct (ic_stacked cfg) eqn:S; [|reflexivity]. destruct (ip_stack p) eqn:P; [reflexivity|]. cbn [negb andb].
  destruct (M vid eq_refl S P) as [T|N].
  - apply mem_z in T. rewrite T. reflexivity.
  - rewrite N. cbn [opt_is]. rewrite Z.eqb_refl. rewrite andb_false_r. reflexivity.
Qed.
Print Assumptions C96_global.

(** Whatever the switch sends: a packet that was not asked for is ignored, and one that is
    looked at came from a port of the configuration and is in a VLAN of the configuration
    or in none. *)
Theorem C96_asked : forall cfg msg, wf_iconf cfg ->
  ((forall p, ~ asked_for cfg msg p) -> parse_pkt_meta cfg msg = Ignored) /\
  (forall m, parse_pkt_meta cfg msg = Meta m ->
     (exists p, asked_for cfg msg p /\ pm_port m = ip_num p) /\
     (forall v, pm_vlan m = Some v -> In v (map fst (ic_vlans cfg)))).
Proof.
  intros cfg msg WC. split.
  - intros N. destruct (parse_pkt_meta cfg msg) eqn:E; [reflexivity| |];
      (destruct (not_ignored cfg msg WC) as [p A]; [rewrite E; discriminate|]; destruct (N p A)).
  - intros m H. destruct (not_ignored cfg msg WC) as [p A]; [rewrite H; discriminate|].
    rewrite (asked_rest cfg msg p WC A) in H. unfold rest in H.
    destruct (pi_data msg) as [|b d]; [discriminate|]. 
    destruct (parse_packet_in_pkt (b :: d)) as [[[[e|] ty] vid]|]; try discriminate.
    destruct (match vid with Some _ => _ | None => _ end); [discriminate|]. cbv zeta in H.
    destruct (negb _); [discriminate|]. destruct (mac_addr_all_zeros _); [discriminate|].
    match type of H with (if ?b then _ else _) = _ => destruct b; [discriminate|] end. injection H as <-.
    unfold parse_rcv_packet. split.
    + exists p. split; [exact A|]. destruct (opt_is vid (ic_global cfg)); [destruct (find _ _) as [[? ?]|]|]; reflexivity.
    + intros v. destruct (opt_is vid (ic_global cfg)).
      * destruct (find _ (ic_vlans cfg)) as [[v' mac]|] eqn:F; cbn [pm_vlan]; [|discriminate].
        intros E. injection E as <-. apply find_some in F. destruct F as [F E]. apply Z.eqb_eq in E. cbn in E. subst.
        apply (in_map fst) in F. exact F.
      * cbn [pm_vlan]. destruct vid as [x|]; [|discriminate]. destruct (mem Z.eqb x (map fst (ic_vlans cfg))) eqn:M; [|discriminate].
        intros E. injection E as <-. apply mem_z. exact M.
Qed.
Print Assumptions C96_asked.

(** Only the headers matter for this: what follows the first 18 bytes, and how much of it
    the switch sends, changes nothing. *)
Theorem C96_headers : forall cfg msg d, firstn 18 d = firstn 18 (pi_data msg) ->
  parse_pkt_meta cfg (mkPktin (pi_cookie msg) (pi_reason msg) (pi_in_port msg) d) = parse_pkt_meta cfg msg.
Proof.
  intros cfg msg d E. unfold parse_pkt_meta. cbn [pi_cookie pi_reason pi_in_port pi_data].
  rewrite !(parse_cut 194) by lia.
  rewrite <- (parse_cut 18 d), <- (parse_cut 18 (pi_data msg)), E by lia.
  destruct d as [|b d], (pi_data msg) as [|b' d']; try discriminate E; reflexivity.
Qed.
Print Assumptions C96_headers.

(** No frame of at least 18 bytes raises an exception, unless its tag and type are all
    zeros. *)
Theorem C96_no_exception : forall cfg msg, (18 <= length (pi_data msg))%nat ->
  all_zeros (skipn 14 (firstn 18 (pi_data msg))) = false -> parse_pkt_meta cfg msg <> Raised.
Proof.
  intros cfg msg L NZ H. unfold parse_pkt_meta in H. rewrite (parse_cut 194) in H by lia.
  destruct (negb (ic_running cfg)); [discriminate|]. destruct (_ && _); [discriminate|].
  destruct (negb (mem _ _ _)); [discriminate|]. destruct (pi_in_port msg) as [n|]; [|discriminate].
  destruct (n =? 0); [discriminate|]. destruct (valid_port cfg n) as [p|]; [|discriminate].
  destruct (pi_data msg) as [|b d]; [discriminate|]. 
  destruct (parse_packet_in_pkt (b :: d)) as [[[[e|] ty] vid]|] eqn:P; try discriminate.
  - destruct (match vid with Some _ => _ | None => _ end); [discriminate|]. cbv zeta in H.
    destruct (negb _); [discriminate|]. destruct (mac_addr_all_zeros _); [discriminate|].
    match type of H with (if ?b then _ else _) = _ => destruct b; discriminate end.
  - unfold parse_packet_in_pkt in P. destruct (parse_eth (b :: d)); [|discriminate].
    destruct (_ =? _); [|discriminate]. unfold ETH_HEADER_SIZE, ETH_VLAN_HEADER_SIZE in P. rewrite NZ in P.
    destruct (Nat.eqb _ _); discriminate.
Qed.
Print Assumptions C96_no_exception.

(** ** A case, and what does not hold *)

Definition ex_iconf := mkIconf true true 77 [mkIport 1 false [100] None; mkIport 2 false [] (Some 2)] [(100, 1); (2, 1)] 0 true.
Definition ex_iframe (dst : mac) (tag : option (Z * Z)) (ty : Z) := mkEframe dst (mkMac 2 0 0 0 0 5) tag ty [1; 2; 3; 4].
Definition ex_msg (n : Z) (f : eframe) := mkPktin 77 1 (Some n) (wire f).
Lemma ex_iconf_wf : wf_iconf ex_iconf.
Proof.
  split; [|split].
  - cbn. repeat constructor; cbn; intuition lia.
  - cbn. repeat constructor; cbn; intuition lia.
  - intros p [<-|[<-|[]]]; left; cbn; lia.
Qed.

Example ex_pktin : let f := ex_iframe (mkMac 255 255 255 255 255 255) (Some (3, 100)) 0x800 in
  wf_frame f /\ asked_for ex_iconf (ex_msg 1 f) (mkIport 1 false [100] None) /\
  parse_pkt_meta ex_iconf (ex_msg 1 f) = Meta (mkMeta 1 (Some 100) 0x020000000005 0xffffffffffff 0x800) /\
  parse_pkt_meta ex_iconf (ex_msg 2 f) = Ignored.
Proof.
  cbv zeta. split; [|split; [|split; vm_compute; reflexivity]].
  - unfold wf_frame, wf_mac, byte, mac_bytes. cbn. repeat split; try lia; repeat constructor; lia.
  - split; [reflexivity|]. split; [reflexivity|]. split; [left; reflexivity|]. split; [reflexivity|left; reflexivity].
Qed.

(** Without a global VLAN (0 is the default), a frame tagged with VLAN ID 0 (a priority
    tag, which means no VLAN) is taken to be in the VLAN that the last two bytes of its
    destination happen to say: an LACP frame so tagged is taken for one of a host in VLAN
    2. *)
Theorem C96_priority_tag_refuted : ~ (forall cfg msg f m, wf_iconf cfg -> wf_frame f -> pi_data msg = wire f ->
  ic_global cfg = 0 -> parse_pkt_meta cfg msg = Meta m ->
  pm_vlan m = None \/ exists pcp vid, ef_tag f = Some (pcp, vid) /\ pm_vlan m = Some vid).
Proof.
  intros H. set (f := ex_iframe (mkMac 1 0x80 0xc2 0 0 2) (Some (7, 0)) 0x8809).
  destruct (H ex_iconf (ex_msg 2 f) f (mkMeta 2 (Some 2) 0x020000000005 1 0x8809) ex_iconf_wf) as [E|[pcp [vid [E E']]]].
  - unfold wf_frame, wf_mac, byte, mac_bytes. cbn. repeat split; try lia; repeat constructor; lia.
  - reflexivity.
  - reflexivity.
  - vm_compute. reflexivity.
  - discriminate.
  - cbn in E, E'. congruence.
Qed.
Print Assumptions C96_priority_tag_refuted.

(** A tag and type of zeros, or a tag's type with nothing after it, raises an exception
    that is not caught. *)
Theorem C96_null_tag_refuted : ~ (forall cfg msg, parse_pkt_meta cfg msg <> Raised).
Proof.
  intros H. apply (H ex_iconf (mkPktin 77 1 (Some 1) (wire (ex_iframe (mkMac 255 255 255 255 255 255) (Some (0, 0)) 0)))).
  vm_compute. reflexivity.
Qed.
Print Assumptions C96_null_tag_refuted.
