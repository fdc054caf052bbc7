(** * Which packets the controller looks at: proofs *)
From Coq Require Import List Bool ZArith Lia.
From Verif Require Import PyBase PyBaseProofs PktInModel PktInSpec.
Import ListNotations.
Open Scope Z_scope.

Lemma be_mac : forall a, from_be (mac_bytes a) = mac_num a.
Proof.
  intros a. unfold from_be, mac_bytes, mac_num. cbn [fold_left].
  change (2 ^ 40) with 1099511627776. change (2 ^ 32) with 4294967296. change (2 ^ 24) with 16777216.
  change (2 ^ 16) with 65536. change (2 ^ 8) with 256. lia.
Qed.
Lemma be_two : forall n, from_be (two_bytes n) = n.
Proof. intros n. unfold from_be, two_bytes. cbn [fold_left]. pose proof (Z.div_mod n 256). lia. Qed.

Lemma mac_bit : forall a, wf_mac a -> Z.testbit (mac_num a) 40 = negb ((m0 a) mod 2 =? 0).
Proof.
  intros a W. unfold wf_mac, mac_bytes, byte in W.
  repeat match goal with H : Forall _ (_ :: _) |- _ => inversion H; clear H; subst end.
  assert (E : mac_num a / 2 ^ 40 = m0 a).
  { symmetry. apply (Z.div_unique _ _ _ (m1 a * 2 ^ 32 + m2 a * 2 ^ 24 + m3 a * 2 ^ 16 + m4 a * 2 ^ 8 + m5 a)).
    - left. change (2 ^ 40) with 1099511627776. change (2 ^ 32) with 4294967296. change (2 ^ 24) with 16777216.
      change (2 ^ 16) with 65536. change (2 ^ 8) with 256. lia.
    - unfold mac_num. lia. }
  rewrite Z.testbit_odd, Z.shiftr_div_pow2, E by lia. rewrite Zodd_mod.
  pose proof (Z.mod_pos_bound (m0 a) 2 ltac:(lia)).
  destruct (Z.eqb_spec (m0 a mod 2) 0) as [->|N]; [reflexivity|].
  assert (M : m0 a mod 2 = 1) by lia. rewrite M. reflexivity.
Qed.

Lemma unicast_ok : forall a, wf_mac a -> mac_addr_is_unicast (mac_num a) = ((m0 a) mod 2 =? 0).
Proof.
  intros a W. unfold mac_addr_is_unicast. rewrite mac_bit by exact W. rewrite negb_involutive.
  destruct (Z.eqb_spec (mac_num a) 0xffffffffffff) as [E|_]; [|reflexivity].
  pose proof (mac_bit a W) as B. rewrite E in B. destruct (m0 a mod 2 =? 0); [discriminate|reflexivity].
Qed.

Lemma parse_cut : forall k d, (18 <= k)%nat -> parse_packet_in_pkt (firstn k d) = parse_packet_in_pkt d.
Proof.
  intros k d K. unfold parse_packet_in_pkt, parse_eth, ETH_HEADER_SIZE, ETH_VLAN_HEADER_SIZE.
  rewrite !firstn_firstn, !Nat.min_l by lia. reflexivity.
Qed.

Lemma zeros_in : forall l, all_zeros l = true -> forall b, In b l -> b = 0.
Proof. intros l H b I. unfold all_zeros in H. rewrite forallb_forall in H. apply Z.eqb_eq. apply H. exact I. Qed.

Lemma src_zero : forall a, (forall b, In b (mac_bytes a) -> b = 0) -> mac_num a = 0.
Proof.
  intros a H. unfold mac_num.
  rewrite (H (m0 a)), (H (m1 a)), (H (m2 a)), (H (m3 a)), (H (m4 a)), (H (m5 a)) by (cbn; auto 8). reflexivity.
Qed.

Definition tag_type (f : eframe) : Z := match ef_tag f with Some _ => 0x8100 | None => ef_type f end.

Lemma eth_wire : forall f, wf_frame f -> mac_num (ef_src f) <> 0 ->
  parse_eth (wire f) = Some {| et_dst := mac_num (ef_dst f); et_src := mac_num (ef_src f); et_type := tag_type f |}.
Proof.
  intros f WF NZ. unfold parse_eth.
  assert (D : exists t, firstn ETH_HEADER_SIZE (wire f) = mac_bytes (ef_dst f) ++ mac_bytes (ef_src f) ++ t /\
                length t = 2%nat /\ from_be t = tag_type f).
  { unfold wire, tag_type. destruct (ef_tag f) as [[pcp vid]|].
    - exists [0x81; 0x00]. split; [|split]; reflexivity.
    - exists (two_bytes (ef_type f)). split; [reflexivity|]. split; [reflexivity|apply be_two]. }
  destruct D as [t [-> [L T]]].
  destruct t as [|t0 [|t1 [|]]]; try discriminate L.
  destruct (all_zeros _) eqn:Z0.
  - exfalso. apply NZ. apply src_zero. intros b B. apply (zeros_in _ Z0). apply in_or_app. right. apply in_or_app. left. exact B.
  - cbn [orb]. change (length (mac_bytes (ef_dst f) ++ mac_bytes (ef_src f) ++ [t0; t1])) with 14%nat. cbn [Nat.eqb negb ETH_HEADER_SIZE].
    change (firstn 6 (mac_bytes (ef_dst f) ++ mac_bytes (ef_src f) ++ [t0; t1])) with (mac_bytes (ef_dst f)).
    change (firstn 6 (skipn 6 (mac_bytes (ef_dst f) ++ mac_bytes (ef_src f) ++ [t0; t1]))) with (mac_bytes (ef_src f)).
    change (skipn 12 (mac_bytes (ef_dst f) ++ mac_bytes (ef_src f) ++ [t0; t1])) with [t0; t1].
    rewrite !be_mac, T. reflexivity.
Qed.

Lemma land_vid : forall pcp vid, 0 <= vid < 4096 -> Z.land (pcp * 4096 + vid) 0xfff = vid.
Proof.
  intros pcp vid H. change 0xfff with (Z.ones 12). rewrite Z.land_ones by lia. change (2 ^ 12) with 4096.
  rewrite Z.add_comm, Z_mod_plus_full. apply Z.mod_small. exact H.
Qed.

Definition null_tag (f : eframe) : Prop := match ef_tag f with Some (pcp, vid) => pcp = 0 /\ vid = 0 /\ ef_type f = 0 | None => False end.

Lemma two_zero : forall n, 0 <= n -> (n / 256 =? 0) && (n mod 256 =? 0) = (n =? 0).
Proof.
  intros n H. pose proof (Z.div_mod n 256 ltac:(lia)). pose proof (Z.mod_pos_bound n 256 ltac:(lia)).
  assert (0 <= n / 256) by (apply Z.div_pos; lia).
  destruct (Z.eqb_spec (n / 256) 0), (Z.eqb_spec (n mod 256) 0), (Z.eqb_spec n 0); cbn; try reflexivity; lia.
Qed.

Lemma parse_wire : forall f, wf_frame f -> mac_num (ef_src f) <> 0 ->
  (~ null_tag f -> parse_packet_in_pkt (wire f) =
     Some (Some {| et_dst := mac_num (ef_dst f); et_src := mac_num (ef_src f); et_type := tag_type f |},
           ef_type f, option_map snd (ef_tag f))) /\
  (null_tag f -> parse_packet_in_pkt (wire f) = None).
Proof.
  intros f WF NZ. unfold parse_packet_in_pkt. rewrite (eth_wire f WF NZ). cbn [et_type].
  destruct WF as [_ [_ [TY TG]]]. unfold tag_type, null_tag. destruct (ef_tag f) as [[pcp vid]|] eqn:E.
  - cbn [Z.eqb Pos.eqb ETH_TYPE_8021Q].
    assert (R : skipn ETH_HEADER_SIZE (firstn ETH_VLAN_HEADER_SIZE (wire f)) = two_bytes (pcp * 4096 + vid) ++ two_bytes (ef_type f)).
    { unfold wire. rewrite E. reflexivity. }
    rewrite R. destruct TG as [P V].
    assert (Z0 : all_zeros (two_bytes (pcp * 4096 + vid) ++ two_bytes (ef_type f)) = (pcp * 4096 + vid =? 0) && (ef_type f =? 0)).
    { unfold all_zeros, two_bytes. cbn [app forallb]. rewrite andb_true_r, andb_assoc, !two_zero by lia. reflexivity. }
    rewrite Z0. split.
    + intros N. destruct (Z.eqb_spec (pcp * 4096 + vid) 0) as [A|A], (Z.eqb_spec (ef_type f) 0) as [B|B]; cbn [andb];
        try (exfalso; apply N; lia);
        change (length (two_bytes (pcp * 4096 + vid) ++ two_bytes (ef_type f))) with 4%nat; cbn [Nat.eqb];
        change (skipn 2 (two_bytes (pcp * 4096 + vid) ++ two_bytes (ef_type f))) with (two_bytes (ef_type f));
        change (firstn 2 (two_bytes (pcp * 4096 + vid) ++ two_bytes (ef_type f))) with (two_bytes (pcp * 4096 + vid));
        rewrite !be_two, land_vid by lia; reflexivity.
    + intros [-> [-> ->]]. reflexivity.
  - destruct (Z.eqb_spec (ef_type f) ETH_TYPE_8021Q) as [X|_]; [contradiction|]. split; [reflexivity|intros []].
Qed.

Lemma valid_port_iff : forall cfg n p, wf_iconf cfg -> (valid_port cfg n = Some p <-> In p (ic_ports cfg) /\ ip_num p = n).
Proof.
  intros cfg n p [ND [_ NUM]]. unfold valid_port. split.
  - destruct (ignore_port n); [discriminate|]. intros H. apply find_some in H. rewrite Z.eqb_eq in H. exact H.
  - intros [I <-]. assert (G : ignore_port (ip_num p) = false).
    { unfold ignore_port. destruct (NUM p I) as [H|H].
      - destruct (_ || _); [reflexivity|]. apply Z.ltb_ge. lia.
      - rewrite H. reflexivity. }
    rewrite G. clear G NUM. revert ND I. induction (ic_ports cfg) as [|q l IH]; intros ND [].
    + subst. cbn. rewrite Z.eqb_refl. reflexivity.
    + cbn. inversion ND; subst. destruct (Z.eqb_spec (ip_num q) (ip_num p)) as [E|_].
      * exfalso. apply H2. rewrite E. apply in_map. exact H.
      * apply IH; assumption.
Qed.

Lemma mem_z : forall x l, mem Z.eqb x l = true <-> In x l.
Proof. intros. apply (mem_spec _ Z.eqb Z.eqb_eq). Qed.
Lemma mem_z_false : forall x l, mem Z.eqb x l = false <-> ~ In x l.
Proof. intros. rewrite <- mem_z. destruct (mem Z.eqb x l); split; congruence. Qed.

(** What comes before the data is looked at *)
Definition rest (cfg : iconf) (p : iport) (data : list Z) : outcome :=
  match data with [] => Ignored | _ =>
        match parse_packet_in_pkt data with
        | None => Raised
        | Some (None, _, _) => Ignored
        | Some (Some e, eth_type, vid) =>
          if match vid with
             | Some v => negb (mem Z.eqb v (map fst (ic_vlans cfg))) && negb (v =? ic_global cfg)
             | None => false
             end
          then Ignored
          else
            let m := parse_rcv_packet cfg p vid e eth_type in
            if negb (mac_addr_is_unicast (pm_src m)) then Ignored
            else if mac_addr_all_zeros (pm_src m) then Ignored
            else if ic_stacked cfg && negb (ip_stack p) &&
                    match pm_vlan m with
                    | Some v => negb (mem Z.eqb v (ip_tagged p)) && negb (opt_is (ip_native p) v)
                    | None => false
                    end
            then Ignored
            else Meta m
        end end.

Lemma asked_rest : forall cfg msg p, wf_iconf cfg -> asked_for cfg msg p ->
  parse_pkt_meta cfg msg = rest cfg p (pi_data msg).
Proof.
  intros cfg msg p WF [R [C [Re [Po I]]]]. unfold parse_pkt_meta, rest. rewrite R. cbn [negb].
  assert (C' : ic_strict cfg && negb (ic_cookie cfg =? pi_cookie msg) = false).
  { destruct (ic_strict cfg); [|reflexivity]. rewrite C by reflexivity. rewrite Z.eqb_refl. reflexivity. }
  rewrite C'. assert (Re' : mem Z.eqb (pi_reason msg) [OFPR_ACTION; OFPR_INVALID_TTL] = true).
  { apply mem_z. unfold OFPR_ACTION, OFPR_INVALID_TTL. destruct Re as [-> | ->]; cbn; auto. }
  rewrite Re'. cbn [negb]. rewrite Po.
  assert (N0 : ip_num p =? 0 = false).
  { apply Z.eqb_neq. destruct (proj2 (proj2 WF) p I) as [H|H]; lia. }
  rewrite N0, (proj2 (valid_port_iff cfg (ip_num p) p WF) (conj I eq_refl)).
  destruct (pi_data msg) as [|b d]; [reflexivity|]. rewrite parse_cut by lia. reflexivity.
Qed.

Lemma not_ignored : forall cfg msg, wf_iconf cfg -> parse_pkt_meta cfg msg <> Ignored ->
  exists p, asked_for cfg msg p.
Proof.
  intros cfg msg WF H. unfold parse_pkt_meta in H.
  destruct (ic_running cfg) eqn:R; [|contradiction]. cbn [negb] in H.
  destruct (ic_strict cfg && negb (ic_cookie cfg =? pi_cookie msg)) eqn:C; [contradiction|].
  destruct (mem Z.eqb (pi_reason msg) [OFPR_ACTION; OFPR_INVALID_TTL]) eqn:Re; [|contradiction]. cbn [negb] in H.
  destruct (pi_in_port msg) as [n|] eqn:Po; [|contradiction]. destruct (n =? 0); [contradiction|].
  destruct (valid_port cfg n) as [p|] eqn:V; [|contradiction]. clear H.
  apply (valid_port_iff cfg n p WF) in V. destruct V as [I <-]. exists p. split; [exact R|].
  split; [|split; [|split; [exact Po|exact I]]].
  - intros S. rewrite S in C. cbn [andb] in C. apply negb_false_iff, Z.eqb_eq in C. auto.
  - apply mem_z in Re. cbn in Re. unfold OFPR_ACTION, OFPR_INVALID_TTL in Re. destruct Re as [Re|[Re|[]]]; auto.
Qed.
