(** * Proofs about LLDP beacons *)

From Coq Require Import Decimal DecimalFacts DecimalPos DecimalN DecimalZ.
From Coq Require Import ZArith List Bool Lia.
From Verif Require Import PyBase PyBaseProofs LldpModel LldpSpec.
Import ListNotations.
Open Scope Z_scope.
Ltac inv H := inversion H; subst; clear H.

Lemma bytes_eqb_spec : forall a b, reflect (a = b) (bytes_eqb a b).
Proof.
  induction a as [|x a IH]; intros [|y b]; cbn; try (constructor; congruence).
  destruct (Z.eqb_spec x y); cbn; [|constructor; congruence].
  destruct (IH b); constructor; congruence.
Qed.

(** ** Numbers *)

Lemma digits_uint d : digits true (uint_bytes d) = Some d.
Proof. induction d; cbn; try rewrite IHd; reflexivity. Qed.
Lemma digits_uint' d : d <> Nil -> digits false (uint_bytes d) = Some d.
Proof. destruct d; intros H; [congruence|..]; cbn; rewrite digits_uint; reflexivity. Qed.

Definition ink (c : Z) : Prop := is_space c = false.
Lemma uint_ink d : Forall ink (uint_bytes d).
Proof. induction d; cbn; constructor; auto; reflexivity. Qed.
Lemma lstrip_ink b : Forall ink b -> lstrip b = b.
Proof. intros H. destruct H as [|c r Hc]; cbn; [reflexivity|]. unfold ink in Hc. rewrite Hc. reflexivity. Qed.
Lemma strip_ink b : Forall ink b -> strip b = b.
Proof.
  intros H. unfold strip. rewrite (lstrip_ink b H).
  rewrite lstrip_ink by (apply Forall_rev; exact H). apply List.rev_involutive.
Qed.
Lemma to_int_shape n :
  exists d, d <> Nil /\ (Z.to_int n = Pos d \/ Z.to_int n = Neg d).
Proof.
  destruct n as [|p|p]; cbn.
  - exists (D0 Nil). split; [discriminate|left; reflexivity].
  - exists (Pos.to_uint p). split; [apply DecimalPos.Unsigned.to_uint_nonnil|left; reflexivity].
  - exists (Pos.to_uint p). split; [apply DecimalPos.Unsigned.to_uint_nonnil|right; reflexivity].
Qed.
Theorem py_int_str n : py_int (py_str n) = Some n.
Proof.
  unfold py_str, py_int. rewrite <- (DecimalZ.of_to n) at 2.
  destruct (to_int_shape n) as (d & Hd & [E|E]); rewrite E.
  - rewrite strip_ink by apply uint_ink.
    assert (Hg := digits_uint' d Hd).
    destruct d; [congruence|..]; cbn [uint_bytes] in *; cbn -[digits Z.of_int option_map]; rewrite Hg; reflexivity.
  - rewrite strip_ink by (constructor; [reflexivity|apply uint_ink]).
    replace (45 =? 45) with true by reflexivity.
    rewrite (digits_uint' d Hd). reflexivity.
Qed.

(** ** TLVs on the wire *)

(** A TLV that can be sent. *)
Definition sendable (t : tlv) : Prop :=
  (length (tlv_body t) <= 511)%nat /\
  match t with
  | Ttl n => 0 <= n < 65536
  | Org oui _ _ => length oui = 3%nat
  | Other ty _ => 6 <= ty <= 8
  | _ => True
  end.
Lemma sendable_type t : sendable t -> 0 <= tlv_type t /\ (tlv_type t = 0 <-> t = End).
Proof. destruct t; intros [_ H]; cbn in *; split; try lia; split; intro; try discriminate; try lia; reflexivity. Qed.
Lemma dec_body t : sendable t -> dec_tlv (tlv_type t) (tlv_body t) = Some t.
Proof.
  intros [_ H]. destruct t as [| | | n | | |oui s info|ty b]; cbn in *; try reflexivity.
  - unfold dec_tlv. cbn. f_equal. f_equal. rewrite Z.mul_comm. symmetry. apply Z.div_mod. lia.
  - destruct oui as [|x [|y [|z [|? ?]]]]; cbn in H; try lia. reflexivity.
  - unfold dec_tlv.
    assert (ty = 6 \/ ty = 7 \/ ty = 8) as [E|[E|E]] by lia; subst; reflexivity.
Qed.
Lemma header_split ty len : 0 <= len <= 511 ->
  (ty * 2 + len / 256) / 2 = ty /\
  (ty * 2 + len / 256) mod 2 * 256 + len mod 256 = len.
Proof.
  intros H. assert (0 <= len / 256 < 2).
  { split; [apply Z.div_pos; lia|apply Z.div_lt_upper_bound; lia]. }
  split.
  - rewrite Z.div_add_l by lia. rewrite (Z.div_small (len / 256) 2) by lia. lia.
  - rewrite Z.add_comm with (n := ty * 2), Z.mod_add by lia. rewrite (Z.mod_small (len / 256)) by lia.
    rewrite (Z.div_mod len 256) at 3 by lia. lia.
Qed.

(** Reading a TLV off the front. *)
Lemma parse_one t rest fuel : sendable t ->
  parse_tlvs (Datatypes.S fuel) (enc_tlv t ++ rest) =
  if tlv_type t =? 0 then Some [t] else option_map (cons t) (parse_tlvs fuel rest).
Proof.
  intros H. unfold enc_tlv. cbn [app parse_tlvs].
  set (len := Z.of_nat (length (tlv_body t))).
  assert (Hl : 0 <= len <= 511) by (destruct H; unfold len; lia).
  destruct (header_split (tlv_type t) len Hl) as [-> ->].
  unfold len. rewrite Nat2Z.id.
  rewrite firstn_app, firstn_all, Nat.sub_diag. cbn [firstn].
  rewrite app_nil_r, (dec_body t H).
  rewrite skipn_app, skipn_all, Nat.sub_diag. cbn [skipn app].
  destruct (Nat.ltb_spec (length (tlv_body t ++ rest)) (length (tlv_body t))) as [L|L].
  - rewrite app_length in L. lia.
  - reflexivity.
Qed.
(** A TLV that is not all there is not read. *)
Lemma parse_short t n fuel : sendable t -> (n < length (enc_tlv t))%nat ->
  parse_tlvs fuel (firstn n (enc_tlv t)) = None.
Proof.
  intros H Hn. destruct fuel as [|fuel]; [reflexivity|].
  unfold enc_tlv in *. cbn [app] in *.
  destruct n as [|[|n]]; [reflexivity|reflexivity|].
  cbn [firstn parse_tlvs].
  set (len := Z.of_nat (length (tlv_body t))) in *.
  assert (Hl : 0 <= len <= 511) by (destruct H; unfold len; lia).
  destruct (header_split (tlv_type t) len Hl) as [-> ->].
  unfold len. rewrite Nat2Z.id.
  destruct (Nat.ltb_spec (length (firstn n (tlv_body t))) (length (tlv_body t))) as [L|L]; [reflexivity|].
  cbn [length] in Hn. rewrite firstn_length in L. lia.
Qed.

Lemma enc_length t : (2 <= length (enc_tlv t))%nat.
Proof. unfold enc_tlv. cbn. lia. Qed.

Lemma parse_all ts : Forall sendable ts -> ~ In End ts ->
  forall fuel rest, (length ts < fuel)%nat ->
  parse_tlvs fuel (flat_map enc_tlv (ts ++ [End]) ++ rest) = Some (ts ++ [End]).
Proof.
  induction ts as [|t ts IH]; intros Hs Hn fuel rest Hf.
  - destruct fuel as [|fuel]; [lia|]. cbn [app flat_map]. rewrite app_nil_r.
    rewrite parse_one; [reflexivity|]. split; cbn; [lia|exact I].
  - destruct fuel as [|fuel]; [cbn in Hf; lia|]. cbn [app flat_map length] in *.
    inv Hs. rewrite <- app_assoc, parse_one by assumption.
    destruct (sendable_type t) as [_ He]; [assumption|].
    destruct (Z.eqb_spec (tlv_type t) 0) as [E|E].
    + exfalso. apply Hn. left. apply He. exact E.
    + rewrite IH; [reflexivity|assumption| |lia]. intro. apply Hn. right. assumption.
Qed.
Lemma firstn_firstn_app {A} (n : nat) (a b : list A) :
  firstn n (a ++ b) = if (n <? length a)%nat then firstn n a else a ++ firstn (n - length a) b.
Proof.
  rewrite firstn_app. destruct (Nat.ltb_spec n (length a)).
  - replace (n - length a)%nat with 0%nat by lia. cbn. apply app_nil_r.
  - rewrite firstn_all2 by lia. reflexivity.
Qed.
Lemma parse_cut ts : Forall sendable ts -> ~ In End ts ->
  forall fuel n, (n < length (flat_map enc_tlv (ts ++ [End])))%nat ->
  parse_tlvs fuel (firstn n (flat_map enc_tlv (ts ++ [End]))) = None.
Proof.
  induction ts as [|t ts IH]; intros Hs Hn fuel n Hl.
  - cbn [app flat_map] in *. rewrite app_nil_r in *. apply parse_short; [|assumption].
    split; cbn; [lia|exact I].
  - cbn [app flat_map] in *. inv Hs. rewrite firstn_firstn_app.
    destruct (Nat.ltb_spec n (length (enc_tlv t))) as [L|L]; [apply parse_short; assumption|].
    destruct fuel as [|fuel]; [reflexivity|]. rewrite parse_one by assumption.
    destruct (sendable_type t) as [_ He]; [assumption|].
    destruct (Z.eqb_spec (tlv_type t) 0) as [E|E]; [exfalso; apply Hn; left; apply He; exact E|].
    rewrite IH; [reflexivity|assumption| |rewrite app_length in Hl; lia].
    intro. apply Hn. right. assumption.
Qed.

(** ** A beacon *)

Definition front (c : beacon_conf) : list tlv :=
  [ChassisId 4 (b_mac c); PortId 5 (py_str (b_port c)); Ttl (Z.min (b_send_interval c * 3) 65535)]
  ++ [SysName (beacon_name c)] ++ opt_tlv PortDescr (b_port_descr c)
  ++ map (fun '(oui, s, info) => Org oui s info) (b_org_tlvs c ++ faucet_lldp_tlvs c ++ faucet_lldp_stack_state_tlvs c).
Lemma beacon_front c : beacon_tlvs c = front c ++ [End].
Proof. unfold beacon_tlvs, lldp_tlvs, front. rewrite <- !app_assoc. reflexivity. Qed.
Lemma front_no_end c : ~ In End (front c).
Proof.
  unfold front. rewrite !in_app_iff. intros [H|[H|[H|H]]].
  - cbn in H. intuition discriminate.
  - cbn in H. intuition discriminate.
  - unfold opt_tlv in H. destruct (b_port_descr c); cbn in H; intuition discriminate.
  - apply in_map_iff in H. destruct H as (((o & s) & i) & H & _). discriminate.
Qed.

(** How long a number can be written. *)
Lemma uint_bytes_length d : length (uint_bytes d) = nb_digits d.
Proof. induction d; cbn; congruence. Qed.
Lemma of_acc_bound d : forall acc, (Zpos acc * 10 ^ Z.of_nat (nb_digits d) <= Zpos (Pos.of_uint_acc d acc)).
Proof.
  induction d; intros acc; cbn [nb_digits Pos.of_uint_acc]; [cbn; lia|..];
    rewrite Nat2Z.inj_succ, Z.pow_succ_r by lia;
    (eapply Z.le_trans; [|apply IHd]); rewrite Z.mul_assoc;
    apply Z.mul_le_mono_nonneg_r; try lia; apply Z.pow_nonneg; lia.
Qed.
Lemma of_uint_bound d n : (forall d', d <> D0 d') -> d <> Nil -> Pos.of_uint d = N.pos n ->
  10 ^ (Z.of_nat (nb_digits d) - 1) <= Zpos n.
Proof.
  intros H0 Hn. destruct d; [congruence|exfalso; eapply H0; reflexivity|..];
    cbn [nb_digits Pos.of_uint]; intros E; injection E as <-;
    rewrite Nat2Z.inj_succ; replace (Z.succ (Z.of_nat (nb_digits d)) - 1) with (Z.of_nat (nb_digits d)) by lia;
    (eapply Z.le_trans; [|apply of_acc_bound]);
    assert (0 <= 10 ^ Z.of_nat (nb_digits d)) by (apply Z.pow_nonneg; lia); lia.
Qed.
Lemma nzhead_le d : (nb_digits (nzhead d) <= nb_digits d)%nat.
Proof. induction d; cbn [nzhead nb_digits]; lia. Qed.
Lemma to_uint_no_zero p d : Pos.to_uint p <> D0 d.
Proof.
  intros E.
  assert (H := DecimalPos.Unsigned.of_to p).
  assert (Hu : Pos.to_uint p = unorm (Pos.to_uint p)).
  { rewrite <- (DecimalN.Unsigned.to_of (Pos.to_uint p)).
    unfold N.of_uint. rewrite H. reflexivity. }
  rewrite E in Hu, H. unfold unorm in Hu. cbn [nzhead] in Hu.
  destruct (nzhead d) eqn:En.
  - injection Hu as ->. cbn in H. discriminate.
  - assert (X := nzhead_nonzero d u). congruence.
  - assert (L := nzhead_le d). rewrite En, <- Hu in L. cbn in L. lia.
  - discriminate Hu.
  - discriminate Hu.
  - discriminate Hu.
  - discriminate Hu.
  - discriminate Hu.
  - discriminate Hu.
  - discriminate Hu.
  - discriminate Hu.
Qed.
Lemma py_str_length n k : 0 < n < 10 ^ Z.of_nat k -> (length (py_str n) <= k)%nat.
Proof.
  intros [H0 H]. destruct n as [|p|p]; try lia. unfold py_str. cbn [Z.to_int].
  rewrite uint_bytes_length.
  assert (B := of_uint_bound (Pos.to_uint p) p (to_uint_no_zero p) (DecimalPos.Unsigned.to_uint_nonnil p) (DecimalPos.Unsigned.of_to p)).
  destruct (Nat.le_gt_cases (nb_digits (Pos.to_uint p)) k) as [L|L]; [exact L|exfalso].
  assert (10 ^ Z.of_nat k <= 10 ^ (Z.of_nat (nb_digits (Pos.to_uint p)) - 1)) by (apply Z.pow_le_mono_r; lia).
  lia.
Qed.

Lemma known_length s : In s [-1; 0; 1; 2; 3; 4] -> (length (py_str s) <= 2)%nat.
Proof. cbn [In]. intros [<-|[<-|[<-|[<-|[<-|[<-|[]]]]]]]; vm_compute; lia. Qed.
Lemma front_sendable c : sane c -> Forall sendable (front c).
Proof.
  intros (Hm & Hi & Hp & Ht & Hn & Hs & Hd & Ho & Hst). unfold front.
  assert (B1 : 2 ^ 64 < 10 ^ Z.of_nat 20) by (vm_compute; reflexivity).
  assert (B2 : 2 ^ 32 < 10 ^ Z.of_nat 20) by (vm_compute; reflexivity).
  assert (Li : (length (py_str (b_dp_id c)) <= 20)%nat)
    by (apply py_str_length; split; [exact (proj1 Hi)|exact (Z.lt_trans _ _ _ (proj2 Hi) B1)]).
  assert (Lp : (length (py_str (b_port c)) <= 20)%nat)
    by (apply py_str_length; split; [exact (proj1 Hp)|exact (Z.lt_trans _ _ _ (proj2 Hp) B2)]).
  clear B1 B2 Hi Hp.
  assert (Lo : (length (faucet_oui (b_mac c)) = 3)%nat) by (unfold faucet_oui; rewrite firstn_length; lia).
  apply Forall_app. split; [|apply Forall_app; split; [|apply Forall_app; split]].
  - constructor; [split; [cbn; lia|exact I]|].
    constructor; [split; [cbn; lia|exact I]|].
    constructor; [split; [cbn; lia|lia]|constructor].
  - constructor; [|constructor]. split; [|exact I]. cbn. unfold beacon_name.
    destruct (b_port_system_name c) as [[|x r]|].
    + destruct (b_dp_system_name c); [apply Hs; left; reflexivity|exact Hn].
    + apply Hs. right. reflexivity.
    + destruct (b_dp_system_name c); [apply Hs; left; reflexivity|exact Hn].
  - unfold opt_tlv. destruct (b_port_descr c) eqn:E; constructor; [|constructor].
    split; [|exact I]. cbn. apply Hd. reflexivity.
  - apply Forall_map, Forall_app. split; [|apply Forall_app; split].
    + apply Forall_forall. intros [[o s] i] Hin. destruct (Ho _ _ _ Hin) as [Ho1 Ho2].
      split; cbn; [|exact Ho1]. rewrite app_length. cbn [length]. lia.
    + constructor; [|constructor]. split; cbn [tlv_body]; [|exact Lo]. rewrite app_length. cbn [length]. lia.
    + unfold faucet_lldp_stack_state_tlvs. destruct (b_stack c) as [s|] eqn:E; constructor; [|constructor].
      assert (L := known_length s (Hst s eq_refl)).
      split; cbn [tlv_body]; [|exact Lo]. rewrite app_length. cbn [length]. lia.
Qed.

Lemma front_count ts : (length ts <= length (flat_map enc_tlv ts))%nat.
Proof.
  induction ts as [|t ts IH]; cbn [flat_map length]; [lia|].
  rewrite app_length. assert (L := enc_length t). lia.
Qed.
Lemma frame_split c : sane c ->
  exists hdr, length hdr = 14%nat /\ beacon_frame c = hdr ++ flat_map enc_tlv (beacon_tlvs c).
Proof.
  intros (Hm & _). exists ([1; 128; 194; 0; 0; 14] ++ b_mac c ++ [136; 204]).
  split; [cbn; rewrite app_length, Hm; reflexivity|].
  unfold beacon_frame, lldp_frame. rewrite <- !app_assoc. reflexivity.
Qed.
Lemma skipn_exact {A} (a b : list A) n : length a = n -> skipn n (a ++ b) = b.
Proof. intros <-. rewrite skipn_app, skipn_all, Nat.sub_diag. reflexivity. Qed.

Theorem beacon_parsed c data : sane c -> (length (beacon_frame c) <= 128)%nat ->
  arrives (beacon_frame c) data -> packet_in_lldp data = Some (beacon_tlvs c).
Proof.
  intros Hc Hl (pad & n & Hn & ->). unfold packet_in_lldp.
  rewrite !firstn_firstn_app.
  destruct (Nat.ltb_spec n (length (beacon_frame c))); [lia|].
  rewrite firstn_firstn_app. unfold MAX_PACKET_IN_BYTES.
  destruct (Nat.ltb_spec 194 (length (beacon_frame c))); [lia|].
  match goal with |- context [beacon_frame c ++ ?r] => generalize r end. intros rest.
  destruct (frame_split c Hc) as (hdr & Hh & ->).
  rewrite <- app_assoc, skipn_exact by exact Hh.
  unfold parse_lldp. rewrite !beacon_front.
  rewrite (parse_all (front c) (front_sendable c Hc) (front_no_end c)).
  - reflexivity.
  - rewrite app_length. assert (L := front_count (front c ++ [End])). rewrite app_length in L. cbn [length] in L. lia.
Qed.
Theorem long_beacon_lost c data : sane c -> (194 < length (beacon_frame c))%nat ->
  arrives (beacon_frame c) data -> packet_in_lldp data = None.
Proof.
  intros Hc Hl (pad & n & Hn & ->). unfold packet_in_lldp.
  rewrite firstn_firstn. unfold MAX_PACKET_IN_BYTES.
  rewrite firstn_firstn_app.
  destruct (Nat.ltb_spec (Nat.min 194 n) (length (beacon_frame c))); [|lia].
  assert (Hm : (Nat.min 194 n < length (beacon_frame c))%nat /\ (14 <= Nat.min 194 n)%nat) by lia.
  revert Hm. generalize (Nat.min 194 n). intros m [Hm1 Hm2].
  clear Hl H. destruct (frame_split c Hc) as (hdr & Hh & E). rewrite E in Hm1 |- *.
  rewrite firstn_firstn_app. destruct (Nat.ltb_spec m (length hdr)); [lia|].
  rewrite skipn_exact by exact Hh.
  unfold parse_lldp. rewrite beacon_front in *.
  rewrite (parse_cut (front c) (front_sendable c Hc) (front_no_end c)); [reflexivity|].
  rewrite app_length in Hm1. lia.
Qed.
(** In between it is up to the switch: one that sends no more than it was told to ... *)
Theorem cut_beacon_lost c : sane c -> (128 < length (beacon_frame c))%nat ->
  packet_in_lldp (firstn 128 (beacon_frame c)) = None.
Proof.
  intros Hc Hl. unfold packet_in_lldp. rewrite firstn_firstn. unfold MAX_PACKET_IN_BYTES.
  change (Nat.min 194 128) with 128%nat.
  destruct (frame_split c Hc) as (hdr & Hh & E). rewrite E in Hl |- *.
  rewrite firstn_firstn_app. destruct (Nat.ltb_spec 128 (length hdr)); [lia|].
  rewrite skipn_exact by exact Hh.
  unfold parse_lldp. rewrite beacon_front in *.
  rewrite (parse_cut (front c) (front_sendable c Hc) (front_no_end c)); [reflexivity|].
  rewrite app_length in Hl. lia.
Qed.

(** ** What is read from a beacon *)

Lemma first_some_cons {A} (f : tlv -> option A) t ts :
  first_some f (t :: ts) = match f t with Some x => Some x | None => first_some f ts end.
Proof. unfold first_some. cbn [flat_map]. destruct (f t); reflexivity. Qed.
Lemma first_some_skip {A} (f : tlv -> option A) a b :
  (forall t, In t a -> f t = None) -> first_some f (a ++ b) = first_some f b.
Proof.
  induction a as [|t a IH]; intros H; [reflexivity|]. cbn [app]. rewrite first_some_cons.
  rewrite (H t (or_introl eq_refl)). apply IH. intros. apply H. right. assumption.
Qed.
Lemma orgs_skip c oui s : (forall o s i, In (o, s, i) (b_org_tlvs c) -> o <> oui) ->
  forall t, In t (map (fun '(o, s, i) => Org o s i) (b_org_tlvs c)) -> org_info oui s t = None.
Proof.
  intros H t Hin. apply in_map_iff in Hin. destruct Hin as (((o & s') & i) & <- & Hin).
  cbn. destruct (bytes_eqb_spec o oui) as [->|]; [|reflexivity]. exfalso. eapply H; eauto.
Qed.
Lemma descr_skip {A} (f : tlv -> option A) d : (forall b, f (PortDescr b) = None) ->
  forall t, In t (opt_tlv PortDescr d) -> f t = None.
Proof. intros H t Hin. destruct d; cbn in Hin; [|tauto]. destruct Hin as [<-|[]]. apply H. Qed.
Lemma oui_refl b : bytes_eqb b b = true.
Proof. destruct (bytes_eqb_spec b b); congruence. Qed.

Lemma beacon_split c : beacon_tlvs c =
  ([ChassisId 4 (b_mac c); PortId 5 (py_str (b_port c)); Ttl (Z.min (b_send_interval c * 3) 65535)]
   ++ [SysName (beacon_name c)] ++ opt_tlv PortDescr (b_port_descr c)
   ++ map (fun '(oui, s, info) => Org oui s info) (b_org_tlvs c))
  ++ [Org (firstn 3 (b_mac c)) 1 (py_str (b_dp_id c))]
  ++ (match b_stack c with None => [] | Some s => [Org (firstn 3 (b_mac c)) 2 (py_str s)] end) ++ [End].
Proof.
  unfold beacon_tlvs, lldp_tlvs, faucet_lldp_tlvs, faucet_lldp_stack_state_tlvs. cbn [opt_tlv].
  rewrite !map_app, <- !app_assoc. cbn [map app]. destruct (b_stack c); reflexivity.
Qed.
Lemma parsed_port c : first_some (fun t => match t with PortId _ b => Some b | _ => None end) (beacon_tlvs c) = Some (py_str (b_port c)).
Proof. reflexivity. Qed.
Lemma parsed_name c : first_some (fun t => match t with SysName b => Some b | _ => None end) (beacon_tlvs c) = Some (beacon_name c).
Proof. reflexivity. Qed.
Lemma pre_skip c s : (forall o s i, In (o, s, i) (b_org_tlvs c) -> o <> firstn 3 (b_mac c)) ->
  forall t, In t ([ChassisId 4 (b_mac c); PortId 5 (py_str (b_port c)); Ttl (Z.min (b_send_interval c * 3) 65535)]
   ++ [SysName (beacon_name c)] ++ opt_tlv PortDescr (b_port_descr c)
   ++ map (fun '(oui, s, info) => Org oui s info) (b_org_tlvs c)) -> org_info (firstn 3 (b_mac c)) s t = None.
Proof.
  intros H t. rewrite !in_app_iff. intros [Hin|[Hin|[Hin|Hin]]].
  - cbn in Hin. destruct Hin as [<-|[<-|[<-|[]]]]; reflexivity.
  - cbn in Hin. destruct Hin as [<-|[]]; reflexivity.
  - eapply descr_skip; [|exact Hin]. reflexivity.
  - eapply orgs_skip; eassumption.
Qed.
Theorem beacon_read c mac : plain c -> firstn 3 mac = firstn 3 (b_mac c) ->
  parse_faucet_lldp (beacon_tlvs c) mac = mkRemote (Some (b_dp_id c)) (Some (b_dp_name c)) (Some (b_port c)) (b_stack c).
Proof.
  intros (Hn1 & Hn2 & Ho) Hm. unfold parse_faucet_lldp. unfold faucet_oui. rewrite Hm.
  assert (existsb (is_faucet (firstn 3 (b_mac c))) (beacon_tlvs c) = true) as ->.
  { apply existsb_exists. exists (Org (firstn 3 (b_mac c)) 1 (py_str (b_dp_id c))).
    split; [|cbn; apply oui_refl]. rewrite beacon_split. apply in_or_app. right. left. reflexivity. }
  rewrite parsed_port, parsed_name.
  assert (beacon_name c = b_dp_name c) as ->.
  { unfold beacon_name. destruct Hn1 as [->| ->].
    - destruct Hn2 as [->| ->]; reflexivity.
    - destruct (b_dp_name c) eqn:E; [|reflexivity]. destruct Hn2 as [->| ->]; reflexivity. }
  cbn [cast]. rewrite !py_int_str. f_equal.
  - rewrite beacon_split, first_some_skip by (apply pre_skip; exact Ho).
    cbn [app]. rewrite first_some_cons. cbn [org_info]. rewrite oui_refl. cbn. apply py_int_str.
  - rewrite beacon_split, first_some_skip by (apply pre_skip; exact Ho).
    cbn [app]. rewrite first_some_cons. cbn [org_info].
    replace (1 =? LLDP_FAUCET_STACK_STATE) with false by reflexivity. rewrite andb_false_r.
    destruct (b_stack c) as [st|]; cbn [app]; rewrite first_some_cons; cbn [org_info].
    + rewrite oui_refl. cbn. apply py_int_str.
    + reflexivity.
Qed.

(** ** The handler *)

Lemma known_known s : known_state s = true <-> In s [-1; 0; 1; 2; 3; 4].
Proof.
  unfold known_state, mem. rewrite existsb_exists. split.
  - intros (x & Hx & E). apply Z.eqb_eq in E. subst x. cbn in *. tauto.
  - intros H. exists s. split; [|apply Z.eqb_refl]. cbn in *. tauto.
Qed.
Lemma stack_correct_spec peer c :
  exists b, stack_correct (Some peer) (b_dp_id c) (Some (b_dp_name c)) (b_port c) = Some b /\ (b = true <-> leads_to peer c).
Proof.
  destruct peer as [[i n] k]. cbn [stack_correct]. eexists. split; [reflexivity|]. unfold leads_to.
  destruct (Z.eqb_spec (b_dp_id c) i), (bytes_eqb_spec (b_dp_name c) n), (Z.eqb_spec (b_port c) k); cbn;
    split; intros; try congruence; try reflexivity.
Qed.
Lemma no_faucet_ignored mac tlvs p : (forall t, In t tlvs -> ~ has_oui mac t) ->
  lldp_handler mac p tlvs = Handled None None.
Proof.
  intros H. unfold lldp_handler, parse_faucet_lldp.
  assert (existsb (is_faucet (faucet_oui mac)) tlvs = false) as ->.
  { destruct (existsb _ tlvs) eqn:E; [|reflexivity]. exfalso.
    apply existsb_exists in E. destruct E as (t & Hin & Ht). apply (H t Hin).
    destruct t; cbn [is_faucet] in Ht; try discriminate Ht.
    assert (X := bytes_eqb_spec oui (faucet_oui mac)). rewrite Ht in X. inversion X; subst.
    eexists. eexists. reflexivity. }
  cbn. rewrite andb_false_r. reflexivity.
Qed.

(** ** Which texts are numbers *)
Lemma digit_some : forall c, digit c <> None <-> 48 <= c <= 57.
Proof.
  intros c. unfold digit. repeat (match goal with |- context [if c =? ?k then _ else _] => destruct (Z.eqb_spec c k) as [->|?] end; [split; [lia|congruence]|]).
  split; [congruence|lia].
Qed.
Lemma numeral_head : forall b, numeral b -> exists c r, b = c :: r /\ 48 <= c <= 57.
Proof. intros b H. destruct H; eauto. Qed.
Lemma digits_some : forall b, (digits false b <> None <-> numeral b) /\
  (digits true b <> None <-> b = [] \/ numeral b \/ exists r, b = 95 :: r /\ numeral r).
Proof.
  induction b as [|c r [IHf IHt]].
  - cbn. split; [split; [congruence|intros H; inversion H]|]. split; [auto|congruence].
  - cbn [digits]. assert (DS := digit_some c). destruct (digit c) as [f|].
    + assert (48 <= c <= 57) as R by (apply DS; congruence).
      assert (option_map f (digits true r) <> None <-> numeral (c :: r)) as E.
      { transitivity (digits true r <> None); [destruct (digits true r); cbn; split; congruence|]. rewrite IHt. split.
        - intros [->|[H|(r' & -> & H)]]; [apply num_one|apply num_more|apply num_underscore]; assumption.
        - intros H. inversion H; subst; eauto. }
      split; [exact E|]. rewrite E. split; [auto|]. intros [H|[H|(r' & H & _)]]; [discriminate|exact H|]. injection H as -> _. lia.
    + assert (~ (48 <= c <= 57)) as R by (intros R; apply DS in R; congruence).
      assert (~ numeral (c :: r)) as NN by (intros H; destruct (numeral_head _ H) as (c' & r' & E & B); injection E as <- _; contradiction).
      split; [cbn; tauto|]. destruct (Z.eqb_spec c 95) as [->|NE]; cbn [andb].
      * rewrite IHf. split; [eauto|]. intros [H|[H|(r' & H & N)]]; [discriminate|contradiction|]. injection H as ->. exact N.
      * split; [congruence|]. intros [H|[H|(r' & H & _)]]; [discriminate|contradiction|congruence].
Qed.
Lemma is_space_spec : forall c, is_space c = true <-> c = 32 \/ 9 <= c <= 13.
Proof. intros c. unfold is_space. rewrite orb_true_iff, andb_true_iff, Z.eqb_eq, !Z.leb_le. lia. Qed.
Lemma lstrip_split : forall b, exists l, b = l ++ lstrip b /\ white l.
Proof.
  induction b as [|c r (l & E & W)]; [exists []; split; [reflexivity|intros c []]|]. cbn. destruct (is_space c) eqn:S.
  - exists (c :: l). split; [cbn; congruence|]. intros x [<-|I]; [apply is_space_spec; exact S|apply W; exact I].
  - exists []. split; [reflexivity|intros x []].
Qed.
Lemma lstrip_white : forall l m, white l -> (forall c r, m = c :: r -> is_space c = false) -> lstrip (l ++ m) = m.
Proof.
  induction l as [|c l IH]; intros m W H; cbn.
  - destruct m as [|c r]; [reflexivity|]. cbn. rewrite (H c r eq_refl). reflexivity.
  - rewrite (proj2 (is_space_spec c) (W c (or_introl eq_refl))). apply IH; [|exact H]. intros x I. apply W. right. exact I.
Qed.
Lemma strip_split : forall b, exists l t, b = l ++ strip b ++ t /\ white l /\ white t.
Proof.
  intros b. destruct (lstrip_split b) as (l & E & W). destruct (lstrip_split (List.rev (lstrip b))) as (t & E' & W').
  exists l, (List.rev t). split; [|split; [exact W|intros c I; apply W'; apply in_rev; exact I]].
  rewrite E at 1. f_equal. unfold strip. rewrite <- rev_app_distr, <- E', rev_involutive. reflexivity.
Qed.
Lemma strip_of : forall l m t, white l -> white t -> m <> [] -> (forall c r, m = c :: r -> is_space c = false) ->
  (forall c r, List.rev m = c :: r -> is_space c = false) -> strip (l ++ m ++ t) = m.
Proof.
  intros l m t W W' N H H'. unfold strip. rewrite lstrip_white; [|exact W|].
  - rewrite rev_app_distr, lstrip_white; [apply rev_involutive| |exact H']. intros c I. apply W'. apply in_rev. exact I.
  - intros c r E. destruct m as [|x m']; [congruence|]. injection E as -> _. exact (H c m' eq_refl).
Qed.
Lemma numeral_last : forall b, numeral b -> forall c r, List.rev b = c :: r -> 48 <= c <= 57.
Proof.
  induction 1 as [c B|c r B N IH|c r B N IH]; intros x l E.
  - injection E as <- _. exact B.
  - cbn in E. destruct (List.rev r) as [|y l'] eqn:R; [exact (ltac:(injection E as <- _; exact B))|]. cbn in E. injection E as <- _. exact (IH y l' eq_refl).
  - cbn in E. destruct (List.rev r) as [|y l'] eqn:R; [|cbn in E; injection E as <- _; exact (IH y l' eq_refl)].
    apply (f_equal (@List.rev Z)) in R. rewrite rev_involutive in R. cbn in R. subst r. inversion N.
Qed.
Lemma py_int_number : forall b, py_int b <> None <-> number_text b.
Proof.
  intros b. split.
  - intros H. destruct (strip_split b) as (l & t & E & W & W'). unfold py_int in H. destruct (strip b) as [|c r]; [congruence|].
    destruct (Z.eqb_spec c 45) as [->|N1]; [|destruct (Z.eqb_spec c 43) as [->|N2]].
    + exists l, [45], r, t. split; [exact E|]. repeat split; cbn; auto. apply digits_some. destruct (digits false r); [congruence|exfalso; apply H; reflexivity].
    + exists l, [43], r, t. split; [exact E|]. repeat split; cbn; auto. apply digits_some. destruct (digits false r); [congruence|exfalso; apply H; reflexivity].
    + exists l, [], (c :: r), t. split; [exact E|]. repeat split; cbn; auto. apply digits_some. destruct (digits false (c :: r)); [congruence|exfalso; apply H; reflexivity].
  - intros (l & sign & d & t & -> & W & W' & IS & N). assert (D := proj2 (proj1 (digits_some d)) N).
    assert (strip (l ++ sign ++ d ++ t) = sign ++ d) as E.
    { rewrite app_assoc with (l := sign). apply strip_of; auto.
      - destruct (numeral_head d N) as (c & r & -> & _). destruct sign; discriminate.
      - intros c r E. destruct (numeral_head d N) as (c' & r' & -> & B). destruct (is_space c) eqn:S; [|reflexivity]. apply is_space_spec in S.
        destruct IS as [<-|[<-|[<-|[]]]]; injection E as <- _; lia.
      - intros c r E. rewrite rev_app_distr in E. destruct (List.rev d) as [|y k] eqn:R.
        + destruct (numeral_head d N) as (c' & r' & -> & B). apply (f_equal (@length Z)) in R. rewrite rev_length in R. discriminate.
        + injection E as <- _. assert (B := numeral_last d N y k R). destruct (is_space y) eqn:S; [|reflexivity]. apply is_space_spec in S. lia. }
    unfold py_int. rewrite E. destruct (numeral_head d N) as (c & r & -> & B).
    destruct IS as [<-|[<-|[<-|[]]]]; cbn [app].
    + rewrite (proj2 (Z.eqb_neq c 45)), (proj2 (Z.eqb_neq c 43)) by lia. destruct (digits false (c :: r)); [discriminate|congruence].
    + cbn [Z.eqb Pos.eqb]. destruct (digits false (c :: r)); [discriminate|congruence].
    + cbn [Z.eqb Pos.eqb]. destruct (digits false (c :: r)); [discriminate|congruence].
Qed.
