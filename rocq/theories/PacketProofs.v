(** * Proofs about packet checks, addresses in MAC strings and the limiter *)

From Coq Require Import List Bool NArith ZArith String Ascii Lia.
From Coq Require Hexadecimal HexadecimalN HexadecimalString.
From Verif Require Import PacketModel PacketSpec.
Import ListNotations.
Open Scope N_scope.

(** ** IPv4 *)

Lemma land_f x : N.land x 0xF = x mod 16.
Proof. change 0xF with (N.ones 4). rewrite N.land_ones. reflexivity. Qed.

Lemma land_fff x : N.land x 0xFFF = x mod 4096.
Proof. change 0xFFF with (N.ones 12). rewrite N.land_ones. reflexivity. Qed.

Lemma byte_nth_error l i b : nth_error l i = Some b -> byte l i = b.
Proof. unfold byte. intros H. apply nth_error_nth with (d := 0) in H. exact H. Qed.

Lemma land_2 x : (N.land x 0x2 =? 0) = negb (N.testbit x 1).
Proof.
  destruct (N.testbit x 1) eqn:E; cbn [negb].
  - apply N.eqb_neq. intros H. assert (N.testbit (N.land x 2) 1 = false) as K by (rewrite H; reflexivity).
    rewrite N.land_spec, E in K. discriminate K.
  - apply N.eqb_eq. apply N.bits_inj. intros i. rewrite N.land_spec, N.bits_0.
    destruct (N.eq_dec i 1) as [->|D]; [rewrite E; reflexivity|].
    change 2 with (2 ^ 1). rewrite N.pow2_bits_false by lia. apply andb_false_r.
Qed.

Lemma flags_bit reserved df mf frag w :
  w = N.b2n reserved * 0x8000 + N.b2n df * 0x4000 + N.b2n mf * 0x2000 + frag ->
  frag < 0x2000 -> N.testbit (N.shiftr w 12) 1 = mf.
Proof.
  intros -> H. rewrite N.shiftr_spec'.
  rewrite N.testbit_eqb. change (2 ^ (1 + 12)) with 0x2000.
  replace ((N.b2n reserved * 32768 + N.b2n df * 16384 + N.b2n mf * 8192 + frag) / 8192)
    with (N.b2n mf + (N.b2n reserved * 2 + N.b2n df) * 2).
  - rewrite N.mod_add by lia. destruct mf; reflexivity.
  - apply N.div_unique with frag; [exact H|lia].
Qed.

Lemma off_low reserved df mf frag w :
  w = N.b2n reserved * 0x8000 + N.b2n df * 0x4000 + N.b2n mf * 0x2000 + frag ->
  w mod 4096 = frag mod 4096.
Proof.
  intros ->.
  replace (N.b2n reserved * 32768 + N.b2n df * 16384 + N.b2n mf * 8192 + frag)
    with (frag + (N.b2n reserved * 8 + N.b2n df * 4 + N.b2n mf * 2) * 4096) by lia.
  apply N.mod_add. lia.
Qed.

Lemma ipv4_parseable_iff l ihl mf frag proto :
  ipv4_header l ihl mf frag proto ->
  ipv4_parseable l =
  PyVal ((5 <=? ihl) && negb mf && (frag mod 4096 =? 0) &&
         ((proto =? 1) || (proto =? 6) || (proto =? 17))).
Proof.
  intros [B (ver & tl & E & I) (a & b & rs & df & A1 & A2 & W & F) P L].
  unfold ipv4_parseable, IPV4_HEADER_SIZE.
  destruct (N.ltb_spec (N.of_nat (List.length l)) 20) as [?|_]; [lia|]. f_equal.
  assert (byte l 0 = ver * 16 + ihl) as -> by (subst l; reflexivity).
  rewrite land_f, N.add_comm, N.mod_add, N.mod_small by lia.
  assert (half l 6 = a * 256 + b) as ->.
  { unfold half. rewrite (byte_nth_error _ _ _ A1), (byte_nth_error _ _ _ A2). reflexivity. }
  rewrite (byte_nth_error _ _ _ P), land_2, (flags_bit _ _ _ _ _ W F), land_fff, (off_low _ _ _ _ _ W).
  replace (ihl * 32 / 8) with (ihl * 4).
  2:{ apply N.div_unique with 0; lia. }
  destruct (N.ltb_spec (ihl * 4) 20); destruct (N.leb_spec 5 ihl); try lia; cbn [andb].
  destruct mf; cbn [negb andb]; [reflexivity|].
  destruct (frag mod 4096 =? 0); cbn [negb andb]; [|reflexivity].
  destruct (proto =? 1), (proto =? 6), (proto =? 17); reflexivity.
Qed.

(** ** Hexadecimal text *)

Definition no_colon (s : string) : Prop := ~ In colon (list_ascii_of_string s).

Lemma hex_no_colon d : no_colon (HexadecimalString.NilEmpty.string_of_uint d).
Proof. unfold no_colon. induction d; cbn; intros H; try (destruct H as [H|H]; [discriminate H|]); tauto. Qed.

Lemma nilzero_no_colon d : no_colon (HexadecimalString.NilZero.string_of_uint d).
Proof.
  destruct d; try apply hex_no_colon.
  unfold no_colon. cbn. intros [H|[]]. discriminate H.
Qed.

Lemma py_hex_no_colon n : no_colon (py_hex n).
Proof. apply nilzero_no_colon. Qed.

Lemma to_hex_not_nil n : N.to_hex_uint n <> Hexadecimal.Nil.
Proof.
  intros H. pose proof (HexadecimalN.Unsigned.to_of (N.to_hex_uint n)) as K.
  rewrite HexadecimalN.Unsigned.of_to, H in K. cbn in K. discriminate K.
Qed.

Lemma py_int16_hex n : py_int16 (py_hex n) = Some n.
Proof.
  unfold py_hex. pose proof (HexadecimalString.NilZero.usu _ (to_hex_not_nil n)) as U.
  unfold py_int16. unfold HexadecimalString.NilZero.uint_of_string in U.
  destruct (HexadecimalString.NilZero.string_of_uint (N.to_hex_uint n)); [discriminate U|].
  rewrite U. cbn. now rewrite HexadecimalN.Unsigned.of_to.
Qed.

Lemma py_hex_not_empty n : py_hex n <> EmptyString.
Proof. intros H. pose proof (py_int16_hex n) as K. rewrite H in K. discriminate K. Qed.

Lemma py_int16_zero s : s <> EmptyString -> py_int16 (String "0" s) = py_int16 s.
Proof.
  intros H. destruct s as [|c r]; [congruence|].
  cbn. unfold HexadecimalString.uint_of_char at 1. cbn.
  destruct (HexadecimalString.uint_of_char c (HexadecimalString.NilEmpty.uint_of_string r)); reflexivity.
Qed.

Lemma py_int16_pad k n : py_int16 (pad k (py_hex n)) = Some n.
Proof.
  unfold pad. generalize (k - String.length (py_hex n))%nat as z. intros z.
  induction z as [|z IH]; [apply py_int16_hex|].
  cbn [zeros append]. rewrite py_int16_zero; [exact IH|].
  intros H. rewrite H in IH. discriminate IH.
Qed.

Lemma zeros_no_colon k s : no_colon s -> no_colon (zeros k ++ s).
Proof.
  intros H. induction k as [|k IH]; [exact H|]. unfold no_colon in *. cbn. intros [E|E]; [discriminate E|auto].
Qed.

Lemma pad_no_colon k n : no_colon (pad k (py_hex n)).
Proof. unfold pad. apply zeros_no_colon, py_hex_no_colon. Qed.

Lemma split_first s1 s2 r1 r2 :
  no_colon s1 -> no_colon s2 ->
  (s1 ++ String colon r1)%string = (s2 ++ String colon r2)%string -> s1 = s2 /\ r1 = r2.
Proof.
  revert s2. induction s1 as [|c s1 IH]; intros [|c' s2] N1 N2 H; cbn in H.
  - injection H. auto.
  - injection H. intros _ <-. exfalso. apply N2. now left.
  - injection H. intros _ ->. exfalso. apply N1. now left.
  - injection H. intros H' <-. destruct (IH s2) as [-> ->]; auto.
    + intros K. apply N1. now right.
    + intros K. apply N2. now right.
Qed.

Lemma zeros_length k : String.length (zeros k) = k.
Proof. induction k; cbn; congruence. Qed.

Lemma append_length s t : String.length (s ++ t) = (String.length s + String.length t)%nat.
Proof. induction s; cbn; congruence. Qed.

Lemma pad_length k s : (k <= String.length (pad k s))%nat.
Proof. unfold pad. rewrite append_length, zeros_length. lia. Qed.

Lemma substring_all s : substring 0 (String.length s) s = s.
Proof. induction s; cbn; congruence. Qed.

Lemma two_rest s : (2 <= String.length s)%nat -> exists a b r,
  s = String a (String b r) /\ substring 0 2 s = String a (String b EmptyString) /\
  substring 2 (String.length s - 2) s = r.
Proof.
  destruct s as [|a [|b r]]; cbn; intros H; try lia. exists a, b, r.
  split; [reflexivity|]. split.
  - destruct r; reflexivity.
  - rewrite Nat.sub_0_r. apply substring_all.
Qed.

Lemma app_nil_colon s : String ":" s = (":" ++ s)%string.
Proof. reflexivity. Qed.

Lemma get_mac_str_inj i j p q : get_mac_str i p = get_mac_str j q -> i = j /\ p = q.
Proof.
  unfold get_mac_str. cbv zeta. cbn [append]. intros H.
  injection H. clear H. intros H.
  change ":"%char with colon in H.
  destruct (split_first _ _ _ _ (pad_no_colon 2 i) (pad_no_colon 2 j) H) as [E R]. clear H.
  split.
  - assert (py_int16 (pad 2 (py_hex i)) = py_int16 (pad 2 (py_hex j))) as K by congruence.
    rewrite !py_int16_pad in K. congruence.
  - assert (pad 4 (py_hex p) = pad 4 (py_hex q)) as K.
    { destruct (two_rest (pad 4 (py_hex p))) as (a & b & r & E1 & S1 & S2).
      { pose proof (pad_length 4 (py_hex p)). lia. }
      destruct (two_rest (pad 4 (py_hex q))) as (a' & b' & r' & E1' & S1' & S2').
      { pose proof (pad_length 4 (py_hex q)). lia. }
      rewrite S1, S2, S1', S2' in R. cbn in R. injection R. intros; subst. congruence. }
    assert (py_int16 (pad 4 (py_hex p)) = py_int16 (pad 4 (py_hex q))) as K2 by congruence.
    rewrite !py_int16_pad in K2. congruence.
Qed.

(** Every byte, checked exhaustively. *)
Lemma all_below (P : N -> bool) k :
  forallb (fun i => P (N.of_nat i)) (seq 0 (N.to_nat k)) = true -> forall n, n < k -> P n = true.
Proof.
  intros H n L. rewrite forallb_forall in H.
  specialize (H (N.to_nat n)). rewrite N2Nat.id in H. apply H. apply in_seq. lia.
Qed.

Lemma pad2_byte b : b < 256 -> pad 2 (py_hex b) = byte_text b.
Proof.
  intros H. apply String.eqb_eq.
  refine (all_below (fun b => String.eqb (pad 2 (py_hex b)) (byte_text b)) 256 _ b H).
  vm_compute. reflexivity.
Qed.

Lemma pad4_bytes p : p < 65536 ->
  substring 0 2 (pad 4 (py_hex p)) = byte_text (p / 256) /\
  substring 2 (String.length (pad 4 (py_hex p)) - 2) (pad 4 (py_hex p)) = byte_text (p mod 256).
Proof.
  intros H.
  assert ((String.eqb (substring 0 2 (pad 4 (py_hex p))) (byte_text (p / 256)) &&
           String.eqb (substring 2 (String.length (pad 4 (py_hex p)) - 2) (pad 4 (py_hex p)))
                      (byte_text (p mod 256)))%bool = true) as K.
  { pose (chk := fun p => (String.eqb (substring 0 2 (pad 4 (py_hex p))) (byte_text (p / 256)) &&
           String.eqb (substring 2 (String.length (pad 4 (py_hex p)) - 2) (pad 4 (py_hex p)))
                      (byte_text (p mod 256)))%bool).
    change (chk p = true). rewrite (N.div_mod' p 256).
    assert (p / 256 < 256) as Hh by (apply N.div_lt_upper_bound; lia).
    assert (p mod 256 < 256) as Hl by (apply N.mod_lt; lia).
    generalize dependent (p mod 256). generalize dependent (p / 256). intros h Hh l Hl.
    refine (all_below (fun l => chk (256 * h + l)) 256 _ l Hl).
    refine (all_below (fun h => forallb (fun i => chk (256 * h + N.of_nat i)) (seq 0 (N.to_nat 256))) 256 _ h Hh).
    vm_compute. reflexivity. }
  apply andb_true_iff in K. destruct K as [K1 K2]. apply String.eqb_eq in K1, K2. auto.
Qed.

Lemma get_mac_str_text i p :
  i < 256 -> p < 65536 -> get_mac_str i p = mac_text 0 0 0 i (p / 256) (p mod 256).
Proof.
  intros I P. unfold get_mac_str. cbv zeta. destruct (pad4_bytes p P) as [-> ->].
  rewrite pad2_byte by exact I. reflexivity.
Qed.

(** ** 802.1X maps *)

Section PutGet.
  Context {K V : Type} (eqb : K -> K -> bool).
  Hypothesis eqb_ok : forall a b, eqb a b = true <-> a = b.

  Lemma get_put k v k' (d : list (K * V)) :
    get eqb k' (put eqb k v d) = if eqb k' k then Some v else get eqb k' d.
  Proof.
    unfold get, put. cbn. destruct (eqb k' k) eqn:E; [reflexivity|]. f_equal.
    induction d as [|[a b] d IH]; [reflexivity|]. cbn.
    destruct (eqb k a) eqn:E2; cbn [negb].
    - destruct (eqb k' a) eqn:E3; [|exact IH].
      apply eqb_ok in E2, E3. subst. exfalso. apply (proj2 (eqb_ok a a)) in E2 || idtac.
      assert (eqb a a = true) by (apply eqb_ok; reflexivity). congruence.
    - cbn. destruct (eqb k' a); [reflexivity|exact IH].
  Qed.
End PutGet.

Lemma get_put_str {V} k (v : V) k' d :
  get String.eqb k' (put String.eqb k v d) = if String.eqb k' k then Some v else get String.eqb k' d.
Proof. apply get_put. apply String.eqb_eq. Qed.

Lemma get_put_N {V} k (v : V) k' d :
  get N.eqb k' (put N.eqb k v d) = if N.eqb k' k then Some v else get N.eqb k' d.
Proof. apply get_put. apply N.eqb_eq. Qed.

Lemma set_ports_index v i ps m : dm_index (fold_left (set_mac_str v i) ps m) = dm_index m.
Proof. revert m. induction ps as [|p ps IH]; intros m; [reflexivity|]. cbn [fold_left]. now rewrite IH. Qed.

Lemma set_ports_get v i ps m s :
  get String.eqb s (dm_port (fold_left (set_mac_str v i) ps m)) =
  match find (fun p => String.eqb s (get_mac_str i p)) ps with
  | Some p => Some (v, p)
  | None => get String.eqb s (dm_port m)
  end.
Proof.
  revert m. induction ps as [|p ps IH]; intros m; [reflexivity|]. cbn [fold_left find]. rewrite IH. cbn [dm_port set_mac_str].
  rewrite get_put_str.
  destruct (find (fun q => String.eqb s (get_mac_str i q)) ps) as [q|] eqn:F.
  - destruct (String.eqb s (get_mac_str i p)) eqn:E; [|reflexivity].
    apply find_some in F. destruct F as [_ F]. apply String.eqb_eq in E, F. rewrite F in E.
    apply get_mac_str_inj in E. destruct E as [_ ->]. reflexivity.
  - destruct (String.eqb s (get_mac_str i p)); reflexivity.
Qed.

Lemma enumerate_ge {A} k (l : list A) i x : In (i, x) (enumerate k l) -> k <= i.
Proof.
  revert k. induction l as [|y l IH]; intros k H; [destruct H|]. destruct H as [H|H].
  - injection H. intros; subst. lia.
  - apply IH in H. lia.
Qed.

Lemma enumerate_in {A} k (l : list A) i x : In (i, x) (enumerate k l) -> In x l.
Proof.
  revert k. induction l as [|y l IH]; intros k H; [destruct H|]. destruct H as [H|H].
  - injection H. intros; subst. now left.
  - right. eapply IH; eauto.
Qed.

Lemma reset_valve_port m i v s :
  get String.eqb s (dm_port (reset_valve m (i, v))) =
  match find (fun p => String.eqb s (get_mac_str i p)) (dv_ports v) with
  | Some p => Some (dv_id v, p)
  | None => get String.eqb s (dm_port m)
  end.
Proof. unfold reset_valve. rewrite set_ports_get. reflexivity. Qed.

Lemma reset_valve_index m i v d :
  get N.eqb d (dm_index (reset_valve m (i, v))) = if N.eqb d (dv_id v) then Some i else get N.eqb d (dm_index m).
Proof. unfold reset_valve. rewrite set_ports_index. cbn [dm_index]. apply get_put_N. Qed.

Lemma reset_loop k l m v p :
  In v l -> In p (dv_ports v) -> NoDup (map dv_id l) ->
  exists i, k <= i /\
    get N.eqb (dv_id v) (dm_index (fold_left reset_valve (enumerate k l) m)) = Some i /\
    get String.eqb (get_mac_str i p) (dm_port (fold_left reset_valve (enumerate k l) m)) = Some (dv_id v, p).
Proof.
  revert k m. induction l as [|u l IH]; intros k m I P ND; [destruct I|].
  cbn [map] in ND. inversion ND as [|? ? NI ND']; subst. cbn [enumerate fold_left].
  destruct I as [->|I].
  - exists k. split; [lia|].
    assert (forall l' k' m', k < k' -> ~ In (dv_id v) (map dv_id l') ->
      get N.eqb (dv_id v) (dm_index (fold_left reset_valve (enumerate k' l') m')) = get N.eqb (dv_id v) (dm_index m') /\
      get String.eqb (get_mac_str k p) (dm_port (fold_left reset_valve (enumerate k' l') m')) =
      get String.eqb (get_mac_str k p) (dm_port m')) as Keep.
    { induction l' as [|w l' IH']; intros k' m' Hk Hn; [auto|]. cbn [enumerate fold_left].
      destruct (IH' (N.succ k') (reset_valve m' (k', w))) as [-> ->]; [lia|intros X; apply Hn; now right|].
      rewrite reset_valve_index, reset_valve_port. split.
      - destruct (N.eqb_spec (dv_id v) (dv_id w)) as [E|]; [|reflexivity]. exfalso. apply Hn. now left.
      - destruct (find _ (dv_ports w)) as [q|] eqn:F; [|reflexivity]. apply find_some in F.
        destruct F as [_ F]. apply String.eqb_eq, get_mac_str_inj in F. lia. }
    destruct (Keep l (N.succ k) (reset_valve m (k, v))) as [-> ->]; [lia|exact NI|].
    rewrite reset_valve_index, reset_valve_port, N.eqb_refl. split; [reflexivity|].
    destruct (find _ (dv_ports v)) as [q|] eqn:F.
    + apply find_some in F. destruct F as [_ F]. apply String.eqb_eq, get_mac_str_inj in F.
      destruct F as [_ ->]. reflexivity.
    + apply (find_none _ _ F) in P. rewrite String.eqb_refl in P. discriminate P.
  - destruct (IH (N.succ k) (reset_valve m (k, u)) I P ND') as (i & Hi & A & B).
    exists i. split; [lia|]. auto.
Qed.

(** ** VLAN id in a MAC *)

Lemma split_colon_not_nil s : split_colon s <> [].
Proof. destruct s as [|c r]; cbn; [discriminate|]. destruct (Ascii.eqb c colon); [discriminate|]. destruct (split_colon r); discriminate. Qed.

Lemma split_colon_pieces s : Forall no_colon (split_colon s).
Proof.
  induction s as [|c r IH]; cbn.
  - constructor; [intros []|constructor].
  - destruct (Ascii.eqb c colon) eqn:E; [constructor; [intros []|exact IH]|].
    destruct (split_colon r) as [|x xs]; [constructor; [|constructor]|].
    + intros [H|[]]. subst c. rewrite Ascii.eqb_refl in E. discriminate.
    + inversion IH; subst. constructor; [|assumption]. intros [H|H]; [|auto].
      subst c. rewrite Ascii.eqb_refl in E. discriminate.
Qed.

Lemma split_one s : no_colon s -> split_colon s = [s].
Proof.
  induction s as [|c r IH]; [reflexivity|]. intros H. cbn.
  destruct (Ascii.eqb c colon) eqn:E.
  - apply Ascii.eqb_eq in E. subst. exfalso. apply H. now left.
  - rewrite IH; [reflexivity|]. intros K. apply H. now right.
Qed.

Lemma split_app s r : no_colon s -> split_colon (s ++ String colon r) = s :: split_colon r.
Proof.
  induction s as [|c s IH]; intros H; [reflexivity|]. cbn.
  destruct (Ascii.eqb c colon) eqn:E.
  - apply Ascii.eqb_eq in E. subst. exfalso. apply H. now left.
  - rewrite IH; [reflexivity|]. intros K. apply H. now right.
Qed.

Lemma split_join l : l <> [] -> Forall no_colon l -> split_colon (join_colon l) = l.
Proof.
  induction l as [|x l IH]; intros N F; [congruence|]. inversion F; subst.
  destruct l as [|y l]; [apply split_one; assumption|].
  change (join_colon (x :: y :: l)) with (x ++ String colon (join_colon (y :: l)))%string.
  rewrite split_app by assumption. f_equal. apply IH; [discriminate|assumption].
Qed.

Lemma join_split_lemma s : join_colon (split_colon s) = s.
Proof.
  induction s as [|c r IH]; [reflexivity|]. cbn [split_colon].
  destruct (Ascii.eqb c colon) eqn:E.
  - apply Ascii.eqb_eq in E. subst c.
    pose proof (split_colon_not_nil r). destruct (split_colon r) as [|x xs]; [congruence|].
    cbn [join_colon append]. cbn [join_colon] in IH. now rewrite IH.
  - pose proof (split_colon_not_nil r). destruct (split_colon r) as [|x xs]; [congruence|].
    destruct xs as [|y ys]; cbn [join_colon append] in *; now rewrite IH.
Qed.

Lemma int_in_mac_pieces mac n :
  split_colon (int_in_mac mac n) =
  firstn 4 (split_colon mac) ++ [py_hex (N.shiftr n 8); py_hex (N.land n 0xFF)].
Proof.
  unfold int_in_mac. apply split_join.
  - intros H. apply app_eq_nil in H. destruct H as [_ H]. discriminate H.
  - apply Forall_app. split.
    + pose proof (split_colon_pieces mac) as F. rewrite <- (firstn_skipn 4 (split_colon mac)) in F.
      apply Forall_app in F. tauto.
    + constructor; [apply py_hex_no_colon|constructor; [apply py_hex_no_colon|constructor]].
Qed.

Lemma int_round_trip mac n : int_from_mac (int_in_mac mac n) = Some n.
Proof.
  unfold int_from_mac. rewrite int_in_mac_pieces. unfold last_two. rewrite rev_app_distr. cbn [rev app].
  rewrite !py_int16_hex. f_equal.
  change 0xFF with (N.ones 8). rewrite N.land_ones, N.shiftr_div_pow2, N.shiftl_mul_pow2.
  rewrite (N.mul_comm (n / 2 ^ 8)). symmetry. apply N.div_mod'.
Qed.

(** ** MAC masks *)

Lemma mask_value i : i <= 48 -> 2 ^ 48 - 2 ^ i = N.shiftl (N.ones (48 - i)) i.
Proof.
  intros H. apply N.eqb_eq.
  refine (all_below (fun i => 2 ^ 48 - 2 ^ i =? N.shiftl (N.ones (48 - i)) i) 49 _ i _).
  - vm_compute. reflexivity.
  - lia.
Qed.

Lemma mask_bits i j : i <= 48 -> N.testbit (2 ^ 48 - 2 ^ i) j = (i <=? j) && (j <? 48).
Proof.
  intros H. rewrite mask_value by exact H.
  destruct (N.leb_spec i j) as [L|L]; cbn [andb].
  - rewrite N.shiftl_spec_high' by exact L. destruct (N.ltb_spec j 48).
    + apply N.ones_spec_low. lia.
    + apply N.ones_spec_high. lia.
  - apply N.shiftl_spec_low. exact L.
Qed.

Lemma bitmap_entry kv : In kv MAC_MASK_BITMAP -> exists i, i <= 48 /\ kv = (2 ^ 48 - 2 ^ i, 48 - i).
Proof.
  unfold MAC_MASK_BITMAP. rewrite in_map_iff. intros (i & <- & H). apply in_seq in H.
  exists (N.of_nat i). split; [lia|reflexivity].
Qed.

Lemma mask_inj i j : i <= 48 -> j <= 48 -> 2 ^ 48 - 2 ^ i = 2 ^ 48 - 2 ^ j -> i = j.
Proof.
  intros I J H.
  assert (2 ^ i <= 2 ^ 48) by (apply N.pow_le_mono_r; lia).
  assert (2 ^ j <= 2 ^ 48) by (apply N.pow_le_mono_r; lia).
  apply (N.pow_inj_r 2); lia.
Qed.

Lemma mac_mask_bits_prefix m k : is_prefix_mask m k -> mac_mask_bits (Some m) = k.
Proof.
  intros [K B]. assert (m = 2 ^ 48 - 2 ^ (48 - k)) as ->.
  { apply N.bits_inj. intros j. rewrite B, mask_bits by lia. reflexivity. }
  unfold mac_mask_bits. destruct (find _ MAC_MASK_BITMAP) as [kv|] eqn:F.
  - apply find_some in F. destruct F as [F E]. apply bitmap_entry in F. destruct F as (i & Hi & ->).
    cbn [fst snd] in *. apply N.eqb_eq in E. apply mask_inj in E; lia.
  - exfalso.
    assert (In (2 ^ 48 - 2 ^ (48 - k), 48 - (48 - k)) MAC_MASK_BITMAP) as I.
    { unfold MAC_MASK_BITMAP. apply in_map_iff. exists (N.to_nat (48 - k)). rewrite N2Nat.id.
      split; [reflexivity|]. apply in_seq. lia. }
    apply (find_none _ _ F) in I. cbn [fst] in I. rewrite N.eqb_refl in I. discriminate I.
Qed.

Lemma mac_mask_bits_only m : mac_mask_bits (Some m) <> 0 -> is_prefix_mask m (mac_mask_bits (Some m)).
Proof.
  unfold mac_mask_bits. destruct (find _ MAC_MASK_BITMAP) as [kv|] eqn:F; [|congruence].
  apply find_some in F. destruct F as [F E]. apply bitmap_entry in F. destruct F as (i & Hi & ->).
  cbn [fst snd] in *. apply N.eqb_eq in E. subst m. intros _. split; [lia|]. intros j.
  rewrite mask_bits by exact Hi. replace (48 - (48 - i)) with i by lia. reflexivity.
Qed.

(** ** Rate limit *)

Lemma rate_limit_counts limit s t s' b :
  rate_limit limit s t = (s', b) ->
  lm_sec s' = t /\
  lm_count s' = (if lm_sec s =? t then lm_count s else 0) + 1 /\
  lm_ignored s' = lm_ignored s + N.b2n b /\
  b = negb (limit =? 0) && (lm_count s' mod limit =? 0).
Proof.
  unfold rate_limit. cbn [lm_sec lm_count lm_ignored].
  destruct (N.eqb_spec (lm_sec s) t) as [E|E]; cbn [lm_sec lm_count lm_ignored];
    destruct (negb (limit =? 0) && _)%bool eqn:C; intros H; injection H; intros <- <-;
      cbn [lm_sec lm_count lm_ignored N.b2n]; rewrite ?C; repeat split; auto; lia.
Qed.

Lemma dropped_cons b bs : dropped (b :: bs) = N.b2n b + dropped bs.
Proof. unfold dropped. cbn. destruct b; cbn [List.length N.b2n]; lia. Qed.

Lemma rate_run_ignored limit ts : forall s s' bs,
  rate_run limit s ts = (s', bs) -> lm_ignored s' = lm_ignored s + dropped bs /\ List.length bs = List.length ts.
Proof.
  induction ts as [|t ts IH]; intros s s' bs H; cbn in H.
  - injection H. intros <- <-. cbn. unfold dropped. cbn. split; [lia|reflexivity].
  - destruct (rate_limit limit s t) as [s1 b] eqn:E1. destruct (rate_run limit s1 ts) as [s2 bs2] eqn:E2.
    injection H. intros <- <-. apply IH in E2. destruct E2 as [E2 L]. apply rate_limit_counts in E1.
    destruct E1 as (_ & _ & I & _). rewrite dropped_cons. cbn [List.length]. split; [lia|congruence].
Qed.

Definition count_at (s : limiter) (t : N) : N := if lm_sec s =? t then lm_count s else 0.

Lemma processed_cons t u ts b bs :
  processed t (u :: ts) (b :: bs) = N.b2n ((t =? u) && negb b)%bool + processed t ts bs.
Proof.
  unfold processed. cbn [combine filter fst snd]. destruct ((t =? u) && negb b)%bool; cbn [List.length N.b2n]; lia.
Qed.

Lemma arrivals_cons t u ts : arrivals t (u :: ts) = N.b2n (t =? u) + arrivals t ts.
Proof. unfold arrivals. cbn [filter]. destruct (t =? u); cbn [List.length N.b2n]; lia. Qed.

Lemma processed_none t ts bs : ~ In t ts -> processed t ts bs = 0.
Proof.
  revert bs. induction ts as [|u ts IH]; intros bs H; [reflexivity|]. destruct bs as [|b bs]; [reflexivity|].
  rewrite processed_cons, IH by (intros K; apply H; now right).
  destruct (N.eqb_spec t u); [|reflexivity]. subst. exfalso. apply H. now left.
Qed.

Lemma arrivals_none t ts : ~ In t ts -> arrivals t ts = 0.
Proof.
  induction ts as [|u ts IH]; intros H; [reflexivity|].
  rewrite arrivals_cons, IH by (intros K; apply H; now right).
  destruct (N.eqb_spec t u); [|reflexivity]. subst. exfalso. apply H. now left.
Qed.

Lemma div_step c limit : limit <> 0 ->
  (c + 1) / limit = c / limit + N.b2n ((c + 1) mod limit =? 0).
Proof.
  intros L. pose proof (N.div_mod c limit L) as D. pose proof (N.mod_lt c limit L) as M.
  destruct (N.eq_dec (c mod limit + 1) limit) as [E|E].
  - assert (c + 1 = (c / limit + 1) * limit + 0) as X by lia.
    assert ((c + 1) / limit = c / limit + 1) as ->.
    { symmetry. apply N.div_unique with 0; lia. }
    assert ((c + 1) mod limit = 0) as ->.
    { symmetry. apply N.mod_unique with (c / limit + 1); lia. }
    reflexivity.
  - assert ((c + 1) / limit = c / limit) as ->.
    { symmetry. apply N.div_unique with (c mod limit + 1); lia. }
    assert ((c + 1) mod limit = c mod limit + 1) as ->.
    { symmetry. apply N.mod_unique with (c / limit); lia. }
    destruct (N.eqb_spec (c mod limit + 1) 0) as [Z|_]; [exfalso; revert Z; generalize (c mod limit); intros; lia|]. cbn [N.b2n]. now rewrite N.add_0_r.
Qed.

Lemma rate_run_processed limit t ts : limit <> 0 -> forall s s' bs,
  Forall (fun u => lm_sec s <= u) ts -> in_order ts ->
  rate_run limit s ts = (s', bs) ->
  processed t ts bs + (count_at s t + arrivals t ts) / limit =
  arrivals t ts + count_at s t / limit.
Proof.
  intros L. induction ts as [|u ts IH]; intros s s' bs Ge Ord H; cbn in H.
  - injection H. intros <- <-. unfold arrivals, processed. cbn. rewrite N.add_0_r. lia.
  - destruct (rate_limit limit s u) as [s1 b] eqn:E1. destruct (rate_run limit s1 ts) as [s2 bs2] eqn:E2.
    injection H. intros <- <-. clear H. cbn [in_order] in Ord. destruct Ord as [Ou Ord].
    apply rate_limit_counts in E1. destruct E1 as (S1 & C1 & _ & B).
    assert (Forall (fun v => lm_sec s1 <= v) ts) as Ge1 by (rewrite S1; exact Ou).
    specialize (IH s1 s2 bs2 Ge1 Ord E2).
    rewrite processed_cons, arrivals_cons.
    destruct (N.eqb_spec t u) as [->|D]; cbn [andb N.b2n].
    + unfold count_at in *. rewrite S1, N.eqb_refl, C1 in IH.
      set (c := if lm_sec s =? u then lm_count s else 0) in *.
      rewrite C1 in B. destruct (N.eqb_spec limit 0) as [?|_]; [congruence|]. cbn [negb andb] in B.
      rewrite div_step, <- B in IH by exact L.
      replace (c + (1 + arrivals u ts)) with (c + 1 + arrivals u ts) by lia.
      destruct b; cbn [negb N.b2n] in *; lia.
    + cbn [N.add]. unfold count_at in *. rewrite S1 in IH.
      destruct (N.eqb_spec u t) as [?|_]; [congruence|].
      destruct (N.eqb_spec (lm_sec s) t) as [E|E]; [|exact IH].
      assert (~ In t ts) as NI.
      { intros I. rewrite Forall_forall in Ou. apply Ou in I.
        inversion Ge as [|? ? G1 _]; subst. apply D. lia. }
      rewrite processed_none, arrivals_none by exact NI. rewrite N.add_0_r. lia.
Qed.

Lemma rate_run_none limit ts : forall s s' bs,
  (forall t, count_at s t + arrivals t ts < limit \/ ~ In t ts) ->
  rate_run limit s ts = (s', bs) -> Forall (fun b => b = false) bs.
Proof.
  induction ts as [|u ts IH]; intros s s' bs Lt H; cbn in H.
  - injection H. intros <- <-. constructor.
  - destruct (rate_limit limit s u) as [s1 b] eqn:E1. destruct (rate_run limit s1 ts) as [s2 bs2] eqn:E2.
    injection H. intros <- <-. clear H. apply rate_limit_counts in E1. destruct E1 as (S1 & C1 & _ & B).
    fold (count_at s u) in C1.
    assert (count_at s u + arrivals u (u :: ts) < limit) as Lu.
    { destruct (Lt u) as [X|X]; [exact X|]. exfalso. apply X. now left. }
    rewrite arrivals_cons, N.eqb_refl in Lu. cbn [N.b2n] in Lu.
    constructor.
    + rewrite B, C1, N.mod_small by lia. destruct (N.eqb_spec (count_at s u + 1) 0); [lia|]. apply andb_false_r.
    + apply (IH s1 s2 bs2); [|exact E2]. intros t. destruct (in_dec N.eq_dec t ts) as [I|I]; [left|now right].
      unfold count_at at 1. rewrite S1, C1. destruct (N.eqb_spec u t) as [<-|D].
      * lia.
      * destruct (Lt t) as [X|X].
        -- rewrite arrivals_cons in X. destruct (t =? u); cbn [N.b2n] in X; lia.
        -- exfalso. apply X. now right.
Qed.
