(** * The settings of a switch: proofs *)
From Coq Require Import List Bool ZArith String Lia.
From Verif Require Import SettingsModel SettingsSpec.
Import ListNotations.
Open Scope string_scope.
Open Scope list_scope.
Open Scope Z_scope.

Lemma lookup_In : forall A k (d : list (string * A)) v, lookup k d = Some v -> In (k, v) d.
Proof.
  induction d as [|[k' w] d IH]; cbn; intros v H; [discriminate|].
  destruct (String.eqb_spec k k'); [left; congruence|right; auto].
Qed.
Lemma In_lookup : forall A k (d : list (string * A)) v, NoDup (map fst d) -> In (k, v) d -> lookup k d = Some v.
Proof.
  induction d as [|[k' w] d IH]; cbn; intros v N H; [contradiction|]. inversion N; subst.
  destruct H as [H|H].
  - injection H as -> ->. rewrite String.eqb_refl. reflexivity.
  - destruct (String.eqb_spec k k'); [|auto]. subst k'. exfalso. apply H2. apply (in_map fst) in H. exact H.
Qed.
Lemma lookup_None : forall A k (d : list (string * A)) v, lookup k d = None -> ~ In (k, v) d.
Proof.
  induction d as [|[k' w] d IH]; cbn; intros v H X; [contradiction|].
  destruct (String.eqb_spec k k'); [discriminate|]. destruct X as [X|X]; [congruence|]. apply (IH v); assumption.
Qed.

Lemma isinstance_iff : forall v t, isinstance v t = true <-> of_type v t.
Proof. intros v t. split; [destruct v, t; cbn; intros; try discriminate; constructor|intros []; reflexivity]. Qed.
Lemma num_iff : forall v n, num v = Some n <-> number v n.
Proof.
  intros v n. split; [|intros []; reflexivity].
  destruct v; cbn; intros H; try discriminate; [destruct b|]; injection H as <-; constructor.
Qed.

Lemma types_iff : forall conf types, NoDup (map fst types) -> check_conf_types conf types = true <-> proper types conf.
Proof.
  intros conf types N. unfold check_conf_types, proper. rewrite forallb_forall. split.
  - intros H k v I. specialize (H (k, v) I). cbn [fst snd] in H. destruct (lookup k types) as [t|] eqn:E; [|discriminate].
    exists t. split; [apply lookup_In; exact E|]. destruct v; auto; right; apply isinstance_iff; exact H.
  - intros H [k v] I. cbn [fst snd]. destruct (H k v I) as [t [T O]]. rewrite (In_lookup _ _ _ _ N T).
    destruct O as [->|O]; [reflexivity|]. apply isinstance_iff in O. destruct v; auto.
Qed.

Fixpoint nodupb (l : list string) : bool :=
  match l with [] => true | k :: r => negb (existsb (String.eqb k) r) && nodupb r end.
Lemma nodupb_ok : forall l, nodupb l = true -> NoDup l.
Proof.
  induction l as [|k l IH]; cbn; intros H; [constructor|]. apply andb_prop in H. destruct H as [A B]. constructor; [|auto].
  intros I. apply negb_true_iff in A. assert (X : existsb (String.eqb k) l = true).
  { apply existsb_exists. exists k. split; [exact I|apply String.eqb_refl]. }
  congruence.
Qed.
Ltac nodup := apply nodupb_ok; vm_compute; reflexivity.
Lemma dp_nodup : NoDup (map fst DP_TYPES).
Proof. nodup. Qed.
Lemma lldp_nodup : NoDup (map fst LLDP_TYPES).
Proof. nodup. Qed.
Lemma dot1x_nodup : NoDup (map fst DOT1X_TYPES).
Proof. nodup. Qed.
Lemma sizes_nodup : NoDup (map fst TABLE_SIZES_TYPES).
Proof. nodup. Qed.

Lemma lookup_map : forall (l : list (string * (ptype * pval))) k, lookup k (map (fun r => (fst r, fst (snd r))) l) = option_map fst (lookup k l).
Proof.
  induction l as [|[k' [t d]] l IH]; cbn; intros k; [reflexivity|]. destruct (String.eqb k k'); [reflexivity|apply IH].
Qed.
Lemma known_of : forall conf, check_conf_types conf DP_TYPES = true -> known conf DP_SETTINGS = true.
Proof.
  intros conf H. unfold known, check_conf_types in *. rewrite forallb_forall in *. intros x X. specialize (H x X).
  unfold DP_TYPES in H. rewrite lookup_map in H. destruct (lookup (fst x) DP_SETTINGS); [reflexivity|discriminate].
Qed.

Lemma given_iff : forall conf k v, NoDup (map fst conf) -> (given conf k v <-> lookup k conf = Some v /\ v <> PNone).
Proof.
  intros conf k v N. unfold given. split; intros [H X]; (split; [|exact X]); [apply In_lookup|apply lookup_In]; assumption.
Qed.
Lemma val_iff : forall conf k t d v, NoDup (map fst conf) -> lookup k DP_SETTINGS = Some (t, d) ->
  (val conf k = v <-> setting conf k d v).
Proof.
  intros conf k t d v N L. unfold val, setting. rewrite given_iff by exact N. rewrite L.
  assert (G : (forall w, ~ given conf k w) <-> lookup k conf = None \/ lookup k conf = Some PNone).
  { split.
    - intros H. destruct (lookup k conf) as [w|] eqn:E; [|auto]. right. f_equal.
      destruct w; auto; exfalso; eapply H; apply given_iff; [exact N|split; [exact E|discriminate]|exact N|split; [exact E|discriminate]
        |exact N|split; [exact E|discriminate]|exact N|split; [exact E|discriminate]|exact N|split; [exact E|discriminate]
        |exact N|split; [exact E|discriminate]].
    - intros H w X. apply given_iff in X; [|exact N]. destruct X as [X Y]. destruct H; congruence. }
  rewrite G. destruct (lookup k conf) as [w|]; [destruct w|]; intuition congruence.
Qed.

(** Values are of their types *)
Lemma val_type : forall conf k t d, proper DP_TYPES conf -> lookup k DP_SETTINGS = Some (t, d) ->
  val conf k = d \/ isinstance (val conf k) t = true.
Proof.
  intros conf k t d P L. unfold val. rewrite L. destruct (lookup k conf) as [w|] eqn:E; [|auto].
  apply lookup_In in E. destruct (P k w E) as [t' [T O]].
  apply (In_lookup _ _ _ _ dp_nodup) in T. unfold DP_TYPES in T. rewrite lookup_map, L in T. injection T as <-.
  destruct O as [->|O]; [auto|]. right. apply isinstance_iff in O. destruct w; try exact O. destruct t; discriminate.
Qed.
Lemma val_num : forall conf k d, proper DP_TYPES conf -> lookup k DP_SETTINGS = Some (TInt, PInt d) ->
  exists n, num (val conf k) = Some n.
Proof.
  intros conf k d P L. destruct (val_type conf k _ _ P L) as [->|H]; [cbn; eauto|].
  destruct (val conf k); try discriminate H; cbn; eauto.
Qed.

Section Settings.
  Variable valid_mac : string -> bool.

  (** The checks one by one *)
  Definition basic (c : string -> pval) (t a n : Z) : bool :=
    isinstance (c "dp_id") TInt
    && match num (c "dp_id") with Some d => negb ((d <? 0) || (2 ^ 64 - 1 <? d)) | None => false end
    && match c "faucet_dp_mac" with PStr m => valid_mac m | _ => false end
    && (truthy (c "interfaces") || truthy (c "interface_ranges"))
    && negb (t <? 15) && negb (65535 <? t) && (2 * a <? t) && negb (65535 <? a) && (2 * n <? t) && negb (65535 <? n)
    && negb (truthy (c "combinatorial_port_flood") && truthy (c "group_table")).

  Definition worked_out (c : string -> pval) (t g j b : Z) : string -> pval :=
    let c := if g =? 0 then put "cache_update_guard_time" (PInt (t / 2)) c else c in
    let c := if j =? 0 then put "learn_jitter" (PInt (Z.max (Z.sqrt (9 * t)) 1)) c else c in
    if b =? 0 then put "learn_ban_timeout" (c "learn_jitter") c else c.
  Definition sections (c : string -> pval) : outcome :=
    reject_if (match c "dot1x" with PDict d => negb (check_conf_types d DOT1X_TYPES) | v => truthy v end) (
    reject_if (match c "table_sizes" with PDict d => negb (check_conf_types d TABLE_SIZES_TYPES) | _ => true end)
    (Accepted c)).
  Definition tail (c : string -> pval) : outcome :=
    match c "lldp_beacon" with
    | PDict [] => sections c
    | PDict d => lldp_defaults d (fun d' => sections (put "lldp_beacon" (PDict d') c))
    | v => if truthy v then Rejected else sections c
    end.

  Lemma check_eq : forall c t a n g j b, num (c "timeout") = Some t -> num (c "arp_neighbor_timeout") = Some a ->
    num (c "nd_neighbor_timeout") = Some n -> num (c "cache_update_guard_time") = Some g ->
    num (c "learn_jitter") = Some j -> num (c "learn_ban_timeout") = Some b ->
    check_config valid_mac c = if basic c t a n then tail (worked_out c t g j b) else Rejected.
  Proof.
    intros c t a n g j b Ht Ha Hn Hg Hj Hb. unfold check_config, basic, need, reject_if.
    rewrite Ht, Ha, Hn, Hg.
    assert (D : isinstance (c "dp_id") TInt = true -> exists d, num (c "dp_id") = Some d)
      by (destruct (c "dp_id"); cbn; intros X; try discriminate; eauto).
    destruct (isinstance (c "dp_id") TInt); cbn [negb andb]; [|reflexivity].
    destruct (D eq_refl) as [d ->]. clear D.
    set (e1 := (d <? 0) || (2 ^ 64 - 1 <? d)). clearbody e1.
    set (e2 := match c "faucet_dp_mac" with PStr m => valid_mac m | _ => false end). clearbody e2.
    set (e3 := truthy (c "interfaces") || truthy (c "interface_ranges")). clearbody e3.
    set (e4 := t <? 15). clearbody e4. set (e5 := 65535 <? t). clearbody e5.
    set (e6 := 2 * a <? t). clearbody e6. set (e7 := 65535 <? a). clearbody e7.
    set (e8 := 2 * n <? t). clearbody e8. set (e9 := 65535 <? n). clearbody e9.
    set (e10 := truthy (c "combinatorial_port_flood") && truthy (c "group_table")). clearbody e10.
    destruct e1; [reflexivity|]. destruct e2; [|reflexivity]. destruct e3; [|reflexivity].
    destruct e4; [reflexivity|]. destruct e5; [reflexivity|]. destruct e6; [|reflexivity].
    destruct e7; [reflexivity|]. destruct e8; [|reflexivity]. destruct e9; [reflexivity|].
    destruct e10; [reflexivity|]. cbn [negb andb].
    assert (J : forall v, (if g =? 0 then put "cache_update_guard_time" v c else c) "learn_jitter" = c "learn_jitter")
      by (intros v; destruct (g =? 0); reflexivity).
    rewrite J, Hj.
    assert (B : forall v w, (if j =? 0 then put "learn_jitter" w (if g =? 0 then put "cache_update_guard_time" v c else c)
              else (if g =? 0 then put "cache_update_guard_time" v c else c)) "learn_ban_timeout" = c "learn_ban_timeout")
      by (intros v w; destruct (j =? 0), (g =? 0); reflexivity).
    rewrite B, Hb. reflexivity.
  Qed.

  Lemma basic_iff : forall c t a n, basic c t a n = true <->
    (exists d, number (c "dp_id") d /\ 0 <= d < 2 ^ 64) /\
    (exists m, c "faucet_dp_mac" = PStr m /\ valid_mac m = true) /\
    (truthy (c "interfaces") = true \/ truthy (c "interface_ranges") = true) /\
    15 <= t <= 65535 /\ 2 * a < t /\ 2 * n < t /\
    ~ (truthy (c "combinatorial_port_flood") = true /\ truthy (c "group_table") = true).
  Proof.
    intros c t a n. unfold basic.
    rewrite !andb_true_iff, !negb_true_iff, orb_true_iff, andb_false_iff, !Z.ltb_ge, !Z.ltb_lt.
    assert (A : isinstance (c "dp_id") TInt = true /\
       match num (c "dp_id") with Some d => negb ((d <? 0) || (2 ^ 64 - 1 <? d)) | None => false end = true <->
       exists d, number (c "dp_id") d /\ 0 <= d < 2 ^ 64).
    { split.
      - intros [_ H]. destruct (num (c "dp_id")) as [d|] eqn:E; [|discriminate]. exists d.
        split; [apply num_iff; exact E|]. rewrite negb_true_iff, orb_false_iff, !Z.ltb_ge in H. lia.
      - intros [d [N R]]. split; [inversion N; reflexivity|]. apply num_iff in N. rewrite N.
        rewrite negb_true_iff, orb_false_iff, !Z.ltb_ge. lia. }
    assert (M : match c "faucet_dp_mac" with PStr m => valid_mac m | _ => false end = true <->
       exists m, c "faucet_dp_mac" = PStr m /\ valid_mac m = true).
    { destruct (c "faucet_dp_mac"); split; try discriminate; try (intros [m [X _]]; discriminate); [eauto|].
      intros [m [X Y]]. congruence. }
    rewrite <- A, <- M. rewrite <- !not_true_iff_false.
    set (x1 := truthy (c "combinatorial_port_flood")). clearbody x1. set (x2 := truthy (c "group_table")). clearbody x2.
    destruct x1, x2; intuition (try lia; try congruence).
  Qed.

  Definition is_dict_of (v : pval) (types : list (string * ptype)) : Prop := exists d, v = PDict d /\ proper types d.

  Lemma sections_iff : forall c, (exists d, c "dot1x" = PDict d) -> (exists d, c "table_sizes" = PDict d) ->
    (sections c = Accepted c /\ is_dict_of (c "dot1x") DOT1X_TYPES /\ is_dict_of (c "table_sizes") TABLE_SIZES_TYPES) \/
    (sections c = Rejected /\ ~ (is_dict_of (c "dot1x") DOT1X_TYPES /\ is_dict_of (c "table_sizes") TABLE_SIZES_TYPES)).
  Proof.
    intros c [d D] [e E]. unfold sections, is_dict_of. rewrite D, E.
    destruct (check_conf_types d DOT1X_TYPES) eqn:H1; cbn [negb reject_if].
    - destruct (check_conf_types e TABLE_SIZES_TYPES) eqn:H2; cbn [negb reject_if].
      + left. split; [reflexivity|]. split; eexists; (split; [reflexivity|]); apply types_iff; auto using dot1x_nodup, sizes_nodup.
      + right. split; [reflexivity|]. intros [_ [x [X P]]]. injection X as <-.
        apply types_iff in P; [congruence|apply sizes_nodup].
    - right. split; [reflexivity|]. intros [[x [X P]] _]. injection X as <-.
      apply types_iff in P; [congruence|apply dot1x_nodup].
  Qed.

  (** The section on LLDP beacons *)
  Lemma lldp_cases : forall d k, NoDup (map fst d) ->
    (proper LLDP_TYPES d /\ (forall v, In ("send_interval", v) d -> exists n, number v n /\ 1 <= n) /\
     exists d', lldp_defaults d k = k d' /\ (forall x v, In (x, v) d -> lookup x d' = Some v) /\
       (lookup "send_interval" d = None -> lookup "send_interval" d' = Some (PInt 5)) /\
       (lookup "max_per_interval" d = None -> lookup "max_per_interval" d' = Some (PInt 5))) \/
    (lldp_defaults d k = Rejected /\
      ~ (proper LLDP_TYPES d /\ forall v, In ("send_interval", v) d -> exists n, number v n /\ 1 <= n)) \/
    (lldp_defaults d k = Raised /\ In ("send_interval", PNone) d).
  Proof.
    intros d k N. unfold lldp_defaults. destruct (check_conf_types d LLDP_TYPES) eqn:T; cbn [negb reject_if].
    2:{ right. left. split; [reflexivity|]. intros [P _]. apply types_iff in P; [congruence|apply lldp_nodup]. }
    assert (P : proper LLDP_TYPES d) by (apply types_iff; [apply lldp_nodup|exact T]).
    assert (App : forall x (l r : list (string * pval)), lookup x (l ++ r) = match lookup x l with Some v => Some v | None => lookup x r end).
    { intros x l r. induction l as [|[y w] l IH]; [reflexivity|]. cbn [app lookup]. destruct (String.eqb x y); [reflexivity|exact IH]. }
    set (d1 := match lookup "send_interval" d with
               | None => d ++ [("send_interval", PInt DEFAULT_LLDP_SEND_INTERVAL)] | Some _ => d end).
    set (d2 := match lookup "max_per_interval" d1 with
               | None => d1 ++ [("max_per_interval", PInt DEFAULT_LLDP_MAX_PER_INTERVAL)] | Some _ => d1 end).
    assert (K1 : forall x v, lookup x d = Some v -> lookup x d1 = Some v).
    { intros x v L. unfold d1. destruct (lookup "send_interval" d); [exact L|]. rewrite App, L. reflexivity. }
    assert (K2 : forall x v, lookup x d1 = Some v -> lookup x (set_unknown_conf d2 LLDP_TYPES) = Some v).
    { intros x v L. unfold set_unknown_conf. rewrite App.
      assert (X : lookup x d2 = Some v); [|rewrite X; reflexivity].
      unfold d2. destruct (lookup "max_per_interval" d1); [exact L|]. rewrite App, L. reflexivity. }
    assert (S : lookup "send_interval" d = None -> lookup "send_interval" d1 = Some (PInt 5)).
    { intros L. unfold d1. rewrite L, App, L. reflexivity. }
    assert (M : lookup "max_per_interval" d = None -> lookup "max_per_interval" (set_unknown_conf d2 LLDP_TYPES) = Some (PInt 5)).
    { intros L.
      assert (L1 : lookup "max_per_interval" d1 = None).
      { unfold d1. destruct (lookup "send_interval" d); [exact L|]. rewrite App, L. reflexivity. }
      unfold set_unknown_conf. rewrite App.
      assert (X : lookup "max_per_interval" d2 = Some (PInt 5)); [|rewrite X; reflexivity].
      unfold d2. rewrite L1, App, L1. reflexivity. }
    assert (Good : exists d', k (set_unknown_conf d2 LLDP_TYPES) = k d' /\ (forall x v, In (x, v) d -> lookup x d' = Some v) /\
       (lookup "send_interval" d = None -> lookup "send_interval" d' = Some (PInt 5)) /\
       (lookup "max_per_interval" d = None -> lookup "max_per_interval" d' = Some (PInt 5))).
    { exists (set_unknown_conf d2 LLDP_TYPES). split; [reflexivity|]. split; [|split; [|exact M]].
      - intros x v I. apply K2, K1. apply In_lookup; assumption.
      - intros L. apply K2. apply S. exact L. }
    destruct (lookup "send_interval" d) as [v|] eqn:L.
    - rewrite (K1 _ _ L). pose proof (lookup_In _ _ _ _ L) as I. unfold need. destruct (num v) as [n|] eqn:Nv.
      + destruct (n <? 1) eqn:B; cbn [reject_if].
        * right. left. split; [reflexivity|]. intros [_ H]. destruct (H v I) as [m [X Y]]. apply num_iff in X.
          apply Z.ltb_lt in B. assert (m = n) by congruence. lia.
        * left. split; [exact P|]. split; [|exact Good]. intros w W. apply (In_lookup _ _ _ _ N) in W.
          exists n. split; [apply num_iff; congruence|]. apply Z.ltb_ge in B. lia.
      + right. right. split; [reflexivity|]. destruct (P _ _ I) as [t [Ty O]]. destruct O as [->|O]; [exact I|].
        exfalso. cbn in Ty. destruct Ty as [Ty|[Ty|[Ty|[]]]]; try discriminate. injection Ty as <-.
        inversion O; subst; discriminate.
    - rewrite (S eq_refl). unfold need. cbn [num]. change (5 <? 1) with false. cbn [reject_if].
      left. split; [exact P|]. split; [|exact Good]. intros w W. exfalso. apply (lookup_None _ _ _ w L W).
  Qed.

  Definition base_derived (k : string) : Prop :=
    In k ["dp_id"; "lowest_priority"; "low_priority"; "high_priority"; "highest_priority"].

  Lemma num_or : forall conf k m, proper DP_TYPES conf -> lookup k DP_SETTINGS = Some (TInt, PNone) ->
    exists n, num (default_to (val conf k) (PInt m)) = Some n.
  Proof.
    intros conf k m P L. destruct (val_type conf k _ _ P L) as [->|H]; [cbn; eauto|].
    destruct (val conf k); try discriminate H; cbn; eauto.
  Qed.

  Lemma defaults_eq : forall id conf K, proper DP_TYPES conf -> exists c,
    dp_set_defaults id (val conf) K = K c /\ c "dp_id" = default_to (val conf "dp_id") id /\
    forall k, ~ base_derived k -> c k = val conf k.
  Proof.
    intros id conf K P. unfold dp_set_defaults, need.
    destruct (val_num conf "priority_offset" 0 P eq_refl) as [off ->].
    match goal with |- context [num (?f "low_priority")] =>
      change (f "low_priority") with (default_to (val conf "low_priority") (PInt (off + 9000))) end.
    destruct (num_or conf "low_priority" (off + 9000) P eq_refl) as [low ->].
    match goal with |- context [num (?f "high_priority")] =>
      change (f "high_priority") with (default_to (val conf "high_priority") (PInt (low + 1))) end.
    destruct (num_or conf "high_priority" (low + 1) P eq_refl) as [high ->].
    eexists. split; [reflexivity|]. split; [reflexivity|].
    intros k N. unfold put, base_derived in *. cbn [In] in N.
    repeat match goal with |- context [String.eqb k ?s] => destruct (String.eqb_spec k s); [exfalso; apply N; subst; tauto|] end.
    reflexivity.
  Qed.

  Lemma worked_other : forall c t g j b k, k <> "cache_update_guard_time" -> k <> "learn_jitter" -> k <> "learn_ban_timeout" ->
    worked_out c t g j b k = c k.
  Proof.
    intros c t g j b k A B C. unfold worked_out, put. apply String.eqb_neq in A, B, C.
    destruct (b =? 0), (j =? 0), (g =? 0); rewrite ?C, ?B, ?A; reflexivity.
  Qed.

  Lemma dp_id_iff : forall conf id v, NoDup (map fst conf) ->
    (default_to (val conf "dp_id") id = v <-> setting conf "dp_id" id v).
  Proof.
    intros conf id v N. pose proof (val_iff conf "dp_id" TInt PNone (val conf "dp_id") N eq_refl) as V.
    assert (S : setting conf "dp_id" PNone (val conf "dp_id")) by (apply V; reflexivity).
    unfold setting in *. destruct S as [G|[G E]].
    - pose proof (proj2 G) as X. split.
      + intros <-. left. destruct (val conf "dp_id"); try exact G. contradiction.
      + intros [H|[H _]]; [|exfalso; apply (H _ G)].
        apply given_iff in H; [|exact N]. apply given_iff in G; [|exact N].
        assert (val conf "dp_id" = v) by (destruct H, G; congruence). rewrite H0.
        destruct v; try reflexivity. destruct H; contradiction.
    - rewrite E. cbn [default_to]. split; [intros <-; right; auto|]. intros [H|[_ H]]; [exfalso; apply (G _ H)|auto].
  Qed.

  Lemma set_num : forall conf k d n, NoDup (map fst conf) -> lookup k DP_SETTINGS = Some (TInt, PInt d) ->
    num (val conf k) = Some n -> is_set conf k d n.
  Proof.
    intros conf k d n N L H. exists (val conf k). split; [|apply num_iff; exact H].
    apply (val_iff conf k TInt (PInt d)); auto.
  Qed.
  Lemma set_fun : forall conf k d n m, NoDup (map fst conf) -> lookup k DP_SETTINGS = Some (TInt, PInt d) ->
    num (val conf k) = Some n -> is_set conf k d m -> m = n.
  Proof.
    intros conf k d n m N L H [v [S X]]. apply (val_iff conf k TInt (PInt d) v N L) in S. apply num_iff in X. congruence.
  Qed.
  Lemma dict_val : forall conf k, proper DP_TYPES conf -> lookup k DP_SETTINGS = Some (TDict, PDict []) ->
    exists d, val conf k = PDict d.
  Proof.
    intros conf k P L. destruct (val_type conf k _ _ P L) as [->|H]; [eauto|]. destruct (val conf k); try discriminate H; eauto.
  Qed.
  Lemma dict_given : forall conf k d, NoDup (map fst conf) -> lookup k DP_SETTINGS = Some (TDict, PDict []) ->
    d <> [] -> (val conf k = PDict d <-> given conf k (PDict d)).
  Proof.
    intros conf k d N L D. rewrite (val_iff conf k TDict (PDict []) _ N L). unfold setting. split; [|auto].
    intros [H|[_ H]]; [exact H|congruence].
  Qed.
  Lemma given_val : forall conf k v, NoDup (map fst conf) -> given conf k v -> val conf k = v.
  Proof.
    intros conf k v N G. apply given_iff in G; [|exact N]. destruct G as [G X]. unfold val. rewrite G. destruct v; congruence.
  Qed.
  Lemma bool_val : forall conf k, NoDup (map fst conf) -> proper DP_TYPES conf -> lookup k DP_SETTINGS = Some (TBool, PBool false) ->
    (truthy (val conf k) = true <-> given conf k (PBool true)).
  Proof.
    intros conf k N P L. split.
    - intros T. assert (S : setting conf k (PBool false) (val conf k)) by (apply (val_iff conf k TBool); auto).
      destruct (val_type conf k _ _ P L) as [E|E]; [rewrite E in T; discriminate|].
      destruct (val conf k) as [|b| | | | |]; try discriminate E. cbn in T. subst b.
      destruct S as [S|[_ S]]; [exact S|discriminate].
    - intros G. rewrite (given_val conf k _ N G). reflexivity.
  Qed.

  Lemma dp_settings_nodup : NoDup (map fst DP_SETTINGS).
  Proof. change (map fst DP_SETTINGS) with (map fst DP_TYPES). exact dp_nodup. Qed.

  Lemma not_in_lookup : forall k (d : list (string * pval)), (forall v, ~ In (k, v) d) -> lookup k d = None.
  Proof.
    intros k d H. destruct (lookup k d) as [v|] eqn:E; [|reflexivity]. apply lookup_In in E. destruct (H v E).
  Qed.

  Lemma load_cases : forall id conf, a_dict conf ->
    (acceptable valid_mac id conf /\ exists r, load valid_mac id conf = Accepted r /\ loaded id conf r) \/
    (load valid_mac id conf = Rejected /\ ~ acceptable valid_mac id conf) \/
    (load valid_mac id conf = Raised /\ ~ acceptable valid_mac id conf /\
      exists d, given conf "lldp_beacon" (PDict d) /\ In ("send_interval", PNone) d).
  Proof.
    intros id conf [N ND]. unfold load.
    destruct (check_conf_types conf DP_TYPES) eqn:T.
    2:{ right. left. split.
        - destruct (known conf DP_SETTINGS); reflexivity.
        - intros A. apply ac_proper in A. apply types_iff in A; [congruence|apply dp_nodup]. }
    rewrite (known_of conf T). cbn [negb reject_if].
    assert (P : proper DP_TYPES conf) by (apply types_iff; [apply dp_nodup|exact T]).
    destruct (defaults_eq id conf (check_config valid_mac) P) as [c [-> [Cid C]]].
    assert (Cv : forall k, ~ base_derived k -> c k = val conf k) by exact C.
    destruct (val_num conf "timeout" 300 P eq_refl) as [t Ht].
    destruct (val_num conf "arp_neighbor_timeout" 30 P eq_refl) as [a Ha].
    destruct (val_num conf "nd_neighbor_timeout" 30 P eq_refl) as [n Hn].
    destruct (val_num conf "cache_update_guard_time" 0 P eq_refl) as [g Hg].
    destruct (val_num conf "learn_jitter" 0 P eq_refl) as [j Hj].
    destruct (val_num conf "learn_ban_timeout" 0 P eq_refl) as [b Hb].
    assert (NB : forall k, (if in_dec String.string_dec k ["dp_id"; "lowest_priority"; "low_priority"; "high_priority"; "highest_priority"] then true else false) = false -> c k = val conf k).
    { intros k H. apply C. intros I. unfold base_derived in I. destruct (in_dec _ _ _); [discriminate|contradiction]. }
    rewrite (check_eq c t a n g j b) by (rewrite NB by reflexivity; assumption).
    pose proof (basic_iff c t a n) as B. rewrite Cid in B.
    rewrite !NB in B by reflexivity.
    assert (MAC : forall m, val conf "faucet_dp_mac" = PStr m <-> setting conf "faucet_dp_mac" (PStr "0e:00:00:00:00:01") (PStr m))
      by (intros m; apply (val_iff conf "faucet_dp_mac" TStr); [exact N|reflexivity]).
    assert (Tr : forall k, lookup k DP_SETTINGS = Some (TDict, PDict []) ->
              (truthy (val conf k) = true <-> exists d, given conf k (PDict d) /\ d <> [])).
    { intros k L. destruct (dict_val conf k P L) as [d D]. split.
      - intros X. exists d. assert (d <> []) by (intros ->; rewrite D in X; discriminate).
        split; [apply dict_given; assumption|assumption].
      - intros [e [G X]]. rewrite (given_val conf k _ N G). destruct e; [contradiction|reflexivity]. }
    assert (Bs : acceptable valid_mac id conf -> basic c t a n = true).
    { intros [_ A2 A3 A4 A5 A6 _ _ _]. apply B.
      split; [|split; [|split; [|split; [|split; [|split]]]]].
      - destruct A2 as [v [m [S [X R]]]]. exists m. apply dp_id_iff in S; [|exact N]. rewrite S. auto.
      - destruct A3 as [m [S V]]. exists m. split; [apply MAC; exact S|exact V].
      - destruct A4 as [k [d [[->| ->] G]]]; [left|right]; apply Tr; try reflexivity; exists d; exact G.
      - destruct A5 as [t' [a' [n' [S1 [S2 [S3 R]]]]]].
        pose proof (set_fun conf "timeout" 300 t t' N eq_refl Ht S1). lia.
      - destruct A5 as [t' [a' [n' [S1 [S2 [S3 R]]]]]].
        pose proof (set_fun conf "timeout" 300 t t' N eq_refl Ht S1).
        pose proof (set_fun conf "arp_neighbor_timeout" 30 a a' N eq_refl Ha S2). lia.
      - destruct A5 as [t' [a' [n' [S1 [S2 [S3 R]]]]]].
        pose proof (set_fun conf "timeout" 300 t t' N eq_refl Ht S1).
        pose proof (set_fun conf "nd_neighbor_timeout" 30 n n' N eq_refl Hn S3). lia.
      - intros [X Y]. apply A6. split; apply bool_val; auto. }
    destruct (basic c t a n) eqn:Ba.
    2:{ right. left. split; [reflexivity|]. intros A. apply Bs in A. discriminate. }
    clear Bs. destruct (proj1 B eq_refl) as [[dp [Dn Dr]] [[m [Me Mv]] [Po [Rt [Ra [Rn Fl]]]]]]. clear B.
    set (w := worked_out c t g j b).
    assert (W : forall k, (if in_dec String.string_dec k ["dp_id"; "lowest_priority"; "low_priority"; "high_priority"; "highest_priority";
               "cache_update_guard_time"; "learn_jitter"; "learn_ban_timeout"] then true else false) = false -> w k = val conf k).
    { intros k H. destruct (in_dec _ _ _) as [|I]; [discriminate|]. cbn [In] in I. unfold w. rewrite worked_other.
      - apply C. unfold base_derived. cbn [In]. tauto.
      - intros ->. tauto.
      - intros ->. tauto.
      - intros ->. tauto. }
    assert (Wid : setting conf "dp_id" id (w "dp_id")).
    { apply dp_id_iff; [exact N|]. unfold w. rewrite worked_other by discriminate. auto. }
    assert (Wt : number (w "cache_update_guard_time") (if g =? 0 then t / 2 else g) /\
      number (w "learn_jitter") (if j =? 0 then Z.max (Z.sqrt (9 * t)) 1 else j) /\
      number (w "learn_ban_timeout") (if b =? 0 then (if j =? 0 then Z.max (Z.sqrt (9 * t)) 1 else j) else b)).
    { assert (Cg : c "cache_update_guard_time" = val conf "cache_update_guard_time") by (apply NB; reflexivity).
      assert (Cj : c "learn_jitter" = val conf "learn_jitter") by (apply NB; reflexivity).
      assert (Cb : c "learn_ban_timeout" = val conf "learn_ban_timeout") by (apply NB; reflexivity).
      apply num_iff in Hg, Hj, Hb. rewrite <- Cg in Hg. rewrite <- Cj in Hj. rewrite <- Cb in Hb.
      unfold w, worked_out, put.
      destruct (b =? 0), (j =? 0), (g =? 0); cbn [String.eqb Ascii.eqb Bool.eqb]; repeat split; try assumption; constructor. }
    assert (Ld : forall r, (forall k, k <> "lldp_beacon" -> r k = w k) ->
       (forall d, given conf "lldp_beacon" (PDict d) -> d <> [] -> exists d', r "lldp_beacon" = PDict d' /\
          (forall k v, In (k, v) d -> lookup k d' = Some v) /\
          ((forall v, ~ In ("send_interval", v) d) -> lookup "send_interval" d' = Some (PInt 5)) /\
          ((forall v, ~ In ("max_per_interval", v) d) -> lookup "max_per_interval" d' = Some (PInt 5))) -> loaded id conf r).
    { intros r R L. split; [|split; [|split; [|exact L]]].
      - intros k ty d I D. unfold derived in D. cbn [In] in D. rewrite R by (intros ->; tauto).
        apply (In_lookup _ _ _ _ dp_settings_nodup) in I.
        apply (val_iff conf k ty d); [exact N|exact I|]. symmetry. apply W.
        destruct (in_dec _ _ _) as [X|]; [|reflexivity]. cbn [In] in X. exfalso. tauto.
      - rewrite R by discriminate. exact Wid.
      - exists t, g, j, b. split; [apply set_num; auto|]. split; [apply set_num; auto|]. split; [apply set_num; auto|].
        split; [apply set_num; auto|]. cbn zeta. rewrite !R by discriminate. exact Wt. }
    assert (Sx : forall r, (forall k, k <> "lldp_beacon" -> r k = w k) ->
       (sections r = Accepted r /\ (forall d, given conf "dot1x" (PDict d) -> proper DOT1X_TYPES d) /\
          (forall d, given conf "table_sizes" (PDict d) -> proper TABLE_SIZES_TYPES d)) \/
       (sections r = Rejected /\ ~ ((forall d, given conf "dot1x" (PDict d) -> proper DOT1X_TYPES d) /\
          (forall d, given conf "table_sizes" (PDict d) -> proper TABLE_SIZES_TYPES d)))).
    { intros r R.
      destruct (dict_val conf "dot1x" P eq_refl) as [x X]. destruct (dict_val conf "table_sizes" P eq_refl) as [y Y].
      assert (Rx : r "dot1x" = PDict x) by (rewrite R by discriminate; rewrite W by reflexivity; exact X).
      assert (Ry : r "table_sizes" = PDict y) by (rewrite R by discriminate; rewrite W by reflexivity; exact Y).
      destruct (sections_iff r (ex_intro _ x Rx) (ex_intro _ y Ry)) as [[E [Q1 Q2]]|[E Q]].
      - left. split; [exact E|]. destruct Q1 as [d1 [E1 P1]]. destruct Q2 as [d2 [E2 P2]].
        split; intros d G; apply (given_val _ _ _ N) in G; [assert (d = d1) by congruence|assert (d = d2) by congruence]; subst; assumption.
      - right. split; [exact E|]. intros [Q1 Q2]. apply Q.
        assert (Em : forall ty, proper ty []) by (intros ty k v []).
        split; [exists x|exists y]; (split; [assumption|]).
        + destruct x as [|e x]; [apply Em|]. apply Q1. apply dict_given; auto. discriminate.
        + destruct y as [|e y]; [apply Em|]. apply Q2. apply dict_given; auto. discriminate. }
    assert (Acc : (forall d, given conf "lldp_beacon" (PDict d) -> proper LLDP_TYPES d /\
                     forall v, In ("send_interval", v) d -> exists n, number v n /\ 1 <= n) ->
                  (forall d, given conf "dot1x" (PDict d) -> proper DOT1X_TYPES d) ->
                  (forall d, given conf "table_sizes" (PDict d) -> proper TABLE_SIZES_TYPES d) -> acceptable valid_mac id conf).
    { intros Q1 Q2 Q3. split; auto.
      - exists (default_to (val conf "dp_id") id), dp. split; [apply dp_id_iff; auto|]. auto.
      - exists m. split; [apply MAC; exact Me|exact Mv].
      - destruct Po as [Po|Po]; apply Tr in Po; try reflexivity; destruct Po as [d [G X]];
          [exists "interfaces", d|exists "interface_ranges", d]; auto.
      - exists t, a, n. split; [apply set_num; auto|]. split; [apply set_num; auto|]. split; [apply set_num; auto|]. lia.
      - intros [X Y]. apply Fl. split; apply bool_val; auto. }
    unfold tail. destruct (dict_val conf "lldp_beacon" P eq_refl) as [d D]. rewrite W by reflexivity. rewrite D.
    destruct d as [|e d].
    - assert (NL : forall d, given conf "lldp_beacon" (PDict d) -> d = []).
      { intros d G. apply (given_val _ _ _ N) in G. congruence. }
      destruct (Sx w (fun k _ => eq_refl)) as [[E [Q1 Q2]]|[E Q]].
      + left. split.
        * apply Acc; auto. intros d G. rewrite (NL d G). split; [intros k v []|intros v []].
        * exists w. split; [exact E|]. apply Ld; auto. intros d G X. destruct (X (NL d G)).
      + right. left. split; [exact E|]. intros A. apply Q. split; [apply (ac_dot1x _ _ _ A)|apply (ac_sizes _ _ _ A)].
    - assert (G : given conf "lldp_beacon" (PDict (e :: d))) by (apply dict_given; auto; discriminate).
      assert (GU : forall d', given conf "lldp_beacon" (PDict d') -> d' = e :: d).
      { intros d' G'. apply (given_val _ _ _ N) in G'. congruence. }
      match goal with |- context [lldp_defaults ?d ?k] => destruct (lldp_cases d k (ND _ _ (proj1 G)))
        as [[Q1 [Q2 [d' [E [K1 [K2 K3]]]]]]|[[E Q]|[E Q]]] end.
      + rewrite E.
        assert (Rp : forall k, k <> "lldp_beacon" -> put "lldp_beacon" (PDict d') w k = w k).
        { intros k X. unfold put. apply String.eqb_neq in X. rewrite X. reflexivity. }
        destruct (Sx (put "lldp_beacon" (PDict d') w) Rp) as [[E' [Q3 Q4]]|[E' Q']].
        * left. split; [apply Acc; auto; intros x X; rewrite (GU x X); auto|].
          exists (put "lldp_beacon" (PDict d') w). split; [exact E'|]. apply Ld; [exact Rp|].
          intros x X _. rewrite (GU x X). exists d'. split; [reflexivity|]. split; [exact K1|].
          split; intros H; [apply K2|apply K3]; apply not_in_lookup; exact H.
        * right. left. split; [exact E'|]. intros A. apply Q'. split; [apply (ac_dot1x _ _ _ A)|apply (ac_sizes _ _ _ A)].
      + right. left. split; [exact E|]. intros A. apply Q. apply (ac_lldp _ _ _ A). exact G.
      + right. right. split; [exact E|]. split; [|exists (e :: d); auto].
        intros A. destruct (proj2 (ac_lldp _ _ _ A _ G) _ Q) as [z [X _]]. inversion X.
  Qed.
End Settings.
