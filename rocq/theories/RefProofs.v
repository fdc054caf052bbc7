(** * Lemmas about references *)
From Coq Require Import List Bool ZArith Lia.
From Verif Require Import PyBase PyBaseProofs RefModel RefSpec.
Import ListNotations.
Open Scope Z_scope.

Lemma key_eqb_spec : forall a b, key_eqb a b = true <-> a = b.
Proof. intros [m|s] [n|t]; cbn; try rewrite Z.eqb_eq; split; intros H; try discriminate; congruence. Qed.

Lemma get_in : forall {V} (k : Z) (d : list (Z * V)) v, dict_get Z.eqb k d = Some v -> In (k, v) d.
Proof.
  induction d as [|[k' v'] d IH]; cbn; intros v H; [discriminate|].
  destruct (Z.eqb_spec k k'); [injection H as <-; left; congruence|right; auto].
Qed.
Lemma in_get : forall {V} (k : Z) (d : list (Z * V)) v, NoDup (map fst d) -> In (k, v) d -> dict_get Z.eqb k d = Some v.
Proof.
  induction d as [|[k' v'] d IH]; cbn; intros v ND H; [contradiction|]. inversion_clear ND as [|? ? NI ND'].
  destruct H as [H|H]; [injection H as -> ->; rewrite Z.eqb_refl; reflexivity|].
  destruct (Z.eqb_spec k k'); [subst; destruct NI; apply (in_map fst) in H; exact H|auto].
Qed.

Lemma map_all_some : forall {A B} (f : A -> option B) l ys, map_all f l = Some ys <-> Forall2 (fun x y => f x = Some y) l ys.
Proof.
  induction l as [|x l IH]; intros ys; cbn.
  - split; [intros H; injection H as <-; constructor|inversion 1; reflexivity].
  - destruct (f x) as [y|] eqn:E.
    + destruct (map_all f l) as [zs|] eqn:M.
      * split; [intros H; injection H as <-; constructor; auto; apply IH; reflexivity|].
        inversion 1 as [|? ? ? ? E' F]; subst. apply IH in F. congruence.
      * split; [discriminate|]. inversion 1 as [|? ? ? ? E' F]; subst. apply IH in F. discriminate.
    + split; [discriminate|]. inversion 1; congruence.
Qed.
Lemma map_all_total : forall {A B} (f : A -> option B) l, (forall x, In x l -> f x <> None) -> exists ys, map_all f l = Some ys.
Proof.
  induction l as [|x l IH]; cbn; intros H; [eauto|]. destruct (f x) eqn:E; [|destruct (H x); auto].
  destruct IH as [ys ->]; eauto.
Qed.
Lemma forall2_imp : forall {A B} (P Q : A -> B -> Prop) l m, (forall x y, P x y -> Q x y) -> Forall2 P l m -> Forall2 Q l m.
Proof. induction 2; constructor; auto. Qed.

Section Ports.
  Variable ports : list rport.

  Lemma resolve_refers : forall k n, resolve_port ports k = Some n -> refers ports k n.
  Proof.
    intros [m|s] n; cbn.
    - destruct (existsb _ _) eqn:E; [|discriminate]. intros H. injection H as <-. split; auto.
      apply existsb_exists in E as [p [I E]]. apply Z.eqb_eq in E. eauto.
    - destruct (filter _ _) as [|p l] eqn:E; [discriminate|]. intros H. injection H as <-.
      assert (In p (filter (fun p => s =? rp_name p) ports)) as I by (rewrite E; left; reflexivity).
      apply filter_In in I as [I X]. apply Z.eqb_eq in X. eauto.
  Qed.
  Lemma refers_resolve : forall k n, refers ports k n -> resolve_port ports k <> None.
  Proof.
    intros [m|s] n; cbn.
    - intros [-> [p [I E]]] H. destruct (existsb _ _) eqn:X; [discriminate|].
      assert (existsb (fun p => rp_num p =? m) ports = true) by (apply existsb_exists; exists p; split; auto; apply Z.eqb_eq; auto). congruence.
    - intros [p [I [N E]]] H. destruct (filter _ _) eqn:X; [|discriminate].
      assert (In p (filter (fun p => s =? rp_name p) ports)) as J by (apply filter_In; split; auto; apply Z.eqb_eq; auto). rewrite X in J. exact J.
  Qed.
  Lemma refers_one : forall k m n, ports_differ ports -> refers ports k m -> refers ports k n -> m = n.
  Proof.
    intros [x|s] m n [_ ND]; cbn; [intros [-> _] [-> _]; reflexivity|].
    intros [p [I [E <-]]] [q [J [F <-]]]. f_equal. subst s.
    revert ND I J F. clear. induction ports as [|a l IH]; cbn; intros ND I J F; [contradiction|].
    inversion_clear ND as [|? ? NI ND']. destruct I as [->|I], J as [->|J]; auto.
    - destruct NI. rewrite <- F. apply in_map. exact J.
    - destruct NI. rewrite F. apply in_map. exact I.
  Qed.
  Lemma resolve_exact : forall k n, ports_differ ports -> refers ports k n -> resolve_port ports k = Some n.
  Proof.
    intros k n D R. destruct (resolve_port ports k) as [m|] eqn:E; [|destruct (refers_resolve k n R E)].
    f_equal. apply (refers_one k); auto. apply resolve_refers. exact E.
  Qed.

  Lemma resolve_ports_length : forall ks, (length (resolve_ports ports ks) <= length ks)%nat.
  Proof. induction ks as [|k r IH]; cbn; [lia|]. destruct (resolve_port ports k); cbn; lia. Qed.
  Lemma resolve_ports_in : forall ks n, In n (resolve_ports ports ks) <-> exists k, In k ks /\ resolve_port ports k = Some n.
  Proof.
    induction ks as [|k r IH]; cbn; intros n; [split; [contradiction|intros (k & [] & _)]|].
    destruct (resolve_port ports k) as [m|] eqn:E; cbn; rewrite ?IH.
    - split; [intros [<-|(k' & I & H)]; eauto|]. intros (k' & [<-|I] & H); [left; congruence|right; eauto].
    - split; [intros (k' & I & H); eauto|]. intros (k' & [<-|I] & H); [congruence|eauto].
  Qed.
  Lemma resolve_ports_all : forall ks, length (resolve_ports ports ks) = length ks <-> forall k, In k ks -> resolve_port ports k <> None.
  Proof.
    induction ks as [|k r IH]; cbn; [split; [intros _ ? []|reflexivity]|].
    pose proof (resolve_ports_length r). destruct (resolve_port ports k) as [n|] eqn:E; cbn.
    - split; [intros X k' [<-|I]; [congruence|apply IH; auto; lia]|]. intros X. f_equal. apply IH. auto.
    - split; [lia|]. intros X. destruct (X k (or_introl eq_refl) E).
  Qed.

  (** mirrors *)
  Definition got (d : list (Z * list Z)) (q : Z) : list Z := match dict_get Z.eqb q d with Some l => l | None => [] end.
  Lemma got_add : forall m d q x, got (add_mirror m d q) x = if x =? q then got d x ++ [m] else got d x.
  Proof.
    intros. unfold got, add_mirror. rewrite (dict_get_put Z.eqb Z.eqb_eq). destruct (Z.eqb_spec x q); [subst|reflexivity].
    destruct (dict_get Z.eqb q d); reflexivity.
  Qed.
  Lemma got_adds : forall m qs d x n, In n (got (fold_left (add_mirror m) qs d) x) <-> In n (got d x) \/ (n = m /\ In x qs).
  Proof.
    intros m. induction qs as [|q qs IH]; intros d x n; cbn [fold_left In]; [intuition|].
    rewrite IH, got_add. destruct (Z.eqb_spec x q); [subst; rewrite in_app_iff; cbn; intuition|intuition congruence].
  Qed.
  Lemma adds_nodup : forall m qs d, NoDup (map fst d) -> NoDup (map fst (fold_left (add_mirror m) qs d)).
  Proof. intros m. induction qs as [|q qs IH]; intros d H; cbn [fold_left]; auto. apply IH. apply (dict_put_nodup Z.eqb Z.eqb_eq). exact H. Qed.

  Lemma mirror_from_some : forall todo d d', mirror_from ports todo d = Some d' -> NoDup (map fst d) -> NoDup (map fst d') /\
    (forall p ks k, In p todo -> rp_mirror p = Some ks -> In k ks -> resolve_port ports k <> None) /\
    forall q m, In m (got d' q) <-> In m (got d q) \/ exists p ks k, In p todo /\ rp_num p = m /\ rp_mirror p = Some ks /\ In k ks /\ resolve_port ports k = Some q.
  Proof.
    induction todo as [|p r IH]; intros d d' H ND; cbn [mirror_from] in H.
    - injection H as <-. split; [exact ND|]. split; [intros ? ? ? []|]. intros q m. split; [auto|]. intros [X|(? & ? & ? & [] & _)]. exact X.
    - destruct (rp_mirror p) as [ks|] eqn:M.
      + destruct (Nat.eqb_spec (length (resolve_ports ports ks)) (length ks)) as [L|L]; [|discriminate].
        destruct (IH _ _ H (adds_nodup _ _ _ ND)) as (N & A & B). split; [exact N|]. split.
        * intros p' ks' k [<-|I] M' K; [|eauto]. rewrite M in M'. injection M' as <-. apply (proj1 (resolve_ports_all ks) L). exact K.
        * intros q m. rewrite B, got_adds. split.
          -- intros [[X|[-> X]]|(p' & ks' & k & I & X)]; auto.
             ++ apply resolve_ports_in in X as (k & K & R). right. exists p, ks, k. cbn. auto.
             ++ right. exists p', ks', k. cbn. tauto.
          -- intros [X|(p' & ks' & k & [<-|I] & N' & M' & K & R)]; auto.
             ++ left. right. rewrite M in M'. injection M' as <-. split; auto. apply resolve_ports_in. eauto.
             ++ right. exists p', ks', k. auto.
      + destruct (IH _ _ H ND) as (N & A & B). split; [exact N|]. split.
        * intros p' ks' k [<-|I] M' K; [congruence|eauto].
        * intros q m. rewrite B. split; (intros [X|(p' & ks' & k & I & N' & M' & K & R)]; [auto|right; exists p', ks', k]); cbn; auto.
          destruct I as [<-|I]; [congruence|auto].
  Qed.
  Lemma mirror_from_total : forall todo d, (forall p ks k, In p todo -> rp_mirror p = Some ks -> In k ks -> resolve_port ports k <> None) -> mirror_from ports todo d <> None.
  Proof.
    induction todo as [|p r IH]; intros d H; cbn [mirror_from]; [discriminate|]. destruct (rp_mirror p) as [ks|] eqn:M.
    - assert (length (resolve_ports ports ks) = length ks) as L by (apply resolve_ports_all; intros k K; apply (H p ks k); cbn; auto).
      rewrite L, Nat.eqb_refl. apply IH. intros p' ks' k I. apply H. right. exact I.
    - apply IH. intros p' ks' k I. apply H. right. exact I.
  Qed.
End Ports.

(** actions *)
Section Acts.
  Variable dps : list (Z * list rport).
  Variable ports : list rport.
  Hypothesis DN : NoDup (map fst dps).

  Lemma all_refers : forall ks ns, map_all (resolve_port ports) ks = Some ns -> Forall2 (refers ports) ks ns.
  Proof. intros ks ns H. apply map_all_some in H. eapply forall2_imp; [|exact H]. intros. apply resolve_refers. assumption. Qed.
  Lemma refers_all : forall ks ns, Forall2 (refers ports) ks ns -> exists ms, map_all (resolve_port ports) ks = Some ms.
  Proof.
    intros ks ns H. apply map_all_total. intros k I. assert (exists n, refers ports k n) as (n & R).
    { induction H; [destruct I|]. destruct I as [<-|I]; eauto. }
    apply (refers_resolve ports k n R).
  Qed.
  Lemma truthy_false : forall k, truthy k = false <-> k = KInt 0 \/ k = KStr 0.
  Proof. intros [n|s]; cbn; rewrite negb_false_iff, Z.eqb_eq; intuition congruence. Qed.

  Lemma act_sound : forall v a r, resolve_act dps ports v a = Some r -> act_means dps ports a r /\ act_ok dps ports v a.
  Proof.
    intros v a r H.
    assert (M : act_means dps ports a r /\ match a with OTunnel _ _ _ bi rv => v = false /\ ~ (bi = true /\ rv = true) | _ => True end).
    { destruct a as [k|ks|ks|d p id bi rv|x|xs|x]; cbn in H.
      - destruct (resolve_port ports k) eqn:E; [|discriminate]. injection H as <-. split; auto. constructor. apply resolve_refers. exact E.
      - destruct (map_all _ ks) eqn:E; [|discriminate]. injection H as <-. split; auto. constructor. apply all_refers. exact E.
      - destruct (map_all _ ks) eqn:E; [|discriminate]. injection H as <-. split; auto. constructor. apply all_refers. exact E.
      - destruct d as [d|]; [|discriminate]. destruct (rv && bi) eqn:RB; [discriminate|].
        unfold resolve_tunnel in H. destruct v; [discriminate|]. destruct (dict_get Z.eqb d dps) as [there|] eqn:D; [|discriminate]. apply get_in in D.
        assert (X : ~ (bi = true /\ rv = true)) by (intros [-> ->]; discriminate).
        split; [|auto]. destruct p as [k|].
        + destruct (truthy k) eqn:T.
          * destruct (resolve_port there k) as [n|] eqn:E; [|discriminate]. injection H as <-. apply (am_tunnel_port dps ports d there); auto.
            -- intros ->. discriminate.
            -- intros ->. discriminate.
            -- apply resolve_refers. exact E.
          * injection H as <-. apply (am_tunnel_dp dps ports d there); auto. intros k' K. injection K as <-. apply truthy_false. exact T.
        + injection H as <-. apply (am_tunnel_dp dps ports d there); auto. discriminate.
      - injection H as <-. split; auto. constructor.
      - injection H as <-. split; auto. constructor.
      - injection H as <-. split; auto. constructor. }
    destruct M as [M X]. split; [exact M|]. split; [eauto|exact X].
  Qed.
  Lemma act_complete : forall v a, act_ok dps ports v a -> resolve_act dps ports v a <> None.
  Proof.
    intros v a [[r M] X]. destruct M as [k n R|ks ns R|ks ns R|d there p id bi rv I Z0|d there k n id bi rv I N1 N2 R|x|xs|x]; cbn.
    - destruct (resolve_port ports k) eqn:E; [discriminate|]. destruct (refers_resolve ports k n R E).
    - destruct (refers_all ks ns R) as [ms ->]. discriminate.
    - destruct (refers_all ks ns R) as [ms ->]. discriminate.
    - destruct X as [-> X]. replace (rv && bi) with false by (destruct rv, bi; auto; destruct X; auto).
      unfold resolve_tunnel. rewrite (in_get d dps there DN I). destruct p as [k|]; [|discriminate].
      rewrite (proj2 (truthy_false k) (Z0 k eq_refl)). discriminate.
    - destruct X as [-> X]. replace (rv && bi) with false by (destruct rv, bi; auto; destruct X; auto).
      unfold resolve_tunnel. rewrite (in_get d dps there DN I). destruct (truthy k) eqn:T; [|apply truthy_false in T; tauto].
      destruct (resolve_port there k) eqn:E; [discriminate|]. destruct (refers_resolve there k n R E).
    - discriminate.
    - discriminate.
    - discriminate.
  Qed.

  Lemma has_kind : forall (f : oact -> bool) l, existsb f l = true <-> exists a, In a l /\ f a = true.
  Proof. intros. apply existsb_exists. Qed.
  Lemma both_vid : forall l, existsb is_vid l && existsb is_vids l = true <-> exists v vs, In (OVid v) l /\ In (OVids vs) l.
  Proof.
    intros l. rewrite andb_true_iff, !has_kind. split.
    - intros [(a & I & A) (b & J & B)]. destruct a; try discriminate. destruct b; try discriminate. eauto.
    - intros (v & vs & I & J). split; [exists (OVid v)|exists (OVids vs)]; auto.
  Qed.
  Lemma both_port : forall l, existsb is_port l && existsb is_ports l = true <-> exists k ks, In (OPort k) l /\ In (OPorts ks) l.
  Proof.
    intros l. rewrite andb_true_iff, !has_kind. split.
    - intros [(a & I & A) (b & J & B)]. destruct a; try discriminate. destruct b; try discriminate. eauto.
    - intros (v & vs & I & J). split; [exists (OPort v)|exists (OPorts vs)]; auto.
  Qed.

  Lemma rule_sound : forall v r o, resolve_rule dps ports v r = Some o -> rule_means dps ports r o /\ rule_ok dps ports v r.
  Proof.
    intros v [mt mi me out] o H. unfold resolve_rule in H. cbn [ru_mirror ru_output ru_match ru_meter] in H.
    destruct (match mi with None => _ | Some k => _ end) as [m|] eqn:M; [|discriminate].
    destruct (match out with None => _ | Some x => _ end) as [o'|] eqn:O; [|discriminate]. injection H as <-.
    assert (opt_means (refers ports) mi m /\ forall k, mi = Some k -> exists n, refers ports k n) as [MM MK].
    { destruct mi as [k|]; [|injection M as <-; split; [exact I|discriminate]]. destruct (resolve_port ports k) as [n|] eqn:E; [|discriminate]. injection M as <-.
      apply resolve_refers in E. split; [exact E|]. intros k' K. injection K as <-. eauto. }
    assert (opt_means (fun x y => fst x = fst y /\ Forall2 (act_means dps ports) (snd x) (snd y)) out o' /\
      forall ordered l, out = Some (ordered, l) -> (forall a, In a l -> act_ok dps ports v a) /\
       (ordered = false -> ~ (exists v vs, In (OVid v) l /\ In (OVids vs) l) /\ ~ (exists k ks, In (OPort k) l /\ In (OPorts ks) l))) as [OM OK].
    { destruct out as [[od l]|]; [|injection O as <-; split; [exact I|discriminate]].
      unfold resolve_output in O. destruct (negb od && _) eqn:B; [discriminate|].
      destruct (map_all _ l) as [rs|] eqn:A; [|discriminate]. cbn in O. injection O as <-. apply map_all_some in A.
      split.
      - split; [reflexivity|]. cbn [snd]. eapply forall2_imp; [|exact A]. intros a r' E. apply (act_sound v a r' E).
      - intros od' l' E. injection E as <- <-. split.
        + intros a I. clear B. induction A as [|x y xs ys E A IH]; [destruct I|]. destruct I as [<-|I]; auto. apply (act_sound v x y E).
        + intros ->. cbn in B. apply orb_false_iff in B as [B1 B2]. split; intros X.
          * apply (both_vid l) in X. congruence.
          * apply (both_port l) in X. congruence. }
    split; [split; [reflexivity|]; split; [reflexivity|]; split; assumption|]. split; assumption.
  Qed.
  Lemma rule_complete : forall v r, rule_ok dps ports v r -> resolve_rule dps ports v r <> None.
  Proof.
    intros v [mt mi me out] [MK OK]. cbn in MK, OK. unfold resolve_rule. cbn [ru_mirror ru_output ru_match ru_meter].
    assert (exists m, (match mi with None => Some None | Some k => match resolve_port ports k with Some n => Some (Some n) | None => None end end) = Some m) as [m ->].
    { destruct mi as [k|]; [|eauto]. destruct (MK k eq_refl) as [n R]. destruct (resolve_port ports k) eqn:E; [eauto|]. destruct (refers_resolve ports k n R E). }
    assert (exists o, (match out with None => Some None | Some o => match resolve_output dps ports v o with Some x => Some (Some x) | None => None end end) = Some o) as [o ->]; [|discriminate].
    destruct out as [[od l]|]; [|eauto]. destruct (OK od l eq_refl) as [A B]. unfold resolve_output.
    assert (negb od && (existsb is_vid l && existsb is_vids l || existsb is_port l && existsb is_ports l) = false) as ->.
    { destruct od; [reflexivity|]. destruct (B eq_refl) as [B1 B2]. cbn. apply orb_false_iff. split; apply not_true_iff_false; intros X.
      - apply B1. apply both_vid. exact X.
      - apply B2. apply both_port. exact X. }
    destruct (map_all_total (resolve_act dps ports v) l) as [ys ->]; [intros a I; apply act_complete; auto|]. cbn. eauto.
  Qed.
  Lemma rule_ok_weaken : forall v r, rule_ok dps ports true r -> rule_ok dps ports v r.
  Proof.
    intros v r [A B]. split; [exact A|]. intros od l E. destruct (B od l E) as [C D]. split; [|exact D].
    intros a I. destruct (C a I) as [X Y]. split; [exact X|]. destruct a; auto. destruct Y. discriminate.
  Qed.
End Acts.

(** ACLs *)
Section Dp.
  Variable dps : list (Z * list rport).
  Variable c : dpconf.
  Hypothesis DN : NoDup (map fst dps).
  Hypothesis AN : NoDup (map fst (dc_acls c)).

  Lemma tunnel_acl : forall rules, is_tunnel_acl rules = true <->
    exists r o l dp p id bi rv, In r rules /\ ru_output r = Some (o, l) /\ In (OTunnel dp p id bi rv) l.
  Proof.
    intros rules. unfold is_tunnel_acl. rewrite existsb_exists. split.
    - intros (r & I & H). destruct (ru_output r) as [[o l]|] eqn:E; [|discriminate]. cbn in H. apply existsb_exists in H as (a & J & A).
      destruct a; try discriminate. exists r, o, l, dp, port, id, bi_directional, rev. auto.
    - intros (r & o & l & dp & p & id & bi & rv & I & E & J). exists r. rewrite E. split; [exact I|]. cbn. apply existsb_exists. exists (OTunnel dp p id bi rv). auto.
  Qed.
  Lemma uses_used : forall v name, In (v, name) (uses c) <-> used c v name.
  Proof.
    intros v name. unfold uses, used. rewrite !in_app_iff.
    assert (P : forall b l, In (v, name) (map (pair b) l) <-> v = b /\ In name l).
    { intros b l. rewrite in_map_iff. split; [intros (x & E & I); injection E as -> ->; auto|intros [-> I]; eauto]. }
    rewrite !P. assert (T : In (v, name) (map (fun x : Z * list (rule oact key) => (false, fst x)) (filter (fun x => is_tunnel_acl (snd x)) (dc_acls c))) <->
      v = false /\ exists rules, In (name, rules) (dc_acls c) /\ is_tunnel_acl rules = true).
    { rewrite in_map_iff. split.
      - intros ([n rs] & E & I). cbn in E. injection E as <- ->. apply filter_In in I as [I T]. eauto.
      - intros (-> & rs & I & T). exists (name, rs). split; [reflexivity|]. apply filter_In. auto. }
    rewrite T. clear P T. destruct v.
    - intuition congruence.
    - split.
      + intros [[X _]|[[_ X]|[[_ X]|(_ & rs & I & X)]]]; [discriminate|auto|auto|]. right. right.
        apply tunnel_acl in X as (r & o & l & dp & p & id & bi & rv & X). exists rs, r, o, l, dp, p, id, bi, rv. tauto.
      + intros [X|[X|(rs & r & o & l & dp & p & id & bi & rv & I & X)]]; auto. right. right. right. split; auto. exists rs. split; auto.
        apply tunnel_acl. exists r, o, l, dp, p, id, bi, rv. tauto.
  Qed.

  Definition from (v : bool) (n : Z) (out : list (rule ract Z)) : Prop :=
    exists rules, In (n, rules) (dc_acls c) /\ map_all (resolve_rule dps (dc_ports c) v) rules = Some out.
  Definition kept (b : bool) (st : resolved) : Prop :=
    NoDup (map fst (rs_acls st)) /\
    forall n out, dict_get Z.eqb n (rs_acls st) = Some out -> exists v, from v n out /\ (b = true -> v = true) /\ forall m, In m (get_meters out) -> In m (dc_meters c).

  Lemma meters_ok : forall out, forallb (fun m => mem Z.eqb m (dc_meters c)) (get_meters (A:=ract) (K:=Z) out) = true <-> forall m, In m (get_meters out) -> In m (dc_meters c).
  Proof.
    intros out. rewrite forallb_forall. split; intros H m I; specialize (H m I).
    - apply (mem_spec _ _ Z.eqb_eq) in H. exact H.
    - apply (mem_spec _ _ Z.eqb_eq). exact H.
  Qed.

  (** one use *)
  Lemma acl_step : forall b st u st', kept b st -> fst u = b -> resolve_acl dps c st u = Some st' ->
    kept b st' /\ exists out, dict_get Z.eqb (snd u) (rs_acls st') = Some out /\
      (forall n, n <> snd u -> dict_get Z.eqb n (rs_acls st') = dict_get Z.eqb n (rs_acls st)) /\
      (forall o, dict_get Z.eqb (snd u) (rs_acls st) = Some o -> o = out) /\
      rs_meters st' = rs_meters st ++ get_meters out /\ rs_output_only st' = rs_output_only st ++ get_mirrors out.
  Proof.
    intros b st [w n] st' [ND K] W H. cbn [fst snd] in *. subst w. unfold resolve_acl in H. cbn [fst snd] in H.
    destruct (dict_get Z.eqb n (dc_acls c)) as [rules|] eqn:A; [|discriminate]. apply get_in in A.
    destruct (match dict_get Z.eqb n (rs_acls st) with Some x => Some x | None => _ end) as [out|] eqn:O; [|discriminate].
    destruct (forallb _ _) eqn:M; [|discriminate]. pose proof (proj1 (meters_ok out) M) as M1; clear M; rename M1 into M. injection H as <-. unfold kept. cbn [rs_acls rs_meters rs_output_only].
    assert (F : exists v, from v n out /\ (b = true -> v = true)).
    { destruct (dict_get Z.eqb n (rs_acls st)) as [x|] eqn:G.
      - injection O as ->. destruct (K _ _ G) as (v & F & V & _). eauto.
      - exists b. split; [exists rules; auto|auto]. }
    split.
    - split; [apply (dict_put_nodup Z.eqb Z.eqb_eq); exact ND|]. intros n' out' G. rewrite (dict_get_put Z.eqb Z.eqb_eq) in G.
      destruct (Z.eqb_spec n' n); [|auto]. subst. injection G as <-. destruct F as (v & F & V). eauto.
    - exists out. rewrite (dict_get_put Z.eqb Z.eqb_eq), Z.eqb_refl. repeat split; auto.
      + intros n' N. rewrite (dict_get_put Z.eqb Z.eqb_eq). destruct (Z.eqb_spec n' n); [contradiction|reflexivity].
      + intros o G. rewrite G in O. congruence.
  Qed.

  Lemma uses_run : forall b us st st', kept b st -> (forall u, In u us -> fst u = b) -> resolve_uses dps c st us = Some st' ->
    kept b st' /\ (forall n out, dict_get Z.eqb n (rs_acls st) = Some out -> dict_get Z.eqb n (rs_acls st') = Some out) /\
    (forall n, dict_get Z.eqb n (rs_acls st') <> None <-> dict_get Z.eqb n (rs_acls st) <> None \/ In (b, n) us) /\
    (forall m, In m (rs_meters st') <-> In m (rs_meters st) \/ exists n out, In (b, n) us /\ dict_get Z.eqb n (rs_acls st') = Some out /\ In m (get_meters out)) /\
    (forall m, In m (rs_output_only st') <-> In m (rs_output_only st) \/ exists n out, In (b, n) us /\ dict_get Z.eqb n (rs_acls st') = Some out /\ In m (get_mirrors out)).
  Proof.
    intros b. induction us as [|[w n] us IH]; intros st st' K W H; cbn [resolve_uses] in H.
    - injection H as <-. split; [exact K|]. split; [auto|]. split; [intros; cbn; tauto|]. split; intros m; (split; [auto|]); intros [X|(? & ? & [] & _)]; exact X.
    - destruct (resolve_acl dps c st (w, n)) as [st1|] eqn:E; [|discriminate].
      assert (w = b) as -> by (apply (W (w, n)); left; reflexivity).
      destruct (acl_step b st (b, n) st1 K eq_refl E) as (K1 & out & G & S & U & M & O). cbn [fst snd] in *.
      destruct (IH st1 st' K1 (fun u I => W u (or_intror I)) H) as (K2 & P & D & M2 & O2).
      split; [exact K2|]. split; [|split; [|split]].
      + intros n' out' G'. apply P. destruct (Z.eq_dec n' n) as [->|N]; [rewrite G; f_equal; symmetry; auto|rewrite S; auto].
      + intros n'. rewrite D. cbn [In]. destruct (Z.eq_dec n' n) as [->|N].
        * rewrite G. split; [auto|]. intros _. left. discriminate.
        * rewrite S by exact N. split; [tauto|]. intros [X|[X|X]]; auto. congruence.
      + intros m. rewrite M2, M, in_app_iff. cbn [In]. split.
        * intros [[X|X]|(n' & o & I & X)]; [auto|right; exists n, out; auto|right; exists n', o; auto].
        * intros [X|(n' & o & [X|I] & G' & J)]; [auto| |right; exists n', o; auto]. injection X as <-. rewrite (P _ _ G) in G'. injection G' as <-. auto.
      + intros m. rewrite O2, O, in_app_iff. cbn [In]. split.
        * intros [[X|X]|(n' & o & I & X)]; [auto|right; exists n, out; auto|right; exists n', o; auto].
        * intros [X|(n' & o & [X|I] & G' & J)]; [auto| |right; exists n', o; auto]. injection X as <-. rewrite (P _ _ G) in G'. injection G' as <-. auto.
  Qed.

  Lemma uses_app : forall a b st, resolve_uses dps c st (a ++ b) = match resolve_uses dps c st a with Some st' => resolve_uses dps c st' b | None => None end.
  Proof. induction a as [|u a IH]; intros; cbn; auto. destruct (resolve_acl dps c st u); auto. Qed.
  Definition plain : list (bool * Z) := map (pair false) (dc_port_acls c) ++ map (pair false) (dc_dp_acls c)
    ++ map (fun x => (false, fst x)) (filter (fun x => is_tunnel_acl (snd x)) (dc_acls c)).
  Lemma uses_split : uses c = map (pair true) (dc_vlan_acls c) ++ plain.
  Proof. reflexivity. Qed.
  Lemma plain_false : forall u, In u plain -> fst u = false.
  Proof. intros u. unfold plain. rewrite !in_app_iff, !in_map_iff. intros [(x & <- & _)|[(x & <- & _)|(x & <- & _)]]; reflexivity. Qed.
  Lemma vlan_true : forall u, In u (map (pair true) (dc_vlan_acls c)) -> fst u = true.
  Proof. intros u. rewrite in_map_iff. intros (x & <- & _). reflexivity. Qed.
  Lemma in_vlan_part : forall n, In (true, n) (map (pair true) (dc_vlan_acls c)) <-> used c true n.
  Proof. intros n. cbn. rewrite in_map_iff. split; [intros (x & E & I); injection E as ->; exact I|eauto]. Qed.
  Lemma in_plain_part : forall n, In (false, n) plain <-> used c false n.
  Proof.
    intros n. rewrite <- uses_used, uses_split, in_app_iff. split; auto. intros [I|I]; auto. apply in_map_iff in I as (x & E & _). discriminate.
  Qed.

  Lemma run_all : forall st', resolve_uses dps c (mkResolved [] [] []) (uses c) = Some st' ->
    kept false st' /\
    (forall n, dict_get Z.eqb n (rs_acls st') <> None <-> exists v, used c v n) /\
    (forall n, used c true n -> exists out, dict_get Z.eqb n (rs_acls st') = Some out /\ from true n out) /\
    (forall m, In m (rs_meters st') <-> exists n out, (exists v, used c v n) /\ dict_get Z.eqb n (rs_acls st') = Some out /\ In m (get_meters out)) /\
    (forall m, In m (rs_output_only st') <-> exists n out, (exists v, used c v n) /\ dict_get Z.eqb n (rs_acls st') = Some out /\ In m (get_mirrors out)).
  Proof.
    intros st' H. rewrite uses_split, uses_app in H. destruct (resolve_uses dps c _ (map (pair true) _)) as [st1|] eqn:E; [|discriminate].
    assert (K0 : kept true (mkResolved [] [] [])) by (split; [constructor|discriminate]).
    destruct (uses_run true _ _ _ K0 vlan_true E) as (K1 & P1 & D1 & M1 & O1).
    assert (K1' : kept false st1).
    { destruct K1 as [N K]. split; [exact N|]. intros n out G. destruct (K n out G) as (v & F & _ & M). exists v. split; [exact F|]. split; [discriminate|exact M]. }
    destruct (uses_run false _ _ _ K1' plain_false H) as (K2 & P2 & D2 & M2 & O2).
    assert (U : forall n, (exists v, used c v n) <-> used c true n \/ used c false n).
    { intros n. split; [intros [[] X]; auto|intros [X|X]; eauto]. }
    split; [exact K2|]. split; [|split; [|split]].
    - intros n. rewrite D2, D1, in_vlan_part, in_plain_part, U. cbn. split; [intros [[X|X]|X]; auto; congruence|tauto].
    - intros n I. apply in_vlan_part in I. assert (G : dict_get Z.eqb n (rs_acls st1) <> None) by (apply D1; auto).
      destruct (dict_get Z.eqb n (rs_acls st1)) as [out|] eqn:G1; [|congruence]. exists out. split; [auto|].
      destruct (proj2 K1 _ _ G1) as (v & F & V & _). rewrite (V eq_refl) in F. exact F.
    - intros m. rewrite M2, M1. cbn [rs_meters In]. split.
      + intros [[[]|(n & o & I & G & J)]|(n & o & I & G & J)].
        * exists n, o. apply in_vlan_part in I. eauto.
        * exists n, o. apply in_plain_part in I. eauto.
      + intros (n & o & X & G & J). apply U in X as [X|X].
        * left. right. apply in_vlan_part in X. assert (G0 : dict_get Z.eqb n (rs_acls st1) <> None) by (apply D1; auto).
          destruct (dict_get Z.eqb n (rs_acls st1)) as [o'|] eqn:G1; [|congruence]. exists n, o'. rewrite (P2 _ _ G1) in G. injection G as <-. auto.
        * right. apply in_plain_part in X. eauto.
    - intros m. rewrite O2, O1. cbn [rs_output_only In]. split.
      + intros [[[]|(n & o & I & G & J)]|(n & o & I & G & J)].
        * exists n, o. apply in_vlan_part in I. eauto.
        * exists n, o. apply in_plain_part in I. eauto.
      + intros (n & o & X & G & J). apply U in X as [X|X].
        * left. right. apply in_vlan_part in X. assert (G0 : dict_get Z.eqb n (rs_acls st1) <> None) by (apply D1; auto).
          destruct (dict_get Z.eqb n (rs_acls st1)) as [o'|] eqn:G1; [|congruence]. exists n, o'. rewrite (P2 _ _ G1) in G. injection G as <-. auto.
        * right. apply in_plain_part in X. eauto.
  Qed.

  Lemma rules_sound : forall v rules out, map_all (resolve_rule dps (dc_ports c) v) rules = Some out ->
    Forall2 (rule_means dps (dc_ports c)) rules out /\ forall r, In r rules -> rule_ok dps (dc_ports c) v r.
  Proof.
    intros v rules out H. apply map_all_some in H. split.
    - eapply forall2_imp; [|exact H]. intros r o E. apply (rule_sound dps (dc_ports c) v r o E).
    - intros r I. induction H as [|x y xs ys E H IH]; [destruct I|]. destruct I as [<-|I]; auto. apply (rule_sound dps (dc_ports c) v x y E).
  Qed.
  Lemma meters_same : forall rules out, Forall2 (rule_means dps (dc_ports c)) rules out -> get_meters out = get_meters rules.
  Proof. induction 1 as [|r o rs os (M & T & _) H IH]; [reflexivity|]. unfold get_meters in *. cbn [flat_map]. rewrite IH, T. reflexivity. Qed.
  Lemma in_meters : forall {A K} (rs : list (rule A K)) m, In m (get_meters rs) <-> exists r, In r rs /\ ru_meter r = Some m.
  Proof.
    intros A K rs m. unfold get_meters. rewrite in_flat_map. split; intros (r & I & X); exists r; (split; [exact I|]).
    - destruct (ru_meter r); [destruct X as [->|[]]; reflexivity|destruct X].
    - rewrite X. left. reflexivity.
  Qed.
  Lemma in_mirrors : forall {A} (rs : list (rule A Z)) m, In m (get_mirrors rs) <-> exists r, In r rs /\ ru_mirror r = Some m.
  Proof.
    intros A rs m. unfold get_mirrors. rewrite in_flat_map. split; intros (r & I & X); exists r; (split; [exact I|]).
    - destruct (ru_mirror r); [destruct X as [->|[]]; reflexivity|destruct X].
    - rewrite X. left. reflexivity.
  Qed.
  Lemma one_acl : forall n a b, In (n, a) (dc_acls c) -> In (n, b) (dc_acls c) -> a = b.
  Proof. intros n a b I J. apply (in_get n (dc_acls c) a AN) in I. apply (in_get n (dc_acls c) b AN) in J. congruence. Qed.

  Lemma complete : forall b us st, kept b st -> (forall u, In u us -> fst u = b) ->
    (forall v n, In (v, n) us -> exists rules, In (n, rules) (dc_acls c) /\ forall r, In r rules -> rule_ok dps (dc_ports c) v r /\ forall m, ru_meter r = Some m -> In m (dc_meters c)) ->
    resolve_uses dps c st us <> None.
  Proof.
    intros b. induction us as [|[w n] us IH]; intros st K W H; cbn [resolve_uses]; [discriminate|].
    assert (w = b) as -> by (apply (W (w, n)); left; reflexivity).
    assert (exists st', resolve_acl dps c st (b, n) = Some st') as [st' E].
    { destruct (H b n (or_introl eq_refl)) as (rules & I & R). unfold resolve_acl. cbn [fst snd]. rewrite (in_get n (dc_acls c) rules AN I).
      assert (exists out, (match dict_get Z.eqb n (rs_acls st) with Some x => Some x | None => map_all (resolve_rule dps (dc_ports c) b) rules end) = Some out /\ get_meters out = get_meters rules) as (out & -> & M).
      { destruct (dict_get Z.eqb n (rs_acls st)) as [x|] eqn:G.
        - destruct (proj2 K _ _ G) as (v & (rules' & I' & F) & _). rewrite (one_acl _ _ _ I' I) in F. exists x. split; [reflexivity|]. apply meters_same. apply (rules_sound v). exact F.
        - destruct (map_all_total (resolve_rule dps (dc_ports c) b) rules) as [out F]; [intros r J; apply (rule_complete dps (dc_ports c) DN); apply R; exact J|].
          exists out. split; [exact F|]. apply meters_same. apply (rules_sound b). exact F. }
      rewrite (proj2 (meters_ok out)); [eauto|]. intros m J. rewrite M in J. apply in_meters in J as (r & J & X). apply (proj2 (R r J) m X). }
    rewrite E. apply IH.
    - apply (acl_step b st (b, n) st' K eq_refl E).
    - intros u I. apply W. right. exact I.
    - intros v n' I. apply H. right. exact I.
  Qed.
End Dp.

(** VLANs *)
Section Vlans.
  Variable str : Z -> Z.
  Variable conf : vlans.
  Hypothesis CN : NoDup (map fst conf).

  (** what is there while parsing: the VLANs of the file and VLANs made for their VID *)
  Definition grown (vs : vlans) : Prop :=
    exists extra, vs = conf ++ extra /\ forall k v name, In (k, (v, name)) extra -> k = KInt v /\ 1 <= v <= 4095.

  Lemma kget_in : forall k (d : vlans) x, dict_get key_eqb k d = Some x -> In (k, x) d.
  Proof. induction d as [|[k' v'] r IH]; cbn; intros x H; [discriminate|]. destruct (key_eqb k k') eqn:E; [apply key_eqb_spec in E; subst; left; congruence|right; auto]. Qed.
  Lemma kget_none : forall k (d : vlans) x, dict_get key_eqb k d = None -> ~ In (k, x) d.
  Proof.
    induction d as [|[k' v'] r IH]; cbn; intros x H; [auto|]. destruct (key_eqb k k') eqn:E; [discriminate|]. intros [X|X]; [|apply (IH x H X)].
    injection X as -> _. rewrite (proj2 (key_eqb_spec k k) eq_refl) in E. discriminate.
  Qed.
  Lemma kput_new : forall k x (d : vlans), dict_get key_eqb k d = None -> dict_put key_eqb k x d = d ++ [(k, x)].
  Proof. induction d as [|[k' v'] r IH]; cbn; intros H; auto. destruct (key_eqb k k'); [discriminate|]. rewrite IH; auto. Qed.
  Lemma valid_spec : forall v, vid_valid v = true <-> 1 <= v <= 4095.
  Proof. intros v. unfold vid_valid. rewrite andb_true_iff, !Z.leb_le. tauto. Qed.

  Lemma kget_app : forall k (a b : vlans), dict_get key_eqb k (a ++ b) = match dict_get key_eqb k a with Some x => Some x | None => dict_get key_eqb k b end.
  Proof. induction a as [|[k' x'] r IH]; cbn; intros b; auto. destruct (key_eqb k k'); auto. Qed.
  Lemma kin_get : forall k (d : vlans) x, NoDup (map fst d) -> In (k, x) d -> dict_get key_eqb k d = Some x.
  Proof.
    induction d as [|[k' x'] r IH]; cbn; intros x N I; [destruct I|]. inversion_clear N as [|? ? NI N'].
    destruct (key_eqb k k') eqn:E.
    - apply key_eqb_spec in E. subst. destruct I as [I|I]; [congruence|]. apply (in_map fst) in I. destruct (NI I).
    - destruct I as [I|I]; [|auto]. injection I as -> _. rewrite (proj2 (key_eqb_spec k k) eq_refl) in E. discriminate.
  Qed.
  Lemma vlan_one : forall k v w, port_vlan conf k v -> port_vlan conf k w -> v = w.
  Proof.
    intros k v w [(n & I)|(N & -> & _)] [(n' & I')|(N' & E & _)].
    - apply (kin_get _ _ _ CN) in I. apply (kin_get _ _ _ CN) in I'. congruence.
    - destruct (N' _ _ I).
    - destruct (N _ _ I').
    - congruence.
  Qed.

  Lemma key_some : forall vs k v vs', grown vs -> get_vlan_by_key str vs k = Some (v, vs') -> port_vlan conf k v /\ grown vs'.
  Proof.
    intros vs k v vs' (extra & -> & X) H. unfold get_vlan_by_key in H. destruct (dict_get key_eqb k (conf ++ extra)) as [[v0 name]|] eqn:G.
    - injection H as -> <-. split; [|exists extra; auto]. rewrite kget_app in G. destruct (dict_get key_eqb k conf) as [[v1 n1]|] eqn:C.
      + injection G as -> ->. apply kget_in in C. left. eauto.
      + apply kget_in in G. destruct (X _ _ _ G) as [-> V]. right. split; [intros v' n' I; apply (kget_none _ _ (v', n') C I)|]. auto.
    - destruct k as [n|]; [|discriminate]. pose proof G as G'. rewrite kget_app in G'. destruct (dict_get key_eqb (KInt n) conf) eqn:C; [discriminate|].
      assert (C' : forall v' name, ~ In (KInt n, (v', name)) conf) by (intros v' n' I; apply (kget_none _ _ (v', n') C I)).
      destruct (find _ (conf ++ extra)) as [[k1 [v1 n1]]|] eqn:F.
      + injection H as -> <-. apply find_some in F as [I E]. cbn in E. apply Z.eqb_eq in E. subst v. split; [|exists extra; auto].
        right. split; [exact C'|]. split; [reflexivity|]. apply in_app_iff in I as [I|I]; [left; eauto|right; apply (X _ _ _ I)].
      + destruct (vid_valid n) eqn:V; [|discriminate]. apply valid_spec in V. injection H as <- <-. split; [right; auto|].
        rewrite (kput_new _ _ _ G). exists (extra ++ [(KInt n, (n, str n))]). split; [rewrite app_assoc; reflexivity|].
        intros k' v' name' I. apply in_app_iff in I as [I|[I|[]]]; [apply (X _ _ _ I)|]. injection I as <- <- _. auto.
  Qed.
  Lemma key_total : forall vs k v, grown vs -> port_vlan conf k v -> get_vlan_by_key str vs k <> None.
  Proof.
    intros vs k v (extra & -> & X) H. unfold get_vlan_by_key. destruct (dict_get key_eqb k (conf ++ extra)) as [[v0 name]|] eqn:G; [discriminate|].
    rewrite kget_app in G. destruct (dict_get key_eqb k conf) eqn:C; [discriminate|].
    destruct H as [(n & I)|(N & -> & H)]; [destruct (kget_none _ _ _ C I)|].
    destruct (find _ (conf ++ extra)) as [[k1 [v1 n1]]|] eqn:F; [discriminate|]. destruct H as [(k' & name & I)|V].
    - apply (find_none _ _) with (x := (k', (v, name))) in F; [|apply in_app_iff; auto]. cbn in F. rewrite Z.eqb_refl in F. discriminate.
    - apply valid_spec in V. rewrite V. discriminate.
  Qed.
  Lemma port_some : forall ks vs l vs', grown vs -> parse_port_vlans str vs ks = Some (l, vs') -> Forall2 (port_vlan conf) ks l /\ grown vs'.
  Proof.
    induction ks as [|k r IH]; intros vs l vs' G H; cbn in H; [injection H as <- <-; auto|].
    destruct (get_vlan_by_key str vs k) as [[v vs1]|] eqn:E; [|discriminate]. destruct (key_some _ _ _ _ G E) as [P G1].
    destruct (parse_port_vlans str vs1 r) as [[l1 vs2]|] eqn:E1; [|discriminate]. injection H as <- <-. destruct (IH _ _ _ G1 E1) as [Q G2]. auto.
  Qed.
  Lemma port_total : forall ks vs, grown vs -> (forall k, In k ks -> exists v, port_vlan conf k v) -> parse_port_vlans str vs ks <> None.
  Proof.
    induction ks as [|k r IH]; intros vs G H; cbn; [discriminate|]. destruct (H k (or_introl eq_refl)) as [v P].
    destruct (get_vlan_by_key str vs k) as [[v1 vs1]|] eqn:E; [|destruct (key_total _ _ _ G P E)].
    destruct (key_some _ _ _ _ G E) as [_ G1]. specialize (IH vs1 G1 (fun k' I => H k' (or_intror I))).
    destruct (parse_port_vlans str vs1 r) as [[l1 vs2]|]; congruence.
  Qed.
  Lemma vlans_some : forall ports vs l vs', grown vs -> parse_vlans str vs ports = Some (l, vs') ->
    Forall2 (fun x y => fst x = fst y /\ Forall2 (port_vlan conf) (snd x) (snd y)) ports l /\ grown vs'.
  Proof.
    induction ports as [|[p ks] r IH]; intros vs l vs' G H; cbn in H; [injection H as <- <-; auto|].
    destruct (parse_port_vlans str vs ks) as [[l1 vs1]|] eqn:E; [|discriminate]. destruct (port_some _ _ _ _ G E) as [P G1].
    destruct (parse_vlans str vs1 r) as [[d vs2]|] eqn:E1; [|discriminate]. injection H as <- <-. destruct (IH _ _ _ G1 E1) as [Q G2]. auto.
  Qed.
  Lemma vlans_total : forall ports vs, grown vs -> (forall p ks k, In (p, ks) ports -> In k ks -> exists v, port_vlan conf k v) -> parse_vlans str vs ports <> None.
  Proof.
    induction ports as [|[p ks] r IH]; intros vs G H; cbn; [discriminate|].
    pose proof (port_total ks vs G (fun k I => H p ks k (or_introl eq_refl) I)) as T.
    destruct (parse_port_vlans str vs ks) as [[l1 vs1]|] eqn:E; [|congruence]. destruct (port_some _ _ _ _ G E) as [_ G1].
    specialize (IH vs1 G1 (fun p' ks' k I => H p' ks' k (or_intror I))). destruct (parse_vlans str vs1 r) as [[d vs2]|]; congruence.
  Qed.
  Lemma grown_start : grown conf.
  Proof. exists []. rewrite app_nil_r. split; [reflexivity|intros ? ? ? []]. Qed.
End Vlans.

(** routers *)
Lemma resolve_vlans_in : forall vs ks v, In v (resolve_vlans vs ks) <-> exists k, In k ks /\ resolve_vlan vs k = Some v.
Proof.
  intros vs. induction ks as [|k r IH]; cbn; intros v; [split; [contradiction|intros (? & [] & _)]|].
  destruct (resolve_vlan vs k) as [w|] eqn:E; cbn; rewrite ?IH.
  - split; [intros [<-|(k' & I & H)]; eauto|]. intros (k' & [<-|I] & H); [left; congruence|right; eauto].
  - split; [intros (k' & I & H); eauto|]. intros (k' & [<-|I] & H); [congruence|eauto].
Qed.
Lemma resolve_vlan_some : forall vs k v, resolve_vlan vs k = Some v -> match k with KInt n => v = n /\ exists name, In (n, name) vs | KStr s => In (v, s) vs end.
Proof.
  intros vs [n|s] v; cbn.
  - destruct (existsb _ _) eqn:E; [|discriminate]. intros H. injection H as <-. split; auto. apply existsb_exists in E as ([a b] & I & E). apply Z.eqb_eq in E. cbn in E. subst. eauto.
  - destruct (filter _ _) as [|[a b] r] eqn:E; [discriminate|]. intros H. injection H as <-.
    assert (In (a, b) (filter (fun x => snd x =? s) (rev vs))) as I by (rewrite E; left; reflexivity).
    apply filter_In in I as [I X]. apply Z.eqb_eq in X. cbn in *. subst. apply in_rev. exact I.
Qed.
Lemma resolve_vlan_total : forall vs k, match k with KInt n => exists name, In (n, name) vs | KStr s => exists v, In (v, s) vs end -> resolve_vlan vs k <> None.
Proof.
  intros vs [n|s] H; cbn.
  - destruct H as [name H]. assert (existsb (fun x => fst x =? n) vs = true) as -> by (apply existsb_exists; exists (n, name); split; auto; apply Z.eqb_refl). discriminate.
  - destruct H as [v H]. destruct (filter _ _) as [|x r] eqn:E; [|discriminate].
    assert (In (v, s) (filter (fun x => snd x =? s) (rev vs))) as I by (apply filter_In; split; [apply in_rev in H; exact H|apply Z.eqb_refl]).
    rewrite E in I. destruct I.
Qed.
