(** * Proofs about LACP frames *)
From Coq Require Import List Bool ZArith Lia.
From Verif Require Import PyBase L2Model LacpPduModel LacpPduSpec.
Import ListNotations.
Open Scope Z_scope.

Lemma pdu_eqb_eq : forall a b, pdu_eqb a b = true <-> a = b.
Proof. intros a b. unfold pdu_eqb. destruct (pdu_eq_dec a b); split; congruence. Qed.

Lemma ptrace_app : forall cfg es1 es2 st,
  ptrace cfg st (es1 ++ es2) =
  let '(l1, st1) := ptrace cfg st es1 in
  let '(l2, st2) := ptrace cfg st1 es2 in (l1 ++ l2, st2).
Proof.
  intros cfg es1. induction es1 as [|e es1 IH]; intros es2 st; cbn [ptrace app].
  - destruct (ptrace cfg st es2); reflexivity.
  - destruct (pstep cfg st e) as [st1 o]. rewrite IH.
    destruct (ptrace cfg st1 es1) as [l1 st2]. destruct (ptrace cfg st2 es2). reflexivity.
Qed.

Definition pstate_of (cfg : lconf) (es : list levent) : pstate := snd (ptrace cfg pstate_init es).

Lemma state_snoc : forall cfg es e,
  pstate_of cfg (es ++ [e]) = fst (pstep cfg (pstate_of cfg es) e).
Proof.
  intros cfg es e. unfold pstate_of. rewrite ptrace_app.
  destruct (ptrace cfg pstate_init es) as [l st]. cbn. destruct (pstep cfg st e). reflexivity.
Qed.
Lemma history_snoc : forall cfg es e,
  history cfg (es ++ [e]) = history cfg es ++ [(e, snd (pstep cfg (pstate_of cfg es) e))].
Proof.
  intros cfg es e. unfold history, pstate_of. rewrite ptrace_app.
  destruct (ptrace cfg pstate_init es) as [l st]. cbn. destruct (pstep cfg st e). reflexivity.
Qed.

Lemma history_split : forall cfg es pre e o post,
  history cfg es = pre ++ (e, o) :: post ->
  exists es2, es = map fst pre ++ e :: es2 /\ pre = history cfg (map fst pre) /\
    o = snd (pstep cfg (pstate_of cfg (map fst pre)) e).
Proof.
  intros cfg es. induction es as [|x es IH] using rev_ind; intros pre e o post H.
  - destruct pre; discriminate.
  - rewrite history_snoc in H.
    destruct (list_eq_dec (fun a b : unit => left (match a, b with tt, tt => eq_refl end)) [] []) as [_|C];
      [|congruence].
    destruct post as [|y post] using rev_ind.
    + apply app_inj_tail in H. destruct H as [H1 H2]. injection H2 as -> <-.
      assert (E : map fst pre = es).
      { rewrite <- H1. clear. unfold history. generalize pstate_init as st.
        induction es as [|a es IH]; intro st; [reflexivity|]. cbn.
        destruct (pstep cfg st a) as [st1 o]. specialize (IH st1).
        destruct (ptrace cfg st1 es). cbn in *. congruence. }
      exists []. rewrite E. split; [reflexivity|]. split; congruence.
    + clear IHpost. rewrite app_comm_cons, app_assoc in H. apply app_inj_tail in H. destruct H as [H1 H2].
      destruct (IH _ _ _ _ H1) as [es2 [E1 E2]].
      exists (es2 ++ [x]). split; [|exact E2]. rewrite E1 at 1. rewrite <- app_assoc. reflexivity.
Qed.

Lemma history_events : forall cfg es, map fst (history cfg es) = es.
Proof.
  intros cfg es. unfold history. generalize pstate_init as st.
  induction es as [|a es IH]; intro st; [reflexivity|]. cbn.
  destruct (pstep cfg st a) as [st1 o]. specialize (IH st1).
  destruct (ptrace cfg st1 es). cbn in *. congruence.
Qed.

Lemma find_port_in : forall cfg n p, find_port cfg n = Some p -> In p (lc_ports cfg) /\ lp_num p = n.
Proof. intros cfg n p H. apply find_some in H. rewrite Z.eqb_eq in H. exact H. Qed.
Lemma find_port_of : forall cfg p, NoDup (map lp_num (lc_ports cfg)) -> In p (lc_ports cfg) ->
  find_port cfg (lp_num p) = Some p.
Proof.
  intros cfg p ND H. unfold find_port. induction (lc_ports cfg) as [|q l IH]; [contradiction|].
  cbn in *. inversion ND as [|? ? N1 N2]; subst. destruct H as [->|H].
  - rewrite Z.eqb_refl. reflexivity.
  - destruct (lp_num q =? lp_num p) eqn:E; [|auto].
    apply Z.eqb_eq in E. exfalso. apply N1. rewrite E. apply in_map. exact H.
Qed.
Lemma find_port_none : forall cfg n, find_port cfg n = None -> ~ In n (map lp_num (lc_ports cfg)).
Proof.
  intros cfg n H C. apply in_map_iff in C. destruct C as [p [E C]].
  pose proof (find_none _ _ H p C) as F. cbn in F. rewrite E, Z.eqb_refl in F. discriminate.
Qed.

Lemma no_crash_suppressed : forall cfg st peers,
  (forall m, In m peers -> In m (map lp_num (lc_ports cfg))) -> suppressed cfg st peers <> Some Crashed.
Proof.
  intros cfg st peers. induction peers as [|m rest IH]; intro H; [discriminate|]. cbn.
  destruct (find_port cfg m) eqn:F.
  - destruct (ls_up st m); [|discriminate]. apply IH. intros. apply H. right. exact H0.
  - exfalso. apply (find_port_none _ _ F). apply H. left. reflexivity.
Qed.
Lemma not_suppressed : forall cfg st peers, suppressed cfg st peers = None ->
  forall m, In m peers -> ls_up st m = true.
Proof.
  intros cfg st peers. induction peers as [|x rest IH]; intros H m Hm; [contradiction|]. cbn in H.
  destruct (find_port cfg x); [|discriminate]. destruct (ls_up st x) eqn:E; [|discriminate].
  destruct Hm as [->|Hm]; auto.
Qed.
Lemma reply_no_crash : forall cfg st k p, lconf_ok cfg -> In p (lc_ports cfg) ->
  lacp_req_reply cfg st k p <> Crashed.
Proof.
  intros cfg st k p [_ OK] Hp H. unfold lacp_req_reply in H.
  pose proof (no_crash_suppressed cfg st (lp_passthrough p) (fun m => OK p m Hp)) as N.
  destruct (suppressed cfg st (lp_passthrough p)); [congruence|].
  destruct (get_lacp_flags p (ls_role st (lp_num p))) as [[? ?] ?]. discriminate.
Qed.
Lemma suppressed_sent : forall cfg st peers l, suppressed cfg st peers = Some (Sent l) -> l = [].
Proof.
  intros cfg st peers. induction peers as [|x rest IH]; intros l H; [discriminate|]. cbn in H.
  destruct (find_port cfg x); [|discriminate]. destruct (ls_up st x); [auto|]. congruence.
Qed.

(** What a sent frame is. *)
Lemma reply_says : forall cfg st k p n f l, lacp_req_reply cfg st k p = Sent l -> In (n, f) l ->
  l = [(n, f)] /\ n = lp_num p /\ carried cfg f /\ of_us cfg p (ls_role st n) f /\ of_partner k f /\
  forall m, In m (lp_passthrough p) -> ls_up st m = true.
Proof.
  intros cfg st k p n f l H Hin. unfold lacp_req_reply in H.
  destruct (suppressed cfg st (lp_passthrough p)) as [o|] eqn:S.
  - subst o. apply suppressed_sent in S. subst l. contradiction.
  - pose proof (not_suppressed _ _ _ S) as Up.
    destruct (get_lacp_flags p (ls_role st (lp_num p))) as [[s c] d] eqn:G.
    injection H as <-. destruct Hin as [E|[]]. injection E as <- <-.
    split; [reflexivity|]. split; [reflexivity|].
    unfold get_lacp_flags in G.
    destruct k as [k|].
    + split; [repeat split|]. split; [|split; [|exact Up]].
      * unfold of_us. destruct (lp_collect p), (ls_role st (lp_num p)); injection G as <- <- <-;
          cbn; repeat split; reflexivity.
      * unfold of_partner. cbn. destruct (pd_actor k); reflexivity.
    + split; [repeat split|]. split; [|split; [|exact Up]].
      * unfold of_us. destruct (lp_collect p), (ls_role st (lp_num p)); injection G as <- <- <-;
          cbn; repeat split; reflexivity.
      * reflexivity.
Qed.
Lemma reply_sent : forall cfg st k p, lp_passthrough p = [] ->
  exists f, lacp_req_reply cfg st k p = Sent [(lp_num p, f)].
Proof.
  intros cfg st k p H. unfold lacp_req_reply. rewrite H. cbn.
  destruct (get_lacp_flags p (ls_role st (lp_num p))) as [[s c] d]. eexists. reflexivity.
Qed.

(** The state and the history agree. *)
Record agrees (cfg : lconf) (es : list levent) (st : pstate) : Prop := {
  ag_last : forall p, lag_port cfg p -> ls_last st (lp_num p) = heard (lp_num p) es;
  ag_up : forall n, ls_up st n = true -> in_sync n es /\ exists p, lag_port cfg p /\ lp_num p = n;
  ag_role : ls_role st = roles_after cfg es }.

Lemma lag_known : forall cfg n, NoDup (map lp_num (lc_ports cfg)) ->
  existsb (fun p => (lp_num p =? n) && negb (lp_lag p =? 0)) (lc_ports cfg) =
  match find_port cfg n with Some p => negb (lp_lag p =? 0) | None => false end.
Proof.
  intros cfg n ND. destruct (existsb _ _) eqn:E.
  - apply existsb_exists in E. destruct E as [p [Hp E]]. apply andb_true_iff in E. destruct E as [E1 E2].
    apply Z.eqb_eq in E1. subst n. rewrite (find_port_of _ _ ND Hp). congruence.
  - destruct (find_port cfg n) as [p|] eqn:F; [|reflexivity].
    apply find_port_in in F. destruct F as [Hp En].
    destruct (lp_lag p =? 0) eqn:L; [reflexivity|]. exfalso.
    assert (C : existsb (fun p => (lp_num p =? n) && negb (lp_lag p =? 0)) (lc_ports cfg) = true).
    { apply existsb_exists. exists p. split; [exact Hp|]. rewrite En, L, Z.eqb_refl. reflexivity. }
    congruence.
Qed.

Lemma heard_snoc : forall n es e, heard n (es ++ [e]) = hear n (heard n es) e.
Proof. intros. unfold heard. rewrite fold_left_app. reflexivity. Qed.
Lemma roles_snoc : forall cfg es e, roles_after cfg (es ++ [e]) = next_roles cfg (roles_after cfg es) e.
Proof. intros. unfold roles_after. rewrite fold_left_app. reflexivity. Qed.

Lemma agrees_run : forall cfg es, lconf_ok cfg -> agrees cfg es (pstate_of cfg es).
Proof.
  intros cfg es OK. pose proof OK as [ND _]. induction es as [|e es IH] using rev_ind.
  - split; cbn; auto; discriminate.
  - rewrite state_snoc. set (st := pstate_of cfg es) in *. clearbody st.
    destruct IH as [L U R].
    destruct e as [now n f roles|n roles|n|running roles]; cbn [pstep].
    + (* frame *)
      unfold lacp_handler. rewrite (surjective_pairing (match find_port cfg n with _ => _ end)).
      cbn [fst].
      destruct (find_port cfg n) as [p|] eqn:F.
      * pose proof (find_port_in _ _ _ F) as [Hp En].
        change ((fr_dst f =? slow_multicast) && (fr_type f =? eth_type_slow)) with (is_lacp f).
        destruct (is_lacp f) eqn:IL; cbn [andb].
        2:{ split.
            - intros q Hq. rewrite heard_snoc. cbn. rewrite IL, andb_false_r. auto.
            - intros m Hu. unfold in_sync. rewrite heard_snoc. cbn. rewrite IL, andb_false_r. apply U; auto.
            - rewrite roles_snoc. cbn. rewrite IL. exact R. }
        destruct (lp_lag p =? 0) eqn:LG; cbn [negb].
        { split.
          - intros q Hq. rewrite heard_snoc. cbn. destruct (n =? lp_num q) eqn:E; cbn [andb]; [|auto].
            apply Z.eqb_eq in E. destruct Hq as [Hq1 Hq2]. exfalso.
            pose proof (find_port_of _ _ ND Hq1) as F2. rewrite <- E, F in F2. injection F2 as ->.
            apply Z.eqb_eq in LG. contradiction.
          - intros m Hu. unfold in_sync. rewrite heard_snoc. cbn.
            destruct (n =? m) eqn:E; cbn [andb]; [|apply U; auto].
            destruct (U _ Hu) as [_ [q [[Hq1 Hq2] Em]]]. subst m. apply Z.eqb_eq in E. exfalso.
            pose proof (find_port_of _ _ ND Hq1) as F2. rewrite <- E, F in F2. injection F2 as ->.
            apply Z.eqb_eq in LG. contradiction.
          - rewrite roles_snoc. cbn. rewrite IL, (lag_known _ _ ND), F, LG. exact R. }
        assert (Upd : forall st', ls_last st' = ls_last st -> ls_up st' = ls_up st ->
           agrees cfg (es ++ [LFrame now n f roles])
             (lacp_update st' n (negb (sd_synchronization (pd_actor (fr_pdu f)) =? 0)) (Some (fr_pdu f)) roles)).
        { intros st' E1 E2. split.
          - intros q Hq. rewrite heard_snoc. cbn. unfold putf. rewrite E1, IL, andb_true_r, Z.eqb_sym.
            destruct (n =? lp_num q); auto.
          - intros m. unfold in_sync. rewrite heard_snoc. cbn. unfold putf.
            rewrite E2, IL, andb_true_r, Z.eqb_sym. destruct (n =? m) eqn:E.
            + apply Z.eqb_eq in E. subst m. intro Hu. split.
              * exists (fr_pdu f). split; [reflexivity|]. intro C. rewrite C in Hu. discriminate.
              * exists p. split; [|exact En]. split; [exact Hp|]. apply Z.eqb_neq. exact LG.
            + apply U.
          - rewrite roles_snoc. cbn. rewrite IL, (lag_known _ _ ND), F, LG. reflexivity. }
        destruct (due st p now (fr_pdu f)).
        -- destruct (lacp_req_reply cfg st (Some (fr_pdu f)) p) eqn:RR.
           ++ apply Upd; reflexivity.
           ++ exfalso. apply (reply_no_crash cfg st (Some (fr_pdu f)) p OK Hp RR).
        -- apply Upd; reflexivity.
      * split.
        -- intros q Hq. rewrite heard_snoc. cbn. destruct (n =? lp_num q) eqn:E; cbn [andb]; [|auto].
           apply Z.eqb_eq in E. exfalso. apply (find_port_none _ _ F). rewrite E. apply in_map. apply Hq.
        -- intros m Hu. unfold in_sync. rewrite heard_snoc. cbn.
           destruct (n =? m) eqn:E; cbn [andb]; [|apply U; auto].
           destruct (U _ Hu) as [_ [q [Hq Em]]]. subst m.
           apply Z.eqb_eq in E. exfalso. apply (find_port_none _ _ F). rewrite E. apply in_map. apply Hq.
        -- rewrite roles_snoc. cbn. rewrite (lag_known _ _ ND), F, andb_false_r. exact R.
    + split.
      * intros q Hq. rewrite heard_snoc. cbn. unfold putf. rewrite Z.eqb_sym. destruct (n =? lp_num q); auto.
      * intros m. unfold in_sync. rewrite heard_snoc. cbn. unfold putf. rewrite Z.eqb_sym.
        destruct (n =? m); [discriminate|]. apply U.
      * rewrite roles_snoc. reflexivity.
    + replace (fst match find_port cfg n with
                   | Some p => (st, if negb (lp_lag p =? 0) then lacp_advertise cfg st p else Sent [])
                   | None => (st, Sent []) end) with st by (destruct (find_port cfg n); reflexivity).
      split.
      * intros q Hq. rewrite heard_snoc. cbn. auto.
      * intros m Hu. unfold in_sync. rewrite heard_snoc. cbn. apply U; auto.
      * rewrite roles_snoc. exact R.
    + split.
      * intros q Hq. rewrite heard_snoc. cbn. auto.
      * intros m Hu. unfold in_sync. rewrite heard_snoc. cbn. apply U; auto.
      * rewrite roles_snoc. reflexivity.
Qed.

Lemma times_app : forall a b, times (a ++ b) = times a ++ times b.
Proof. intros a b. induction a as [|[] a IH]; cbn; congruence. Qed.
Lemma rising_snoc : forall l a x, rising a (l ++ [x]) ->
  rising a l /\ a <= x /\ forall t, In t l -> t <= x.
Proof.
  intro l. induction l as [|y l IH]; intros a x H; cbn in *.
  - intuition.
  - destruct H as [H1 H2]. destruct (IH _ _ H2) as [A [B C]]. repeat split; auto; [lia|].
    intros t [->|Ht]; [exact B|]. apply C. exact Ht.
Qed.
Lemma rising_app : forall l r a, rising a (l ++ r) -> rising a l.
Proof. intro l. induction l as [|y l IH]; intros r a H; cbn in *; [exact I|]. destruct H. eauto. Qed.
Lemma rising_in : forall l a t, rising a l -> In t l -> a <= t.
Proof.
  intro l. induction l as [|y l IH]; intros a t H Ht; cbn in *; [contradiction|].
  destruct H as [H1 H2]. destruct Ht as [->|Ht]; [exact H1|]. specialize (IH _ _ H2 Ht). lia.
Qed.

Definition answered_in (cfg : lconf) (es : list levent) (now n : Z) (k : pdu) : Prop :=
  exists x, In x (history cfg es) /\ answered now n k x.
Record fresh_inv (cfg : lconf) (es : list levent) (st : pstate) : Prop := {
  fi_resp : forall n t, ls_resp st n = Some t -> In t (times es);
  fi_all : forall n now k, answered_in cfg es now n k -> exists t, ls_resp st n = Some t /\ now <= t;
  fi_last : forall p k, lag_port cfg p -> lp_passthrough p = [] -> ls_last st (lp_num p) = Some k ->
    exists t, ls_resp st (lp_num p) = Some t /\ answered_in cfg es t (lp_num p) k }.

Lemma answered_snoc : forall cfg es e now n k,
  answered_in cfg (es ++ [e]) now n k <->
  answered_in cfg es now n k \/ answered now n k (e, snd (pstep cfg (pstate_of cfg es) e)).
Proof.
  intros. unfold answered_in. rewrite history_snoc. split.
  - intros [x [H1 H2]]. apply in_app_or in H1. destruct H1 as [H1|[<-|[]]]; eauto.
  - intros [[x [H1 H2]]|H]; eexists; (split; [apply in_or_app|eassumption]); [left; exact H1|right; left; reflexivity].
Qed.

(** A step that neither answers nor changes what was answered when. *)
Lemma fresh_keep : forall cfg es e st st', fresh_inv cfg es st ->
  (forall now n k, ~ answered now n k (e, snd (pstep cfg (pstate_of cfg es) e))) ->
  ls_resp st' = ls_resp st ->
  (forall p k, lag_port cfg p -> ls_last st' (lp_num p) = Some k -> ls_last st (lp_num p) = Some k) ->
  fresh_inv cfg (es ++ [e]) st'.
Proof.
  intros cfg es e st st' [A B C] NA R L. split.
  - intros n t H. rewrite R in H. rewrite times_app. apply in_or_app. left. eauto.
  - intros n now k H. apply answered_snoc in H. rewrite R. destruct H as [H|H]; [eauto|].
    exfalso. apply (NA _ _ _ H).
  - intros p k Hp Hpt H. apply L in H; [|exact Hp]. destruct (C _ _ Hp Hpt H) as [t [H1 H2]].
    exists t. rewrite R. split; [exact H1|]. apply answered_snoc. left. exact H2.
Qed.

Lemma not_frame : forall now n k e o, answered now n k (e, o) -> exists f roles, e = LFrame now n f roles.
Proof. intros now n k e o (f & roles & r & E & _). injection E as -> _. eauto. Qed.

Lemma fresh_run : forall cfg es, lconf_ok cfg -> clock_ok es -> fresh_inv cfg es (pstate_of cfg es).
Proof.
  intros cfg es OK. pose proof OK as [ND _]. induction es as [|e es IH] using rev_ind; intro CK.
  - split.
    + discriminate.
    + intros n now k [x [[] _]].
    + discriminate.
  - assert (CK1 : clock_ok es).
    { unfold clock_ok in *. rewrite times_app in CK. apply rising_app in CK. exact CK. }
    specialize (IH CK1). rewrite state_snoc. pose proof (agrees_run cfg es OK) as AG.
    destruct e as [now n f roles|n roles|n|running roles].
    + assert (LE : forall t, In t (times es) -> t <= now).
      { unfold clock_ok in CK. rewrite times_app in CK. apply rising_snoc in CK. apply CK. }
      destruct (pstep cfg (pstate_of cfg es) (LFrame now n f roles)) as [st1 o] eqn:ER0.
      pose proof ER0 as ER. cbn [pstep] in ER. unfold lacp_handler in ER. cbn [fst].
      destruct (find_port cfg n) as [p|] eqn:F.
      2:{ injection ER as <- <-. eapply fresh_keep; [exact IH| |reflexivity|auto].
          intros a b c (f' & r' & x & E & _). rewrite ER0 in E. discriminate. }
      pose proof (find_port_in _ _ _ F) as [Hp En].
      change ((fr_dst f =? slow_multicast) && (fr_type f =? eth_type_slow)) with (is_lacp f) in ER.
      destruct (is_lacp f && negb (lp_lag p =? 0)) eqn:G.
      2:{ injection ER as <- <-. eapply fresh_keep; [exact IH| |reflexivity|auto].
          intros a b c (f' & r' & x & E & _). rewrite ER0 in E. discriminate. }
      apply andb_true_iff in G. destruct G as [IL LG].
      assert (LP : lag_port cfg p) by (split; [exact Hp|]; destruct (lp_lag p =? 0) eqn:Q; [discriminate|]; apply Z.eqb_neq; exact Q).
      destruct (due (pstate_of cfg es) p now (fr_pdu f)) eqn:D.
      * destruct (lacp_req_reply cfg (pstate_of cfg es) (Some (fr_pdu f)) p) as [l|] eqn:RR.
        2:{ exfalso. apply (reply_no_crash cfg _ _ p OK Hp RR). }
        injection ER as <- <-. destruct IH as [A B C]. split.
        -- intros m t H. cbn in H. unfold putf in H. rewrite times_app. apply in_or_app.
           destruct (m =? n); [injection H as <-; right; left; reflexivity|left; eauto].
        -- intros m t k H. apply answered_snoc in H. cbn. unfold putf. destruct H as [H|H].
           ++ destruct (m =? n) eqn:E; [|eauto].
              exists now. split; [reflexivity|]. destruct (B _ _ _ H) as [t' [H1 H2]].
              specialize (LE _ (A _ _ H1)). lia.
           ++ destruct (not_frame _ _ _ _ _ H) as (f' & r' & E). injection E as <- <- _ _.
              rewrite Z.eqb_refl. exists now. split; [reflexivity|lia].
        -- intros q k Hq Hpt H. cbn in H |- *. unfold putf in H |- *. destruct (lp_num q =? n) eqn:E.
           ++ injection H as <-. exists now. split; [reflexivity|]. apply Z.eqb_eq in E.
              apply answered_snoc. right. rewrite ER0. cbn [snd].
              pose proof (find_port_of _ _ ND (proj1 Hq)) as F2. rewrite E, F in F2. injection F2 as <-.
              destruct (reply_sent cfg (pstate_of cfg es) (Some (fr_pdu f)) p Hpt) as [r Hr].
              rewrite RR in Hr. injection Hr as ->. rewrite E.
              exists f, roles, r. auto.
           ++ destruct (C _ _ Hq Hpt H) as [t [H1 H2]]. exists t. split; [exact H1|].
              apply answered_snoc. left. exact H2.
      * injection ER as <- <-. eapply fresh_keep; [exact IH| |reflexivity|].
        -- intros a b c (f' & r' & x & E & _). rewrite ER0 in E. discriminate.
        -- intros q k Hq H. cbn in H. unfold putf in H. destruct (lp_num q =? n) eqn:E; [|exact H].
           injection H as <-. apply Z.eqb_eq in E. unfold due in D. rewrite En in D. rewrite E.
           apply orb_false_iff in D. destruct D as [D _].
           destruct (ls_last (pstate_of cfg es) n) as [q'|]; [|discriminate].
           apply negb_false_iff, pdu_eqb_eq in D. congruence.
    + eapply fresh_keep; [exact IH| |reflexivity|].
      * intros a b c (f' & r' & x & E & _). discriminate.
      * intros q k Hq H. cbn in H. unfold putf in H. destruct (lp_num q =? n); [discriminate|exact H].
    + eapply fresh_keep; [exact IH| | |].
      * intros a b c (f' & r' & x & E & _). discriminate.
      * cbn. destruct (find_port cfg n); reflexivity.
      * cbn. destruct (find_port cfg n); auto.
    + eapply fresh_keep; [exact IH| |reflexivity|auto].
      intros a b c (f' & r' & x & E & _). discriminate.
Qed.

(** With a peer that is no port, LACP never comes up. *)
Lemma missing_peer_down : forall cfg p m rest es,
  NoDup (map lp_num (lc_ports cfg)) -> In p (lc_ports cfg) -> lp_passthrough p = m :: rest ->
  ~ In m (map lp_num (lc_ports cfg)) ->
  let st := pstate_of cfg es in ls_last st (lp_num p) = None /\ ls_up st (lp_num p) = false.
Proof.
  intros cfg p m rest es ND Hp HP HM. induction es as [|e es IH] using rev_ind; [split; reflexivity|].
  cbn zeta in *. rewrite state_snoc. destruct IH as [L U].
  set (st := pstate_of cfg es) in *. clearbody st.
  destruct e as [now n f roles|n roles|n|running roles]; cbn [pstep].
  - unfold lacp_handler. destruct (find_port cfg n) as [q|] eqn:F; [|split; assumption].
    destruct (_ && _ && _); [|split; assumption].
    destruct (lp_num p =? n) eqn:E.
    + apply Z.eqb_eq in E. subst n. rewrite (find_port_of _ _ ND Hp) in F. injection F as <-.
      replace (due st p now (fr_pdu f)) with true by (unfold due; rewrite L; reflexivity).
      replace (lacp_req_reply cfg st (Some (fr_pdu f)) p) with Crashed; [split; assumption|].
      unfold lacp_req_reply. rewrite HP. cbn.
      destruct (find_port cfg m) eqn:FM; [|reflexivity].
      apply find_port_in in FM. destruct FM as [F1 <-]. exfalso. apply HM. apply in_map. exact F1.
    + destruct (due st q now (fr_pdu f)).
      * destruct (lacp_req_reply cfg st (Some (fr_pdu f)) q); cbn; unfold putf; try rewrite E; split; assumption.
      * cbn. unfold putf. rewrite E. split; assumption.
  - cbn. unfold putf. destruct (lp_num p =? n); split; auto.
  - destruct (find_port cfg n); split; assumption.
  - split; assumption.
Qed.
