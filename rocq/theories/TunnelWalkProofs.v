(** * Tunnels: what the entries do with a frame *)
From Coq Require Import ZArith List Bool Lia Permutation.
From Verif Require Import PyBase PyBaseProofs OpenFlow ReorderModel ReorderSpec ReorderProofs BatchProofs SlotProofs TrimModel TrimProofs
  TableModel L2Proofs StackModel StackSpec StackProofs StackFloodProofs StackRoleProofs StackNextProofs AclModel AclSpec AclProofs AclMatchProofs TunnelModel TunnelSpec TunnelProofs.
Import ListNotations.
Open Scope Z_scope.

(** ** Executing lists of outputs *)
Definition no_failover (i : out_item) : Prop := match i with OFailover _ _ => False | _ => True end.
Definition item_sound (i : out_item) : Prop := item_ok i /\ no_failover i.

Lemma plain_ordered : forall l, plain_items l = ordered_items None l.
Proof.
  induction l as [|i l IH]; [reflexivity|]. unfold plain_items, ordered_items in *. cbn [fold_right]. rewrite IH. destruct i; reflexivity.
Qed.
Lemma plain_app : forall a b, plain_items (a ++ b) = outs_app (plain_items a) (plain_items b).
Proof.
  intros a b. induction a as [|i a IH].
  - unfold plain_items. cbn [app fold_right]. destruct (fold_right _ _ b) as [[? ?] ?]. reflexivity.
  - unfold plain_items in *. cbn [app fold_right]. rewrite IH. destruct (item_out i) as [[? ?] ?], (fold_right _ _ a) as [[? ?] ?], (fold_right _ _ b) as [[? ?] ?].
    cbn. rewrite !app_assoc. reflexivity.
Qed.
Lemma sound_fo : forall l gr, Forall item_sound l -> fo_ok gr (flat_map (fun i => match i with OFailover g ns => [(g, ns)] | _ => [] end) l).
Proof.
  intros l gr H g ns I. apply in_flat_map in I as (i & I & J). rewrite Forall_forall in H. apply H in I as [_ I]. destruct i; try (destruct J; fail). destruct I.
Qed.
Lemma plain_exec : forall gr live l p, Forall item_sound l ->
  snd (plain_items l) = [] /\ exec_acts gr live (fst (fst (plain_items l))) p = perform live l p.
Proof.
  intros gr live l p H. rewrite plain_ordered. destruct (ordered_spec gr live l p) as (acts & E1 & E2 & E3).
  - eapply Forall_impl; [|exact H]. intros i [A _]. exact A.
  - apply sound_fo. exact H.
  - rewrite E1, E2. auto.
Qed.

(** Entries whose output is a list, and perhaps a table to go on in. *)
Lemma outputs_exec : forall gr live l o p, Forall item_sound l ->
  exists q, exec_insts gr live (trim (match o with Some t => [Goto t] | None => [] end ++ [Apply (fst (fst (plain_items l)))])) p
            = (fst (perform live l p), q, o) /\ (o <> None -> q = snd (perform live l p)).
Proof.
  intros gr live l o p H. destruct (plain_exec gr live l p H) as [_ X].
  destruct (exec_insts gr live (trim (match o with Some t => [Goto t] | None => [] end ++ [Apply (fst (fst (plain_items l)))])) p) as [[es q] nx] eqn:E.
  apply trim_sem in E as (q0 & E & N); [|destruct o; cbn; lia].
  assert (Y : exec_insts gr live (match o with Some t => [Goto t] | None => [] end ++ [Apply (fst (fst (plain_items l)))]) p = (fst (perform live l p), snd (perform live l p), o)).
  { destruct o; cbn; rewrite X; destruct (perform live l p) as [a b]; cbn; rewrite app_nil_r; reflexivity. }
  rewrite Y in E. injection E as <- <- <-. exists q. split; [reflexivity|exact N].
Qed.

Lemma item_sound_out : forall l, Forall no_failover l -> forall a, In a (fst (fst (plain_items l))) -> match a with GroupAct _ => False | _ => True end.
Proof.
  induction l as [|i l IH]; intros H a I; [destruct I|]. inversion H as [|? ? Hi Hl]; subst. unfold plain_items in *. cbn [fold_right] in I.
  assert (J : In a (fst (fst (item_out i))) \/ In a (fst (fst (fold_right (fun i r => outs_app (item_out i) r) ([], [], []) l)))).
  { destruct (item_out i) as [[? ?] ?], (fold_right _ _ l) as [[? ?] ?]. cbn in *. apply in_app_iff in I. exact I. }
  destruct J as [J|J]; [|exact (IH Hl a J)]. clear I IH.
  destruct i; cbn in J; try (destruct Hi; fail).
  - apply repeat_spec in J. subst. exact I.
  - destruct J as [<-|[<-|[]]]; exact I.
  - destruct J as [<-|[]]; exact I.
  - apply in_flat_map in J as (v & _ & [<-|[<-|[]]]); exact I.
  - apply in_map_iff in J as (v & <- & _). exact I.
  - destruct J as [<-|[]]; exact I.
  - apply in_map_iff in J as (v & <- & _). exact I.
  - destruct J.
  - destruct J.
Qed.
(** Trimming invents no actions. *)
Lemma trim_actions_sub : forall inst a, In a (flat_map inst_actions (trim inst)) -> In a (flat_map inst_actions inst).
Proof.
  intros inst a H. unfold trim in H. destruct (trim_inst None inst) as [i|] eqn:E; [|exact H]. unfold trim_inst in E. destruct (existsb is_apply inst); [|injection E as <-; exact H].
  remember (existsb is_goto inst) as b eqn:Eb. clear Eb. revert i E H. induction inst as [|x l IH]; intros i E H; cbn in E.
  - injection E as <-. exact H.
  - destruct (trim_one None b x) as [y|] eqn:E1; [|discriminate]. destruct (trim_list None b l) as [r|] eqn:E2; [|discriminate]. injection E as <-.
    rewrite flat_map_app in H. apply in_app_iff in H as [H|H]; [|cbn; apply in_or_app; right; exact (IH r eq_refl H)].
    cbn. apply in_or_app. left. destruct x as [acts|?|?|? ?]; cbn in E1; try (injection E1 as <-; exact H).
    destruct (negb b && negb (has_recirc acts)).
    + cbn in E1. destruct (trim_loop_prefix acts) as (tl & EA & _). destruct (trim_loop acts) as [|z zs] eqn:EL; injection E1 as <-; [destruct H|].
      cbn in H |- *. rewrite app_nil_r in H. rewrite EA. apply in_or_app. left. exact H.
    + destruct acts; injection E1 as <-; [destruct H|]. cbn in H |- *. rewrite app_nil_r in H. exact H.
Qed.
Lemma tunnel_no_group : forall c l tid rv, Forall no_failover l -> any_group (tunnel_flow c l tid rv) = false.
Proof.
  intros c l tid rv H. unfold any_group, flow_actions. destruct (existsb _ _) eqn:E; [|reflexivity]. exfalso. apply existsb_exists in E as (a & I & G).
  cbn [tunnel_flow flow_of f_inst tunnel_add tb_add tb_write fm_inst] in I. apply trim_actions_sub in I. rewrite flat_map_app in I. apply in_app_iff in I as [I|I].
  - apply in_flat_map in I as (i & I & J). assert (K : forall l i, In i (snd (plain_items l)) -> inst_actions i = []).
    { clear. induction l as [|x l IH]; intros i I; [destruct I|]. unfold plain_items in *. cbn [fold_right] in I.
      assert (J : In i (snd (item_out x)) \/ In i (snd (fold_right (fun i r => outs_app (item_out i) r) ([], [], []) l))).
      { destruct (item_out x) as [[? ?] ?], (fold_right _ _ l) as [[? ?] ?]. cbn in *. apply in_app_iff in I. exact I. }
      destruct J as [J|J]; [|exact (IH i J)]. destruct x; cbn in J; try destruct J as [<-|[]]; try destruct J. reflexivity. }
    rewrite (K l i I) in J. destruct J.
  - cbn in I. rewrite app_nil_r in I. assert (X := item_sound_out l H a I). destruct a; try discriminate G. destruct X.
Qed.

(** A tunnel's entry. *)
Lemma tunnel_exec : forall gr live c l tid rv p, Forall item_sound l ->
  exists q, exec_insts gr live (f_inst (tunnel_flow c l tid rv)) p = (fst (perform live l p), q, None).
Proof.
  intros gr live c l tid rv p H. destruct (outputs_exec gr live l None p H) as (q & E & _). exists q.
  cbn [tunnel_flow flow_of f_inst tunnel_add tb_add tb_write fm_inst]. destruct (plain_exec gr live l p H) as [-> _]. exact E.
Qed.
Lemma tunnel_exec_goto : forall gr live c l t tid rv p, Forall item_sound l ->
  exec_insts gr live (f_inst (tunnel_flow c (l ++ [OGoto t]) tid rv)) p = (fst (perform live l p), snd (perform live l p), Some t).
Proof.
  intros gr live c l t tid rv p H. destruct (outputs_exec gr live l (Some t) p H) as (q & E & Q). rewrite <- Q by discriminate. rewrite <- E.
  cbn [tunnel_flow flow_of f_inst tunnel_add tb_add tb_write fm_inst]. rewrite plain_app. destruct (plain_exec gr live l p H) as [X _].
  destruct (plain_items l) as [[a m] i]. cbn in X. subst i. cbn. rewrite app_nil_r. reflexivity.
Qed.

(** ** Next hops *)
Lemma path_last_in : forall g x y p, is_path g x y p -> In y p.
Proof. intros g x y p P. induction P as [x I|x y z p L P IH]; [left; reflexivity|right; exact IH]. Qed.

Section Hops.
  Variables (f : fabric) (root : Z).
  Hypothesis AG : agreed f root.
  Hypothesis RUN : forall s p, In s f -> In p (sn_ports s) -> sp_running p = sp_up p.
  Variable s0 : snode.
  Hypothesis S0 : In s0 f.
  Notation G := (sn_graph s0).

  Lemma next_hop : forall s d z r, In s f -> shortest_path G (sn_name s) d = sn_name s :: z :: r ->
    exists h t q, default_port_towards s d = Some h /\ In h (sn_ports s) /\ sp_dp h = z /\ In t f /\ sn_name t = z /\ In q (sn_ports t) /\ sp_dp q = sn_name s /\
      link_up f (sn_name s) h z q /\ shortest_path G z d = z :: r.
  Proof.
    intros s d z r I E. assert (OK := graph_ok_of f root AG s0 S0). assert (CP := shortest_path_chosen G OK _ _ _ E ltac:(discriminate)).
    assert (CZ := chosen_suffix G _ _ _ _ CP). destruct (path_inv2 G _ _ _ _ (proj1 CP)) as [L _].
    destruct (adj_up f root AG s0 S0 s z I L) as (p0 & P0 & U0 & D0).
    assert (PU : In p0 (peer_up_ports s z)).
    { unfold peer_up_ports. apply canonical_in. apply filter_In. split; [exact P0|]. rewrite (RUN s p0 I P0), U0, D0, Z.eqb_refl. reflexivity. }
    destruct (peer_up_ports s z) as [|h rest] eqn:PP; [destruct PU|].
    assert (H : In h (peer_up_ports s z)) by (rewrite PP; left; reflexivity). unfold peer_up_ports in H. apply canonical_in, filter_In in H as [PH H].
    apply andb_true_iff in H as [UH DH]. rewrite (RUN s h I PH) in UH. apply Z.eqb_eq in DH.
    destruct (ag_ends f root (proj1 AG) s h I PH UH) as (q & LK). rewrite DH in LK. assert (LK' := LK). destruct LK' as (s' & t & _ & _ & _ & _ & It & Nt & Iq & _ & _ & _ & Dq & _).
    exists h, t, q. split; [unfold default_port_towards; rewrite (shortest_same f root AG s0 S0 s I), E, PP; reflexivity|]. repeat (split; [assumption|]).
    apply (chosen_shortest G OK). exact CZ.
  Qed.
  Lemma port_inj : forall s p q, In s f -> In p (sn_ports s) -> In q (sn_ports s) -> sp_no p = sp_no q -> p = q.
  Proof. intros s p q I P Q E. exact (same_no f root AG s p q I P Q E). Qed.
  Lemma path_end_d : forall s d, In s f -> shortest_path G (sn_name s) d = [sn_name s] -> sn_name s = d.
  Proof.
    intros s d I E. assert (CP := shortest_path_chosen G (graph_ok_of f root AG s0 S0) _ _ _ E ltac:(discriminate)). destruct CP as [P _].
    inversion P as [x0 I0 E1|x0 y z p0 L P' E1 E2]; subst; [reflexivity|]. inversion P'.
  Qed.
End Hops.

(** ** Carrying a frame *)
Section Carry.
  Variables (f : fabric) (root : Z) (cf : Z -> tconf) (sw : Z -> switch) (live : Z -> Z -> bool) (ls : list tacl).
  Hypothesis AG : agreed f root.
  Hypothesis RUN : forall s p, In s f -> In p (sn_ports s) -> sp_running p = sp_up p.
  Hypothesis NUM : forall s p, In s f -> In p (sn_ports s) -> 0 < sp_no p <= OFPP_MAX.
  Hypothesis IDS : forall l d, In l ls -> In d (tl_dests l) -> 0 <= td_id d < 4096.
  Variable s0 : snode.
  Hypothesis S0 : In s0 f.
  Notation G := (sn_graph s0).
  Notation first := (fun x => tb_id (tc_table (cf x))).
  Hypothesis STATE : forall s, In s f -> exists w,
    up_to_date (cf (sn_name s)) (map sp_no (sn_ports s)) ls (sn_name s) s w /\ tw_sw w = sw (sn_name s).

  (** The entry for a tagged frame that comes from a stack port. *)
  Lemma tagged_walk : forall t tid (rv : bool) items pk r es0 q nx, In t f ->
    (forall e, at_slot (first (sn_name t)) OVERRIDE_PRIORITY (tunnel_match tid (if rv then PCP_TUNNEL_REVERSE_DIRECTION_FLAG else PCP_TUNNEL_FLAG)) e ->
      (In e (sw_flows (sw (sn_name t))) <-> e = tunnel_flow (cf (sn_name t)) items tid rv)) ->
    0 <= tid < 4096 -> (In (pk_in pk) (map sp_no (sn_ports t)) \/ not_overridden (sw (sn_name t)) (first (sn_name t)) pk) -> pk_tags pk = (tid, if rv then PCP_TUNNEL_REVERSE_DIRECTION_FLAG else PCP_TUNNEL_FLAG) :: r ->
    exec_insts (group_lookup (sw (sn_name t))) (live (sn_name t)) (f_inst (tunnel_flow (cf (sn_name t)) items tid rv)) pk = (es0, q, nx) ->
    forall es, walk (sw (sn_name t)) (live (sn_name t)) (first (sn_name t)) pk es <-> exists es', then_ (sw (sn_name t)) (live (sn_name t)) nx q es' /\ es = es0 ++ es'.
  Proof.
    intros t tid rv items pk r es0 q nx I HF TI PI TG EX. destruct (STATE t I) as (w & U & EW).
    assert (H : forall e, hit (sw_flows (sw (sn_name t))) (first (sn_name t)) pk e <-> e = tunnel_flow (cf (sn_name t)) items tid rv).
    { rewrite <- EW in *. apply (tagged_hit (cf (sn_name t)) (map sp_no (sn_ports t)) ls (sn_name t) t w U IDS tid _ _ pk r HF); [apply tunnel_at|assumption..]. }
    apply (walk_decided _ _ _ _ (tunnel_flow (cf (sn_name t)) items tid rv)); [apply H; reflexivity|apply H|exact EX].
  Qed.

  Variables (a b : Z) (tid : Z) (rv : bool).
  Hypothesis TID : 0 <= tid < 4096.
  Notation pcp := (if rv then PCP_TUNNEL_REVERSE_DIRECTION_FLAG else PCP_TUNNEL_FLAG).
  Hypothesis SLOT : forall t h, In t f -> sn_name t <> a -> sn_name t <> b -> is_in_path t a b = true -> default_port_towards t b = Some h -> 0 < sp_no h ->
    forall e, at_slot (first (sn_name t)) OVERRIDE_PRIORITY (tunnel_match tid pcp) e ->
      (In e (sw_flows (sw (sn_name t))) <-> e = tunnel_flow (cf (sn_name t)) [OPort (sp_no h)] tid rv).

  Lemma carry : forall p t u q0 pk r, In t f -> shortest_path G (sn_name t) b = p -> p <> [] -> incl p (shortest_path G a b) -> ~ In a p ->
    In q0 (sn_ports t) -> sp_dp q0 = u -> ~ In u p -> pk_in pk = sp_no q0 -> pk_tags pk = (tid, pcp) :: r ->
    exists te k, In te f /\ sn_name te = b /\ In k (sn_ports te) /\ transits f sw live first (length p - 1) (sn_name t) pk b (entering (sp_no k) pk).
  Proof.
    induction p as [|x p IH]; intros t u q0 pk r I E NE INC NA Q0 DQ NU PI TG; [contradiction|].
    assert (OK := graph_ok_of f root AG s0 S0). assert (CP := shortest_path_chosen G OK _ _ _ E ltac:(discriminate)).
    destruct (path_shape G _ _ _ (proj1 CP)) as (r' & EX). injection EX as -> ->. cbn [length]. rewrite Nat.sub_succ, Nat.sub_0_r. destruct r' as [|z r'].
    - assert (N := path_end_d f root AG s0 S0 t b I E). exists t, q0. split; [exact I|]. split; [exact N|]. split; [exact Q0|]. rewrite N. cbn [length].
      rewrite <- PI. replace (entering (pk_in pk) pk) with pk by (destruct pk; reflexivity). constructor.
    - destruct (next_hop f root AG RUN s0 S0 t b z r' I E) as (h & t' & q & DP & PH & DH & It' & Nt' & Iq & Dq & LK & EZ).
      assert (ND := StackProofs.chosen_nodup G _ _ _ CP). apply NoDup_cons_iff in ND as [ND1 ND2].
      destruct (IH t' (sn_name t) q (entering (sp_no q) pk) r It') as (te & k & Ite & Nte & Ik & TR).
      + rewrite Nt'. exact EZ.
      + discriminate.
      + intros y Y. apply INC. right. exact Y.
      + intros A. apply NA. right. exact A.
      + exact Iq.
      + exact Dq.
      + exact ND1.
      + reflexivity.
      + exact TG.
      + exists te, k. split; [exact Ite|]. split; [exact Nte|]. split; [exact Ik|]. cbn [length] in TR |- *. rewrite Nat.sub_succ, Nat.sub_0_r in TR. rewrite Nt' in TR.
        assert (NB : sn_name t <> b).
        { intros B. assert (CB : In b (z :: r')). { assert (CZ := shortest_path_chosen G OK _ _ _ EZ ltac:(discriminate)). apply (path_last_in G z b _ (proj1 CZ)). }
          rewrite <- B in CB. contradiction. }
        assert (IP : is_in_path t a b = true).
        { unfold is_in_path. apply (mem_spec _ Z.eqb Z.eqb_eq). rewrite (shortest_same f root AG s0 S0 t I). apply INC. left. reflexivity. }
        assert (NH := NUM t h I PH).
        apply (transits_on f sw live first (length r') (sn_name t) pk h z q b (entering (sp_no k) pk) LK); [| |exact TR].
        * destruct (tunnel_exec (group_lookup (sw (sn_name t))) (live (sn_name t)) (cf (sn_name t)) [OPort (sp_no h)] tid rv pk) as (q1 & EX); [repeat constructor|].
          assert (TW := tagged_walk t tid rv [OPort (sp_no h)] pk r _ q1 None I (SLOT t h I ltac:(intros A; apply NA; left; exact A) NB IP DP ltac:(lia)) TID ltac:(left; rewrite PI; apply in_map; exact Q0) TG EX).
          intros es. rewrite (TW es). cbn. split.
          -- intros (es' & -> & ->). reflexivity.
          -- intros ->. exists []. auto.
        * cbn. destruct (Z.eqb_spec (sp_no h) OFPP_IN_PORT) as [X|_]; [unfold OFPP_IN_PORT, OFPP_MAX in *; lia|].
          destruct (Z.eqb_spec (sp_no h) (pk_in pk)) as [X|_]; [|reflexivity]. exfalso. rewrite PI in X. apply (port_inj f root AG t) in X; [|assumption..]. subst h.
          apply NU. right. left. congruence.
  Qed.
End Carry.

(** ** The remembered rules *)
Section Dyn.
  Variables (c : tconf) (me : snode) (l : tacl).
  Notation inner d dy := (fold_left (fun dy s => if fwd_updated me d s then dict_put dkey_eqb (td_id d, s) (fwd_rules c me d s) dy else dy) (tl_sources l) dy).
  Lemma dkey_eqb_spec : forall a b, dkey_eqb a b = true <-> a = b.
  Proof.
    intros [a1 a2] [b1 b2]. unfold dkey_eqb. cbn [fst snd]. rewrite andb_true_iff, Z.eqb_eq, tsource_eqb_spec. split; [intros [-> ->]; reflexivity|intros H; injection H; auto].
  Qed.
  Lemma inner_get : forall (ss : list tsource) d dy s tid,
    dyn_get (fold_left (fun dy s => if fwd_updated me d s then dict_put dkey_eqb (td_id d, s) (fwd_rules c me d s) dy else dy) ss dy) s tid =
    if (td_id d =? tid) && mem tsource_eqb s ss && fwd_updated me d s then Some (fwd_rules c me d s) else dyn_get dy s tid.
  Proof.
    induction ss as [|x ss IH]; intros d dy s tid; cbn [fold_left].
    - cbn. rewrite andb_false_r. reflexivity.
    - rewrite IH. unfold mem. cbn [existsb]. fold (mem tsource_eqb s ss). destruct (td_id d =? tid) eqn:ET; cbn [andb].
      + destruct (mem tsource_eqb s ss && fwd_updated me d s) eqn:M; [rewrite orb_true_iff || idtac|].
        * apply andb_true_iff in M as [M1 M2]. rewrite M1, M2, orb_true_r. reflexivity.
        * destruct (tsource_eqb s x) eqn:EX; cbn [orb].
          -- apply tsource_eqb_spec in EX. subst x. destruct (fwd_updated me d s) eqn:FU; cbn [andb].
             ++ unfold dyn_get. rewrite (dict_get_put _ dkey_eqb_spec). apply Z.eqb_eq in ET. subst tid.
                rewrite (proj2 (dkey_eqb_spec _ _) eq_refl). reflexivity.
             ++ reflexivity.
          -- rewrite M. destruct (fwd_updated me d x); [|reflexivity]. unfold dyn_get. rewrite (dict_get_put _ dkey_eqb_spec).
             destruct (dkey_eqb (tid, s) (td_id d, x)) eqn:K; [|reflexivity]. apply dkey_eqb_spec in K. injection K as _ K. subst x.
             rewrite (proj2 (tsource_eqb_spec s s) eq_refl) in EX. discriminate.
      + destruct (fwd_updated me d x); [|reflexivity]. unfold dyn_get. rewrite (dict_get_put _ dkey_eqb_spec).
        destruct (dkey_eqb (tid, s) (td_id d, x)) eqn:K; [|reflexivity]. apply dkey_eqb_spec in K. injection K as K _. subst tid.
        rewrite Z.eqb_refl in ET. discriminate.
  Qed.
  Lemma dyn_update_get : forall dy d s, In d (tl_dests l) -> (forall d', In d' (tl_dests l) -> td_id d' = td_id d -> d' = d) ->
    In s (tl_sources l) -> fwd_updated me d s = true -> dyn_get (dyn_update c me l dy) s (td_id d) = Some (fwd_rules c me d s).
  Proof.
    intros dy d s D UQ S F. unfold dyn_update. revert D UQ. generalize (tl_dests l) as ds. induction ds as [|x ds IH] using rev_ind; intros D UQ; [destruct D|].
    rewrite fold_left_app. cbn [fold_left]. rewrite inner_get. destruct (Z.eqb_spec (td_id x) (td_id d)) as [E|NE]; cbn [andb].
    - assert (x = d) by (apply UQ; [apply in_or_app; right; left; reflexivity|exact E]). subst x.
      rewrite F. rewrite (proj2 (mem_spec _ tsource_eqb tsource_eqb_spec s (tl_sources l)) S). reflexivity.
    - apply IH.
      + apply in_app_iff in D as [D|[D|[]]]; [exact D|]. subst x. contradiction.
      + intros d' D' E. apply UQ; [apply in_or_app; left; exact D'|exact E].
  Qed.
End Dyn.

(** ** The entry of a source *)
Lemma only_tunnel_tun : forall r tid f g pl, only_tunnel r tid -> f tid = g tid -> rule_inst (Some f) pl r = rule_inst (Some g) pl r.
Proof.
  intros r tid f g pl (a & EA & M & CT & [O|O]) E; unfold rule_inst; rewrite EA; unfold build_actions; rewrite O; unfold build_output_actions; cbn; rewrite E; reflexivity.
Qed.

Lemma first_index : forall rs r i, first_at r i rs -> index_of r rs = Z.of_nat i.
Proof.
  induction rs as [|x rs IH]; intros r i [N F]; [destruct i; discriminate|]. cbn [index_of]. destruct (rule_eqb x r) eqn:E.
  - apply rule_eqb_spec in E. subst x. destruct i as [|i]; [reflexivity|]. exfalso. apply (F 0%nat); [lia|reflexivity].
  - destruct i as [|i]; cbn in N; [injection N as ->; rewrite (proj2 (rule_eqb_spec r r) eq_refl) in E; discriminate|].
    rewrite (IH r i); [lia|]. split; [exact N|]. intros j J. apply (F (S j)). lia.
Qed.

Definition place_of (c : tconf) (l : tacl) (s : tsource) : place :=
  match ts_port s with Some _ => source_place c l s | None => dp_place (tc_am c) (tc_table c) end.
Definition source_flow (c : tconf) (l : tacl) (s : tsource) (items : list out_item) (r : rule) (i : nat) : flow :=
  flow_of (rule_add (Some (fun _ => items)) (place_of c l s) r (FILTER_PRIORITY - Z.of_nat i)).

Lemma acl_eqb_spec : forall a b, acl_eqb a b = true <-> a = b.
Proof. intros a b. unfold acl_eqb. destruct (acl_eq_dec a b); split; auto; discriminate. Qed.
Lemma place_exact : forall c ls l s, alone c ls l s -> pl_exact (place_of c l s) = false.
Proof. intros c ls l s A. unfold alone, place_of in *. destruct (ts_port s); [apply A|reflexivity]. Qed.
Lemma place_entry : forall c l s r, rule_match (place_of c l s) r = entry_match s r.
Proof. intros c l s r. unfold place_of, rule_match, entry_match. destruct (ts_port s) eqn:E; cbn; rewrite ?E; reflexivity. Qed.

(** The instructions of the entry of a rule with a tunnel, before trimming. *)
Lemma source_inst : forall c l s items r tid, only_tunnel r tid -> snd (plain_items items) = [] ->
  exists m : list instruction, (forall i, In i m -> exists n, i = MeterI n) /\
  fst (rule_inst (Some (fun _ => items)) (place_of c l s) r) =
  (m ++ match goes_on c r with Some t => [Goto t] | None => [] end) ++ match fst (fst (plain_items items)) with [] => [] | _ => [Apply (fst (fst (plain_items items)))] end.
Proof.
  intros c l s items r tid (a & EA & M & CT & O) NI. exists (opt_list (fun m => [MeterI m]) (ac_meter a)). split.
  - intros i I. destruct (ac_meter a); cbn in I; [|destruct I]. destruct I as [<-|[]]. eauto.
  - unfold rule_inst, goes_on. rewrite EA. unfold build_actions. rewrite M, CT. cbn [opt_list app].
    assert (EO : exists po, exists mm, (match ac_output a with Some o => build_output_actions (Some (fun _ => items)) o | None => (false, [], [], []) end) = (po, fst (fst (plain_items items)), mm, [])).
    { destruct (plain_items items) as [[pa pm] pi] eqn:EP. cbn in NI. subst pi. destruct O as [-> | ->]; unfold build_output_actions; cbn -[plain_items]; rewrite EP.
      - cbn. rewrite !app_nil_r. eauto.
      - cbn. eauto. }
    destruct EO as (po & mm & EO). assert (AO : exists o, ac_output a = Some o) by (destruct O as [-> | ->]; eauto). destruct AO as (o & AO). rewrite AO in *. rewrite EO.
    assert (IA : is_allowed a = match ac_allow a with Some x => x =? 1 | None => false end) by (unfold is_allowed; rewrite M; destruct (ac_allow a); reflexivity).
    assert (PF : match ac_force a with Some 1 => pl_force (place_of c l s) | _ => pl_allow (place_of c l s) end =
                 [Goto (match ac_force a with Some 1 => am_to_l2 (tc_am c) | _ => am_to_vlan (tc_am c) end)]).
    { unfold place_of. destruct (ts_port s); cbn; destruct (ac_force a) as [[|[| |]|]|]; reflexivity. }
    destruct (negb (is_allowed a) && po) eqn:NA; cbn [fst app].
    + apply andb_true_iff in NA as [NA _]. apply negb_true_iff in NA. rewrite IA in NA.
      replace (match ac_allow a with Some 1 => Some (match ac_force a with Some 1 => am_to_l2 (tc_am c) | _ => am_to_vlan (tc_am c) end) | _ => None end) with (@None Z)
        by (revert NA; destruct (ac_allow a) as [[|[| |]|]|]; intros NA; reflexivity || discriminate NA). destruct (fst (fst (plain_items items))); reflexivity.
    + rewrite app_nil_r. cbn [app]. rewrite PF, IA.
      replace (match ac_allow a with Some 1 => Some (match ac_force a with Some 1 => am_to_l2 (tc_am c) | _ => am_to_vlan (tc_am c) end) | _ => None end)
        with (if match ac_allow a with Some x => x =? 1 | None => false end then Some (match ac_force a with Some 1 => am_to_l2 (tc_am c) | _ => am_to_vlan (tc_am c) end) else None)
        by (destruct (ac_allow a) as [[|[| |]|]|]; reflexivity).
      destruct (match ac_allow a with Some x => x =? 1 | None => false end), (fst (fst (plain_items items))); reflexivity.
Qed.
Lemma meters_skip : forall gr live m l p, (forall i, In i m -> exists n, i = MeterI n) -> exec_insts gr live (m ++ l) p = exec_insts gr live l p.
Proof.
  intros gr live. induction m as [|i m IH]; intros l p H; [reflexivity|]. destruct (H i (or_introl eq_refl)) as (n & ->). cbn. apply IH. intros j J. apply H. right. exact J.
Qed.
Lemma meters_apply : forall m, (forall i, In i m -> exists n, i = MeterI n) -> applies m = 0%nat.
Proof.
  induction m as [|i m IH]; intros H; [reflexivity|]. destruct (H i (or_introl eq_refl)) as (n & ->). unfold applies in *. cbn. apply IH. intros j J. apply H. right. exact J.
Qed.
Lemma applies_app : forall a b, applies (a ++ b) = (applies a + applies b)%nat.
Proof. intros a b. unfold applies. rewrite filter_app, app_length. reflexivity. Qed.
Lemma source_exec : forall gr live c l s items r tid i p, only_tunnel r tid -> Forall item_sound items ->
  exists q, exec_insts gr live (f_inst (source_flow c l s items r i)) p = (fst (perform live items p), q, goes_on c r) /\
            (goes_on c r <> None -> q = snd (perform live items p)).
Proof.
  intros gr live c l s items r tid i p O H. destruct (plain_exec gr live items p H) as [NI X]. destruct (source_inst c l s items r tid O NI) as (m & MM & E).
  cbn [source_flow flow_of f_inst rule_add tb_add_cookie fm_inst]. rewrite E.
  set (g := match goes_on c r with Some t => [Goto t] | None => [] end). set (acts := fst (fst (plain_items items))) in *.
  assert (AP : (applies ((m ++ g) ++ match acts with [] => [] | _ => [Apply acts] end) <= 1)%nat).
  { rewrite !applies_app, (meters_apply m MM). unfold g. destruct (goes_on c r), acts; cbn; lia. }
  destruct (exec_insts gr live (trim ((m ++ g) ++ match acts with [] => [] | _ => [Apply acts] end)) p) as [[es q] nx] eqn:ET.
  apply trim_sem in ET as (q0 & ET & N); [|exact AP]. rewrite <- app_assoc, (meters_skip gr live m _ p MM) in ET.
  assert (Y : exec_insts gr live (g ++ match acts with [] => [] | _ => [Apply acts] end) p = (fst (perform live items p), snd (perform live items p), goes_on c r)).
  { assert (EA : exec_insts gr live (match acts with [] => [] | _ => [Apply acts] end) p = (fst (perform live items p), snd (perform live items p), None)).
    { rewrite apply_exec, X. reflexivity. }
    unfold g. destruct (goes_on c r) as [t|]; cbn [app exec_insts]; rewrite EA; reflexivity. }
  rewrite Y in ET. injection ET as <- <- <-. exists q. split; [reflexivity|exact N].
Qed.
Lemma source_no_group : forall c l s items r tid i, only_tunnel r tid -> Forall item_sound items -> any_group (source_flow c l s items r i) = false.
Proof.
  intros c l s items r tid i O H. unfold any_group, flow_actions. destruct (existsb _ _) eqn:E; [|reflexivity]. exfalso. apply existsb_exists in E as (a & I & G).
  cbn [source_flow flow_of f_inst rule_add tb_add_cookie fm_inst] in I. apply trim_actions_sub in I.
  destruct (plain_exec (fun _ => None) (fun _ => true) items (mkPacket 0 [] (fun _ => None)) H) as [NI _].
  destruct (source_inst c l s items r tid O NI) as (m & MM & EI). rewrite EI, !flat_map_app, !in_app_iff in I. destruct I as [[I|I]|I].
  - apply in_flat_map in I as (x & I & J). destruct (MM x I) as (n & ->). destruct J.
  - destruct (goes_on c r); destruct I.
  - assert (I' : In a (fst (fst (plain_items items)))). { destruct (fst (fst (plain_items items))) as [|z zs]; [destruct I|]. cbn in I. rewrite app_nil_r in I. exact I. }
    assert (X := item_sound_out items ltac:(eapply Forall_impl; [|exact H]; intros y [_ Y]; exact Y) a I'). destruct a; try discriminate G. destruct X.
Qed.

Section Source.
  Variables (c : tconf) (stack_ports : list Z) (ls : list tacl) (name : Z) (me : snode) (w : tworld).
  Hypothesis U : up_to_date c stack_ports ls name me w.
  Hypothesis NAME : sn_name me = name.
  Hypothesis NT : tb_id (tc_table c) <> OFPTT_ALL.
  Hypothesis MEAN : forall l d l' d', In l ls -> In d (tl_dests l) -> In l' ls -> In d' (tl_dests l') -> td_id d = td_id d' -> d = d'.
  Hypothesis ONCE : forall l r, In l ls -> In r (al_rules (tl_acl l)) -> fields_once r.

  Lemma src_slot : forall l d s r i, In l ls -> In d (tl_dests l) -> In s (tl_sources l) -> ts_dp s = name -> fwd_updated me d s = true ->
    only_tunnel r (td_id d) -> alone c ls l s -> first_at r i (rules_at c l s) -> fields_once r -> (ts_port s = None -> any_port r) ->
    Forall item_sound (fwd_rules c me d s) ->
    forall e, at_slot (tb_id (tc_table c)) (FILTER_PRIORITY - Z.of_nat i) (entry_match s r) e ->
    (In e (sw_flows (tw_sw w)) <-> e = source_flow c l s (fwd_rules c me d s) r i).
  Proof.
    intros l d s r i L D S SN F O AL FA OR NP SO.
    assert (CONT : forall dy, rule_add (Some (tun_of (dyn_update c me l dy) s)) (place_of c l s) r (FILTER_PRIORITY - Z.of_nat i) =
                              rule_add (Some (fun _ => fwd_rules c me d s)) (place_of c l s) r (FILTER_PRIORITY - Z.of_nat i)).
    { intros dy. unfold rule_add. rewrite (only_tunnel_tun r (td_id d) (tun_of (dyn_update c me l dy) s) (fun _ => fwd_rules c me d s) (place_of c l s) O); [reflexivity|].
      unfold tun_of. rewrite (dyn_update_get c me l dy d s D); auto. intros d' D' E. apply (MEAN l d' l d); auto. }
    assert (SINGLE : forall l' s', single (source_place c l' s')) by (intros; right; reflexivity).
    assert (RIN : match ts_port s with Some n => In (exact InPort n) (entry_match s r) | None => forall v, ~ In (exact InPort v) (entry_match s r) end).
    { rewrite <- (place_entry c l s r). unfold place_of. destruct (ts_port s) as [n|] eqn:EP.
      - apply rule_match_in; auto. unfold anchor. cbn. rewrite EP. left. auto.
      - intros v I. apply rule_match_in in I; [|left; reflexivity|exact OR]. cbn in I. destruct I as (o & I). exact (NP eq_refl o _ I). }
    apply (slot_held c stack_ports ls name me (FILTER_PRIORITY - Z.of_nat i) (entry_match s r) (source_flow c l s (fwd_rules c me d s) r i)).
    - intros acls acls' ms E EL. split.
      + intros x X CA (A1 & A2 & A3).
        destruct (update_writes c me acls acls' ms E x X) as [[H _]|[(l' & d' & s' & (_ & _ & _ & _ & _ & ->))|[(l' & d' & s' & (_ & _ & _ & _ & ->))|(l' & dy & d' & s' & pl & r' & prio & (L' & D' & S' & F' & N' & EX & _ & PH & PP & K))]]].
        * congruence.
        * exfalso. cbn [fm_prio tunnel_add tb_add tb_write] in A2. unfold OVERRIDE_PRIORITY in A2. lia.
        * exfalso. cbn [fm_prio tunnel_add tb_add tb_write] in A2. unfold OVERRIDE_PRIORITY in A2. lia.
        * assert (L2 : In l' ls) by (rewrite <- EL; apply in_map_iff; exists (l', dy); auto). subst x.
          cbn [fm_match fm_prio rule_add tb_add_cookie] in A2, A3. unfold alone in AL. destruct (ts_port s) as [n|] eqn:EP.
          -- destruct AL as (NDP & EXF & ALL). destruct K as [(M & -> & R & ->)|(M & _)]; [|rewrite NDP in M; discriminate].
             destruct (ALL l' s' L2 S' ltac:(congruence)) as [NN SAME]. destruct (ts_port s') as [n'|] eqn:EP'; [|contradiction].
             assert (R' : In r' (al_rules (tl_acl l'))) by (unfold get_tunnel_rules in R; apply filter_In in R; apply R).
             assert (IN' : In (exact InPort n') (rule_match (source_place c l' s') r')).
             { apply rule_match_in; [apply SINGLE|exact (ONCE l' r' L2 R')|]. unfold anchor. cbn. rewrite EP'. left. auto. }
             rewrite A3 in IN'. rewrite <- (place_entry c l s r) in IN'. unfold place_of in IN'. rewrite EP in IN'. apply rule_match_in in IN'; [|apply SINGLE|exact OR].
             unfold anchor in IN'. cbn in IN'. rewrite EP in IN'. destruct IN' as [[_ IN']|[IN' _]]; [|contradiction IN'; reflexivity]. injection IN' as ->.
             assert (l' = l) by (apply SAME; reflexivity). subst l'. assert (s' = s) by (destruct s, s'; cbn in *; congruence). subst s'. cbn [pl_exact source_place] in A2.
             rewrite EXF in A2. unfold rules_at in FA. rewrite EP in FA. assert (IX := first_index _ _ _ FA).
             assert (r' = r). { apply (index_inj (al_rules (tl_acl l))); [exact R'|apply (nth_error_In _ _ (proj1 FA))|lia]. } subst r'.
             specialize (CONT dy). unfold source_flow. rewrite <- CONT. unfold place_of. rewrite EP, IX. reflexivity.
          -- destruct AL as (IDP & ALL). destruct (ALL l' s' L2 S' ltac:(congruence)) as [-> ->]. destruct K as [(M & _)|(M & -> & j & NJ & ->)].
             { rewrite (proj2 (mem_spec _ acl_eqb acl_eqb_spec _ _) IDP) in M. discriminate. }
             cbn [pl_exact dp_place] in A2. assert (j = i) by lia. subst j. unfold rules_at in FA. rewrite EP in FA. destruct FA as [FA _]. unfold rules_of in FA. assert (r' = r) by congruence. subst r'.
             specialize (CONT dy). unfold source_flow. rewrite <- CONT. unfold place_of. rewrite EP. reflexivity.
      + rewrite <- EL in L. apply in_map_iff in L as ((l0 & dy) & E0 & L). cbn in E0. subst l0.
        exists (rule_add (Some (tun_of (dyn_update c me l dy) s)) (place_of c l s) r (FILTER_PRIORITY - Z.of_nat i)). split.
        * apply (src_written c me acls acls' ms E _ l dy d s (place_of c l s) r (FILTER_PRIORITY - Z.of_nat i)). unfold src_write, place_of, alone, rules_at in *.
          destruct (ts_port s) as [n|] eqn:EP.
          -- destruct AL as (NDP & EXF & ALL). repeat (split; [first [assumption|reflexivity|congruence|lia]|]). left. rewrite NDP. split; [reflexivity|]. split; [reflexivity|]. split.
             ++ unfold get_tunnel_rules. apply filter_In. split; [apply (nth_error_In _ _ (proj1 FA))|]. apply (mem_spec _ Z.eqb Z.eqb_eq).
                destruct O as (a & EA & _ & _ & [O|O]); unfold rule_tunnels; rewrite EA, O; cbn; auto.
             ++ rewrite (first_index _ _ _ FA). reflexivity.
          -- destruct AL as (IDP & ALL). repeat (split; [first [assumption|reflexivity|congruence|lia]|]). right. split; [apply (mem_spec _ acl_eqb acl_eqb_spec); exact IDP|]. split; [reflexivity|].
             exists i. split; [apply FA|reflexivity].
        * split; [reflexivity|]. split; [unfold place_of; destruct (ts_port s); reflexivity|]. split.
          -- cbn [fm_prio rule_add tb_add_cookie]. rewrite (place_exact c ls l s AL). reflexivity.
          -- apply place_entry.
    - intros v I. destruct (ts_port s) as [n|] eqn:EP; [|exfalso; exact (RIN v I)]. right. rewrite <- (place_entry c l s r) in I. unfold place_of in I. rewrite EP in I.
      apply rule_match_in in I; [|apply SINGLE|exact OR]. unfold anchor in I. cbn in I. rewrite EP in I. destruct I as [[_ I]|[I _]]; [|contradiction I; reflexivity]. injection I as ->.
      unfold source_ports. apply in_flat_map. exists l. split; [exact L|]. apply in_flat_map. exists s. split; [exact S|]. rewrite SN, Z.eqb_refl, EP. left. reflexivity.
    - exact (source_no_group c l s _ r _ i O SO).
    - exact U.
  Qed.

  (** A frame that the rule decides. *)
  Lemma src_walk : forall live l d s r i pk, In l ls -> In d (tl_dests l) -> In s (tl_sources l) -> ts_dp s = name -> fwd_updated me d s = true ->
    only_tunnel r (td_id d) -> alone c ls l s -> first_at r i (rules_at c l s) -> fields_once r -> (ts_port s = None -> any_port r) ->
    Forall item_sound (fwd_rules c me d s) -> decides_at (tw_sw w) (tb_id (tc_table c)) s r i pk ->
    forall es, walk (tw_sw w) live (tb_id (tc_table c)) pk es <->
      exists es', then_ (tw_sw w) live (goes_on c r) (snd (perform live (fwd_rules c me d s) pk)) es' /\ es = fst (perform live (fwd_rules c me d s) pk) ++ es'.
  Proof.
    intros live l d s r i pk L D S SN F O AL FA OR NP SO [COV DEC].
    assert (SL := src_slot l d s r i L D S SN F O AL FA OR NP SO). set (E := source_flow c l s (fwd_rules c me d s) r i) in *.
    assert (AT : at_slot (tb_id (tc_table c)) (FILTER_PRIORITY - Z.of_nat i) (entry_match s r) E).
    { unfold E, source_flow. split; [cbn; unfold place_of; destruct (ts_port s); reflexivity|]. split.
      - cbn [f_prio flow_of rule_add tb_add_cookie fm_prio]. rewrite (place_exact c ls l s AL). reflexivity.
      - apply place_entry. }
    assert (IE : In E (sw_flows (tw_sw w))) by (apply SL; [exact AT|reflexivity]).
    assert (ME : matches pk (f_match E) = true).
    { destruct AT as (_ & _ & ->). rewrite <- (place_entry c l s r). unfold place_of. destruct (ts_port s) as [n|] eqn:EP.
      - apply rule_matches; [right; reflexivity|exact OR|]. unfold anchor. cbn. rewrite EP. destruct COV as [IN COV]. split; [exists n; cbn; rewrite IN; auto|exact COV].
      - apply rule_matches; [left; reflexivity|exact OR|]. cbn. exact COV. }
    assert (ONE : forall e, hit (sw_flows (tw_sw w)) (tb_id (tc_table c)) pk e -> e = E).
    { intros e (I & ET & M & P). assert (P' := P E IE (proj1 AT) ME). rewrite (proj1 (proj2 AT)) in P'. destruct (DEC e I ET M P') as [D1 D2]. apply SL; [|exact I]. repeat split; assumption. }
    assert (HE : hit (sw_flows (tw_sw w)) (tb_id (tc_table c)) pk E).
    { split; [exact IE|]. split; [exact (proj1 AT)|]. split; [exact ME|]. intros g I ET M. rewrite (proj1 (proj2 AT)).
      destruct (Z_le_gt_dec (FILTER_PRIORITY - Z.of_nat i) (f_prio g)) as [LE|GT]; [|lia]. destruct (DEC g I ET M LE) as [-> _]. lia. }
    destruct (source_exec (group_lookup (tw_sw w)) live c l s (fwd_rules c me d s) r (td_id d) i pk O SO) as (q & EX & Q).
    intros es. rewrite (walk_decided _ _ _ _ E _ q (goes_on c r) HE ONE EX es). destruct (goes_on c r) as [t|]; [rewrite Q by discriminate; reflexivity|reflexivity].
  Qed.
End Source.
