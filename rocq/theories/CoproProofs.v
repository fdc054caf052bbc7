(** * Lemmas on coprocessor ports *)

From Coq Require Import ZArith List Bool Lia.
From Verif Require Import OpenFlow CoproModel CoproSpec.
Import ListNotations.
Open Scope Z_scope.

Definition flow_ (cfg : copconf) (table prio : Z) (m : fmatch) (inst : list instruction) : flow :=
  mkFlow table prio m (co_cookie cfg) inst 0 0 0.
Definition f_default cfg := flow_ cfg (co_copro cfg) (co_lowest cfg) [] [Goto (co_dst cfg)].
Definition f_divert cfg n := flow_ cfg (co_vlan cfg) (co_low cfg) [exact InPort n] [Goto (co_copro cfg)].
Definition f_inject cfg base n := flow_ cfg (co_copro cfg) (co_high cfg) [exact VlanVid (cop_vid (base + n))] [Apply [PopVlan; Output n 0]].

Lemma lor_add : forall v, 0 <= v < 4096 -> Z.lor v OFPVID_PRESENT = v + 4096.
Proof.
  intros v H. unfold OFPVID_PRESENT. symmetry. apply Z.add_nocarry_lxor with (a := v) (b := 4096) in H as X || idtac.
  rewrite <- Z.lxor_lor. 1: rewrite Z.add_nocarry_lxor; [reflexivity|].
  all: apply Z.bits_inj'; intros i Hi; rewrite Z.land_spec, Z.bits_0; change 4096 with (2 ^ 12);
    rewrite Z.pow2_bits_eqb by lia; destruct (Z.eqb_spec 12 i) as [<-|]; [|apply andb_false_r];
    rewrite andb_true_r; apply Z.bits_above_log2; [lia|]; destruct (Z.eq_dec v 0) as [->|]; [cbn; lia|];
    apply Z.log2_lt_pow2; [lia|change (2 ^ 12) with 4096; lia].
Qed.
Lemma cop_vid_inj : forall a b, 0 <= a < 4096 -> 0 <= b < 4096 -> cop_vid a = cop_vid b -> a = b.
Proof. intros a b A B H. unfold cop_vid in H. rewrite !lor_add in H by assumption. lia. Qed.

Lemma matches_exact : forall pk f v, matches pk [exact f v] = match pk_get pk f with Some x => x =? v | None => false end.
Proof.
  intros. unfold matches, exact. cbn [forallb item_matches]. destruct (pk_get pk f) as [x|]; [|reflexivity].
  rewrite !Z.land_m1_r. apply andb_true_r.
Qed.
Lemma fmatch_eqb_spec : forall a b, fmatch_eqb a b = true <-> a = b.
Proof. intros. unfold fmatch_eqb. destruct (fmatch_eq_dec a b); split; congruence. Qed.

(** ** What messages do to one flow *)

Lemma in_add : forall fm fs f, fm_cmd fm = FAdd ->
  (In f (apply_flowmod fm fs) <-> f = flow_of fm \/ In f fs /\ same_slot (fm_table fm) (fm_prio fm) (fm_match fm) f = false).
Proof.
  intros fm fs f E. unfold apply_flowmod. rewrite E, in_app_iff, filter_In, negb_true_iff. cbn. intuition.
Qed.
Lemma same_slot_self : forall f g, same_slot (f_table g) (f_prio g) (f_match g) f = true <->
  f_table f = f_table g /\ f_prio f = f_prio g /\ f_match f = f_match g.
Proof.
  intros. unfold same_slot. rewrite !andb_true_iff, !Z.eqb_eq, fmatch_eqb_spec. tauto.
Qed.

(** one of the rules of coprocessors *)
Definition plain_flow (f : flow) : Prop :=
  (forall a, In a (flow_actions f) -> match a with GroupAct _ => False | _ => True end)
  /\ (forall i, In i (f_inst f) -> match i with MeterI _ => False | _ => True end).
Lemma plain_nogroup : forall f g, plain_flow f -> uses_group g f = false.
Proof.
  intros f g [H _]. unfold uses_group. apply not_true_is_false. intros E. apply existsb_exists in E. destruct E as [a [Ha E]].
  specialize (H a Ha). destruct a; try discriminate. exact H.
Qed.
Lemma plain_nogroups : forall f, plain_flow f -> existsb (fun a => match a with GroupAct _ => true | _ => false end) (flow_actions f) = false.
Proof.
  intros f [H _]. apply not_true_is_false. intros E. apply existsb_exists in E. destruct E as [a [Ha E]].
  specialize (H a Ha). destruct a; try discriminate. exact H.
Qed.
Lemma plain_nometer : forall f g, plain_flow f -> uses_meter g f = false.
Proof.
  intros f g [_ H]. unfold uses_meter. apply not_true_is_false. intros E. apply existsb_exists in E. destruct E as [a [Ha E]].
  specialize (H a Ha). destruct a; try discriminate. exact H.
Qed.
Lemma plain_nometers : forall f, plain_flow f -> existsb (fun i => match i with MeterI _ => true | _ => false end) (f_inst f) = false.
Proof.
  intros f [_ H]. apply not_true_is_false. intros E. apply existsb_exists in E. destruct E as [a [Ha E]].
  specialize (H a Ha). destruct a; try discriminate. exact H.
Qed.

Section Copro.
  Variable cfg : copconf.
  Hypothesis OK : cop_ok cfg.

  (** a rule that other messages leave alone *)
  Definition ours (f : flow) : Prop :=
    plain_flow f /\
    (f_table f = co_copro cfg \/
     f_table f = co_vlan cfg /\ f_prio f = co_low cfg /\ exists c base, In (c, Some base) (co_ports cfg) /\ f_match f = [exact InPort c]).
  Lemma other_keeps : forall m s f, elsewhere cfg m -> ours f -> In f (sw_flows s) -> In f (sw_flows (apply_msg m s)).
  Proof.
    intros m s f E [Pl O] H. destruct m as [fm|c g|c id b| | | | |]; cbn; auto.
    - cbn in E. destruct E as (E1 & E2 & E3 & E4).
      assert (X : fm_table fm <> f_table f \/ fm_table fm = co_vlan cfg /\ f_table f = co_vlan cfg /\ f_prio f = co_low cfg /\
                  exists c base, In (c, Some base) (co_ports cfg) /\ f_match f = [exact InPort c]).
      { destruct O as [O|(O1 & O2 & O3)]; [left; congruence|]. destruct (Z.eq_dec (fm_table fm) (co_vlan cfg)); [right; auto|left; congruence]. }
      assert (NA : table_sel (fm_table fm) f = true -> fm_table fm = f_table f).
      { unfold table_sel. intros T. apply orb_true_iff in T. destruct T as [T|T]; apply Z.eqb_eq in T; congruence. }
      destruct (fm_cmd fm) eqn:C; unfold apply_flowmod; rewrite C.
      + apply in_app_iff. left. apply filter_In. split; [exact H|]. apply negb_true_iff. apply not_true_is_false. intros S.
        unfold same_slot in S. apply andb_prop in S. destruct S as [S S3]. apply andb_prop in S. destruct S as [S1 S2].
        apply Z.eqb_eq in S1, S2. apply fmatch_eqb_spec in S3.
        destruct X as [X|(X1 & X2 & X3 & c & base & X4 & X5)]; [congruence|].
        destruct (E4 X1 c base X4) as [Y|Y]; congruence.
      + apply in_map_iff. exists f. split; [|exact H]. destruct (table_sel (fm_table fm) f && covers (fm_match fm) (f_match f)) eqn:S; [|reflexivity].
        exfalso. apply andb_prop in S. destruct S as [S1 S2]. apply NA in S1.
        destruct X as [X|(X1 & X2 & X3 & c & base & X4 & X5)]; [congruence|]. rewrite X5 in S2. rewrite (E4 X1 c base X4) in S2. discriminate.
      + apply in_map_iff. exists f. split; [|exact H]. destruct (same_slot (fm_table fm) (fm_prio fm) (fm_match fm) f) eqn:S; [|reflexivity].
        exfalso. unfold same_slot in S. apply andb_prop in S. destruct S as [S S3]. apply andb_prop in S. destruct S as [S1 S2].
        apply Z.eqb_eq in S1, S2. apply fmatch_eqb_spec in S3.
        destruct X as [X|(X1 & X2 & X3 & c & base & X4 & X5)]; [congruence|].
        destruct (E4 X1 c base X4) as [Y|Y]; congruence.
      + apply filter_In. split; [exact H|]. apply negb_true_iff, not_true_is_false. intros D. unfold del_hits in D. rewrite C in D.
        apply andb_prop in D. destruct D as [D _]. apply andb_prop in D. destruct D as [S1 S2]. apply NA in S1.
        destruct X as [X|(X1 & X2 & X3 & c & base & X4 & X5)]; [congruence|]. rewrite X5 in S2. rewrite (E4 X1 c base X4) in S2. discriminate.
      + apply filter_In. split; [exact H|]. apply negb_true_iff, not_true_is_false. intros D. unfold del_hits in D. rewrite C in D.
        apply andb_prop in D. destruct D as [D _]. apply andb_prop in D. destruct D as [D S3]. apply andb_prop in D. destruct D as [S1 S2].
        apply NA in S1. apply Z.eqb_eq in S2. apply fmatch_eqb_spec in S3.
        destruct X as [X|(X1 & X2 & X3 & c & base & X4 & X5)]; [congruence|].
        destruct (E4 X1 c base X4) as [Y|Y]; congruence.
    - destruct c; cbn; [destruct (existsb _ _)| |destruct (g_id g =? OFPG_ALL)]; cbn; auto; apply filter_In; (split; [exact H|]);
        apply negb_true_iff; [apply plain_nogroups|apply plain_nogroup]; exact Pl.
    - destruct c; cbn; [destruct (existsb _ _)| |destruct (id =? OFPM_ALL)]; cbn; auto; apply filter_In; (split; [exact H|]);
        apply negb_true_iff; [apply plain_nometers|apply plain_nometer]; exact Pl.
  Qed.
  (** nothing else gets in *)
  Lemma other_adds : forall m s f, elsewhere cfg m -> In f (sw_flows (apply_msg m s)) ->
    (exists g, In g (sw_flows s) /\ f_table g = f_table f /\ f_match g = f_match f /\ f_prio g = f_prio f /\ (g = f \/ f_table f <> co_copro cfg /\ ~ In (Goto (co_copro cfg)) (f_inst f)))
    \/ f_table f <> co_copro cfg /\ ~ In (Goto (co_copro cfg)) (f_inst f).
  Proof.
    intros m s f E H.
    assert (Same : In f (sw_flows s) -> exists g, In g (sw_flows s) /\ f_table g = f_table f /\ f_match g = f_match f /\ f_prio g = f_prio f /\ (g = f \/ f_table f <> co_copro cfg /\ ~ In (Goto (co_copro cfg)) (f_inst f))).
    { intros X. exists f. repeat split; auto. }
    destruct m as [fm|c g|c id b| | | | |]; cbn in H; auto.
    - cbn in E. destruct E as (E1 & E2 & E3 & E4). unfold apply_flowmod in H. destruct (fm_cmd fm) eqn:C.
      + apply in_app_iff in H. destruct H as [H|[<-|[]]]; [apply filter_In in H; left; apply Same, H|]. right. cbn. auto.
      + apply in_map_iff in H. destruct H as [g [Eg Hg]]. destruct (_ && _) eqn:S; [|subst; auto]. left. exists g. subst f. cbn. repeat split; auto.
        right. split; [|exact E3]. apply andb_prop in S. destruct S as [S _]. unfold table_sel in S. apply orb_true_iff in S.
        destruct S as [S|S]; apply Z.eqb_eq in S; congruence.
      + apply in_map_iff in H. destruct H as [g [Eg Hg]]. destruct (same_slot _ _ _ g) eqn:S; [|subst; auto]. left. exists g. subst f. cbn. repeat split; auto.
        right. split; [|exact E3]. unfold same_slot in S. apply andb_prop in S. destruct S as [S _]. apply andb_prop in S. destruct S as [S _].
        apply Z.eqb_eq in S. congruence.
      + apply filter_In in H. left. apply Same, H.
      + apply filter_In in H. left. apply Same, H.
    - destruct c; cbn in H; [destruct (existsb _ _)| |destruct (g_id g =? OFPG_ALL)]; cbn in H; auto; apply filter_In in H; left; apply Same, H.
    - destruct c; cbn in H; [destruct (existsb _ _)| |destruct (id =? OFPM_ALL)]; cbn in H; auto; apply filter_In in H; left; apply Same, H.
  Qed.

  (** nor does the place of a rule that diverts frames change hands *)
  Definition divert_slot (f : flow) : Prop :=
    f_table f = co_vlan cfg /\ f_prio f = co_low cfg /\ exists c base, In (c, Some base) (co_ports cfg) /\ f_match f = [exact InPort c].
  Lemma other_slot : forall m s f, elsewhere cfg m -> divert_slot f -> In f (sw_flows (apply_msg m s)) -> In f (sw_flows s).
  Proof.
    intros m s f E (D1 & D2 & c & base & D3 & D4) H.
    destruct m as [fm|c' g|c' id b| | | | |]; cbn in H; auto.
    - cbn in E. destruct E as (E1 & E2 & E3 & E4). unfold apply_flowmod in H. destruct (fm_cmd fm) eqn:C.
      + apply in_app_iff in H. destruct H as [H|[<-|[]]]; [apply filter_In in H; apply H|]. exfalso. cbn in *.
        destruct (E4 D1 c base D3); contradiction.
      + apply in_map_iff in H. destruct H as [g [Eg Hg]]. destruct (_ && _) eqn:S; [|subst; auto]. exfalso. subst f. cbn in *.
        apply andb_prop in S. destruct S as [S1 S2]. unfold table_sel in S1. apply orb_true_iff in S1.
        destruct S1 as [S1|S1]; apply Z.eqb_eq in S1; [congruence|]. rewrite D4 in S2. rewrite (E4 ltac:(congruence) c base D3) in S2. discriminate.
      + apply in_map_iff in H. destruct H as [g [Eg Hg]]. destruct (same_slot _ _ _ g) eqn:S; [|subst; auto]. exfalso. subst f. cbn in *.
        unfold same_slot in S. apply andb_prop in S. destruct S as [S S3]. apply andb_prop in S. destruct S as [S1 S2].
        apply Z.eqb_eq in S1, S2. apply fmatch_eqb_spec in S3. destruct (E4 ltac:(congruence) c base D3); congruence.
      + apply filter_In in H. apply H.
      + apply filter_In in H. apply H.
    - destruct c'; cbn in H; [destruct (existsb _ _)| |destruct (g_id g =? OFPG_ALL)]; cbn in H; auto; apply filter_In in H; apply H.
    - destruct c'; cbn in H; [destruct (existsb _ _)| |destruct (id =? OFPM_ALL)]; cbn in H; auto; apply filter_In in H; apply H.
  Qed.

  (** ** The rules *)

  Definition is_copro (c base : Z) : Prop := In (c, Some base) (co_ports cfg).
  Definition is_port (n : Z) : Prop := In n (map fst (co_ports cfg)).

  Lemma default_ours : ours (f_default cfg).
  Proof. split; [|left; reflexivity]. split; cbn; [intros a []|intros i [<-|[]]; exact I]. Qed.
  Lemma inject_ours : forall base n, ours (f_inject cfg base n).
  Proof.
    intros. split; [|left; reflexivity]. split; cbn; [intros a [<-|[<-|[]]]; exact I|intros i [<-|[]]; exact I].
  Qed.
  Lemma divert_ours : forall c base, is_copro c base -> ours (f_divert cfg c).
  Proof.
    intros c base H. split.
    - split; cbn; [intros a []|intros i [<-|[]]; exact I].
    - right. cbn. repeat split. exists c, base. auto.
  Qed.

  (** what the tables hold *)
  Record cinv (fs : list flow) : Prop := {
    ci_default : In (f_default cfg) fs;
    ci_copro : forall f, In f fs -> f_table f = co_copro cfg ->
      f = f_default cfg \/ exists c base n, is_copro c base /\ is_port n /\ f = f_inject cfg base n;
    ci_vlan : forall f, In f fs -> In (Goto (co_copro cfg)) (f_inst f) ->
      exists c base, is_copro c base /\ f_table f = co_vlan cfg /\ f = f_divert cfg c;
    ci_slot : forall f, In f fs -> divert_slot f -> exists c, f = f_divert cfg c
  }.
  (** the rules of a coprocessor *)
  Definition set_up (fs : list flow) (c base : Z) : Prop :=
    In (f_divert cfg c) fs /\ forall n, is_port n -> In (f_inject cfg base n) fs.

  (** adding one of the rules *)
  Lemma tables_distinct : co_vlan cfg <> co_copro cfg /\ co_src cfg <> co_copro cfg /\ co_src cfg <> co_vlan cfg.
  Proof.
    pose proof (ok_tables _ OK) as T. inversion T as [|? ? T1 T2]; subst. inversion T2 as [|? ? T3 _]; subst. cbn in *.
    repeat split; intros E; [apply T1|apply T3|apply T1]; rewrite ?E; auto.
  Qed.

  Definition one_of (f : flow) : Prop :=
    (exists c base, is_copro c base /\ f = f_divert cfg c)
    \/ (exists c, f = flow_ cfg (co_src cfg) (co_high cfg) [exact InPort c] [Goto (co_output cfg)])
    \/ (exists c base n, is_copro c base /\ is_port n /\ f = f_inject cfg base n).
  Definition wants (f : flow) : Prop :=
    f = f_default cfg \/ (exists c base, is_copro c base /\ f = f_divert cfg c) \/ (exists c base n, is_copro c base /\ is_port n /\ f = f_inject cfg base n).
  (** of two of the rules, only one's place is the other's if they are the same *)
  Lemma no_clash : forall f g, one_of f -> wants g -> same_slot (f_table f) (f_prio f) (f_match f) g = true -> g = f.
  Proof.
    intros f g Hf Hg S. apply same_slot_self in S. destruct S as (S1 & S2 & S3). destruct tables_distinct as (D1 & D2 & D3).
    destruct Hf as [(c & b & Hc & ->)|[(c & ->)|(c & b & n & Hc & Hn & ->)]];
      destruct Hg as [->|[(c' & b' & Hc' & ->)|(c' & b' & n' & Hc' & Hn' & ->)]]; cbn in *; try congruence.
    { unfold exact in S3. unfold f_divert. injection S3 as ->. reflexivity. }
    assert (E : b + n = b' + n').
    { injection S3 as S3. apply cop_vid_inj in S3; [lia| |]; [pose proof (ok_vids _ OK c' b' n' Hc' Hn')|pose proof (ok_vids _ OK c b n Hc Hn)]; lia. }
    pose proof (ok_one _ OK c b n c' b' n' Hc Hc' Hn Hn' E) as E2. unfold f_inject. rewrite <- E, E2. reflexivity.
  Qed.
  Lemma add_one : forall f s m, one_of f -> m = cop_add cfg (f_table f) (f_prio f) (f_match f) (f_inst f) -> 
    f = flow_ cfg (f_table f) (f_prio f) (f_match f) (f_inst f) -> co_output cfg <> co_copro cfg ->
    cinv (sw_flows s) ->
    cinv (sw_flows (apply_msg m s)) /\ In f (sw_flows (apply_msg m s))
    /\ (forall g, wants g -> In g (sw_flows s) -> In g (sw_flows (apply_msg m s))).
  Proof.
    intros f s m Hf Em Ef No [I1 I2 I3 I4]. subst m. unfold cop_add. cbn [apply_msg sw_flows].
    set (fm := mkFlowMod _ _ _ _ _ _ _ _ _ _ _).
    assert (Ff : flow_of fm = f) by (symmetry; exact Ef).
    assert (Keep : forall g, wants g -> In g (sw_flows s) -> In g (apply_flowmod fm (sw_flows s))).
    { intros g W Hg. apply in_add; [reflexivity|]. rewrite Ff.
      destruct (same_slot (fm_table fm) (fm_prio fm) (fm_match fm) g) eqn:S; [left; apply (no_clash f g Hf W S)|right; auto]. }
    assert (New : In f (apply_flowmod fm (sw_flows s))) by (apply in_add; [reflexivity|left; symmetry; exact Ff]).
    split; [|split; [exact New|exact Keep]]. constructor.
    - apply Keep; [left; reflexivity|exact I1].
    - intros g Hg T. apply in_add in Hg; [|reflexivity]. destruct Hg as [->|[Hg _]]; [|apply I2; auto].
      rewrite Ff in *. destruct tables_distinct as (D1 & D2 & D3).
      destruct Hf as [(c & b & Hc & ->)|[(c & ->)|(c & b & n & Hc & Hn & ->)]]; cbn in T; [congruence|congruence|].
      right. exists c, b, n. auto.
    - intros g Hg T. apply in_add in Hg; [|reflexivity]. destruct Hg as [->|[Hg _]]; [|apply I3; auto].
      rewrite Ff in *. destruct Hf as [(c & b & Hc & ->)|[(c & ->)|(c & b & n & Hc & Hn & ->)]]; cbn in T.
      + exists c, b. auto.
      + destruct T as [T|[]]. injection T as T. congruence.
      + destruct T as [T|[]]. discriminate.
    - intros g Hg D. apply in_add in Hg; [|reflexivity]. destruct Hg as [->|[Hg _]]; [|apply I4; auto].
      rewrite Ff in *. destruct tables_distinct as (D1 & D2 & D3). destruct D as (T & _).
      destruct Hf as [(c & b & Hc & ->)|[(c & ->)|(c & b & n & Hc & Hn & ->)]]; cbn in T; [exists c; reflexivity|congruence|congruence].
  Qed.

  Let NoBack := ok_next _ OK.

  Lemma add_injects : forall c base l s, is_copro c base -> (forall q, In q l -> In q (co_ports cfg)) -> cinv (sw_flows s) ->
    let s' := apply_msgs (map (fun q => cop_inject cfg base (fst q)) l) s in
    cinv (sw_flows s') /\ (forall q, In q l -> In (f_inject cfg base (fst q)) (sw_flows s'))
    /\ (forall g, wants g -> In g (sw_flows s) -> In g (sw_flows s')).
  Proof.
    intros c base l. induction l as [|q l IH]; intros s Hc Hl I; cbn zeta; [repeat split; auto; try apply I; intros q []|].
    cbn [map apply_msgs fold_left]. fold (apply_msgs (map (fun q => cop_inject cfg base (fst q)) l) (apply_msg (cop_inject cfg base (fst q)) s)).
    assert (Hq : is_port (fst q)) by (apply in_map, Hl; left; reflexivity).
    destruct (add_one (f_inject cfg base (fst q)) s (cop_inject cfg base (fst q))) as (A & B & C); auto.
    { right; right. exists c, base, (fst q). auto. }
    { apply NoBack. }
    destruct (IH (apply_msg (cop_inject cfg base (fst q)) s) Hc (fun x H => Hl x (or_intror H)) A) as (A' & B' & C').
    split; [exact A'|]. split.
    - intros x [<-|Hx]; [|apply B', Hx]. apply C'; [|exact B]. right; right. exists c, base, (fst q). auto.
    - intros g W Hg. apply C'; auto.
  Qed.

  Lemma add_port_inv : forall p s, In p (co_ports cfg) -> cinv (sw_flows s) ->
    cinv (sw_flows (apply_msgs (cop_add_port cfg p) s))
    /\ (forall base, snd p = Some base -> set_up (sw_flows (apply_msgs (cop_add_port cfg p) s)) (fst p) base)
    /\ (forall g, wants g -> In g (sw_flows s) -> In g (sw_flows (apply_msgs (cop_add_port cfg p) s))).
  Proof.
    intros [c o] s Hp I. unfold cop_add_port. cbn [fst snd]. destruct o as [base|]; [|cbn; repeat split; try apply I; auto; discriminate].
    assert (Hc : is_copro c base) by exact Hp.
    cbn [apply_msgs fold_left].
    destruct (add_one (f_divert cfg c) s (cop_divert cfg c)) as (A & B & C); auto.
    { left. exists c, base. auto. } { apply NoBack. }
    destruct (add_one (flow_ cfg (co_src cfg) (co_high cfg) [exact InPort c] [Goto (co_output cfg)]) (apply_msg (cop_divert cfg c) s) (cop_src cfg c)) as (A2 & _ & C2); auto.
    { right; left. exists c. auto. } { apply NoBack. }
    destruct (add_injects c base (co_ports cfg) (apply_msg (cop_src cfg c) (apply_msg (cop_divert cfg c) s)) Hc (fun _ H => H) A2) as (A3 & B3 & C3).
    cbn zeta in A3, B3, C3. split; [exact A3|]. split.
    - intros b E. injection E as <-. split.
      + apply C3; [right; left; exists c, base; auto|]. apply C2; [right; left; exists c, base; auto|exact B].
      + intros n Hn. unfold is_port in Hn. apply in_map_iff in Hn. destruct Hn as [q [<- Hq]]. apply B3, Hq.
    - intros g W Hg. apply C3, C2, C; auto.
  Qed.

  Lemma wants_ours : forall g, wants g -> ours g.
  Proof.
    intros g [->|[(c & b & H & ->)|(c & b & n & H & Hn & ->)]]; [apply default_ours|apply (divert_ours c b H)|apply inject_ours].
  Qed.
  Lemma step_inv : forall s e, (match e with CopOther m => elsewhere cfg m | CopUp _ => True end) -> cinv (sw_flows s) ->
    cinv (sw_flows (cop_step cfg s e)) /\ (forall g, wants g -> In g (sw_flows s) -> In g (sw_flows (cop_step cfg s e))).
  Proof.
    intros s [n|m] E I; cbn [cop_step].
    - destruct (find _ _) as [p|] eqn:F; [|auto]. apply find_some in F. destruct F as [F _].
      destruct (add_port_inv p s F I) as (A & _ & C). auto.
    - assert (K : forall g, wants g -> In g (sw_flows s) -> In g (sw_flows (apply_msg m s))) by (intros g W H; apply other_keeps; auto; apply wants_ours, W).
      split; [|exact K]. constructor.
      + apply K; [left; reflexivity|apply I].
      + intros f Hf T. destruct (other_adds m s f E Hf) as [(g & Hg & _ & _ & _ & [->|[N _]])|[N _]]; [|congruence|congruence]. apply (ci_copro _ I); auto.
      + intros f Hf T. destruct (other_adds m s f E Hf) as [(g & Hg & _ & _ & _ & [->|[_ N]])|[_ N]]; [|contradiction|contradiction]. apply (ci_vlan _ I); auto.
      + intros f Hf D. apply (ci_slot _ I); [|exact D]. apply (other_slot m); auto.
  Qed.

  (** at the start nothing is about coprocessors *)
  Lemma start_inv : forall s, fresh_switch cfg s -> cinv (sw_flows (apply_msg (cop_default cfg) s)).
  Proof.
    intros s F. cbn [cop_default cop_add apply_msg sw_flows]. constructor.
    - apply in_add; [reflexivity|left; reflexivity].
    - intros f Hf T. apply in_add in Hf; [|reflexivity]. destruct Hf as [->|[Hf _]]; [left; reflexivity|]. destruct (F f Hf) as (X & _). contradiction.
    - intros f Hf T. apply in_add in Hf; [|reflexivity]. destruct Hf as [->|[Hf _]]; [|destruct (F f Hf) as (_ & X & _); contradiction].
      cbn in T. destruct T as [T|[]]. injection T as T. destruct NoBack. congruence.
    - intros f Hf (D1 & D2 & c & b & D3 & D4). apply in_add in Hf; [|reflexivity]. destruct Hf as [->|[Hf _]].
      + cbn in D1. destruct tables_distinct as (D & _). congruence.
      + destruct (F f Hf) as (_ & _ & X). exfalso. apply (X c b D3); auto.
  Qed.

  Lemma run_inv : forall es s, cop_events cfg es -> fresh_switch cfg s -> cinv (sw_flows (cop_run cfg s es))
    /\ forall c base, is_copro c base -> In (CopUp c) es -> set_up (sw_flows (cop_run cfg s es)) c base.
  Proof.
    intros es s E F. unfold cop_run.
    assert (X : forall es s0, cop_events cfg es -> cinv (sw_flows s0) ->
      cinv (sw_flows (fold_left (cop_step cfg) es s0))
      /\ (forall g, wants g -> In g (sw_flows s0) -> In g (sw_flows (fold_left (cop_step cfg) es s0)))
      /\ forall c base, is_copro c base -> In (CopUp c) es -> set_up (sw_flows (fold_left (cop_step cfg) es s0)) c base).
    { clear E. intros es0. induction es0 as [|e es0 IH]; intros s0 E I; cbn [fold_left]; [repeat split; auto; try apply I; contradiction|].
      inversion E as [|? ? E1 E2]; subst. destruct (step_inv s0 e E1 I) as [A B]. destruct (IH (cop_step cfg s0 e) E2 A) as (A' & B' & C').
      split; [exact A'|]. split; [auto|]. intros c base Hc [->|Hin]; [|apply C'; auto].
      assert (Ff : find (fun p => fst p =? c) (co_ports cfg) = Some (c, Some base)).
      { clear -OK Hc. pose proof (ok_nums _ OK) as N. unfold is_copro in Hc. induction (co_ports cfg) as [|q l IHl]; [contradiction|].
        cbn in *. inversion N as [|? ? N1 N2]; subst. destruct (Z.eqb_spec (fst q) c) as [E|E].
        - destruct Hc as [->|Hc]; [reflexivity|]. exfalso. apply N1. rewrite E. apply (in_map fst) in Hc. exact Hc.
        - destruct Hc as [->|Hc]; [cbn in E; congruence|auto]. }
      cbn [cop_step] in *. rewrite Ff in *. destruct (add_port_inv (c, Some base) s0 Hc I) as (_ & S & _).
      destruct (S base eq_refl) as [S1 S2]. cbn [fst] in S1. split.
      - apply B'; [right; left; exists c, base; auto|exact S1].
      - intros n Hn. apply B'; [right; right; exists c, base, n; auto|apply S2, Hn]. }
    destruct (X es _ E (start_inv s F)) as (A & _ & C). auto.
  Qed.

  (** ** Frames *)

  Lemma decided : forall s live t pk f es q nx, hit (sw_flows s) t pk f -> (forall e, hit (sw_flows s) t pk e -> f_inst e = f_inst f) ->
    exec_insts (group_lookup s) live (f_inst f) pk = (es, q, nx) ->
    forall es', walk s live t pk es' <-> match nx with None => es' = es | Some t' => exists es2, walk s live t' q es2 /\ es' = es ++ es2 end.
  Proof.
    intros s live t pk f es q nx H U E es'. split.
    - intros W. inversion W as [t0 p0 M|t0 p0 e es1 p' He Ee|t0 p0 e es1 p' t' es2 He Ee W']; subst.
      + exfalso. destruct H as (I & T & MM & _). rewrite (M f I T) in MM. discriminate.
      + rewrite (U e He), E in Ee. injection Ee as <- <- ->. reflexivity.
      + rewrite (U e He), E in Ee. injection Ee as <- <- ->. eauto.
    - destruct nx as [t'|].
      + intros (es2 & W & ->). eapply walk_goto; eauto.
      + intros ->. eapply walk_end; eauto.
  Qed.

  Section Frame.
    Variable s : switch.
    Hypothesis I : cinv (sw_flows s).
    Variables c base : Z.
    Hypothesis Hc : is_copro c base.
    Hypothesis S : set_up (sw_flows s) c base.
    Variable pk : packet.
    Hypothesis Hin : pk_in pk = c.
    Hypothesis Hu : unfiltered cfg s pk.

    Lemma divert_hit : hit (sw_flows s) (co_vlan cfg) pk (f_divert cfg c) /\ forall e, hit (sw_flows s) (co_vlan cfg) pk e -> e = f_divert cfg c.
    Proof.
      assert (M : matches pk [exact InPort c] = true) by (rewrite matches_exact; cbn; rewrite Hin; apply Z.eqb_refl).
      split.
      - split; [apply S|]. split; [reflexivity|]. split; [exact M|].
        intros g Hg T Mg. destruct (Hu g Hg T Mg) as [[_ E]|L]; cbn; lia.
      - intros e (H1 & H2 & H3 & H4). specialize (H4 (f_divert cfg c) (proj1 S) eq_refl M). cbn in H4.
        destruct (Hu e H1 H2 H3) as [[Em Ep]|L]; [|lia]. rewrite Hin in Em.
        destruct (ci_slot _ I e H1) as [c' ->].
        { split; [exact H2|]. split; [exact Ep|]. exists c, base. auto. }
        cbn in Em. unfold exact in Em. injection Em as ->. reflexivity.
    Qed.
    Lemma to_copro : forall live es, walk s live (co_vlan cfg) pk es <-> walk s live (co_copro cfg) pk es.
    Proof.
      intros live es. destruct divert_hit as [H U].
      rewrite (decided s live _ pk _ [] pk (Some (co_copro cfg)) H); [|intros e He; rewrite (U e He); reflexivity|reflexivity].
      split; [intros (es2 & W & ->); exact W|intros W; exists es; auto].
    Qed.
    Lemma default_matches : matches pk (f_match (f_default cfg)) = true.
    Proof. reflexivity. Qed.

    Lemma injected : forall live n pcp r, is_port n -> pk_tags pk = (base + n, pcp) :: r ->
      forall es, walk s live (co_vlan cfg) pk es <-> es = [(n, pop_vlan pk)].
    Proof.
      intros live n pcp r Hn Ht es. rewrite to_copro.
      assert (M : forall b m, matches pk [exact VlanVid (cop_vid (b + m))] = (cop_vid (base + n) =? cop_vid (b + m))).
      { intros. rewrite matches_exact. cbn. rewrite Ht. reflexivity. }
      assert (H : hit (sw_flows s) (co_copro cfg) pk (f_inject cfg base n)).
      { split; [apply S, Hn|]. split; [reflexivity|]. split; [cbn [f_match f_inject flow_]; rewrite M; apply Z.eqb_refl|].
        intros g Hg T _. destruct (ci_copro _ I g Hg T) as [->|(c' & b' & n' & _ & _ & ->)]; cbn; [|lia]. pose proof (ok_prio _ OK). lia. }
      rewrite (decided s live _ pk _ [(n, pop_vlan pk)] (pop_vlan pk) None H); [tauto| |reflexivity].
      intros e (H1 & H2 & H3 & H4). destruct H as (K1 & K2 & K3 & _). specialize (H4 _ K1 K2 K3).
      destruct (ci_copro _ I e H1 H2) as [->|(c' & b' & n' & Hc' & Hn' & ->)]; [cbn in H4; pose proof (ok_prio _ OK); lia|].
      cbn [f_match f_inject flow_] in H3. rewrite M in H3. apply Z.eqb_eq in H3.
      apply cop_vid_inj in H3; [|pose proof (ok_vids _ OK c base n Hc Hn); lia|pose proof (ok_vids _ OK c' b' n' Hc' Hn'); lia].
      rewrite (ok_one _ OK c base n c' b' n' Hc Hc' Hn Hn' H3). reflexivity.
    Qed.

    Lemma passed_on : forall live, (forall v pcp r, pk_tags pk = (v, pcp) :: r -> 0 <= v < 4096) ->
      (forall v pcp r c' b' n', pk_tags pk = (v, pcp) :: r -> is_copro c' b' -> is_port n' -> v <> b' + n') ->
      forall es, walk s live (co_vlan cfg) pk es <-> walk s live (co_dst cfg) pk es.
    Proof.
      intros live Hv Ho es. rewrite to_copro.
      assert (M : forall c' b' n', is_copro c' b' -> is_port n' -> matches pk [exact VlanVid (cop_vid (b' + n'))] = false).
      { intros c' b' n' Hc' Hn'. rewrite matches_exact. cbn. pose proof (ok_vids _ OK c' b' n' Hc' Hn') as R. unfold cop_vid. rewrite (lor_add (b' + n')) by lia.
        destruct (pk_tags pk) as [|[v pcp] r] eqn:Et; [unfold OFPVID_NONE; apply Z.eqb_neq; lia|].
        rewrite lor_add by (apply (Hv v pcp r eq_refl)). apply Z.eqb_neq. specialize (Ho v pcp r c' b' n' eq_refl Hc' Hn'). lia. }
      assert (Only : forall e, In e (sw_flows s) -> f_table e = co_copro cfg -> matches pk (f_match e) = true -> e = f_default cfg).
      { intros e H1 H2 H3. destruct (ci_copro _ I e H1 H2) as [->|(c' & b' & n' & Hc' & Hn' & ->)]; [reflexivity|].
        cbn [f_match f_inject flow_] in H3. rewrite (M c' b' n' Hc' Hn') in H3. discriminate. }
      assert (H : hit (sw_flows s) (co_copro cfg) pk (f_default cfg)).
      { split; [apply (ci_default _ I)|]. split; [reflexivity|]. split; [reflexivity|]. intros g Hg T Mg. rewrite (Only g Hg T Mg). lia. }
      rewrite (decided s live _ pk _ [] pk (Some (co_dst cfg)) H); [|intros e (H1 & H2 & H3 & _); rewrite (Only e H1 H2 H3); reflexivity|reflexivity].
      split; [intros (es2 & W & ->); exact W|intros W; exists es; auto].
    Qed.
  End Frame.
End Copro.
