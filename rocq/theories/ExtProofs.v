(** * Proofs about external networks and stacks *)
From Coq Require Import ZArith List Bool Permutation Lia Arith.
From Verif Require Import PyBase PyBaseProofs StackModel StackSpec StackProofs StackFloodProofs StackRoleProofs StackOnceProofs StackNextProofs ExtModel ExtSpec.
Import ListNotations.
Open Scope Z_scope.

(** ** The ports a switch gives a frame to *)
Lemma externals_in : forall ms m, In m (externals_up ms) <-> In m ms /\ m_ext m = true /\ m_up m = true.
Proof. intros ms m. unfold externals_up. rewrite py_sorted_in, !filter_In. tauto. Qed.
Lemma member_of_spec : forall x no m, NoDup (map m_no (x_members x)) -> (member_of x no = Some m <-> In m (x_members x) /\ m_no m = no).
Proof. intros x no m N. unfold member_of. apply (find_unique m_no (x_members x) no N m). Qed.
Lemma same_member : forall x m m', NoDup (map m_no (x_members x)) -> In m (x_members x) -> In m' (x_members x) -> m_no m = m_no m' -> m = m'.
Proof.
  intros x m m' N I I' E. assert (A := proj2 (member_of_spec x _ m N) (conj I eq_refl)).
  assert (B := proj2 (member_of_spec x _ m' N) (conj I' eq_refl)). congruence.
Qed.

(** The ports, as a list: [from] the port it came in on, if any. *)
Definition taken (x : xswitch) (i : xinp) (exclude : bool) : list member :=
  let excluded := if exclude || match i with FromHost m => m_ext m | _ => false end
    then externals_up (x_members x) else tl (externals_up (x_members x)) in
  filter (fun m => negb (match i with FromHost h => m_no m =? m_no h | _ => false end) && negb (mem Z.eqb (m_no m) (map m_no excluded))) (x_members x).
Definition given (me : Z) (x : xswitch) (i : xinp) (exclude : bool) : list (Z * Z) :=
  map (fun m => (me, m_no m)) (filter m_up (taken x i exclude)).

Lemma xrun_local : forall me x i flag exclude, NoDup (map m_no (x_members x)) ->
  xrun me x i flag (xlocal (x_members x) i exclude) = (given (sn_name me) x i exclude, []).
Proof.
  intros me x i flag exclude N. unfold xlocal, given. fold (taken x i exclude).
  assert (A : forall m, In m (taken x i exclude) -> In m (x_members x) /\ match i with FromHost h => m_no m =? m_no h | _ => false end = false).
  { intros m I. unfold taken in I. apply filter_In in I as [I B]. apply andb_true_iff in B as [B _]. apply negb_true_iff in B. auto. }
  revert A. generalize (taken x i exclude). induction l as [|m l IH]; intros A; [reflexivity|]. cbn [map xrun filter].
  rewrite IH by (intros m' I; apply A; right; exact I). destruct (A m (or_introl eq_refl)) as [I B]. rewrite B.
  rewrite (proj2 (member_of_spec x _ m N) (conj I eq_refl)). destruct (m_up m); reflexivity.
Qed.
Lemma given_in : forall me x i exclude y q, NoDup (map m_no (x_members x)) ->
  (In (y, q) (given me x i exclude) <-> y = me /\ (forall h, i = FromHost h -> q <> m_no h) /\
     (In (mkMember q false true) (x_members x) \/
      exclude = false /\ (forall h, i = FromHost h -> m_ext h = false) /\ In (mkMember q true true) (x_members x) /\
      forall q', In (mkMember q' true true) (x_members x) -> q <= q')).
Proof.
  intros me x i exclude y q N. unfold given. rewrite in_map_iff.
  set (ex := exclude || match i with FromHost m => m_ext m | _ => false end).
  assert (EX : ex = false <-> exclude = false /\ forall h, i = FromHost h -> m_ext h = false).
  { unfold ex. rewrite orb_false_iff. split; intros [A B]; (split; [exact A|]).
    - intros h ->. exact B.
    - destruct i; [apply B|..]; reflexivity. }
  assert (SH : forall m : member, m = mkMember (m_no m) (m_ext m) (m_up m)) by (intros []; reflexivity).
  assert (HD : forall m, In m (externals_up (x_members x)) -> ~ In m (tl (externals_up (x_members x))) -> forall m', In m' (externals_up (x_members x)) -> m_no m <= m_no m').
  { intros m I NI m' I'. assert (T := py_sorted_sorted (fun a b => m_no a <=? m_no b) ltac:(intros a b; destruct (Z.le_ge_cases (m_no a) (m_no b)); [left|right]; apply Z.leb_le; lia) ltac:(intros a b c A B; apply Z.leb_le in A, B; apply Z.leb_le; lia) (filter m_up (filter m_ext (x_members x)))).
    fold (externals_up (x_members x)) in T. destruct (externals_up (x_members x)) as [|h l]; [destruct I|]. cbn [tl] in NI. destruct I as [->|I]; [|contradiction].
    destruct I' as [->|I']; [lia|]. apply Sorted.StronglySorted_inv in T as [_ T]. rewrite Forall_forall in T. apply Z.leb_le. exact (T _ I'). }
  assert (TL : forall m, In m (tl (externals_up (x_members x))) -> exists m', In m' (externals_up (x_members x)) /\ m_no m' < m_no m).
  { intros m I. assert (T := py_sorted_sorted (fun a b => m_no a <=? m_no b) ltac:(intros a b; destruct (Z.le_ge_cases (m_no a) (m_no b)); [left|right]; apply Z.leb_le; lia) ltac:(intros a b c A B; apply Z.leb_le in A, B; apply Z.leb_le; lia) (filter m_up (filter m_ext (x_members x)))).
    fold (externals_up (x_members x)) in T.
    assert (ND : NoDup (externals_up (x_members x))).
    { unfold externals_up. eapply Permutation_NoDup; [apply py_sorted_perm|]. do 2 apply NoDup_filter. eapply NoDup_map_inv. exact N. }
    destruct (externals_up (x_members x)) as [|h l] eqn:E; [destruct I|]. cbn [tl] in I. exists h. split; [left; reflexivity|].
    apply Sorted.StronglySorted_inv in T as [_ T]. rewrite Forall_forall in T. specialize (T _ I). apply Z.leb_le in T.
    destruct (Z.eq_dec (m_no h) (m_no m)) as [EQ|NE]; [|lia]. exfalso. apply NoDup_cons_iff in ND as [ND _]. apply ND.
    assert (A : In h (externals_up (x_members x))) by (rewrite E; left; reflexivity). assert (B : In m (externals_up (x_members x))) by (rewrite E; right; exact I).
    apply externals_in in A as [A _], B as [B _]. rewrite (same_member x h m N A B EQ). exact I. }
  assert (MM : forall m l, In m (x_members x) -> incl l (x_members x) -> (mem Z.eqb (m_no m) (map m_no l) = true <-> In m l)).
  { intros m l I L. rewrite memz, in_map_iff. split; [|eauto]. intros (m' & E & I'). rewrite <- (same_member x m' m N (L _ I') I E). exact I'. }
  assert (IE : incl (externals_up (x_members x)) (x_members x)) by (intros m I; apply externals_in in I; tauto).
  assert (IT : incl (tl (externals_up (x_members x))) (x_members x)) by (intros m I; apply IE; apply tl_in; exact I).
  split.
  - intros (m & E & I). injection E as <- <-. apply filter_In in I as [I U]. unfold taken in I. fold ex in I. apply filter_In in I as [I B].
    apply andb_true_iff in B as [B1 B2]. apply negb_true_iff in B1, B2. split; [reflexivity|]. split; [intros h ->; apply Z.eqb_neq in B1; exact B1|].
    destruct (m_ext m) eqn:X; [right|left; rewrite (SH m), X, U in I; exact I].
    assert (IM : In m (externals_up (x_members x))) by (apply externals_in; auto). destruct ex eqn:EE.
    + exfalso. apply (MM m _ I IE) in IM. congruence.
    + destruct (proj1 EX eq_refl) as [A C]. split; [exact A|]. split; [exact C|]. split; [rewrite (SH m), X, U in I; exact I|]. intros q' I'.
      apply (HD m IM) with (m' := mkMember q' true true); [|apply externals_in; auto]. intros K. apply (MM m _ I IT) in K. congruence.
  - intros (-> & NH & H).
    assert (NB : forall m, m_no m = q -> negb match i with FromHost h => m_no m =? m_no h | _ => false end = true).
    { intros m E. apply negb_true_iff. destruct i as [h| |]; [|reflexivity..]. apply Z.eqb_neq. rewrite E. exact (NH h eq_refl). }
    destruct H as [I|(A & C & I & L)].
    + exists (mkMember q false true). split; [reflexivity|]. apply filter_In. split; [|reflexivity]. apply filter_In. split; [exact I|].
      rewrite NB by reflexivity. cbn [andb]. apply negb_true_iff. fold ex. destruct ex.
      * destruct (mem Z.eqb _ _) eqn:M; [|reflexivity]. exfalso. apply (MM _ _ I IE), externals_in in M as (_ & K & _). discriminate.
      * destruct (mem Z.eqb _ _) eqn:M; [|reflexivity]. exfalso. apply (MM _ _ I IT), tl_in, externals_in in M as (_ & K & _). discriminate.
    + exists (mkMember q true true). split; [reflexivity|]. apply filter_In. split; [|reflexivity]. apply filter_In. split; [exact I|].
      rewrite NB by reflexivity. cbn [andb]. apply negb_true_iff. fold ex. rewrite (proj2 EX (conj A C)).
      destruct (mem Z.eqb _ _) eqn:M; [|reflexivity]. exfalso. apply (MM _ _ I IT), TL in M as (m' & I' & LT).
      apply externals_in in I' as (I' & X' & U'). rewrite (SH m'), X', U' in I'. specialize (L _ I'). cbn [m_no] in LT. lia.
Qed.
Lemma given_nodup : forall me x i exclude, NoDup (map m_no (x_members x)) -> NoDup (given me x i exclude).
Proof.
  intros me x i exclude N. unfold given, taken.
  assert (H : forall (p : member -> bool) l, NoDup (map m_no l) -> NoDup (map m_no (filter p l))).
  { intros p l. induction l as [|a l IH]; intros ND; [constructor|]. cbn in *. apply NoDup_cons_iff in ND as [NI ND]. destruct (p a); [|auto]. cbn. constructor; [|auto].
    intros K. apply NI. apply in_map_iff in K as (b & E & K). apply filter_In in K as [K _]. apply in_map_iff. eauto. }
  rewrite <- map_map with (g := fun n => (me, n)). apply FinFun.Injective_map_NoDup; [intros a b E; congruence|]. apply H, H, N.
Qed.

(** ** Running actions *)
Lemma xrun_stack : forall me x i flag l acts,
  xrun me x i flag (map XStack l ++ acts) = (fst (xrun me x i flag acts), map (tag flag) (flat_map (forwarded me (stack_inp i)) l) ++ snd (xrun me x i flag acts)).
Proof.
  intros me x i flag l acts. induction l as [|o l IH]; cbn [map List.app flat_map]; [destruct (xrun me x i flag acts); reflexivity|].
  cbn [xrun]. rewrite IH. rewrite map_app, <- app_assoc. reflexivity.
Qed.
Definition erase (pk : xflying) : flying := (fst pk, match snd pk with Host _ => None | Link no _ => Some no end).
Lemma erase_tag : forall me i flag l, map erase (map (tag flag) (flat_map (forwarded me i) l)) = flat_map (forwarded me i) l.
Proof.
  intros me i flag l. rewrite map_map. rewrite <- (map_id (flat_map (forwarded me i) l)) at 2. apply map_ext_in. intros [y o] I. apply in_flat_map in I as (a & _ & I).
  destruct a as [|no|]; cbn in I; [destruct I|destruct (sport_of me no); [|destruct I]|destruct i; [|destruct I]]; destruct I as [E|[]]; injection E as <- <-; reflexivity.
Qed.

(** What a rule does: to the ports of the VLAN and to the stack ports, the latter
    with one flag. *)
Definition outflag (refl : bool) (me : snode) (r : roles) (ms : list member) (i : xinp) (fl : bool) : bool :=
  if refl then
    if is_root me then negb (has_external ms)
    else match i with
         | FromAny => negb (has_external ms)
         | FromStack q => if is_away r q then fl else if is_towards r q then (if has_external ms then false else fl) else true
         | FromHost m => negb (m_ext m)
         end
  else match i with FromHost _ => negb (has_external ms) | _ => fl end.
Lemma xacts_run : forall refl me r x i fl ex, NoDup (map m_no (x_members x)) ->
  xrun me x i fl (xflood_actions refl me r (x_members x) i ex) =
  (flat_map (fun _ => given (sn_name me) x i ex) (flat_map (local me) (flood_actions refl me r (stack_inp i))),
   map (tag (outflag refl me r (x_members x) i fl)) (flat_map (forwarded me (stack_inp i)) (flood_actions refl me r (stack_inp i)))).
Proof.
  intros refl me r x i fl ex N.
  assert (LF : forall l inp e, flat_map (local me) (flood_to l inp e) = []) by (intros; apply flood_to_local).
  unfold xflood_actions, flood_actions, outflag. destruct refl; [destruct (is_root me)|].
  - destruct i as [m|q|]; cbn [stack_inp List.app xrun].
    + rewrite xrun_stack, xrun_local by exact N. cbn [fst snd]. rewrite !flat_map_app, LF. cbn. rewrite !app_nil_r. reflexivity.
    + destruct (is_away r q).
      * rewrite xrun_stack. cbn [List.app xrun]. rewrite xrun_local by exact N. cbn [fst snd]. rewrite !flat_map_app, LF. cbn. rewrite !app_nil_r, map_app. reflexivity.
      * cbn [List.app]. rewrite xrun_stack, xrun_local by exact N. cbn [fst snd]. rewrite !flat_map_app, LF. cbn. rewrite !app_nil_r. reflexivity.
    + rewrite xrun_stack, xrun_local by exact N. cbn [fst snd]. rewrite !flat_map_app, LF. cbn. rewrite !app_nil_r. reflexivity.
  - assert (TW : forall fl' inp, stack_inp i = inp -> xrun me x i fl' (map XStack (flood_to (ro_chosen r) inp [])) =
      ([], map (tag fl') (flat_map (forwarded me inp) (flood_to (ro_chosen r) inp [])))).
    { intros fl' inp <-. rewrite <- (app_nil_r (map XStack _)), xrun_stack. cbn [xrun fst snd]. rewrite app_nil_r. reflexivity. }
    destruct i as [m|q|]; cbn [stack_inp List.app xrun] in *.
    + rewrite TW, LF by reflexivity. reflexivity.
    + destruct (is_away r q); [rewrite TW, LF by reflexivity; reflexivity|]. destruct (is_towards r q); [|cbn [List.app xrun]; rewrite TW, LF by reflexivity; reflexivity].
      destruct (has_external (x_members x)); cbn [List.app xrun]; rewrite xrun_stack; cbn [xrun]; rewrite xrun_local by exact N; cbn [fst snd];
        rewrite !flat_map_app, LF; cbn; rewrite !app_nil_r; reflexivity.
    + rewrite TW, LF by reflexivity. reflexivity.
  - destruct i as [m|q|]; cbn [stack_inp List.app xrun]; rewrite !xrun_stack, xrun_local by exact N; cbn [fst snd]; rewrite !flat_map_app, !LF; cbn;
      rewrite !app_nil_r, map_app; reflexivity.
Qed.
Lemma outputs_run : forall me x i acts fl, outputs acts = false -> snd (xrun me x i fl acts) = [].
Proof.
  intros me x i. induction acts as [|[e|o|no] r IH]; intros fl H; cbn in *; [reflexivity|apply IH; exact H|discriminate..].
Qed.

Section Sim.
  Variables (f : fabric) (root : Z).
  Hypothesis AG : agreed f root.
  Variable xs : Z -> xswitch.
  Hypothesis NUM : numbered xs.
  Variables (refl group : bool).
  Definition cut (me : snode) : bool := negb (is_root me) && x_candidate (xs (sn_name me)).

  Lemma link_handle : forall me q fl, In me f -> In q (sn_ports me) ->
    xhandle refl group f xs (sn_name me, Link (sp_no q) fl) =
    (flat_map (fun _ => given (sn_name me) (xs (sn_name me)) FromAny (negb fl || cut me)) (fst (handle refl group f (sn_name me, Some (sp_no q)))),
     map (tag (outflag refl me (reset_peer_distances f me) (x_members (xs (sn_name me))) (FromStack q) fl)) (snd (handle refl group f (sn_name me, Some (sp_no q))))).
  Proof.
    intros me q fl I Q. unfold xhandle, handle. cbn [fst snd]. rewrite (proj2 (node_spec f root AG (sn_name me) me) (conj I eq_refl)).
    rewrite (proj2 (sport_spec f root AG me (sp_no q) q I) (conj Q eq_refl)). destruct (dropped group _ _); [reflexivity|]. unfold xacts_for.
    rewrite xacts_run by apply NUM. reflexivity.
  Qed.
  Lemma host_handle : forall me m, In me f -> In m (x_members (xs (sn_name me))) -> m_up m = true -> snd (handle refl group f (sn_name me, None)) <> [] ->
    xhandle refl group f xs (sn_name me, Host (m_no m)) =
    (flat_map (fun _ => given (sn_name me) (xs (sn_name me)) (FromHost m) (cut me)) (fst (handle refl group f (sn_name me, None))),
     map (tag (outflag refl me (reset_peer_distances f me) (x_members (xs (sn_name me))) (FromHost m) (negb (m_ext m)))) (snd (handle refl group f (sn_name me, None)))).
  Proof.
    intros me m I M U NE. unfold xhandle, handle in *. cbn [fst snd dropped] in *. rewrite (proj2 (node_spec f root AG (sn_name me) me) (conj I eq_refl)) in *.
    rewrite (proj2 (member_of_spec _ (m_no m) m (NUM (sn_name me))) (conj M eq_refl)). rewrite U. cbn [andb fst snd] in *. unfold xacts_for. cbn [orb].
    assert (R := xacts_run refl me (reset_peer_distances f me) (xs (sn_name me)) (FromHost m) (negb (m_ext m)) (cut me) (NUM _)). cbn [stack_inp] in R. fold (cut me).
    destruct (outputs _) eqn:O; [exact R|]. exfalso. apply NE. apply (f_equal snd) in R. rewrite outputs_run in R by exact O. cbn [snd] in R. symmetry in R. apply map_eq_nil in R. exact R.
  Qed.

  Variable ok : xflying -> Prop.
  Variable dl : Z -> list (Z * Z).
  Hypothesis STEP : forall pk, ok pk -> exists g, handle refl group f (erase pk) = (g, map erase (snd (xhandle refl group f xs pk))) /\
    fst (xhandle refl group f xs pk) = flat_map dl g /\ Forall ok (snd (xhandle refl group f xs pk)).
  Lemma sim : forall n s s', xhops refl group f xs n s s' -> Forall ok (fst s) -> forall G, exists L,
    hops refl group f n (map erase (fst s), G) (map erase (fst s'), G ++ L) /\ snd s' = snd s ++ flat_map dl L /\ Forall ok (fst s').
  Proof.
    induction 1 as [s|n s t u H _ IH]; intros OK G.
    - exists []. cbn. rewrite !app_nil_r. split; [constructor|auto].
    - inversion H as [a pk b d gv sent E E1 E2]. subst. cbn [fst snd] in *. apply Forall_app in OK as [OA OB]. apply Forall_cons_iff in OB as [OP OB].
      destruct (STEP pk OP) as (g & HG & D & OS). rewrite E in *. cbn [fst snd] in *. destruct (IH) with (G := G ++ g) as (L & HS & DL & OK').
      { apply Forall_app. split; [exact OA|]. apply Forall_app. auto. }
      exists (g ++ L). split; [|split; [|exact OK']].
      + eapply hops_more; [|rewrite !map_app, <- app_assoc in HS; exact HS]. rewrite map_app. cbn [map]. apply hop_one. exact HG.
      + rewrite DL, D, flat_map_app, <- !app_assoc. reflexivity.
  Qed.
  Hypothesis DLS : forall y, NoDup (dl y) /\ forall z q, In (z, q) (dl y) -> z = y.
  Lemma dl_in : forall L y q, In (y, q) (flat_map dl L) <-> In y L /\ In (y, q) (dl y).
  Proof.
    intros L y q. rewrite in_flat_map. split.
    - intros (z & I & K). assert (y = z) by (apply (proj2 (DLS z)) in K; exact K). subst z. auto.
    - intros [I K]. eauto.
  Qed.
  Lemma nodup_app : forall {A} (a b : list A), NoDup a -> NoDup b -> (forall x, In x a -> In x b -> False) -> NoDup (a ++ b).
  Proof.
    intros A a b NA NB D. induction a as [|x a IH]; [exact NB|]. apply NoDup_cons_iff in NA as [NI NA]. cbn. constructor.
    - intros I. apply in_app_or in I as [I|I]; [contradiction|]. apply (D x); [left; reflexivity|exact I].
    - apply IH; [exact NA|]. intros z I K. apply (D z); [right; exact I|exact K].
  Qed.
  Lemma dl_nodup : forall L, NoDup L -> NoDup (flat_map dl L).
  Proof.
    induction L as [|y L IH]; intros N; [constructor|]. cbn [flat_map]. apply NoDup_cons_iff in N as [NI N]. apply nodup_app; [apply DLS|apply IH; exact N|].
    intros [z q] I K. apply dl_in in K as [K _]. apply (proj2 (DLS y)) in I. subst z. contradiction.
  Qed.
  Variables (x p : Z) (dh : list (Z * Z)) (g0 : list Z).
  Hypothesis ONCE : floods_once refl group f x.
  Hypothesis FIRST : handle refl group f (x, None) = (g0, map erase (snd (xhandle refl group f xs (x, Host p)))).
  Hypothesis OKS : Forall ok (snd (xhandle refl group f xs (x, Host p))).
  Hypothesis DH : fst (xhandle refl group f xs (x, Host p)) = dh.
  Hypothesis DHS : NoDup dh /\ forall y q, In (y, q) dh -> In y g0.
  Lemma reach : reaches refl group f xs x p (fun y q => joined f x y /\ (In y g0 /\ In (y, q) dh \/ ~ In y g0 /\ In (y, q) (dl y))).
  Proof.
    destruct ONCE as (most & ON). exists most. intros n s H.
    assert (K : (n = O /\ s = came_in x p) \/ exists L, hops refl group f n (sent_from x) (map erase (fst s), g0 ++ L) /\ snd s = dh ++ flat_map dl L /\ Forall ok (fst s)).
    { remember (came_in x p) as st eqn:ES. destruct H as [st|k st t u H1 H2]; [left; auto|right]. destruct H1 as [a pk b d gv sent E]. unfold came_in in ES. injection ES as E1 ->.
      destruct a as [|a0 a]; [|destruct a; discriminate]. cbn in E1. injection E1 as -> ->. cbn in H2. rewrite app_nil_r in H2. rewrite E in *.
      cbn [fst snd] in *. destruct (sim _ _ _ H2 OKS g0) as (L & HS & DL & OK'). cbn [fst snd] in *. exists L. split; [|rewrite <- DH; auto].
      eapply hops_more; [|exact HS]. change (sent_from x) with (([] ++ (x, @None Z) :: [], @nil Z)). rewrite <- (app_nil_r (map erase sent)).
      exact (hop_one refl group f [] (x, None) [] [] g0 _ FIRST). }
    destruct K as [[-> ->]|(L & HS & DL & OK)].
    - destruct (ON O (sent_from x) (hops_none _ _ _ _)) as (B & _ & _ & _ & F). cbn in *. split; [lia|]. split; [|split; [constructor|split; [intros y q []|discriminate]]].
      intros _. destruct (xhandle refl group f xs (x, Host p)) as [gv sent] eqn:E. eexists. exact (xhop_one refl group f xs [] (x, Host p) [] [] gv sent E).
    - destruct (ON n _ HS) as (B & PR & ND & JO & FI). cbn [fst snd] in *. split; [exact B|]. split; [|split; [|split]].
      + intros NE. destruct s as [[|pk F] D]; [contradiction|]. cbn [fst snd]. destruct (xhandle refl group f xs pk) as [gv sent] eqn:E. eexists. exact (xhop_one refl group f xs [] pk F D gv sent E).
      + rewrite DL. apply nodup_app; [apply DHS| |].
        * apply dl_nodup. clear - ND. induction g0 as [|a g IH]; [exact ND|]. apply NoDup_cons_iff in ND as [_ ND]. auto.
        * intros [y q] I J. apply DHS in I. apply dl_in in J as [J _]. clear - ND I J. induction g0 as [|a g IH]; [destruct I|]. cbn in ND. apply NoDup_cons_iff in ND as [NI ND].
          destruct I as [->|I]; [|auto]. apply NI. apply in_or_app. auto.
      + intros y q I. rewrite DL in I. apply in_app_or in I as [I|I].
        * assert (G := proj2 DHS _ _ I). split; [apply JO; apply in_or_app; auto|auto].
        * apply dl_in in I as [I J]. split; [apply JO; apply in_or_app; auto|]. right. split; [|exact J]. intros G.
          clear - ND I G. induction g0 as [|a g IH]; [destruct G|]. cbn in ND. apply NoDup_cons_iff in ND as [NI ND]. destruct G as [->|G]; [|auto]. apply NI. apply in_or_app. auto.
      + intros F y q [J W]. rewrite F in FI. specialize (FI eq_refl y J). rewrite DL. apply in_or_app. destruct W as [[_ W]|[NG W]]; [left; exact W|right].
        apply dl_in. split; [|exact W]. apply in_app_or in FI as [FI|FI]; [contradiction|exact FI].
  Qed.
End Sim.

(** ** Both kinds of stack *)
Lemma handle_some : forall refl group f pk r, In r (snd (handle refl group f pk)) -> exists no, snd r = Some no.
Proof.
  intros refl group f pk r I. unfold handle in I. destruct (node f (fst pk)) as [me|]; [|destruct I].
  assert (FW : forall inp acts, In r (flat_map (forwarded me inp) acts) -> exists no, snd r = Some no).
  { intros inp acts J. apply in_flat_map in J as (a & _ & J). destruct a as [|no|]; cbn in J; [destruct J|destruct (sport_of me no); [|destruct J]|destruct inp; [|destruct J]]; destruct J as [<-|[]]; cbn; eauto. }
  destruct (snd pk) as [no|].
  - destruct (sport_of me no) as [q|]; [|destruct I]. cbn [fst snd] in I. destruct (dropped _ _ _); [destruct I|]. cbn [snd] in I. eauto.
  - cbn [fst snd] in I. destruct (dropped _ _ _); [destruct I|]. cbn [snd] in I. eauto.
Qed.
Lemma erase_handle : forall refl group f pk fl, map erase (map (tag fl) (snd (handle refl group f pk))) = snd (handle refl group f pk).
Proof.
  intros refl group f pk fl. rewrite map_map. rewrite <- (map_id (snd (handle refl group f pk))) at 2. apply map_ext_in. intros [y o] I.
  destruct (handle_some _ _ _ _ _ I) as (no & E). cbn in E. subst o. reflexivity.
Qed.
Lemma handle_here : forall refl group f pk y, In y (fst (handle refl group f pk)) -> exists me, node f (fst pk) = Some me /\ y = sn_name me.
Proof.
  intros refl group f pk y I. unfold handle in I. destruct (node f (fst pk)) as [me|]; [|destruct I]. exists me. split; [reflexivity|].
  assert (FW : forall acts, In y (flat_map (local me) acts) -> y = sn_name me).
  { intros acts J. apply in_flat_map in J as (a & _ & J). destruct a; cbn in J; [destruct J as [<-|[]]; reflexivity|destruct J..]. }
  destruct (snd pk) as [no|].
  - destruct (sport_of me no) as [q|]; [|destruct I]. cbn [fst snd] in I. destruct (dropped _ _ _); [destruct I|]. cbn [fst] in I. eauto.
  - cbn [fst snd] in I. destruct (dropped _ _ _); [destruct I|]. cbn [fst] in I. eauto.
Qed.
Lemma flat_map_same : forall {A B} (g h : A -> list B) l, (forall a, In a l -> g a = h a) -> flat_map g l = flat_map h l.
Proof.
  intros A B g h. induction l as [|a l IH]; intros H; [reflexivity|]. cbn. rewrite (H a (or_introl eq_refl)), IH; [reflexivity|].
  intros b I. apply H. right. exact I.
Qed.
Lemma has_external_spec : forall xs y, has_external (x_members (xs y)) = true <-> has_outside xs y.
Proof.
  intros xs y. unfold has_external, has_outside. rewrite existsb_exists. split.
  - intros ([no e u] & I & E). cbn in E. subst e. eauto.
  - intros (p & u & I). exists (mkMember p true u). auto.
Qed.

Lemma reaches_ext : forall refl group f xs x p (P Q : Z -> Z -> Prop), (forall y q, P y q <-> Q y q) -> reaches refl group f xs x p P -> reaches refl group f xs x p Q.
Proof.
  intros refl group f xs x p P Q EQ (most & H). exists most. intros n s HS. destruct (H n s HS) as (A & B & C & D & E).
  split; [exact A|]. split; [exact B|]. split; [exact C|]. split; [intros y q J; apply EQ; auto|intros FN y q J; apply E; [exact FN|apply EQ; exact J]].
Qed.

Section Modes.
  Variables (f : fabric) (root : Z).
  Hypothesis AG : agreed f root.
  Variable xs : Z -> xswitch.
  Hypothesis NUM : numbered xs.
  Variable group : bool.
  Hypothesis MODE : group = true \/ no_parallel f.
  Variable me : snode.
  Hypothesis ME : In me f.
  Let x := sn_name me.
  Hypothesis JR : joined f x root.
  Hypothesis ALONE : not_alone f x.
  Variable m : member.
  Hypothesis MI : In m (x_members (xs x)).
  Hypothesis MU : m_up m = true.
  Definition cutn (y : Z) : bool := negb (y =? root) && x_candidate (xs y).
  Lemma cut_name : forall s, In s f -> cut xs s = cutn (sn_name s).
  Proof. intros s I. unfold cut, cutn. rewrite (is_root_spec f root AG s I). reflexivity. Qed.

  Lemma sends : forall refl, snd (handle refl group f (x, None)) <> [].
  Proof.
    intros refl E. destruct (once f root refl group x AG MODE JR) as (most & ON). destruct ALONE as (y & NE & JY).
    destruct (handle refl group f (x, None)) as [g snt] eqn:H. cbn in E. subst snt.
    assert (HS : hops refl group f 1 (sent_from x) ([], g)).
    { eapply hops_more; [|constructor]. exact (hop_one refl group f [] (x, None) [] [] g [] H). }
    destruct (ON 1%nat _ HS) as (_ & _ & _ & _ & F). specialize (F eq_refl y JY). cbn in F.
    assert (K := handle_here refl group f (x, None) y). rewrite H in K. destruct (K F) as (s & N & ->). apply (node_spec f root AG) in N as [_ N]. cbn in N. contradiction.
  Qed.

  (** Without reflection. *)
  Let F := negb (has_external (x_members (xs x))).
  Let dlp y := given y (xs y) FromAny (negb F || cutn y).
  Let okp (pk : xflying) : Prop := exists no, snd pk = Link no F.
  Lemma okp_step : forall pk, okp pk -> exists g, handle false group f (erase pk) = (g, map erase (snd (xhandle false group f xs pk))) /\
    fst (xhandle false group f xs pk) = flat_map dlp g /\ Forall okp (snd (xhandle false group f xs pk)).
  Proof.
    intros [y o] (no & E). cbn in E. subst o. unfold erase at 1. cbn [fst snd]. destruct (node f y) as [s|] eqn:NY.
    2:{ exists []. unfold xhandle, handle. cbn [fst snd]. rewrite NY. cbn. auto. }
    apply (node_spec f root AG) in NY as [I N]. subst y. destruct (sport_of s no) as [q|] eqn:SQ.
    2:{ exists []. unfold xhandle, handle. cbn [fst snd]. rewrite (proj2 (node_spec f root AG _ s) (conj I eq_refl)), SQ. cbn. auto. }
    apply (sport_spec f root AG s no q I) in SQ as [Q N]. subst no. rewrite (link_handle f root AG xs NUM false group s q F I Q). cbn [fst snd].
    rewrite erase_handle. exists (fst (handle false group f (sn_name s, Some (sp_no q)))). split; [destruct (handle _ _ _ _); reflexivity|]. split.
    - apply flat_map_same. intros y J. apply handle_here in J as (s' & N & ->). apply (node_spec f root AG) in N as [I' N]. cbn in N.
      unfold dlp. rewrite N, (cut_name s I). reflexivity.
    - apply Forall_forall. intros pk J. apply in_map_iff in J as ([y o] & <- & J). destruct (handle_some _ _ _ _ _ J) as (no & E). cbn in E. subst o. cbn. exists no. reflexivity.
  Qed.
  Lemma given_ok : forall y i ex, NoDup (given y (xs y) i ex) /\ forall z q, In (z, q) (given y (xs y) i ex) -> z = y.
  Proof. intros y i ex. split; [apply given_nodup; apply NUM|]. intros z q I. apply given_in in I; [tauto|apply NUM]. Qed.
  Lemma plain_reach : reaches false group f xs x (m_no m) (fun y q => joined f x y /\
    (y = x /\ In (y, q) (given x (xs x) (FromHost m) (cutn x)) \/ y <> x /\ In (y, q) (dlp y))).
  Proof.
    assert (HG : fst (handle false group f (x, None)) = [x]).
    { unfold handle. cbn [fst snd dropped]. rewrite (proj2 (node_spec f root AG x me) (conj ME eq_refl)). unfold flood_actions. cbn [fst].
      rewrite !flat_map_app, !flood_to_local. reflexivity. }
    assert (HH := host_handle f root AG xs NUM false group me m ME MI MU (sends false)). fold x in HH.
    assert (R := reach f xs false group okp dlp okp_step (fun y => given_ok y _ _) x (m_no m) (given x (xs x) (FromHost m) (cut xs me)) [x]
      (once f root false group x AG MODE JR)). rewrite HH in R. cbn [fst snd] in R. rewrite erase_handle in R.
    eapply reaches_ext; [|apply R].
    - intros y q. rewrite (cut_name me ME). fold x. cbn [In]. split; (intros [J H]; split; [exact J|]).
      + destruct H as [[[<-|[]] H]|[NE H]]; [left; auto|right; split; [intros ->; apply NE; auto|exact H]].
      + destruct H as [[-> H]|[NE H]]; [left; auto|right; split; [intros [E|[]]; congruence|exact H]].
    - rewrite <- HG. destruct (handle false group f (x, None)); reflexivity.
    - apply Forall_forall. intros pk J. apply in_map_iff in J as ([y o] & <- & J). destruct (handle_some _ _ _ _ _ J) as (no & E). cbn in E. subst o. cbn. exists no. reflexivity.
    - rewrite HG. cbn. apply app_nil_r.
    - destruct (given_ok x (FromHost m) (cut xs me)) as [A B]. split; [exact A|]. intros y q J. left. symmetry. exact (B _ _ J).
  Qed.

  (** With reflection. *)
  Notation path := (path root me).
  Notation conn := (conn root me).
  Notation child := (child root me).
  Notation all s := (canonical (up_ports (sn_ports s))).
  Notation rl s := (reset_peer_distances f s).
  Notation noext y := (negb (has_external (x_members (xs y)))).
  Definition down (y : Z) : bool := forallb (fun z => noext z) (tl (path y)).
  Let F0 := negb (m_ext m).
  Let dlr y := given y (xs y) FromAny (negb (if y =? root then F0 else down y) || cutn y).
  Let okr (pk : xflying) : Prop := exists s q fl, pk = (sn_name s, Link (sp_no q) fl) /\ In s f /\ In q (all s) /\
    (child (sp_dp q) (sn_name s) /\ fl = F0 /\ x <> root \/ child (sn_name s) (sp_dp q) /\ fl = down (sn_name s)).

  Lemma down_child : forall c v, child c v -> down c = noext v && (if v =? root then true else down v).
  Proof.
    intros c v [CV E]. unfold down. rewrite E. cbn [tl]. destruct (path_hd f root AG me ME v CV) as (r & EV). destruct (Z.eqb_spec v root) as [->|NE].
    - rewrite (path_root f root AG me ME). cbn. reflexivity.
    - rewrite EV. reflexivity.
  Qed.
  (** Frames sent away from the root, and towards it. *)
  Lemma sent_down : forall s p fl, In s f -> In p (all s) -> child (sp_dp p) (sn_name s) -> fl = down (sp_dp p) -> okr (tag fl (pkt p)).
  Proof.
    intros s p fl I P CH E. destruct (ends_exist f root AG s p I P) as (t & q & EN). destruct EN as (_ & It & _ & Q & E1 & E2 & E3 & E4).
    exists t, q, fl. unfold tag, pkt. cbn [fst snd]. rewrite E1, E2. split; [reflexivity|]. split; [exact It|]. split; [exact Q|]. right. rewrite E3, <- E1. auto.
  Qed.
  Lemma sent_up : forall s p fl, x <> root -> In s f -> In p (all s) -> child (sn_name s) (sp_dp p) -> fl = F0 -> okr (tag fl (pkt p)).
  Proof.
    intros s p fl NR I P CH E. destruct (ends_exist f root AG s p I P) as (t & q & EN). destruct EN as (_ & It & _ & Q & E1 & E2 & E3 & E4).
    exists t, q, fl. unfold tag, pkt. cbn [fst snd]. rewrite E1, E2. split; [reflexivity|]. split; [exact It|]. split; [exact Q|]. left. rewrite E3, <- E1. auto.
  Qed.
  Lemma kept_down : forall s inp fl, In s f -> conn (sn_name s) -> (forall q, inp = Some q -> In q (sn_ports s)) ->
    fl = noext (sn_name s) && (if sn_name s =? root then true else down (sn_name s)) ->
    Forall okr (map (tag fl) (map pkt (kept (ro_away (rl s)) inp (excl f s inp)))).
  Proof.
    intros s inp fl I C IQ E. apply Forall_forall. intros pk J. apply in_map_iff in J as (k & <- & J). apply in_map_iff in J as (p & <- & J).
    apply (away_kept f root AG me ME s inp I C IQ) in J as (P & CH & _). apply (sent_down s p fl I P CH). rewrite (down_child _ _ CH). exact E.
  Qed.
  Lemma kept_up : forall s inp fl, x <> root -> In s f -> conn (sn_name s) -> fl = F0 -> Forall okr (map (tag fl) (map pkt (kept (ro_chosen (rl s)) inp []))).
  Proof.
    intros s inp fl NR I C E. apply Forall_forall. intros pk J. apply in_map_iff in J as (k & <- & J). apply in_map_iff in J as (p & <- & J).
    unfold kept in J. apply filter_In in J as [J _]. apply (chosen_in f root AG me ME s I C) in J as [P CH]. exact (sent_up s p fl NR I P CH E).
  Qed.

  Lemma okr_step : forall pk, okr pk -> exists g, handle true group f (erase pk) = (g, map erase (snd (xhandle true group f xs pk))) /\
    fst (xhandle true group f xs pk) = flat_map dlr g /\ Forall okr (snd (xhandle true group f xs pk)).
  Proof.
    intros pk (s & q & fl & -> & I & Q & K). assert (QP : In q (sn_ports s)) by (apply upin in Q; apply Q).
    unfold erase at 1. cbn [fst snd]. rewrite (link_handle f root AG xs NUM true group s q fl I QP). cbn [fst snd]. rewrite erase_handle.
    exists (fst (handle true group f (sn_name s, Some (sp_no q)))). split; [destruct (handle _ _ _ _); reflexivity|].
    assert (IQ : forall p, Some q = Some p -> In p (sn_ports s)) by (intros p [= <-]; exact QP).
    assert (HH : handle true group f (sn_name s, Some (sp_no q)) = ([], []) \/ handle true group f (sn_name s, Some (sp_no q)) =
      (flat_map (local s) (flood_actions true s (rl s) (Some q)), flat_map (forwarded s (Some q)) (flood_actions true s (rl s) (Some q)))).
    { unfold handle. cbn [fst snd]. rewrite (proj2 (node_spec f root AG (sn_name s) s) (conj I eq_refl)).
      rewrite (proj2 (sport_spec f root AG s (sp_no q) q I) (conj QP eq_refl)). destruct (dropped _ _ _); auto. }
    destruct HH as [->|HH]; [cbn; auto|]. rewrite HH. cbn [fst snd]. clear HH.
    assert (RS := is_root_spec f root AG s I). unfold outflag. rewrite RS.
    destruct K as [(CH & E & NR)|(CH & E)].
    - assert (C := proj1 CH). assert (D := child_dist root me _ _ CH). assert (IA : is_away (rl s) q = true) by (apply (is_away_spec f root AG me ME s I C q Q); lia). rewrite IA.
      destruct (Z.eqb_spec (sn_name s) root) as [ER|NE].
      + assert (A : flood_actions true s (rl s) (Some q) = flood_to (ro_away (rl s)) (Some q) (excl f s (Some q)) ++ [Back] ++ [Local]).
        { unfold flood_actions. rewrite RS, IA. reflexivity. }
        rewrite A, !flat_map_app, flood_to_local, (sent_away f root AG me ME s (Some q) (Some q) I C). cbn [flat_map local forwarded List.app]. split.
        * unfold dlr. rewrite (proj2 (Z.eqb_eq _ _) ER), E, (cut_name s I). reflexivity.
        * rewrite map_app. apply Forall_app. split.
          -- apply kept_down; auto. rewrite (proj2 (Z.eqb_eq _ _) ER). rewrite andb_true_r. reflexivity.
          -- constructor; [|constructor]. apply (sent_down s q _ I Q CH). rewrite (down_child _ _ CH), (proj2 (Z.eqb_eq _ _) ER), andb_true_r. reflexivity.
      + assert (A : flood_actions true s (rl s) (Some q) = flood_to (ro_chosen (rl s)) (Some q) []).
        { unfold flood_actions. rewrite RS, IA. reflexivity. }
        rewrite A, flood_to_local, (sent_chosen f root AG me ME s (Some q) (Some q) I C). split; [reflexivity|]. apply kept_up; auto.
    - assert (C := child_conn root me _ _ CH). assert (D := child_dist root me _ _ CH). assert (NE := child_root f root AG me ME _ _ CH).
      assert (IA : is_away (rl s) q = false).
      { assert (T := is_away_spec f root AG me ME s I C q Q). destruct (is_away (rl s) q); [|reflexivity]. assert (H := proj1 T eq_refl). lia. }
      assert (IT : is_towards (rl s) q = true) by (apply (is_towards_spec f root AG me ME s I C q Q); lia). rewrite IA, IT, (proj2 (Z.eqb_neq _ _) NE).
      assert (A : flood_actions true s (rl s) (Some q) = flood_to (ro_away (rl s)) (Some q) (excl f s (Some q)) ++ [Local]).
      { unfold flood_actions. rewrite RS, (proj2 (Z.eqb_neq _ _) NE), IA, IT. reflexivity. }
      rewrite A, !flat_map_app, flood_to_local, (sent_away f root AG me ME s (Some q) (Some q) I C). cbn [flat_map local forwarded List.app]. rewrite !app_nil_r. split.
      + unfold dlr. rewrite (proj2 (Z.eqb_neq _ _) NE), E, (cut_name s I). reflexivity.
      + apply kept_down; auto. rewrite (proj2 (Z.eqb_neq _ _) NE), E. destruct (has_external (x_members (xs (sn_name s)))); reflexivity.
  Qed.
  Lemma reflected_reach : reaches true group f xs x (m_no m) (fun y q => joined f x y /\
    (x = root /\ y = x /\ In (y, q) (given x (xs x) (FromHost m) (cutn x)) \/ ~ (x = root /\ y = x) /\ In (y, q) (dlr y))).
  Proof.
    assert (C : conn x) by (apply (conn_joined f root AG me ME); exact JR).
    assert (RS := is_root_spec f root AG me ME). fold x in RS. assert (IQ : forall q, None = Some q -> In q (sn_ports me)) by discriminate.
    assert (HN := handle_host f root AG true group me ME). fold x in HN.
    assert (HH := host_handle f root AG xs NUM true group me m ME MI MU (sends true)). fold x in HH.
    assert (FIRST : fst (handle true group f (x, None)) = (if x =? root then [x] else []) /\
      Forall okr (map (tag (outflag true me (rl me) (x_members (xs x)) (FromHost m) (negb (m_ext m)))) (snd (handle true group f (x, None))))).
    { rewrite HN. cbn [fst snd]. unfold outflag. rewrite RS. destruct (Z.eqb_spec x root) as [E|NE].
      - assert (A : flood_actions true me (rl me) None = flood_to (ro_away (rl me)) None (excl f me None) ++ [Local]).
        { unfold flood_actions. rewrite RS. reflexivity. }
        rewrite A, !flat_map_app, flood_to_local, (sent_away f root AG me ME me None None ME C). cbn [flat_map local forwarded List.app]. rewrite app_nil_r. split; [reflexivity|].
        apply kept_down; auto. fold x. rewrite (proj2 (Z.eqb_eq _ _) E), andb_true_r. reflexivity.
      - assert (A : flood_actions true me (rl me) None = flood_to (ro_chosen (rl me)) None []).
        { unfold flood_actions. rewrite RS. reflexivity. }
        rewrite A, flood_to_local, (sent_chosen f root AG me ME me None None ME C). split; [reflexivity|]. apply kept_up; auto. }
    destruct FIRST as [HG OK].
    assert (R := reach f xs true group okr dlr okr_step (fun y => given_ok y _ _) x (m_no m) (if x =? root then given x (xs x) (FromHost m) (cut xs me) else []) (if x =? root then [x] else [])
      (once f root true group x AG MODE JR)). rewrite HH in R. cbn [fst snd] in R. rewrite erase_handle in R.
    eapply reaches_ext; [|apply R].
    - intros y q. rewrite (cut_name me ME). fold x. destruct (Z.eqb_spec x root) as [E|NE]; cbn [In]; split; (intros [J H]; split; [exact J|]).
      + destruct H as [[[<-|[]] H]|[NY H]]; [left; auto|right; split; [intros [_ ->]; apply NY; auto|exact H]].
      + destruct H as [(_ & -> & H)|[NY H]]; [left; auto|right; split; [intros [<-|[]]; apply NY; auto|exact H]].
      + destruct H as [[[] _]|[_ H]]. right. split; [tauto|exact H].
      + destruct H as [(E & _)|[_ H]]; [contradiction|]. right. auto.
    - rewrite <- HG. destruct (handle true group f (x, None)); reflexivity.
    - exact OK.
    - rewrite HG. destruct (x =? root); cbn; [apply app_nil_r|reflexivity].
    - destruct (x =? root).
      + destruct (given_ok x (FromHost m) (cut xs me)) as [A B]. split; [exact A|]. intros y q J. left. symmetry. exact (B _ _ J).
      + split; [constructor|intros y q []].
  Qed.
End Modes.
