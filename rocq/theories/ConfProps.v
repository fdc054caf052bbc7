(** * C34, C35, C43: what a reload compares and when it restarts what *)
From Coq Require Import ZArith List Bool Permutation String Lia.
From Verif Require Import PyBase PyBaseProofs PacketModel ConfModel ConfSpec ConfProofs.
Import ListNotations.
Open Scope Z_scope.

(** ** C34 *)

(** Every object of either configuration is in exactly one class. *)
Theorem C34_partition : forall ign old new, NoDup (map fst new) ->
  let c := fst (get_conf_changes ign old new) in
  forall k, In k (map fst old) \/ In k (map fst new) ->
    exactly_one (In k (co_deleted c)) (In k (co_added c)) (In k (co_changed c)) (In k (co_same c)).
Proof. exact partition_any. Qed.
Print Assumptions C34_partition.

(** What the classes mean; descriptions never make a difference. *)
Theorem C34_meaning : forall ign old new, plain_all old -> plain_all new ->
  let c := fst (get_conf_changes ign old new) in
  forall k,
    (In k (co_deleted c) <-> In k (map fst old) /\ ~ In k (map fst new)) /\
    (In k (co_added c) <-> In k (map fst new) /\ ~ In k (map fst old)) /\
    (In k (co_changed c) <-> exists o n, In (k, o) old /\ In (k, n) new /\ ~ conf_alike (description :: ign) o n) /\
    (In k (co_same c) <-> exists o n, In (k, o) old /\ In (k, n) new /\ conf_alike (description :: ign) o n) /\
    (In k (co_description c) <-> exists o n, In (k, o) old /\ In (k, n) new /\ conf_alike (description :: ign) o n /\ ~ conf_alike ign o n).
Proof.
  intros ign old new PO PN c k. split; [apply deleted_in|]. split; [apply added_in|].
  split; [apply changed_in; assumption|]. split; [apply same_in; assumption|apply description_in; assumption].
Qed.
Print Assumptions C34_meaning.

(** Taking the deleted away and putting the added in gives the new names. *)
Theorem C34_apply : forall ign old new,
  let c := fst (get_conf_changes ign old new) in
  forall k, In k (map fst new) <-> (In k (map fst old) /\ ~ In k (co_deleted c)) \/ In k (co_added c).
Proof.
  intros ign old new c k. unfold c. rewrite deleted_in, added_in. destruct (in_dec Z.eq_dec k (map fst new)); destruct (in_dec Z.eq_dec k (map fst old)); tauto.
Qed.
Print Assumptions C34_apply.

(** The new objects: their configuration is what the new file says.  Those of the
    same class go on from the state of the old ones, the others start afresh. *)
Theorem C34_state : forall ign old new, plain_all old -> plain_all new ->
  (forall k o, In (k, o) old -> NoDup (map fst (cf_dyn o))) ->
  let c := fst (get_conf_changes ign old new) in let result := snd (get_conf_changes ign old new) in
  map fst result = map fst new /\
  (forall k x, In (k, x) result -> exists n, In (k, n) new /\ cf_conf x = cf_conf n /\
     (~ In k (co_same c) -> x = n) /\
     (forall o s, In k (co_same c) -> In (k, o) old ->
        state_of x s = match state_of o s with Some v => Some v | None => state_of n s end)).
Proof.
  intros ign old new PO PN N c result. unfold result, c, get_conf_changes. cbn [snd fst co_same]. split; [rewrite map_map; reflexivity|].
  intros k x I. apply in_map_iff in I as ([k' n] & E & I). cbn [fst snd] in E. injection E as -> <-. exists n. split; [exact I|].
  match goal with |- context [mem Z.eqb k ?l] => destruct (mem Z.eqb k l) eqn:M end.
  - apply memz in M. destruct (dict_get Z.eqb k old) as [o|] eqn:G.
    + split; [reflexivity|]. split; [intros J; contradiction|]. intros o' s _ IO. apply (get_of old k o' PO) in IO. rewrite G in IO. injection IO as <-.
      apply merge_state. apply (N k). apply dict_get_in in G; [exact G|apply zspec].
    + split; [reflexivity|]. split; [reflexivity|]. intros o' s _ IO. apply (get_of old k o' PO) in IO. congruence.
  - apply memz_false in M. split; [reflexivity|]. split; [reflexivity|]. intros o' s IS. contradiction.
Qed.
Print Assumptions C34_state.

(** ** Values *)

(** Plain values compare equal exactly when they are the same up to the order of
    dictionary items. *)
Theorem C34_values : forall v w, v = CNone \/ solid v -> w = CNone \/ solid w ->
  (str_conf (finalize_val v) = str_conf (finalize_val w) <-> alike v w).
Proof. exact canon_top. Qed.
Print Assumptions C34_values.

(** ** C35 *)

(** Nothing of effect changed: no restart of anything. *)
Theorem C35_quiet : forall old new, plain_dp old -> plain_dp new -> unchanged old new -> df_ports new <> [] ->
  exists d, get_config_changes old new = PyVal d /\ reload false d = Nothing.
Proof. exact quiet. Qed.
Print Assumptions C35_quiet.

(** The comparison does not raise, unless the datapath leaves the stack. *)
Theorem C35_completes : forall old new, plain_dp old -> plain_dp new -> consistent old -> consistent new ->
  (df_stack old <> None -> df_stack new <> None) -> exists d, get_config_changes old new = PyVal d.
Proof. exact no_raise. Qed.
Print Assumptions C35_completes.

(** A port option, or the ports it mirrors to. *)
Theorem C35_port : forall old new d pc, plain_dp old -> plain_dp new -> get_config_changes old new = PyVal d ->
  forall p o n, In (p, o) (df_ports old) -> In (p, n) (df_ports new) ->
    ~ conf_alike [description; acls_in] (pf_conf o) (pf_conf n) \/ pf_mirror o <> pf_mirror n ->
    restarts_port (reload pc d) p.
Proof.
  intros old new d pc PO PN G p o n I J [A|A]; [exact (port_option _ _ PO PN _ G pc p o n I J A)|exact (port_mirror _ _ PO PN _ G pc p o n I J A)].
Qed.
Print Assumptions C35_port.

(** Ports that appear or disappear. *)
Theorem C35_ports_come_and_go : forall old new d pc, get_config_changes old new = PyVal d ->
  forall p, (In p (map fst (df_ports old)) /\ ~ In p (map fst (df_ports new))) \/
            (In p (map fst (df_ports new)) /\ ~ In p (map fst (df_ports old))) -> restarts_port (reload pc d) p.
Proof.
  intros old new d pc G p [[I J]|[I J]]; [exact (port_deleted _ _ _ G pc p I J)|exact (port_added _ _ _ G pc p I J)].
Qed.
Print Assumptions C35_ports_come_and_go.

(** The ACLs applied to packets that come in on a port: which ones, and what they
    say. *)
Theorem C35_port_acl : forall old new d pc, plain_dp old -> plain_dp new -> get_config_changes old new = PyVal d ->
  forall p o n, In (p, o) (df_ports old) -> In (p, n) (df_ports new) ->
    pf_acls o <> pf_acls n \/ (exists a, In a (pf_acls n) /\ acl_differs old new a) ->
    restarts_acls (reload pc d) p.
Proof. intros old new d pc PO PN G p o n I J H. exact (port_acls _ _ PO PN _ G pc p o n I J H). Qed.
Print Assumptions C35_port_acl.

(** A VLAN option, or its ACLs: the VLAN and all its ports. *)
Theorem C35_vlan : forall old new d pc, plain_dp old -> plain_dp new -> get_config_changes old new = PyVal d ->
  forall v o n, In (v, o) (df_vlans old) -> In (v, n) (df_vlans new) ->
    ~ conf_alike [description; acls_in] (vf_conf o) (vf_conf n) \/ vf_acls o <> vf_acls n \/
      (exists a, In a (vf_acls n) /\ acl_differs old new a) ->
    restarts_vlan (reload pc d) v /\ forall p, In p (vf_ports n) -> restarts_port (reload pc d) p.
Proof.
  intros old new d pc PO PN G v o n I J H. apply (vlan_restarts _ _ _ G pc v n J). exact (vlan_changed_in _ _ PO PN v o n I J H).
Qed.
Print Assumptions C35_vlan.

(** VLANs that appear or disappear. *)
Theorem C35_vlans_come_and_go : forall old new d pc, get_config_changes old new = PyVal d ->
  (forall v, In v (map fst (df_vlans old)) -> ~ In v (map fst (df_vlans new)) -> restarts_vlan (reload pc d) v) /\
  (forall v n, In (v, n) (df_vlans new) -> ~ In v (map fst (df_vlans old)) ->
     restarts_vlan (reload pc d) v /\ forall p, In p (vf_ports n) -> restarts_port (reload pc d) p).
Proof.
  intros old new d pc G. split.
  - intros v I J. exact (vlan_deleted _ _ _ G pc v I J).
  - intros v n I J. apply (vlan_restarts _ _ _ G pc v n I). apply vlan_added_in; [|exact J]. apply in_map_iff. exists (v, n). auto.
Qed.
Print Assumptions C35_vlans_come_and_go.

(** The VLANs a reconfigured port leaves or joins, those of a port that appears or
    disappears, and all VLANs if the port starts or stops being a stack port. *)
Theorem C35_membership : forall old new d pc, plain_dp old -> plain_dp new -> get_config_changes old new = PyVal d ->
  (forall p o n v, In (p, o) (df_ports old) -> In (p, n) (df_ports new) ->
     ~ conf_alike [description; acls_in] (pf_conf o) (pf_conf n) ->
     (In v (pf_vids o) /\ ~ In v (pf_vids n)) \/ (In v (pf_vids n) /\ ~ In v (pf_vids o)) \/
     (pf_stack o <> pf_stack n /\ In v (map fst (df_vlans new))) -> restarts_vlan (reload pc d) v) /\
  (forall p o v, In (p, o) (df_ports old) -> ~ In p (map fst (df_ports new)) ->
     In v (pf_vids o) \/ (pf_stack o = true /\ In v (map fst (df_vlans old))) -> restarts_vlan (reload pc d) v) /\
  (forall p n v, In (p, n) (df_ports new) -> ~ In p (map fst (df_ports old)) ->
     In v (pf_vids n) \/ (pf_stack n = true /\ In v (map fst (df_vlans new))) -> restarts_vlan (reload pc d) v).
Proof.
  intros old new d pc PO PN G. split; [|split].
  - intros p o n v I J A H. apply (port_vlans _ _ _ G pc v). unfold port_vlan_changes. apply in_or_app. left. apply in_flat_map. exists p. split.
    + apply (changed_in _ _ _ (pd_ports _ PO) (pd_ports _ PN)). exists (pf_conf o), (pf_conf n).
      split; [apply (plain_in pf_conf); exact I|]. split; [apply (plain_in pf_conf); exact J|exact A].
    + rewrite (get_plain pf_conf _ _ _ (pd_ports _ PO) I), (get_plain pf_conf _ _ _ (pd_ports _ PN) J). rewrite !in_app_iff, !diff_in.
      destruct H as [H|[H|[S H]]]; [auto|auto|]. right. right. destruct (pf_stack o), (pf_stack n); try contradiction; exact H.
  - intros p o v I J H. apply (port_vlans _ _ _ G pc v). unfold port_vlan_changes. apply in_or_app. right. apply in_or_app. left. apply in_flat_map. exists p. split.
    + apply deleted_in. unfold plain_ports. rewrite !plain_keys. split; [|exact J]. apply in_map_iff. exists (p, o). auto.
    + rewrite (get_plain pf_conf _ _ _ (pd_ports _ PO) I). apply in_or_app. destruct H as [H|[-> H]]; auto.
  - intros p o v I J H. apply (port_vlans _ _ _ G pc v). unfold port_vlan_changes. apply in_or_app. right. apply in_or_app. right. apply in_flat_map. exists p. split.
    + apply added_in. unfold plain_ports. rewrite !plain_keys. split; [|exact J]. apply in_map_iff. exists (p, o). auto.
    + rewrite (get_plain pf_conf _ _ _ (pd_ports _ PN) I). apply in_or_app. destruct H as [H|[-> H]]; auto.
Qed.
Print Assumptions C35_membership.

(** Datapath options, routers and the root of the stack: everything starts over. *)
Theorem C35_datapath : forall old new d pc, plain_dp old -> plain_dp new -> get_config_changes old new = PyVal d ->
  ~ conf_alike [interfaces; interface_ranges; routers_key] (df_conf old) (df_conf new) \/
  ~ all_alike [] (df_routers new) (df_routers old) \/
  (exists a b, df_stack old = Some a /\ df_stack new = Some b /\ sf_root a <> sf_root b) ->
  reload pc d = Cold.
Proof.
  intros old new d pc PO PN G H. assert (E : d = cold_changes); [|rewrite E; apply cold_reload].
  revert G. unfold get_config_changes.
  match goal with |- (if ?b then _ else _) = _ -> _ => destruct b eqn:R end; [intros E; injection E; auto|].
  destruct (same_routers (df_routers new) (df_routers old)) eqn:SR; cbn [negb]; [|intros E; injection E; auto].
  destruct (ignore_subconf [interfaces; interface_ranges; routers_key] (df_conf old) (df_conf new)) eqn:IS; cbn [negb]; [|intros E; injection E; auto].
  exfalso. destruct H as [H|[H|(a & b & SA & SB & NE)]].
  - apply H. apply ignore_subconf_spec; [apply PO|apply PN|exact IS].
  - apply H. apply same_routers_spec; [apply PN|apply PO|exact SR].
  - rewrite SA, SB in R. apply negb_false_iff, Z.eqb_eq in R. congruence.
Qed.
Print Assumptions C35_datapath.

(** Meters. *)
Theorem C35_meters : forall old new d pc, plain_dp old -> plain_dp new -> get_config_changes old new = PyVal d ->
  ~ all_alike [description] (df_meters old) (df_meters new) ->
  reload pc d = Cold \/ exists w, reload pc d = Warm w /\
    (forall k, In k (map fst (df_meters old)) -> ~ In k (map fst (df_meters new)) -> In k (dc_deleted_meters w)) /\
    (forall k, In k (map fst (df_meters new)) -> ~ In k (map fst (df_meters old)) -> In k (dc_added_meters w)) /\
    (forall k o n, In (k, o) (df_meters old) -> In (k, n) (df_meters new) -> ~ conf_alike [description] o n -> In k (dc_changed_meters w)).
Proof.
  intros old new d pc PO PN G H. destruct (cold_or_warm _ _ _ G) as [->|(all & del & ch & add & ap & cv' & P & E)]; [left; apply cold_reload|].
  cbv zeta in E.
  assert (D : forall k, In k (dc_deleted_meters d) <-> In k (map fst (df_meters old)) /\ ~ In k (map fst (df_meters new))) by (subst d; apply deleted_in).
  assert (A : forall k, In k (dc_added_meters d) <-> In k (map fst (df_meters new)) /\ ~ In k (map fst (df_meters old))) by (subst d; apply added_in).
  assert (C : forall k, In k (dc_changed_meters d) <-> exists o n, In (k, o) (df_meters old) /\ In (k, n) (df_meters new) /\ ~ conf_alike [description] o n)
    by (subst d; apply (changed_in _ _ _ (pd_meters _ PO) (pd_meters _ PN))).
  destruct (reload_cases pc d) as [R|[_ [R|(R & _ & _ & _ & _ & _ & _ & D0 & A0 & C0)]]]; [auto| |].
  - right. exists d. split; [exact R|]. split; [intros k I J; apply D; auto|]. split; [intros k I J; apply A; auto|].
    intros k o n I J N. apply C. eauto.
  - exfalso. apply H. rewrite D0 in D. rewrite A0 in A. rewrite C0 in C. split.
    + intros k. destruct (in_dec Z.eq_dec k (map fst (df_meters old))) as [I|I]; destruct (in_dec Z.eq_dec k (map fst (df_meters new))) as [J|J]; try tauto.
      * exfalso. exact (proj2 (D k) (conj I J)).
      * exfalso. exact (proj2 (A k) (conj J I)).
    + intros k o n I J. destruct (ignore_subconf [description] o n) eqn:E1.
      * apply ignore_subconf_spec in E1; [exact E1|apply (proj2 (pd_meters _ PO) k _ I)|apply (proj2 (pd_meters _ PN) k _ J)].
      * exfalso. apply (proj2 (C k)). exists o, n. split; [exact I|]. split; [exact J|]. intros AL.
        apply ignore_subconf_spec in AL; [congruence|apply (proj2 (pd_meters _ PO) k _ I)|apply (proj2 (pd_meters _ PN) k _ J)].
Qed.
Print Assumptions C35_meters.

(** *** A case *)
Definition ex_obj (l : list (Z * cval)) : conf := mkConf l [].
Definition ex_p1 : port_conf := mkPortConf (ex_obj [(description, CStr 20); (10, CInt 100)]) [7] None [100] false.
Definition ex_p1' : port_conf := mkPortConf (ex_obj [(description, CStr 21); (10, CInt 100)]) [7] None [100] false.
Definition ex_p2 : port_conf := mkPortConf (ex_obj [(10, CInt 100); (11, CDict [(30, CStr 1); (31, CList [CInt 2; CBool true])])]) [] (Some [1]) [100] false.
Definition ex_p2' : port_conf := mkPortConf (ex_obj [(11, CDict [(31, CList [CInt 2; CBool true]); (30, CStr 1)]); (10, CInt 100)]) [] (Some [1]) [100] false.
Definition ex_p2'' : port_conf := mkPortConf (ex_obj [(10, CInt 100); (11, CDict [(30, CStr 1); (31, CList [CInt 2; CBool false])])]) [] (Some [1]) [100] false.
Definition ex_vlan : vlan_conf := mkVlanConf (ex_obj [(12, CInt 100); (13, CList [CAddr 50])]) [] [1; 2] false.
Definition ex_acl : conf := ex_obj [(14, CList [CDict [(40, CInt 6)]])].
Definition ex_acl' : conf := ex_obj [(14, CList [CDict [(40, CInt 17)]])].
Definition ex_stack : stack_conf := mkStackConf 1 [(1, 1); (2, 1)].
Definition ex_dp (acl : conf) (ports : list (Z * port_conf)) : dp_conf :=
  mkDpConf (ex_obj [(2, CNone); (15, CInt 5)]) [] (Some ex_stack) [(7, acl)] [(100, ex_vlan)] ports [(1, ex_obj [(16, CInt 1)])].

Lemma plain_concrete : forall l, NoDup (map fst l) -> Forall (fun kv => snd kv = CNone \/ solid (snd kv)) l -> plain (ex_obj l).
Proof.
  intros l N F. split; [exact N|]. intros k v G. apply dict_get_in in G; [|apply zspec]. rewrite Forall_forall in F. exact (F _ G).
Qed.
Ltac nodup := repeat (constructor; [cbn; intuition discriminate|]); constructor.
Ltac solids := repeat first [left; reflexivity | right; repeat first [constructor | progress cbn [snd fst map In] | (intros ?; intuition discriminate)]].
Ltac plains := apply plain_concrete; [cbn [map fst]; nodup|repeat (constructor; [cbn [snd]; solids|]); constructor].
Ltac plain_alls := split; [cbn [map fst]; nodup|intros k c I; cbn in I; repeat (destruct I as [I|I]; [injection I as <- <-; plains|]); contradiction].

Lemma ex_plain : forall acl ports, In acl [ex_acl; ex_acl'] ->
  In ports [[(1, ex_p1); (2, ex_p2)]; [(2, ex_p2'); (1, ex_p1')]; [(1, ex_p1); (2, ex_p2'')]] -> plain_dp (ex_dp acl ports).
Proof.
  intros acl ports IA IP. constructor.
  - plains.
  - split; [constructor|intros k c []].
  - cbn in IA. destruct IA as [<-|[<-|[]]]; plain_alls.
  - plain_alls.
  - cbn in IP. destruct IP as [<-|[<-|[<-|[]]]]; plain_alls.
  - plain_alls.
  - intros s E. injection E as <-. cbn [sf_degrees ex_stack map fst]. nodup.
Qed.
Definition ex_quiet_old := ex_dp ex_acl [(1, ex_p1); (2, ex_p2)].
Definition ex_quiet_new := ex_dp ex_acl [(2, ex_p2'); (1, ex_p1')].
Example C35_quiet_case : unchanged ex_quiet_old ex_quiet_new /\ df_ports ex_quiet_new <> [] /\
  exists d, get_config_changes ex_quiet_old ex_quiet_new = PyVal d /\ reload false d = Nothing.
Proof.
  assert (A : forall ign c c', plain c -> plain c' -> ignore_subconf ign c c' = true -> conf_alike ign c c').
  { intros ign c c' P P' B. apply ignore_subconf_spec; assumption. }
  assert (PO : plain_dp ex_quiet_old) by (apply ex_plain; cbn; auto).
  assert (PN : plain_dp ex_quiet_new) by (apply ex_plain; cbn; auto).
  split; [|split; [discriminate|eexists; split; vm_compute; reflexivity]]. constructor.
  - apply A; [apply PO|apply PN|vm_compute; reflexivity].
  - split; [tauto|intros k a b []].
  - split; [reflexivity|apply Permutation_refl].
  - split; [tauto|]. intros k a b I J. apply A; [apply (proj2 (pd_acls _ PO) k _ I)|apply (proj2 (pd_acls _ PN) k _ J)|].
    cbn in I, J. destruct I as [I|[]], J as [J|[]]. injection I as <- <-. injection J as <-. vm_compute. reflexivity.
  - split; [tauto|]. intros k a b I J. apply A; [apply (proj2 (pd_vlans _ PO) k _ I)|apply (proj2 (pd_vlans _ PN) k _ J)|].
    cbn in I, J. destruct I as [I|[]], J as [J|[]]. injection I as <- <-. injection J as <-. vm_compute. reflexivity.
  - intros v a b I J. cbn in I, J. destruct I as [I|[]], J as [J|[]]. injection I as <- <-. injection J as <-. reflexivity.
  - split; [cbn; intuition|]. intros k a b I J. apply A; [apply (proj2 (pd_ports _ PO) k _ I)|apply (proj2 (pd_ports _ PN) k _ J)|].
    cbn in I, J. destruct I as [I|[I|[]]], J as [J|[J|[]]]; injection I as <- <-; injection J; try discriminate; intros <-; vm_compute; reflexivity.
  - intros v a b I J. cbn in I, J. destruct I as [I|[I|[]]], J as [J|[J|[]]]; injection I as <- <-; injection J; try discriminate; intros <-; split; reflexivity.
  - split; [tauto|]. intros k a b I J. apply A; [apply (proj2 (pd_meters _ PO) k _ I)|apply (proj2 (pd_meters _ PN) k _ J)|].
    cbn in I, J. destruct I as [I|[]], J as [J|[]]. injection I as <- <-. injection J as <-. vm_compute. reflexivity.
Qed.

(** One flag deep inside an option of port 2; and the content of the ACL on port 1. *)
Example C35_noticed_case :
  (exists d, get_config_changes ex_quiet_old (ex_dp ex_acl [(1, ex_p1); (2, ex_p2'')]) = PyVal d /\
     reload false d = Warm (mkDpChanges [] [2] [] [] [] [] false false [] [] [])) /\
  ~ conf_alike [description; acls_in] (pf_conf ex_p2) (pf_conf ex_p2'') /\
  (exists d, get_config_changes ex_quiet_old (ex_dp ex_acl' [(1, ex_p1); (2, ex_p2)]) = PyVal d /\
     reload false d = Warm (mkDpChanges [] [] [] [1] [] [] false false [] [] [])) /\
  acl_differs ex_quiet_old (ex_dp ex_acl' [(1, ex_p1); (2, ex_p2)]) 7.
Proof.
  split; [eexists; split; vm_compute; reflexivity|]. split; [|split; [eexists; split; vm_compute; reflexivity|]].
  - intros A. apply ignore_subconf_spec in A; [vm_compute in A; discriminate| |]; plains.
  - exists ex_acl'. split; [left; reflexivity|]. intros o [E|[]] A. injection E as <-.
    apply ignore_subconf_spec in A; [vm_compute in A; discriminate| |]; plains.
Qed.

(** *** Where the full claim fails *)

(** A changed number with a fraction is not noticed: such values compare as None. *)
Theorem C35_fraction_refuted : exists old new d,
  option_of (df_conf old) 15 = Some (CDict [(60, CFloat 1)]) /\ option_of (df_conf new) 15 = Some (CDict [(60, CFloat 2)]) /\
  get_config_changes old new = PyVal d /\ reload false d = Nothing.
Proof.
  exists (mkDpConf (ex_obj [(15, CDict [(60, CFloat 1)])]) [] None [] [(100, ex_vlan)] [(1, ex_p1); (2, ex_p2)] []),
         (mkDpConf (ex_obj [(15, CDict [(60, CFloat 2)])]) [] None [] [(100, ex_vlan)] [(1, ex_p1); (2, ex_p2)] []).
  eexists. split; [reflexivity|]. split; [reflexivity|]. split; vm_compute; reflexivity.
Qed.
Print Assumptions C35_fraction_refuted.

(** The content of an ACL that a VLAN applies to packets going out is not noticed. *)
Theorem C35_acl_out_refuted : exists old new d v,
  In v (df_vlans old) /\ In v (df_vlans new) /\ option_of (vf_conf (snd v)) acls_out = Some (CList [CStr 7]) /\
  acl_differs old new 7 /\ get_config_changes old new = PyVal d /\ reload false d = Nothing.
Proof.
  set (v := mkVlanConf (ex_obj [(acls_out, CList [CStr 7])]) [] [1; 2] false).
  exists (mkDpConf (ex_obj []) [] None [(7, ex_acl)] [(100, v)] [(1, ex_p2); (2, ex_p2)] []),
         (mkDpConf (ex_obj []) [] None [(7, ex_acl')] [(100, v)] [(1, ex_p2); (2, ex_p2)] []).
  eexists. exists (100, v). split; [left; reflexivity|]. split; [left; reflexivity|]. split; [reflexivity|]. split; [|split; vm_compute; reflexivity].
  exists ex_acl'. split; [left; reflexivity|]. intros o [E|[]] A. injection E as <-.
  apply ignore_subconf_spec in A; [vm_compute in A; discriminate| |]; plains.
Qed.
Print Assumptions C35_acl_out_refuted.

(** Taking the datapath out of the stack raises. *)
Theorem C35_leave_stack_refuted : exists old new, plain_dp old /\ consistent old /\ consistent new /\
  df_stack old <> None /\ df_stack new = None /\ get_config_changes old new = PyRaise.
Proof.
  exists ex_quiet_old, (mkDpConf (df_conf ex_quiet_old) [] None (df_acls ex_quiet_old) (df_vlans ex_quiet_old) (df_ports ex_quiet_old) (df_meters ex_quiet_old)).
  split; [apply ex_plain; cbn; auto|].
  assert (C : forall d, df_ports d = df_ports ex_quiet_old -> df_vlans d = df_vlans ex_quiet_old -> consistent d).
  { intros d EP EV. constructor; rewrite ?EP, ?EV; cbn.
    - nodup.
    - nodup.
    - intros p c [E|[E|[]]]; injection E as <- <-; cbn; intuition.
    - intros p c [E|[]]; injection E as <- <-; cbn; intuition. }
  split; [apply C; reflexivity|]. split; [apply C; reflexivity|]. split; [discriminate|]. split; vm_compute; reflexivity.
Qed.
Print Assumptions C35_leave_stack_refuted.

(** While a stack link is down the running graph lacks it, so a reload of the very
    same configuration restarts the stack ports. *)
Theorem C35_link_down_refuted : exists old new d a b,
  df_conf old = df_conf new /\ df_ports old = df_ports new /\ df_vlans old = df_vlans new /\ df_acls old = df_acls new /\
  df_stack old = Some a /\ df_stack new = Some b /\ sf_root a = sf_root b /\ ~ Permutation (sf_degrees a) (sf_degrees b) /\
  get_config_changes old new = PyVal d /\ exists p, restarts_port (reload false d) p.
Proof.
  set (sp := mkPortConf (ex_obj [(17, CDict [(70, CStr 2)])]) [] None [] true).
  set (dp s := mkDpConf (ex_obj []) [] (Some s) [] [(100, ex_vlan)] [(1, ex_p1); (2, ex_p2); (3, sp); (4, sp)] []).
  exists (dp (mkStackConf 1 [(1, 1); (2, 1)])), (dp (mkStackConf 1 [(1, 2); (2, 2)])). eexists. exists (mkStackConf 1 [(1, 1); (2, 1)]), (mkStackConf 1 [(1, 2); (2, 2)]).
  repeat (split; [reflexivity|]). split.
  - intros P. cbn [sf_degrees] in P. assert (I : In (1, 1) [(1, 2); (2, 2)]) by (apply (Permutation_in _ P); left; reflexivity).
    cbn in I. intuition discriminate.
  - split; [vm_compute; reflexivity|]. exists 3. vm_compute. auto.
Qed.
Print Assumptions C35_link_down_refuted.

(** A datapath without ports starts over on every reload. *)
Theorem C35_no_ports_refuted : exists dp d, plain_dp dp /\ unchanged dp dp /\ get_config_changes dp dp = PyVal d /\ reload false d = Cold.
Proof.
  exists (mkDpConf (ex_obj []) [] None [] [] [] []). eexists.
  assert (X : all_alike [] [] [] /\ all_alike [description] [] [] /\ all_alike [description; acls_in] [] []).
  { repeat split; try tauto; intros k a b []. }
  split; [|split; [|split; vm_compute; reflexivity]].
  - constructor; try (split; [constructor|intros k c []; fail]); [plains|discriminate].
  - constructor; try apply X; cbn; auto; try (intros ? ? ? []). intros k _. reflexivity.
Qed.
Print Assumptions C35_no_ports_refuted.

(** ** C43 *)

(** Whatever is assigned to, merged into or finalized again, an attribute of a
    finalized object that is neither dynamic nor declared mutable keeps its value. *)
Theorem C43_immutable : forall mutable_attrs a ops n, ~ runtime_attr n -> ~ In n mutable_attrs -> frozen_ops ops ->
  attr (fold_left (aop_step mutable_attrs) ops (finalize a)) n = attr (finalize a) n.
Proof.
  intros mut a ops n D0 NM F. apply is_dyn_not in D0 as D. destruct (frozen mut ops (finalize a) F (finalized_finalize a)) as [_ A]; [|exact (A n D NM)].
  intros m v DM G. rewrite finalize_attr in G; [|intros ->; discriminate DM]. destruct (attr a m); [|discriminate].
  rewrite DM in G. injection G as <-. apply finalize_val_idem.
Qed.
Print Assumptions C43_immutable.

(** Such an assignment is rejected; one to a dynamic or mutable attribute takes
    effect on that attribute alone. *)
Theorem C43_assignment : forall mutable_attrs a ops n v, frozen_ops ops ->
  let b := fold_left (aop_step mutable_attrs) ops (finalize a) in
  (~ runtime_attr n -> ~ In n mutable_attrs -> set_attr mutable_attrs n v b = PyRaise) /\
  (runtime_attr n \/ In n mutable_attrs -> exists c, set_attr mutable_attrs n v b = PyVal c /\
     attr c n = Some v /\ forall m, m <> n -> attr c m = attr b m).
Proof.
  intros mut a ops n v F b. destruct (frozen mut ops (finalize a) F (finalized_finalize a)) as [FB _].
  { intros m w DM G. rewrite finalize_attr in G; [|intros ->; discriminate DM]. destruct (attr a m); [|discriminate].
    rewrite DM in G. injection G as <-. apply finalize_val_idem. }
  fold b in FB. unfold set_attr. rewrite FB. cbn [negb orb]. split.
  - intros D NM. apply is_dyn_not in D. rewrite D. cbn [orb]. destruct (existsb (String.eqb n) mut) eqn:E; [|reflexivity]. apply existsb_exists in E as (x & I & E).
    apply sspec in E. subst x. contradiction.
  - intros H. assert (E : is_dyn n || existsb (String.eqb n) mut = true).
    { apply orb_true_iff. destruct H as [H|H]; [left; apply is_dyn_spec; exact H|]. right. apply existsb_exists. exists n. split; [exact H|apply String.eqb_refl]. }
    rewrite E. eexists. split; [reflexivity|]. split.
    + unfold attr. rewrite dict_get_put by apply sspec. rewrite String.eqb_refl. reflexivity.
    + intros m NE. unfold attr. rewrite dict_get_put by apply sspec. destruct (String.eqb m n) eqn:E2; [apply sspec in E2; contradiction|reflexivity].
Qed.
Print Assumptions C43_assignment.

(** Finalizing keeps what is configured. *)
Theorem C43_finalize : forall a n v, n <> dyn_finalized -> attr a n = Some v -> solid v ->
  exists w, attr (finalize a) n = Some w /\ str_conf (finalize_val w) = str_conf (finalize_val v) /\ finalize_val w = finalize_val v.
Proof.
  intros a n v NE G S. rewrite finalize_attr by exact NE. rewrite G. destruct (is_dyn n); eexists; (split; [reflexivity|]).
  - auto.
  - rewrite finalize_val_idem. auto.
Qed.
Print Assumptions C43_finalize.

Example C43_case :
  let a := [("number"%string, CInt 3); ("tagged"%string, CList [CInt 1]); ("dyn_phys_up"%string, CBool false)] in
  let ops := [ASet "number" (CInt 4); ASet "dyn_phys_up" (CBool true); AMerge [("dyn_finalized"%string, CBool true); ("number"%string, CInt 9)];
              ASet "tagged" (CList []); AFinalize] in
  frozen_ops ops /\ fold_left (aop_step ["tagged"%string]) ops (finalize a)
  = [("number"%string, CInt 3); ("tagged"%string, CList []); ("dyn_phys_up"%string, CBool true); ("dyn_finalized"%string, CBool true)].
Proof.
  cbv zeta. split; [split|vm_compute; reflexivity].
  - intros v I. cbn in I. intuition discriminate.
  - intros o I. cbn in I. repeat (destruct I as [I|I]; [try discriminate|]); try contradiction. injection I as <-. split; [|reflexivity].
    cbn. nodup.
Qed.

(** The mark itself is a dynamic attribute: any code can take it away. *)
Theorem C43_mark_refuted : exists a n v w, ~ runtime_attr n /\ attr (finalize a) n = Some v /\ v <> w /\
  attr (fold_left (aop_step []) [ASet dyn_finalized (CBool false); ASet n w] (finalize a)) n = Some w.
Proof.
  exists [("number"%string, CInt 3)], "number"%string, (CInt 3), (CInt 4).
  split; [intros (r & E); discriminate E|]. repeat split; try reflexivity. discriminate.
Qed.
Print Assumptions C43_mark_refuted.
