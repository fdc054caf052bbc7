(** * Properties C06-C08: what a flood action list emits

    [flood_acts_for_port v unicast q ext restr] models
    _build_flood_acts_for_port: the actions applied to frames that entered VLAN
    [v] on port [q]; [flood_acts_for_vlan v unicast] models the VLAN-wide rule.
    [unicast] is true for unknown unicast.  Frames reach the flood table tagged
    with the VLAN ([pk_tags p <> []]).  [wire n es] is what leaves the switch
    for a frame that entered on port [n]. *)
From Coq Require Import ZArith List Bool Lia.
From Verif Require Import PyBase OpenFlow FloodModel FloodSpec FloodProofs.
Import ListNotations.
Open Scope Z_scope.

(** C06: a flooded frame goes back out of its ingress port only if that port is
    a hairpin port (then exactly one copy, tagged as the port is). *)
Theorem C06_port_flood_not_reflected : forall g live v unicast q ext restr p,
  wf_vlan v -> pk_tags p <> [] -> In q (members v) ->
  flood_acts_for_port v unicast q ext restr <> [] ->
  let es := fst (exec_acts g live (flood_acts_for_port v unicast q ext restr) p) in
  let hairpin := p_hairpin q = true /\ (unicast = true -> p_unicast_flood q = true) in
  (hairpin -> exists p', copies (p_num q) (wire (p_num q) es) = [p'] /\
         (is_tagged v q -> same_frame_tagged p p') /\ (is_untagged v q -> same_frame_untagged p p')) /\
  (~ hairpin -> copies (p_num q) (wire (p_num q) es) = []).
Proof. exact port_reflect_lemma. Qed.
Print Assumptions C06_port_flood_not_reflected.

Theorem C06_vlan_flood_not_reflected : forall g live v unicast q p,
  wf_vlan v -> pk_tags p <> [] -> In q (members v) ->
  copies (p_num q) (wire (p_num q) (fst (exec_acts g live (flood_acts_for_vlan v unicast) p))) = [].
Proof. exact vlan_reflect_lemma. Qed.
Print Assumptions C06_vlan_flood_not_reflected.

(** C07: of each LAG at most one member gets the frame, it is selected and its
    LACP actor is up, and none does if the frame came in on that LAG. *)
Theorem C07_port_flood_one_per_lag : forall g live v unicast i ext restr p q,
  wf_vlan v -> pk_tags p <> [] ->
  let es := fst (exec_acts g live (flood_acts_for_port v unicast i ext restr) p) in
  In q (members v) -> p_lacp q <> 0 -> copies (p_num q) es <> [] ->
  p_selected q = true /\ p_actor_up q = true /\ p_lacp i <> p_lacp q /\
  (forall r, In r (members v) -> p_lacp r = p_lacp q -> copies (p_num r) es <> [] -> p_num r = p_num q).
Proof.
  intros g live v unicast i ext restr p q WF Ht es Hq N Hc.
  assert (Hn : flood_acts_for_port v unicast i ext restr <> []).
  { intros E. unfold es in Hc. rewrite E in Hc. apply Hc. reflexivity. }
  exact (lag_flood_lemma _ _ _ _ _ _ _ WF (port_flood_lemma g live v unicast i ext restr p WF Ht Hn) q Hq N Hc).
Qed.
Print Assumptions C07_port_flood_one_per_lag.

Theorem C07_vlan_flood_one_per_lag : forall g live v unicast p q,
  wf_vlan v -> pk_tags p <> [] ->
  let es := fst (exec_acts g live (flood_acts_for_vlan v unicast) p) in
  In q (members v) -> p_lacp q <> 0 -> copies (p_num q) es <> [] ->
  p_selected q = true /\ p_actor_up q = true /\ True /\
  (forall r, In r (members v) -> p_lacp r = p_lacp q -> copies (p_num r) es <> [] -> p_num r = p_num q).
Proof.
  intros g live v unicast p q WF Ht es.
  exact (lag_flood_lemma _ _ _ _ _ _ _ WF (vlan_flood_lemma g live v unicast p WF Ht) q).
Qed.
Print Assumptions C07_vlan_flood_one_per_lag.

(** C08: each eligible member gets exactly one copy, tagged or untagged as
    configured; nothing else but mirrors of eligible members does. *)
Theorem C08_port_flood_exact : forall g live v unicast q ext restr p,
  wf_vlan v -> pk_tags p <> [] ->
  flood_acts_for_port v unicast q ext restr <> [] ->
  floods v unicast ext (restr && p_restricted q) (Some q) p
         (fst (exec_acts g live (flood_acts_for_port v unicast q ext restr) p)).
Proof. exact port_flood_lemma. Qed.
Print Assumptions C08_port_flood_exact.

Theorem C08_port_flood_empty : forall v unicast q ext restr,
  wf_vlan v -> flood_acts_for_port v unicast q ext restr = [] -> p_phys_up q = true ->
  forall r, ~ eligible v unicast ext (restr && p_restricted q) (Some q) r.
Proof. exact port_no_flood_lemma. Qed.
Print Assumptions C08_port_flood_empty.

Theorem C08_vlan_flood_exact : forall g live v unicast p,
  wf_vlan v -> pk_tags p <> [] ->
  floods v unicast false true None p (fst (exec_acts g live (flood_acts_for_vlan v unicast) p)).
Proof. exact vlan_flood_lemma. Qed.
Print Assumptions C08_vlan_flood_exact.

(** C08: a flood group does exactly what the action list does. *)
Theorem C08_group_same_as_actions : forall g live v unicast i ext restr p gid,
  exec_group live (mkGroup gid GT_ALL (flood_buckets (flood_rule_actions v unicast i ext restr) [])) p =
  fst (exec_acts g live (flood_rule_actions v unicast i ext restr) p).
Proof. exact group_flood_lemma. Qed.
Print Assumptions C08_group_same_as_actions.

(** ** A concrete VLAN: tagged 1, untagged hairpin 2, LAG 7 = {3,4}, external 5 and 6,
    802.1X-moved port 8, port 2 mirrored to 9 *)
Definition mkp n hp lacp sel ext mir d1x := mkPort n hp true lacp sel sel true ext false mir d1x.
Definition ex_p2 := mkp 2 true 0 false false [9] None.
Definition ex_vlan : vlan :=
  mkVlan 100 [mkp 1 false 0 false false [] None; mkp 3 false 7 true false [] None;
              mkp 4 false 7 true false [] None]
             [ex_p2; mkp 6 false 0 false true [] None; mkp 5 false 0 false true [] None;
              mkp 8 false 0 false false [] (Some 200)] [] true.

Example ex_vlan_wf : wf_vlan ex_vlan.
Proof.
  constructor.
  - simpl. repeat (constructor; [simpl; intuition discriminate|]). constructor.
  - intros a H. simpl in H. unfold OFPP_MAX. repeat destruct H as [<-|H]; simpl; try lia; contradiction.
  - intros a n H Hn. simpl in H.
    repeat destruct H as [<-|H]; simpl in Hn; try contradiction.
    destruct Hn as [<-|[]]. unfold OFPP_MAX. split; [lia|]. intros b Hb.
    simpl in Hb. repeat destruct Hb as [<-|Hb]; simpl; try lia; contradiction.
Qed.

Example ex_port_acts : flood_acts_for_port ex_vlan false ex_p2 false true =
  [SetField VlanPcp 2; Output 1 0; Output 3 0; PopVlan; Output 5 0; Output OFPP_IN_PORT 0].
Proof. vm_compute. reflexivity. Qed.
Example ex_vlan_acts : flood_acts_for_vlan ex_vlan true =
  [SetField VlanPcp 2; Output 1 0; Output 3 0; PopVlan; Output 2 0; Output 5 0; Output 9 0].
Proof. vm_compute. reflexivity. Qed.
