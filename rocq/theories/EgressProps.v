(** * C79: the egress pipeline *)

From Coq Require Import ZArith List Bool Lia.
From Verif Require Import OpenFlow TrimModel TableModel EgressModel EgressSpec EgressProofs.
Import ListNotations.
Open Scope Z_scope.

Section Egress.
Variable c : econf.
Notation tid := (tb_id (ec_egress c)).

(** Where the forwarding decision leads: the egress ACLs if there are some. *)
Definition first_egress : Z := match ec_acl c with Some t => tb_id t | None => tid end.

(** C79 — A frame that is to leave at a port that is up, on a VLAN of the port, and that
    reaches the egress table leaves there, once, as the port carries the VLAN, with a
    copy to each of the port's mirrors, and nowhere else. *)
Theorem C79_egress : forall evs n p v q pcp r, orderly (fun _ => None) evs -> small evs -> up_after evs n = Some p ->
  (In v (ep_tagged p) \/ ep_native p = Some v) -> pk_tags q = (v, pcp) :: r ->
  exists q' q'', md_insts (output c p v) q = Some (q', first_egress) /\ same_frame q q' /\ as_carried p v q q'' /\
    forall live es, walk (xrun c evs) live tid q' es <-> es = map (fun m => (m, q')) (ep_mirror p) ++ [(n, q'')].
Proof.
  intros evs n p v q pcp r O Sm U V T. destruct (xrun_inv c evs O Sm) as [I1 I2 I3 I4 I5]. destruct (I1 n p U) as [N Sp].
  assert (C : exists pop, carries p v pop) by (destruct V as [V|V]; [exists false; left|exists true; right]; auto). destruct C as [pop C].
  pose proof (carries_small p v pop Sp C) as Hv. pose proof (proj1 Sp) as Hn.
  set (q' := write_metadata (egress_metadata (ep_num p) v) EGRESS_METADATA_MASK q). exists q', (if pop then pop_vlan q' else q').
  split; [unfold output, first_egress; destruct (ec_acl c); reflexivity|].
  assert (Sf : same_frame q q').
  { split; [reflexivity|]. split; [|reflexivity]. intros f Nf. unfold q', write_metadata, set_field. cbn [pk_hdr]. unfold field_eqb. destruct (field_eq_dec f Metadata); congruence. }
  split; [exact Sf|]. split.
  { destruct Sf as (S1 & S2 & S3). destruct C as [[C ->]|[C ->]]; (split; [exact S1|]; split; [exact S2|]); [left|right]; (split; [exact C|]); [exact S3|reflexivity]. }
  assert (M : forall num vid, 0 < num < 4096 -> 0 < vid < 4096 -> matches q' (egress_match num vid) = true <-> num = ep_num p /\ vid = v).
  { intros num vid H1 H2. apply rule_matches; auto.
    - pose proof (written_metadata q (ep_num p) v Hn Hv) as W. fold q' in W. destruct (pk_hdr q' Metadata) as [x|] eqn:Ex; [exists x; auto|].
      unfold q', write_metadata, set_field in Ex. cbn in Ex. discriminate Ex.
    - exists pcp, r. rewrite <- T. apply Sf. }
  assert (H : forall f, hit (sw_flows (xrun c evs)) tid q' f <-> f = rule_flow c p v pop).
  { intros f. split.
    - intros (F1 & F2 & F3 & F4). destruct (I2 f F1) as [->|(m & p' & w & b & U' & C' & ->)].
      + specialize (F4 (rule_flow c p v pop) (I3 n p v pop U C) eq_refl (proj2 (M _ _ Hn Hv) (conj eq_refl eq_refl))). exfalso. apply F4. reflexivity.
      + destruct (I1 m p' U') as [N' Sp']. apply M in F3 as [E ->]; [|exact (proj1 Sp')|exact (carries_small p' w b Sp' C')].
        assert (p' = p) by (rewrite N', N in E; congruence). subst p'. f_equal. exact (carries_pop p v b pop Sp C' C).
    - intros ->. split; [apply (I3 n p v pop U C)|]. split; [reflexivity|]. split; [apply M; auto|]. intros g G1 G2 G3.
      destruct (I2 g G1) as [->|(m & p' & w & b & U' & C' & ->)]; cbn; unfold MISS_PRIORITY, HIGH_PRIORITY; lia. }
  intros live es. split.
  - intros W. inversion W as [t0 p0 Miss|t0 p0 f es0 p1 Hf E|t0 p0 f es0 p1 t1 es1 Hf E W1]; subst.
    + exfalso. specialize (Miss _ (proj1 (proj2 (H _) eq_refl)) eq_refl). cbn [f_match rule_flow] in Miss. rewrite (proj2 (M _ _ Hn Hv)) in Miss; [discriminate|auto].
    + apply H in Hf. subst f. cbn [f_inst rule_flow] in E. rewrite exec_rule in E. injection E as <- _. reflexivity.
    + apply H in Hf. subst f. cbn [f_inst rule_flow] in E. rewrite exec_rule in E. discriminate E.
  - intros ->. eapply walk_end; [apply H; reflexivity|]. cbn [f_inst rule_flow]. rewrite exec_rule. rewrite N. reflexivity.
Qed.

(** C79 — A frame that is to leave at a port that is not up, and one for which no port
    was chosen, goes on to be flooded. *)
Theorem C79_down : forall evs n p v q q' t pcp r, orderly (fun _ => None) evs -> small evs -> up_after evs n = None -> ep_num p = n -> 0 < n < 4096 -> 0 < v < 4096 ->
  pk_tags q = (v, pcp) :: r -> md_insts (output c p v) q = Some (q', t) ->
  forall f, hit (sw_flows (xrun c evs)) tid q' f -> f_inst f = [Goto (ec_flood c)].
Proof.
  intros evs n p v q q' t pcp r O Sm U N Hn Hv T E f (F1 & F2 & F3 & F4). destruct (xrun_inv c evs O Sm) as [I1 I2 I3 I4 I5].
  destruct (I2 f F1) as [->|(m & p' & w & b & U' & C' & ->)]; [reflexivity|]. exfalso. destruct (I1 m p' U') as [N' Sp'].
  cbn [md_insts output] in E. injection E as <- _. cbn [f_match rule_flow] in F3. rewrite N in F3.
  apply (rule_matches _ n v) in F3 as [E _]; auto; [congruence|exact (proj1 Sp')|exact (carries_small p' w b Sp' C')| |exists pcp, r; exact T].
  pose proof (written_metadata q n v Hn Hv) as W. destruct (pk_hdr _ Metadata) as [x|] eqn:Ex; [exists x; auto|]. unfold write_metadata, set_field in Ex. cbn in Ex. discriminate Ex.
Qed.
Theorem C79_unknown : forall evs q x, orderly (fun _ => None) evs -> small evs -> pk_hdr q Metadata = Some x -> Z.land x EGRESS_METADATA_MASK = 0 ->
  forall f, hit (sw_flows (xrun c evs)) tid q f -> f_inst f = [Goto (ec_flood c)].
Proof.
  intros evs q x O Sm Hx Hm f (F1 & F2 & F3 & F4). destruct (xrun_inv c evs O Sm) as [I1 I2 I3 I4 I5].
  destruct (I2 f F1) as [->|(m & p' & w & b & U' & C' & ->)]; [reflexivity|]. exfalso. destruct (I1 m p' U') as [N' Sp'].
  pose proof (proj1 Sp') as Hn. pose proof (carries_small p' w b Sp' C') as Hw.
  cbn [f_match rule_flow egress_match matches forallb] in F3. apply andb_true_iff in F3 as [F3 _]. unfold item_matches, masked in F3. cbn [pk_get] in F3.
  rewrite Hx, Hm, md_full in F3 by lia. apply Z.eqb_eq in F3.
  pose proof (md_port (ep_num p') w ltac:(lia)) as E. rewrite <- F3 in E. cbn in E. lia.
Qed.
End Egress.

(** The hypotheses are met: port 1 carries VLAN 100 untagged and 200 tagged and is
    mirrored to port 3, port 2 is deleted and added with other VLANs. *)
Definition ex_c : econf := mkEconf (mkTable 9 5 0) (Some (mkTable 8 5 0)) 10.
Definition ex_p1 : eport := mkEport 1 [200] (Some 100) [3].
Definition ex_p2 : eport := mkEport 2 [] (Some 100) [].
Definition ex_p2' : eport := mkEport 2 [100; 200] None [].
Definition ex_evs : list xevent := [XAdd ex_p1; XAdd ex_p2; XDel 2; XAdd ex_p2'; XAdd ex_p1].
Example C79_example : orderly (fun _ => None) ex_evs /\ small ex_evs /\ up_after ex_evs 1 = Some ex_p1 /\ up_after ex_evs 2 = Some ex_p2' /\
  up_after ex_evs 3 = None /\ length (sw_flows (xrun ex_c ex_evs)) = 5%nat.
Proof.
  split; [cbn; auto 10|]. split.
  - assert (S1 : small_port ex_p1) by (split; [cbn; lia|]; split; [repeat constructor; cbn; lia|]; split; cbn; intros v H; [destruct H as [[<-|[]]|H]; [|injection H as <-]|injection H as <-]; lia).
    assert (S2 : small_port ex_p2) by (split; [cbn; lia|]; split; [repeat constructor; cbn; lia|]; split; cbn; intros v H; [destruct H as [[]|H]; injection H as <-; lia|intros []]).
    assert (S3 : small_port ex_p2') by (split; [cbn; lia|]; split; [repeat constructor; cbn; lia|]; split; cbn; intros v H; [destruct H as [[<-|[<-|[]]]|H]; [lia|lia|discriminate H]|discriminate H]).
    intros e H. cbn in H. repeat destruct H as [<-|H]; try contradiction H; first [exact S1|exact S2|exact S3|lia].
  - vm_compute. auto.
Qed.

(** Not so for larger port numbers: metadata has 12 bits for the port.  Ports 1 and 4097
    carry VLAN 100; a frame for port 1 leaves at port 4097. *)
Definition ex_frame : packet := mkPacket 5 [(100, 0)] (fun f => match f with EthDst => Some 7 | Metadata => Some 0 | _ => None end).
Theorem C79_large_port_refuted : exists c p big q', ep_num p = 1 /\ ep_num big = 4097 /\ ep_native p = Some 100 /\ ep_native big = Some 100 /\
  up_after [XAdd p; XAdd big] 1 = Some p /\ md_insts (output c p 100) ex_frame = Some (q', tb_id (ec_egress c)) /\
  exists f, hit (sw_flows (xrun c [XAdd p; XAdd big])) (tb_id (ec_egress c)) q' f /\ f_inst f = [Apply [PopVlan; Output 4097 0]].
Proof.
  set (c := mkEconf (mkTable 9 5 0) None 10). set (p := mkEport 1 [] (Some 100) []). set (b := mkEport 4097 [] (Some 100) []).
  exists c, p, b. eexists. repeat (split; [reflexivity|]). exists (rule_flow c b 100 true). split; [|reflexivity].
  split; [right; left; reflexivity|]. split; [reflexivity|]. split; [vm_compute; reflexivity|].
  intros g [<-|[<-|[]]] _ _; cbn; unfold MISS_PRIORITY, HIGH_PRIORITY; lia.
Qed.
(** Not so for stack ports, which carry every VLAN without being a member of any: frames
    for a host behind one are flooded. *)
Theorem C79_stack_port_refuted : exists c p q', ep_tagged p = [] /\ ep_native p = None /\ up_after [XAdd p] 1 = Some p /\
  md_insts (output c p 100) ex_frame = Some (q', tb_id (ec_egress c)) /\
  forall f, In f (sw_flows (xrun c [XAdd p])) -> f_inst f = [Goto (ec_flood c)].
Proof.
  exists (mkEconf (mkTable 9 5 0) None 10), (mkEport 1 [] None []). eexists. repeat (split; [reflexivity|]).
  intros f [<-|[]]. reflexivity.
Qed.

Print Assumptions C79_egress.
Print Assumptions C79_down.
Print Assumptions C79_unknown.
Print Assumptions C79_large_port_refuted.
Print Assumptions C79_stack_port_refuted.
