(** * Properties C01-C03 of batch reordering (valve_of.py 1074-1278)

    [valve_flowreorder shuffle use_barriers ms] is the model of
    [valve_of.valve_flowreorder]; [None] means the Python raises TypeError.
    [shuffle] stands for [random.shuffle]: any function that permutes. *)

From Coq Require Import ZArith List Bool Permutation Lia.
From Verif Require Import PyBase OpenFlow ReorderModel ReorderSpec ReorderProofs.
Import ListNotations.
Open Scope Z_scope.

(** C01: sending the reordered batch has the intended effect on every switch. *)
Theorem C01_reorder_effect : forall shuffle use_barriers ms out s,
  clean_batch ms ->
  (forall l x, In x (shuffle l) -> In x l) ->
  valve_flowreorder shuffle use_barriers ms = Some out ->
  same_switch (apply_msgs out s) (intended ms s).
Proof. exact reorder_effect_lemma. Qed.
Print Assumptions C01_reorder_effect.

(** C02: order, barriers, contents. *)
Theorem C02_reorder_order : forall shuffle use_barriers ms out,
  (forall l, Permutation (shuffle l) l) ->
  valve_flowreorder shuffle use_barriers ms = Some out -> in_stage_order out.
Proof. exact reorder_order_lemma. Qed.
Print Assumptions C02_reorder_order.

Theorem C02_reorder_barriers : forall shuffle ms out,
  (forall l, Permutation (shuffle l) l) ->
  valve_flowreorder shuffle true ms = Some out -> barriers_separate out.
Proof. exact reorder_barriers_lemma. Qed.
Print Assumptions C02_reorder_barriers.

Theorem C02_reorder_invents_nothing : forall shuffle use_barriers ms out m,
  (forall l, Permutation (shuffle l) l) ->
  valve_flowreorder shuffle use_barriers ms = Some out ->
  In m out -> m = Barrier \/ In m ms.
Proof. exact reorder_invents_nothing_lemma. Qed.
Print Assumptions C02_reorder_invents_nothing.

Theorem C02_reorder_keeps_the_rest : forall shuffle use_barriers ms out m,
  (forall l, Permutation (shuffle l) l) ->
  valve_flowreorder shuffle use_barriers ms = Some out ->
  In m ms -> is_delete m = false -> is_flow_write m = false -> In m out.
Proof. exact reorder_keeps_lemma. Qed.
Print Assumptions C02_reorder_keeps_the_rest.

Theorem C02_reorder_last_writer : forall shuffle use_barriers ms out w,
  (forall l, Permutation (shuffle l) l) ->
  valve_flowreorder shuffle use_barriers ms = Some out ->
  (In (FlowMod w) out /\ is_flow_write (FlowMod w) = true <-> last_writer ms w).
Proof. exact reorder_last_writer_lemma. Qed.
Print Assumptions C02_reorder_last_writer.

Theorem C02_reorder_later_tables_first : forall shuffle use_barriers ms out,
  (forall l, Permutation (shuffle l) l) ->
  valve_flowreorder shuffle use_barriers ms = Some out -> later_tables_first out.
Proof. exact reorder_tables_lemma. Qed.
Print Assumptions C02_reorder_later_tables_first.

(** The reorderer does not raise if every all-tables flow delete is a global one
    (the only kind the code in /repo builds, valve.py 382-393). *)
Theorem C02_reorder_total : forall shuffle use_barriers ms,
  (forall fm, In (FlowMod fm) ms -> is_delete (FlowMod fm) = true ->
     fm_table fm = OFPTT_ALL -> fm_match fm = []) ->
  exists out, valve_flowreorder shuffle use_barriers ms = Some out.
Proof. exact reorder_total_lemma. Qed.
Print Assumptions C02_reorder_total.

(** C03 for clean batches: a flow removed by a delete of the batch does not
    survive, unless the batch writes its slot. *)
Theorem C03_deletes_effective_partial : forall shuffle use_barriers ms out s m f,
  clean_batch ms -> (forall l, Permutation (shuffle l) l) ->
  valve_flowreorder shuffle use_barriers ms = Some out ->
  In m ms -> is_delete m = true -> removes m f ->
  In f (sw_flows (apply_msgs out s)) ->
  exists w, In (FlowMod w) ms /\ is_flow_write (FlowMod w) = true /\
    fm_table w = f_table f /\ fm_prio w = f_prio f /\ fm_match w = f_match f.
Proof. exact deletes_effective_lemma. Qed.
Print Assumptions C03_deletes_effective_partial.

(** ** Concrete cases *)

Definition noshuffle (l : list ofmsg) : list ofmsg := l.

(** A batch as produced by a VLAN add: cold, with learned flows of another host. *)
Definition ex_add (t p : Z) (m : fmatch) (i : list instruction) : ofmsg :=
  FlowMod (mkFlowMod FAdd t p m 7 0 0 i 0 0 0).
Definition ex_del (c : fcmd) (t p : Z) (m : fmatch) : ofmsg :=
  FlowMod (mkFlowMod c t p m 7 OFPP_ANY OFPG_ANY [] 0 0 0).

Definition ex_batch : list ofmsg :=
  [ PacketOut [1] 5;
    ex_add 0 0x2000 [exact InPort 1] [Goto 1];
    ex_del FDelete 2 0 [exact EthDst 9];
    ex_add 0 0x2000 [exact InPort 1] [Goto 2];
    ex_del FDeleteStrict 0 0x2000 [exact InPort 1];
    GroupMod GAdd (mkGroup 3 GT_ALL []);
    GroupMod GDelete (mkGroup 3 GT_ALL []);
    ConfigMsg 1 ].

Ltac case_in :=
  repeat match goal with
         | H : In _ _ |- _ => unfold ex_batch, ex_add, ex_del in H; simpl in H
         | H : _ \/ _ |- _ => destruct H
         | H : False |- _ => contradiction
         | H : FlowMod _ = FlowMod _ |- _ => injection H; clear H; intros; subst
         | H : GroupMod _ _ = GroupMod _ _ |- _ => injection H; clear H; intros; subst
         end.

Example ex_clean : clean_batch ex_batch.
Proof.
  constructor; unfold same_flow_slot; intros; case_in; simpl in *;
    try discriminate; try congruence; try (split; reflexivity); try (intuition congruence).
  all: intros H; case_in; discriminate.
Qed.

Example ex_reordered : valve_flowreorder noshuffle true ex_batch =
  Some [ ConfigMsg 1; Barrier;
         GroupMod GDelete (mkGroup 3 GT_ALL []); ex_del FDelete 2 0 [exact EthDst 9]; Barrier;
         GroupMod GAdd (mkGroup 3 GT_ALL []); Barrier;
         ex_add 0 0x2000 [exact InPort 1] [Goto 2];
         PacketOut [1] 5 ].
Proof. vm_compute. reflexivity. Qed.

Example ex_last_writer : last_writer ex_batch (mkFlowMod FAdd 0 0x2000 [exact InPort 1] 7 0 0 [Goto 2] 0 0 0).
Proof.
  exists [ PacketOut [1] 5; ex_add 0 0x2000 [exact InPort 1] [Goto 1]; ex_del FDelete 2 0 [exact EthDst 9] ].
  eexists. split; [reflexivity|split; [reflexivity|]]. intros w' H W. case_in; discriminate.
Qed.

Example ex_removes : removes (ex_del FDelete 2 0 [exact EthDst 9])
  (mkFlow 2 5 [exact VlanVid 0x1064; exact EthDst 9] 7 [] 0 0 0).
Proof. intros H. vm_compute in H. exact H. Qed.

(** ** Findings: the unrestricted claims are false of the code *)

(** C03: the batch of a VLAN warm change (valve_switch_standalone.py 529-548:
    [del_vlan] then [add_vlan]): the wildcard delete of the VLAN in the eth_src
    table has the key of the controller rule that is re-added, is dropped by
    [remove_overlap_ofmsgs], and the learned source rules of the old
    configuration survive. *)
Definition warm_vlan_batch : list ofmsg :=
  [ ex_del FDelete 4 0x1000 [exact VlanVid 0x1064];
    ex_add 4 0x1000 [exact VlanVid 0x1064] [Apply [Output OFPP_CONTROLLER 96]; Goto 5] ].
Definition learned_src : flow :=
  mkFlow 4 0x1fff [exact InPort 1; exact VlanVid 0x1064; exact EthSrc 42] 7 [Goto 5] 300 0 0.

Theorem C03_delete_lost_refuted : exists ms s out m f,
  valve_flowreorder noshuffle true ms = Some out /\
  In m ms /\ is_delete m = true /\ removes m f /\
  In f (sw_flows s) /\ In f (sw_flows (apply_msgs out s)) /\
  forall w, In (FlowMod w) ms -> is_flow_write (FlowMod w) = true -> fm_match w <> f_match f.
Proof.
  exists warm_vlan_batch, (mkSwitch [learned_src] [] []).
  eexists. exists (ex_del FDelete 4 0x1000 [exact VlanVid 0x1064]), learned_src.
  split; [vm_compute; reflexivity|]. split; [left; reflexivity|]. split; [reflexivity|].
  split; [intros H; vm_compute in H; exact H|].
  split; [left; reflexivity|]. split; [vm_compute; auto|].
  intros w [H|[H|[]]] W; inversion H; subst; discriminate.
Qed.
Print Assumptions C03_delete_lost_refuted.

(** C01: a slot added and then modified in one batch is never installed. *)
Theorem C01_add_then_modify_refuted : exists ms out f,
  valve_flowreorder noshuffle true ms = Some out /\
  In f (sw_flows (intended ms empty_switch)) /\
  sw_flows (apply_msgs out empty_switch) = [].
Proof.
  exists [ ex_add 8 0x2000 [exact VlanVid 0x1064] [Apply [Output 1 0]];
           FlowMod (mkFlowMod FModifyStrict 8 0x2000 [exact VlanVid 0x1064] 7 0 0 [Apply [Output 1 0; Output 2 0]] 0 0 0) ].
  eexists. exists (mkFlow 8 0x2000 [exact VlanVid 0x1064] 7 [Apply [Output 1 0; Output 2 0]] 0 0 0).
  split; [vm_compute; reflexivity|]. split; [vm_compute; auto|]. vm_compute; reflexivity.
Qed.
Print Assumptions C01_add_then_modify_refuted.

(** C01: redefining a group twice in one batch keeps the first definition, not
    the last ([groupadd] emits a delete and an add; after reordering the second
    add is refused by the switch). *)
Theorem C01_group_redefinition_refuted : exists ms out,
  valve_flowreorder noshuffle true ms = Some out /\
  sw_groups (apply_msgs ms empty_switch) = [mkGroup 3 GT_ALL [mkBucket 0 [Output 2 0]]] /\
  sw_groups (apply_msgs out empty_switch) = [mkGroup 3 GT_ALL [mkBucket 0 [Output 1 0]]].
Proof.
  exists [ GroupMod GDelete (mkGroup 3 GT_ALL []);
           GroupMod GAdd (mkGroup 3 GT_ALL [mkBucket 0 [Output 1 0]]);
           GroupMod GDelete (mkGroup 3 GT_ALL []);
           GroupMod GAdd (mkGroup 3 GT_ALL [mkBucket 0 [Output 2 0]]) ].
  eexists. split; [vm_compute; reflexivity|]. split; vm_compute; reflexivity.
Qed.
Print Assumptions C01_group_redefinition_refuted.

(** C01: two adds to one slot with different cookies: the first writer may win. *)
Theorem C01_cookie_slot_refuted : exists ms out,
  valve_flowreorder noshuffle true ms = Some out /\
  sw_flows (intended ms empty_switch) = [mkFlow 0 1 [] 7 [Goto 3] 0 0 0] /\
  sw_flows (apply_msgs out empty_switch) = [mkFlow 0 1 [] 8 [Goto 2] 0 0 0].
Proof.
  exists [ ex_add 0 1 [] [Goto 1];
           FlowMod (mkFlowMod FAdd 0 1 [] 8 0 0 [Goto 2] 0 0 0);
           ex_add 0 1 [] [Goto 3] ].
  eexists. split; [vm_compute; reflexivity|]. split; vm_compute; reflexivity.
Qed.
Print Assumptions C01_cookie_slot_refuted.

(** C02: the reorderer raises on some batches. *)
Theorem C02_reorder_raises_refuted : exists ms, valve_flowreorder noshuffle true ms = None.
Proof.
  exists [ ex_del FDelete OFPTT_ALL 0 [exact VlanVid 0x1064];
           ex_del FDelete 2 0 [exact VlanVid 0x1064];
           GroupMod GDelete (mkGroup 3 GT_ALL []) ].
  vm_compute. reflexivity.
Qed.
Print Assumptions C02_reorder_raises_refuted.
