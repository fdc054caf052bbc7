(** * Properties C04 (trimming) and C05 (VID encoding) *)
From Coq Require Import ZArith List Bool Lia.
From Verif Require Import PyBase OpenFlow TrimModel TrimProofs.
Import ListNotations.
Open Scope Z_scope.

(** C04: for every flow with at most one apply-actions instruction (OpenFlow
    allows one of each type), every group table and every packet: the trimmed
    instructions emit the same packets in the same order, go to the same table,
    and hand it the same packet. *)
Theorem C04_trim_preserves : forall groups live allowed inst inst' p,
  (length (filter is_apply inst) <= 1)%nat ->
  trim_inst allowed inst = Some inst' ->
  let '(es, q, next) := exec_insts groups live inst p in
  let '(es', q', next') := exec_insts groups live inst' p in
  es' = es /\ next' = next /\ (next <> None -> q' = q).
Proof. exact trim_inst_preserves_lemma. Qed.
Print Assumptions C04_trim_preserves.

(** C04: and the trimming is complete: no empty action list remains, and without
    goto and recirculation the last action outputs. *)
Theorem C04_trim_complete : forall allowed inst inst' acts,
  trim_inst allowed inst = Some inst' -> In (Apply acts) inst' ->
  acts <> [] /\
  (existsb is_goto inst = false -> has_recirc acts = false ->
     (forall acts0, In (Apply acts0) inst -> has_recirc acts0 = false) ->
     exists l a, acts = l ++ [a] /\ is_out_or_group a = true).
Proof. exact trim_shape_lemma. Qed.
Print Assumptions C04_trim_complete.

Example C04_example :
  let inst := [MeterI 3; Apply [PushVlan; SetField VlanVid 0x1064; Output 2 0; PopVlan]] in
  (length (filter is_apply inst) <= 1)%nat /\
  trim_inst (Some [VlanVid]) inst = Some [MeterI 3; Apply [PushVlan; SetField VlanVid 0x1064; Output 2 0]].
Proof. vm_compute. split; [lia|reflexivity]. Qed.

(** C04 finding: instruction objects are shared between flows (memoised by their
    actions) and trimmed in place, so building a flow that drops the packet
    removes the rewrite of an earlier flow that goes on to the next table. *)
Theorem C04_shared_trim_refuted : exists fl groups live p,
  let sent := sent_flows fl in
  exists i0 s0 fl', fl = i0 :: fl' /\ hd_error sent = Some s0 /\
    snd (fst (exec_insts groups live s0 p)) <> snd (fst (exec_insts groups live (deref [] i0) p)) /\
    snd (exec_insts groups live s0 p) = Some 3 /\ snd (exec_insts groups live (deref [] i0) p) = Some 3.
Proof.
  exists [[ROther (Goto 3); RApply [SetField VlanVid 0x1064]]; [RApply [SetField VlanVid 0x1064]]].
  exists (fun _ => None), (fun _ => true), (mkPacket 1 [(200, 0)] (fun _ => None)).
  eexists. eexists. eexists. split; [reflexivity|]. split; [vm_compute; reflexivity|].
  split; [|split; reflexivity]. vm_compute. discriminate.
Qed.
Print Assumptions C04_shared_trim_refuted.

(** C05 *)
Theorem C05_vid_round_trip : forall v, 0 <= v < 4096 -> devid_present (vid_present v) = v.
Proof. exact vid_round_trip_lemma. Qed.
Print Assumptions C05_vid_round_trip.
Theorem C05_vid_injective : forall v w, 0 <= v < 4096 -> 0 <= w < 4096 ->
  vid_present v = vid_present w -> v = w.
Proof. exact vid_present_inj_lemma. Qed.
Print Assumptions C05_vid_injective.
Theorem C05_vid_present_not_plain : forall v w, 0 <= v < 4096 -> 0 <= w < 4096 -> vid_present v <> w.
Proof. exact vid_present_not_plain_lemma. Qed.
Print Assumptions C05_vid_present_not_plain.
(** ... and a switch matches the encoded VID exactly on frames whose outer tag is that VID. *)
Theorem C05_vid_matches : forall v p, 0 <= v < 4096 ->
  (forall w pcp, In (w, pcp) (pk_tags p) -> 0 <= w < 4096) ->
  (matches p [exact VlanVid (vid_present v)] = true <-> exists pcp r, pk_tags p = (v, pcp) :: r).
Proof. exact vid_present_matches_lemma. Qed.
Print Assumptions C05_vid_matches.
Example C05_example : vid_present 100 = 0x1064 /\ devid_present 0x1064 = 100.
Proof. vm_compute. auto. Qed.
