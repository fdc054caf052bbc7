(** * C91: what a coprocessor's frames come to *)

From Coq Require Import ZArith List Bool Lia.
From Verif Require Import OpenFlow SwitchExec CoproModel CoproSpec CoproProofs.
Import ListNotations.
Open Scope Z_scope.

(** C91: Once a coprocessor's port has come up, a frame from it with the VLAN ID that stands for a
    port leaves from that port, without the tag, and nowhere else, whatever was sent to the switch
    since by other parts of the controller. *)
Theorem C91_injected : forall cfg s0 es c base n pk pcp r live out,
  cop_ok cfg -> fresh_switch cfg s0 -> cop_events cfg es ->
  In (c, Some base) (co_ports cfg) -> In (CopUp c) es -> In n (map fst (co_ports cfg)) ->
  pk_in pk = c -> pk_tags pk = (base + n, pcp) :: r -> unfiltered cfg (cop_run cfg s0 es) pk ->
  (walk (cop_run cfg s0 es) live (co_vlan cfg) pk out <-> out = [(n, mkPacket c r (pk_hdr pk))]).
Proof.
  intros cfg s0 es c base n pk pcp r live out OK F E Hc Hu Hn Hin Ht U.
  destruct (run_inv cfg OK es s0 E F) as [I S].
  rewrite (injected cfg OK _ I c base Hc (S c base Hc Hu) pk Hin U live n pcp r Hn Ht).
  unfold pop_vlan. rewrite Ht, Hin. reflexivity.
Qed.
Print Assumptions C91_injected.

(** C91: Any other frame of a coprocessor is forwarded as it is, by its destination. *)
Theorem C91_forwarded : forall cfg s0 es c base pk live out,
  cop_ok cfg -> fresh_switch cfg s0 -> cop_events cfg es ->
  In (c, Some base) (co_ports cfg) -> In (CopUp c) es ->
  pk_in pk = c -> (forall v pcp r, pk_tags pk = (v, pcp) :: r -> 0 <= v < 4096) ->
  (forall v pcp r c' base' n, pk_tags pk = (v, pcp) :: r -> In (c', Some base') (co_ports cfg) ->
     In n (map fst (co_ports cfg)) -> v <> base' + n) ->
  unfiltered cfg (cop_run cfg s0 es) pk ->
  (walk (cop_run cfg s0 es) live (co_vlan cfg) pk out <-> walk (cop_run cfg s0 es) live (co_dst cfg) pk out).
Proof.
  intros cfg s0 es c base pk live out OK F E Hc Hu Hin Hv Ho U.
  destruct (run_inv cfg OK es s0 E F) as [I S].
  apply (passed_on cfg OK _ I c base Hc (S c base Hc Hu) pk Hin U live Hv). intros v pcp r c' b' n' Ht Hc' Hn'. exact (Ho v pcp r c' b' n' Ht Hc' Hn').
Qed.
Print Assumptions C91_forwarded.

(** C91: Frames of other ports are never taken for a coprocessor's: only rules for coprocessor
    ports lead to the table where tags stand for ports. *)
Theorem C91_only_coprocessors : forall cfg s0 es f pk,
  cop_ok cfg -> fresh_switch cfg s0 -> cop_events cfg es ->
  In f (sw_flows (cop_run cfg s0 es)) -> In (Goto (co_copro cfg)) (f_inst f) -> matches pk (f_match f) = true ->
  exists base, In (pk_in pk, Some base) (co_ports cfg).
Proof.
  intros cfg s0 es f pk OK F E Hf G M. destruct (run_inv cfg OK es s0 E F) as [I _].
  destruct (ci_vlan _ _ I f Hf G) as (c & base & Hc & _ & ->). cbn [f_match f_divert flow_] in M. rewrite matches_exact in M. cbn in M.
  apply Z.eqb_eq in M. subst c. exists base. exact Hc.
Qed.
Print Assumptions C91_only_coprocessors.

(** ** Concrete cases *)

Definition ex_cop (ports : list (Z * option Z)) : copconf := mkCopconf ports 0 1 2 3 3 1524372928 0 4096 16384.
Definition ex_ports : copconf := ex_cop [(1, None); (2, None); (3, Some 1000)].
Definition cop_frame (n : Z) (tags : list (Z * Z)) : packet :=
  mkPacket n tags (fun f => match f with EthDst => Some 0x0b | EthSrc => Some 0x0a | EthType => Some 0x800 | _ => None end).
(** a host's frames on port 1 are taken, a drop rule is there, and host 0x0b is on port 2 *)
Definition ex_others : list ofmsg :=
  [cop_add ex_ports 0 4096 [exact InPort 1; exact VlanVid 0] [Apply [PushVlan; SetField VlanVid 4196]; Goto 2];
   cop_add ex_ports 0 20480 [exact EthSrc 0xffffffffffff] [];
   cop_add ex_ports 3 8192 [exact VlanVid 4196; exact EthDst 0x0b] [Apply [PopVlan; Output 2 0]]].
Definition ex_run : list copevent := CopUp 1 :: CopUp 3 :: map CopOther ex_others ++ [CopUp 3; CopUp 2].

Lemma ex_ports_ok : cop_ok ex_ports.
Proof.
  constructor; cbn.
  - repeat constructor; cbn; intuition discriminate.
  - intros c base n [H|[H|[H|[]]]] Hn; try discriminate. injection H as <- <-. destruct Hn as [<-|[<-|[<-|[]]]]; lia.
  - intros c base n c' base' n' [H|[H|[H|[]]]] [H'|[H'|[H'|[]]]] _ _ E; try discriminate. injection H as <- <-. injection H' as <- <-. lia.
  - repeat constructor; cbn; intuition discriminate.
  - split; discriminate.
  - lia.
Qed.
Lemma ex_run_ok : cop_events ex_ports ex_run.
Proof.
  assert (X : Forall (elsewhere ex_ports) ex_others).
  { unfold ex_others. repeat apply Forall_cons; [| | |apply Forall_nil]; unfold elsewhere, cop_add; cbn;
      (split; [lia|]); (split; [unfold OFPTT_ALL; lia|]); (split; [intuition discriminate|]).
    - intros _ c base H. right. destruct H as [H|[H|[H|[]]]]; try discriminate.
    - intros _ c base H. right. discriminate.
    - intros H. discriminate. }
  unfold ex_run, cop_events. constructor; [exact I|]. constructor; [exact I|]. apply Forall_app. split.
  - apply Forall_map. exact X.
  - repeat constructor.
Qed.
Lemma unfiltered_b : forall cfg s pk,
  forallb (fun f => negb ((f_table f =? co_vlan cfg) && matches pk (f_match f))
                    || (fmatch_eqb (f_match f) [exact InPort (pk_in pk)] && (f_prio f =? co_low cfg)) || (f_prio f <? co_low cfg)) (sw_flows s) = true ->
  unfiltered cfg s pk.
Proof.
  intros cfg s pk H f Hf T M. rewrite forallb_forall in H. specialize (H f Hf). rewrite T, Z.eqb_refl, M in H. cbn [andb negb orb] in H.
  apply orb_true_iff in H. destruct H as [H|H].
  - apply andb_prop in H. destruct H as [H1 H2]. left. split; [apply fmatch_eqb_spec, H1|apply Z.eqb_eq, H2].
  - right. apply Z.ltb_lt, H.
Qed.
(** The coprocessor's frame with VLAN ID 1002 leaves from port 2 without it; one of VLAN 100 goes
    where the host is; a frame of port 1 with the same tag does not. *)
Example ex_coprocessor :
  cop_ok ex_ports /\ fresh_switch ex_ports empty_switch /\ cop_events ex_ports ex_run /\
  In (3, Some 1000) (co_ports ex_ports) /\ In (CopUp 3) ex_run /\
  unfiltered ex_ports (cop_run ex_ports empty_switch ex_run) (cop_frame 3 [(1002, 0)]) /\
  unfiltered ex_ports (cop_run ex_ports empty_switch ex_run) (cop_frame 3 [(100, 0)]) /\
  walk (cop_run ex_ports empty_switch ex_run) (fun _ => true) 0 (cop_frame 3 [(1002, 0)]) [(2, cop_frame 3 [])] /\
  walk (cop_run ex_ports empty_switch ex_run) (fun _ => true) 0 (cop_frame 3 [(100, 0)]) [(2, cop_frame 3 [])] /\
  walk (cop_run ex_ports empty_switch ex_run) (fun _ => true) 0 (cop_frame 1 [(1002, 0)]) [].
Proof.
  split; [apply ex_ports_ok|]. split; [intros f []|]. split; [apply ex_run_ok|]. split; [cbn; auto|]. split; [cbn; auto|].
  split; [apply unfiltered_b; vm_compute; reflexivity|]. split; [apply unfiltered_b; vm_compute; reflexivity|].
  repeat split; apply (walk_run_sound 9); vm_compute; reflexivity.
Qed.

(** ** Findings *)

(** The configuration is not checked: a base and a port may come to more than 4095, and then
    stand for another VLAN.  With base 4000, frames of VLAN 1 leave from port 97. *)
Definition ex_high : copconf := ex_cop [(97, None); (3, Some 4000)].
Theorem C91_beyond_vids_refuted : exists cfg es c base n v, In (c, Some base) (co_ports cfg) /\ In n (map fst (co_ports cfg)) /\
  In (CopUp c) es /\ 0 < v < 4096 /\ v <> base + n /\
  walk (cop_run cfg empty_switch es) (fun _ => true) (co_vlan cfg) (cop_frame c [(v, 0)]) [(n, cop_frame c [])].
Proof.
  exists ex_high, [CopUp 3], 3, 4000, 97, 1. split; [cbn; auto|]. split; [cbn; auto|]. split; [cbn; auto|]. split; [lia|]. split; [lia|].
  apply (walk_run_sound 9); vm_compute; reflexivity.
Qed.
Print Assumptions C91_beyond_vids_refuted.

(** Nor are the VLAN IDs of two coprocessors kept apart: the rules do not look at which of them a
    frame is from, and the one that comes up last overwrites the other's. *)
Definition ex_two : copconf := ex_cop [(1, Some 1000); (2, Some 1001); (3, None)].
Theorem C91_overlap_refuted : exists cfg es c base n n', In (c, Some base) (co_ports cfg) /\ In n (map fst (co_ports cfg)) /\
  In (CopUp c) es /\ n' <> n /\
  walk (cop_run cfg empty_switch es) (fun _ => true) (co_vlan cfg) (cop_frame c [(base + n, 0)]) [(n', cop_frame c [])].
Proof.
  exists ex_two, [CopUp 1; CopUp 2], 1, 1000, 3, 2. split; [cbn; auto|]. split; [cbn; auto|]. split; [cbn; auto|]. split; [lia|].
  apply (walk_run_sound 9); vm_compute; reflexivity.
Qed.
Print Assumptions C91_overlap_refuted.

(** A port added to the configuration by a warm reload (valve.py: only the ports that changed are
    added) is not known to coprocessors that were up: their frames for it are not sent there. *)
Definition ex_more : copconf := ex_cop [(1, None); (2, None); (3, Some 1000); (4, None)].
Theorem C91_reload_refuted : exists old new es c base n,
  cop_ok old /\ cop_ok new /\ In (c, Some base) (co_ports old) /\ In (c, Some base) (co_ports new) /\
  In (CopUp c) es /\ In n (map fst (co_ports new)) /\
  walk (cop_step new (cop_run old empty_switch es) (CopUp n)) (fun _ => true) (co_vlan new) (cop_frame c [(base + n, 0)]) [].
Proof.
  exists ex_ports, ex_more, [CopUp 3], 3, 1000, 4. split; [apply ex_ports_ok|]. split.
  { constructor; cbn.
    - repeat constructor; cbn; intuition discriminate.
    - intros c base n [H|[H|[H|[H|[]]]]] Hn; try discriminate. injection H as <- <-. destruct Hn as [<-|[<-|[<-|[<-|[]]]]]; lia.
    - intros c base n c' base' n' [H|[H|[H|[H|[]]]]] [H'|[H'|[H'|[H'|[]]]]] _ _ E; try discriminate. injection H as <- <-. injection H' as <- <-. lia.
    - repeat constructor; cbn; intuition discriminate.
    - split; discriminate.
    - lia. }
  split; [cbn; auto|]. split; [cbn; auto|]. split; [cbn; auto|]. split; [cbn; auto|].
  apply (walk_run_sound 9); vm_compute; reflexivity.
Qed.
Print Assumptions C91_reload_refuted.
