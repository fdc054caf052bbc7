(** * What "the effect of a batch" means (independent of the reorderer)

    The classes of messages below are read off the OpenFlow message
    constructors only; nothing here uses ReorderModel. *)

From Coq Require Import ZArith List Bool.
From Verif Require Import OpenFlow.
Import ListNotations.
Open Scope Z_scope.

Definition is_delete (m : ofmsg) : bool :=
  match m with
  | FlowMod fm => match fm_cmd fm with FDelete | FDeleteStrict => true | _ => false end
  | GroupMod GDelete _ => true
  | MeterMod MDelete _ _ => true
  | _ => false
  end.
Definition is_group_add (m : ofmsg) : bool :=
  match m with GroupMod GAdd _ => true | _ => false end.
Definition is_meter_add (m : ofmsg) : bool :=
  match m with MeterMod MAdd _ _ => true | _ => false end.
Definition is_flow_write (m : ofmsg) : bool :=
  match m with
  | FlowMod fm => match fm_cmd fm with FDelete | FDeleteStrict => false | _ => true end
  | _ => false
  end.
Definition is_packet_out (m : ofmsg) : bool :=
  match m with PacketOut _ _ => true | _ => false end.

(** The intended effect of a batch: all its deletes, then its group and meter
    additions, then its flow writes, each in the order they were generated. *)
Definition intended (ms : list ofmsg) (s : switch) : switch :=
  apply_msgs (filter is_flow_write ms)
    (apply_msgs (filter is_meter_add ms)
      (apply_msgs (filter is_group_add ms)
        (apply_msgs (filter is_delete ms) s))).

Definition same_flow_slot (a b : flowmod) : Prop :=
  fm_table a = fm_table b /\ fm_prio a = fm_prio b /\ fm_match a = fm_match b.

(** Batches for which reordering is safe. *)
Record clean_batch (ms : list ofmsg) : Prop := {
  (** FAUCET never modifies groups or meters in place *)
  cb_no_group_modify : forall g, ~ In (GroupMod GModify g) ms;
  cb_no_meter_modify : forall i b, ~ In (MeterMod MModify i b) ms;
  (** a delete addressed to all tables is a plain wildcard delete *)
  cb_all_tables : forall fm, In (FlowMod fm) ms -> is_delete (FlowMod fm) = true ->
     fm_table fm = OFPTT_ALL ->
     fm_cmd fm = FDelete /\ fm_out_port fm = OFPP_ANY /\ fm_out_group fm = OFPG_ANY;
  (** no wildcard delete has exactly the key of a write *)
  cb_wildcard : forall d w, In (FlowMod d) ms -> In (FlowMod w) ms ->
     fm_cmd d = FDelete -> is_flow_write (FlowMod w) = true ->
     same_flow_slot d w -> fm_cookie d <> fm_cookie w;
  (** writes to one slot agree on the cookie and the command; a slot that is
      modified in place is not also strictly deleted; no wildcard modify *)
  cb_writes : forall w1 w2, In (FlowMod w1) ms -> In (FlowMod w2) ms ->
     is_flow_write (FlowMod w1) = true -> is_flow_write (FlowMod w2) = true ->
     same_flow_slot w1 w2 -> fm_cookie w1 = fm_cookie w2 /\ fm_cmd w1 = fm_cmd w2;
  cb_no_modify : forall w, In (FlowMod w) ms -> fm_cmd w <> FModify;
  cb_strict : forall d w, In (FlowMod d) ms -> In (FlowMod w) ms ->
     fm_cmd d = FDeleteStrict -> fm_cmd w = FModifyStrict -> ~ same_flow_slot d w;
  (** one definition per group and per meter *)
  cb_groups : forall g1 g2, In (GroupMod GAdd g1) ms -> In (GroupMod GAdd g2) ms ->
     g_id g1 = g_id g2 -> g1 = g2;
  cb_meters : forall i b1 b2, In (MeterMod MAdd i b1) ms -> In (MeterMod MAdd i b2) ms -> b1 = b2
}.

(** The order in which the messages of a batch must reach the switch. *)
Definition stage (m : ofmsg) : option nat :=
  match m with
  | ConfigMsg _ => Some 0%nat
  | TableFeatures _ => Some 2%nat
  | GroupMod GDelete _ | MeterMod MDelete _ _ => Some 1%nat
  | GroupMod GAdd _ => Some 3%nat
  | MeterMod MAdd _ _ => Some 4%nat
  | FlowMod fm => if is_delete (FlowMod fm) then Some 1%nat else Some 5%nat
  | GroupMod GModify _ | MeterMod MModify _ _ | OtherMsg _ => Some 6%nat
  | PacketOut _ _ => Some 7%nat
  | Barrier => None
  end.

Definition in_stage_order (out : list ofmsg) : Prop :=
  forall l1 a l2 b ra rb, out = l1 ++ a :: l2 -> In b l2 ->
    stage a = Some ra -> stage b = Some rb -> (ra <= rb)%nat.

(** a barrier separates each stage up to the meter additions from later ones *)
Definition barriers_separate (out : list ofmsg) : Prop :=
  forall l1 a l2 b l3 ra rb, out = l1 ++ a :: l2 ++ b :: l3 ->
    stage a = Some ra -> stage b = Some rb -> (ra < rb)%nat -> (ra <= 4)%nat ->
    In Barrier l2.

(** [w] is the last write of its flow slot (and cookie) in [ms] *)
Definition last_writer (ms : list ofmsg) (w : flowmod) : Prop :=
  exists l1 l2, ms = l1 ++ FlowMod w :: l2 /\ is_flow_write (FlowMod w) = true /\
    forall w', In (FlowMod w') l2 -> is_flow_write (FlowMod w') = true ->
      same_flow_slot w w' -> fm_cookie w <> fm_cookie w'.

(** Message [m] on its own removes flow [f] from a table *)
Definition removes (m : ofmsg) (f : flow) : Prop :=
  ~ In f (sw_flows (apply_msg m (mkSwitch [f] [] []))).

(** Flow writes reach later tables before earlier ones, and within a table the
    higher priorities first, so that a frame is never sent on to a table that is
    not yet programmed. *)
Definition later_tables_first (out : list ofmsg) : Prop :=
  forall l1 a l2 b, out = l1 ++ FlowMod a :: l2 -> In (FlowMod b) l2 ->
    is_flow_write (FlowMod a) = true -> is_flow_write (FlowMod b) = true ->
    fm_table a > fm_table b \/ (fm_table a = fm_table b /\ fm_prio a >= fm_prio b).
