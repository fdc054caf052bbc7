(** * Batch reordering: /repo/faucet/valve_of.py 1074-1278 *)

From Coq Require Import ZArith List Bool.
From Verif Require Import PyBase OpenFlow.
Import ListNotations.
Open Scope Z_scope.

(** valve_of.py 360-371 (is_flowdel) *)
Definition is_flowdel_cmd (c : fcmd) : bool :=
  match c with FDelete | FDeleteStrict => true | _ => false end.

(** valve_of.py 1074-1080 (is_global_flowdel): table ALL and no match items; the
    priority, strictness and out_port are not looked at. *)
Definition is_global_flowdel (fm : flowmod) : bool :=
  is_flowdel_cmd (fm_cmd fm) && (fm_table fm =? OFPTT_ALL)
  && match fm_match fm with [] => true | _ => false end.

Inductive kind :=
| KConfig | KDelGlobal | KDelete | KTfm | KGroupAdd | KMeterAdd
| KFlowAddMod | KOther | KPacketOut.

Definition kind_eq_dec : forall a b : kind, {a = b} + {a <> b}.
Proof. decide equality. Defined.
Definition kind_eqb (a b : kind) : bool := if kind_eq_dec a b then true else false.

(** valve_of.py 1093-1134 (_MSG_KINDS_TYPES, _MSG_KINDS, _msg_kind) *)
Definition msg_kind (m : ofmsg) : kind :=
  match m with
  | PacketOut _ _ => KPacketOut
  | TableFeatures _ => KTfm
  | ConfigMsg _ => KConfig
  | FlowMod fm =>
      if is_global_flowdel fm then KDelGlobal
      else if is_flowdel_cmd (fm_cmd fm) then KDelete else KFlowAddMod
  | GroupMod c g =>
      match c with
      | GDelete => if g_id g =? OFPG_ALL then KDelGlobal else KDelete
      | GAdd => KGroupAdd
      | GModify => KOther
      end
  | MeterMod c id _ =>
      match c with
      | MDelete => if id =? OFPM_ALL then KDelGlobal else KDelete
      | MAdd => KMeterAdd
      | MModify => KOther
      end
  | OtherMsg _ => KOther
  | Barrier => KOther
  end.

(** [type(ofmsg)] restricted to the types that occur as deletes. *)
Inductive mtype := TFlow | TGroup | TMeter | TOther.
Definition msg_type (m : ofmsg) : mtype :=
  match m with
  | FlowMod _ => TFlow | GroupMod _ _ => TGroup | MeterMod _ _ _ => TMeter | _ => TOther
  end.
Definition mtype_eqb (a b : mtype) : bool :=
  match a, b with
  | TFlow, TFlow | TGroup, TGroup | TMeter, TMeter | TOther, TOther => true
  | _, _ => false
  end.

(** valve_of.py 1145-1153 (_flowmodkey, _none_flowmodkey).  os_ken's OFPMatch is
    compared by content here. *)
Definition fkey : Type := fmatch * Z * Z * Z.
Definition fkey_eq_dec : forall a b : fkey, {a = b} + {a <> b}.
Proof. repeat decide equality. Defined.
Definition fkey_eqb (a b : fkey) : bool := if fkey_eq_dec a b then true else false.
Definition flowmodkey (fm : flowmod) : fkey := (fm_match fm, fm_cookie fm, fm_prio fm, fm_table fm).
Definition none_flowmodkey (m : ofmsg) : option fkey :=
  match m with FlowMod fm => Some (flowmodkey fm) | _ => None end.
Definition okey_eqb (a b : option fkey) : bool :=
  match a, b with
  | Some x, Some y => fkey_eqb x y
  | None, None => true
  | _, _ => false
  end.

(** valve_of.py 1156-1165 (sort_flows): sorted by (table_id, priority) in
    reverse; messages without those attributes use OFPTT_ALL and 2**16+1. *)
Definition sort_key (m : ofmsg) : Z * Z :=
  match m with
  | FlowMod fm => (fm_table fm, fm_prio fm)
  | _ => (OFPTT_ALL, 2 ^ 16 + 1)
  end.
Definition sort_le (a b : ofmsg) : bool :=   (* a may come before b *)
  let '(ta, pa) := sort_key a in
  let '(tb, pb) := sort_key b in
  (tb <? ta) || ((ta =? tb) && (pb <=? pa)).
Definition sort_flows (l : list ofmsg) : list ofmsg := py_sorted sort_le l.

(** valve_of.py 1168-1177 (dedupe_ofmsgs), keyed by [str] (the whole message). *)
Definition dedupe_str (l : list ofmsg) : list ofmsg :=
  map snd (dict_of ofmsg_eqb (fun m => m) l).
(** ... keyed by [_flowmodkey]. *)
Definition dedupe_key (l : list ofmsg) : list ofmsg :=
  map snd (dict_of okey_eqb none_flowmodkey l).

(** [getattr(ofmsg, "table_id", None)] *)
Definition msg_table (m : ofmsg) : option Z :=
  match m with FlowMod fm => Some (fm_table fm) | _ => None end.
Definition has_table (t : Z) (m : ofmsg) : bool :=
  match msg_table m with Some x => x =? t | None => false end.
Definition msg_match (m : ofmsg) : fmatch :=
  match m with FlowMod fm => fm_match fm | _ => [] end.
Definition msg_prio (m : ofmsg) : Z := match m with FlowMod fm => fm_prio fm | _ => 0 end.

Definition items_subset (a b : fmatch) : bool :=
  forallb (fun i => existsb (item_eqb i) b) a.

Definition is_nil {A} (l : list A) : bool := match l with [] => true | _ => false end.

(** distinct table ids, highest first: [sorted(ofmsgs_by_table.items(), reverse=True)] *)
Definition tables_desc (l : list ofmsg) : list Z :=
  py_sorted (fun a b => b <=? a)
    (nodup Z.eq_dec (flat_map (fun m => match msg_table m with Some t => [t] | None => [] end) l)).

(** a flow delete addressed to one table *)
Definition is_specific (m : ofmsg) : bool :=
  match msg_table m with Some t => negb (t =? OFPTT_ALL) | None => false end.
(** a message without a table_id (group or meter delete) *)
Definition no_table (m : ofmsg) : bool :=
  match msg_table m with None => true | Some _ => false end.
(** a priority-less delete across all tables (1197-1201) *)
Definition is_overlap (m : ofmsg) : bool := has_table OFPTT_ALL m && (msg_prio m =? 0).
(** table-specific and implied by one of the overlap matches (1204-1211) *)
Definition is_implied (overlaps : list fmatch) (m : ofmsg) : bool :=
  is_specific m && existsb (fun o => items_subset o (msg_match m)) overlaps.

(** valve_of.py 1180-1214 (dedupe_overlaps_ofmsgs).  [None] is the TypeError
    raised by Python when [sorted] compares the key [None] (group and meter
    deletes have no table_id) with an integer key. *)
Definition dedupe_overlaps (l : list ofmsg) : option (list ofmsg) :=
  let d := sort_flows (dedupe_str l) in
  let overlaps := map msg_match (filter is_overlap d) in
  if negb (is_nil overlaps) && existsb is_specific d then
    if existsb no_table d then None
    else Some (flat_map (fun t => filter (fun m => has_table t m && negb (is_implied overlaps m)) d)
                        (tables_desc d))
  else Some d.

(** valve_of.py 1217-1225 (remove_overlap_ofmsgs) *)
Definition remove_overlap (dels adds : list ofmsg) : list ofmsg :=
  filter (fun m => match none_flowmodkey m with
                   | None => true
                   | Some k => negb (existsb (fun a => okey_eqb (none_flowmodkey a) (Some k)) adds)
                   end) dels.

Definition with_barrier (use_barriers : bool) (l : list ofmsg) : list ofmsg :=
  if is_nil l then [] else if use_barriers then l ++ [Barrier] else l.

(** valve_of.py 1242-1278 (valve_flowreorder) with the order of 1229-1239.
    [shuffle] is random.shuffle, applied to the packet-outs. *)
Definition valve_flowreorder (shuffle : list ofmsg -> list ofmsg) (use_barriers : bool)
           (ms : list ofmsg) : option (list ofmsg) :=
  let of_kind k := filter (fun m => kind_eqb (msg_kind m) k) ms in
  let dg := of_kind KDelGlobal in
  let del0 := if is_nil dg then of_kind KDelete
              else filter (fun m => negb (existsb (fun g => mtype_eqb (msg_type m) (msg_type g)) dg))
                          (of_kind KDelete) in
  let simple l := sort_flows (dedupe_str l) in
  let adds := sort_flows (dedupe_key (of_kind KFlowAddMod)) in
  match dedupe_overlaps del0 with
  | None => None
  | Some del1 =>
      let del1 := if is_nil del1 then del0 else del1 in
      let dels := if is_nil del1 || is_nil adds then del1 else remove_overlap del1 adds in
      Some (with_barrier use_barriers (simple (of_kind KConfig))
            ++ with_barrier use_barriers (simple dg)
            ++ with_barrier use_barriers dels
            ++ with_barrier use_barriers (simple (of_kind KTfm))
            ++ with_barrier use_barriers (simple (of_kind KGroupAdd))
            ++ with_barrier use_barriers (simple (of_kind KMeterAdd))
            ++ adds
            ++ simple (of_kind KOther)
            ++ shuffle (dedupe_str (of_kind KPacketOut)))
  end.
