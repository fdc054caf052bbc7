(** * OpenFlow 1.3 switch: the environment FAUCET programs.

    None of this is FAUCET code: it is the specification of the switch that
    receives FAUCET's messages (OpenFlow Switch Specification 1.3.5, sections
    5.1-5.6, 6.4, 6.5 and 7.3.4), restricted to what the FAUCET sources in
    /repo/faucet use.  Message and action constructors mirror the ones built in
    /repo/faucet/valve_of.py. *)

From Coq Require Import ZArith List Bool.
Import ListNotations.
Open Scope Z_scope.

(** ** Reserved numbers (OpenFlow 1.3.5 7.2.1, 7.3.4) *)

Definition OFPP_MAX : Z := 0xffffff00.
Definition OFPP_IN_PORT : Z := 0xfffffff8.
Definition OFPP_CONTROLLER : Z := 0xfffffffd.
Definition OFPP_LOCAL : Z := 0xfffffffe.
Definition OFPP_ANY : Z := 0xffffffff.
Definition OFPG_ALL : Z := 0xfffffffc.
Definition OFPG_ANY : Z := 0xffffffff.
Definition OFPM_ALL : Z := 0xffffffff.
Definition OFPTT_ALL : Z := 255.
Definition OFPVID_PRESENT : Z := 0x1000.
Definition OFPVID_NONE : Z := 0.

(** ** Match fields *)

Inductive field :=
| InPort | VlanVid | VlanPcp | EthType | EthSrc | EthDst
| IpProto | Ipv4Src | Ipv4Dst | Ipv6Src | Ipv6Dst
| UdpSrc | UdpDst | TcpSrc | TcpDst | Icmpv6Type | Metadata
| OtherField (oxm : Z).

Definition field_eq_dec : forall a b : field, {a = b} + {a <> b}.
Proof. decide equality. apply Z.eq_dec. Defined.
Definition field_eqb (a b : field) : bool := if field_eq_dec a b then true else false.

(** A match item is a field with a value and a mask; mask [-1] (all ones) is an
    exact match.  A match is the list of its items (os_ken's OFPMatch keeps them
    in a canonical order, so equal matches are equal lists). *)
Definition match_item : Type := field * (Z * Z).
Definition fmatch : Type := list match_item.

Definition item_eq_dec : forall a b : match_item, {a = b} + {a <> b}.
Proof. repeat decide equality. Defined.
Definition item_eqb (a b : match_item) : bool := if item_eq_dec a b then true else false.

Definition fmatch_eq_dec : forall a b : fmatch, {a = b} + {a <> b} := list_eq_dec item_eq_dec.
Definition fmatch_eqb (a b : fmatch) : bool := if fmatch_eq_dec a b then true else false.

Definition exact (f : field) (v : Z) : match_item := (f, (v, -1)).
Definition masked (f : field) (v m : Z) : match_item := (f, (v, m)).

(** ** Packets *)

(** A frame on the wire (or between tables): the ingress port, the stack of
    802.1Q tags (outermost first, each a (vid, pcp) pair) and all other header
    fields. *)
Record packet := mkPacket {
  pk_in : Z;
  pk_tags : list (Z * Z);
  pk_hdr : field -> option Z
}.

Definition pk_get (p : packet) (f : field) : option Z :=
  match f with
  | InPort => Some (pk_in p)
  | VlanVid => Some (match pk_tags p with
                     | [] => OFPVID_NONE
                     | (v, _) :: _ => Z.lor v OFPVID_PRESENT
                     end)
  | VlanPcp => match pk_tags p with
               | [] => None
               | (_, pcp) :: _ => Some pcp
               end
  | _ => pk_hdr p f
  end.

Definition item_matches (p : packet) (i : match_item) : bool :=
  let '(f, (v, m)) := i in
  match pk_get p f with
  | Some x => Z.land x m =? Z.land v m
  | None => false
  end.

Definition matches (p : packet) (m : fmatch) : bool := forallb (item_matches p) m.

(** ** Actions and instructions *)

Inductive action :=
| Output (port : Z) (max_len : Z)
| SetField (f : field) (v : Z)
| PushVlan
| PopVlan
| GroupAct (gid : Z)
| DecTtl
| CtAct (recirc : bool) (arg : Z).

Definition action_eq_dec : forall a b : action, {a = b} + {a <> b}.
Proof. repeat decide equality. Defined.

Inductive instruction :=
| Apply (acts : list action)
| Goto (table : Z)
| MeterI (meter : Z)
| WriteMetadata (v m : Z).

Definition instruction_eq_dec : forall a b : instruction, {a = b} + {a <> b}.
Proof. repeat decide equality. Defined.

Definition is_output (a : action) : bool :=
  match a with Output _ _ => true | _ => false end.

(** Effect of a non-output action on a packet (5.12).  Popping the tag of an
    untagged frame does nothing; a pushed tag copies the outer tag if there is
    one.  TTL decrement and connection tracking do not touch the fields modelled
    here. *)
Definition set_field (f : field) (v : Z) (p : packet) : packet :=
  match f with
  | VlanVid => match pk_tags p with
               | [] => p
               | (_, pcp) :: r => mkPacket (pk_in p) ((Z.land v 0xfff, pcp) :: r) (pk_hdr p)
               end
  | VlanPcp => match pk_tags p with
               | [] => p
               | (vid, _) :: r => mkPacket (pk_in p) ((vid, v) :: r) (pk_hdr p)
               end
  | InPort => p
  | _ => mkPacket (pk_in p) (pk_tags p)
           (fun g => if field_eqb g f then Some v else pk_hdr p g)
  end.

Definition push_vlan (p : packet) : packet :=
  mkPacket (pk_in p)
    (match pk_tags p with [] => [(0, 0)] | t :: r => t :: t :: r end) (pk_hdr p).

Definition pop_vlan (p : packet) : packet :=
  mkPacket (pk_in p) (tl (pk_tags p)) (pk_hdr p).

Definition act_on (a : action) (p : packet) : packet :=
  match a with
  | SetField f v => set_field f v p
  | PushVlan => push_vlan p
  | PopVlan => pop_vlan p
  | _ => p
  end.

(** ** Groups *)

Inductive group_type := GT_ALL | GT_FF.
Record bucket := mkBucket { b_watch : Z; b_acts : list action }.
Record group := mkGroup { g_id : Z; g_type : group_type; g_buckets : list bucket }.

Definition bucket_eq_dec : forall a b : bucket, {a = b} + {a <> b}.
Proof. repeat decide equality. Defined.
Definition group_eq_dec : forall a b : group, {a = b} + {a <> b}.
Proof. repeat decide equality. Defined.

(** An emission: the port number named by the output action (possibly reserved)
    and the packet as it is at that moment. *)
Definition emission : Type := Z * packet.

(** Execute an action list, without groups (bucket bodies: group chaining is not
    used by FAUCET). *)
Fixpoint exec_simple (acts : list action) (p : packet) : list emission * packet :=
  match acts with
  | [] => ([], p)
  | Output n _ :: r => let '(es, p') := exec_simple r p in ((n, p) :: es, p')
  | a :: r => exec_simple r (act_on a p)
  end.

Definition exec_bucket (b : bucket) (p : packet) : list emission :=
  fst (exec_simple (b_acts b) p).

Definition exec_group (live : Z -> bool) (g : group) (p : packet) : list emission :=
  match g_type g with
  | GT_ALL => flat_map (fun b => exec_bucket b p) (g_buckets g)
  | GT_FF => match find (fun b => live (b_watch b)) (g_buckets g) with
             | Some b => exec_bucket b p
             | None => []
             end
  end.

(** Execute an action list with groups (5.6, 5.12): a group processes a copy of
    the packet. *)
Fixpoint exec_acts (groups : Z -> option group) (live : Z -> bool)
         (acts : list action) (p : packet) : list emission * packet :=
  match acts with
  | [] => ([], p)
  | Output n _ :: r => let '(es, p') := exec_acts groups live r p in ((n, p) :: es, p')
  | GroupAct g :: r =>
      let '(es, p') := exec_acts groups live r p in
      (match groups g with Some gr => exec_group live gr p | None => [] end ++ es, p')
  | a :: r => exec_acts groups live r (act_on a p)
  end.

(** Execute an instruction list: apply-actions run in order, the goto (if any)
    names the next table.  Meters are assumed not to drop. *)
Fixpoint exec_insts (groups : Z -> option group) (live : Z -> bool)
         (is_ : list instruction) (p : packet) : list emission * packet * option Z :=
  match is_ with
  | [] => ([], p, None)
  | Apply acts :: r =>
      let '(es, p1) := exec_acts groups live acts p in
      let '(es2, p2, nx) := exec_insts groups live r p1 in
      (es ++ es2, p2, nx)
  | Goto t :: r =>
      let '(es, p1, _) := exec_insts groups live r p in (es, p1, Some t)
  | _ :: r => exec_insts groups live r p
  end.

(** What an emission puts on the wire: output to the ingress port is suppressed
    unless it is the reserved IN_PORT (5.12, 7.2.1). *)
Definition transmit (in_port : Z) (e : emission) : option emission :=
  let '(n, p) := e in
  if n =? OFPP_IN_PORT then Some (in_port, p)
  else if n =? in_port then None else Some e.

(** ** Flow entries *)

Record flow := mkFlow {
  f_table : Z;
  f_prio : Z;
  f_match : fmatch;
  f_cookie : Z;
  f_inst : list instruction;
  f_hard : Z;
  f_idle : Z;
  f_flags : Z
}.

(** ** Messages *)

Inductive fcmd := FAdd | FModify | FModifyStrict | FDelete | FDeleteStrict.
Inductive gcmd := GAdd | GModify | GDelete.
Inductive mcmd := MAdd | MModify | MDelete.

Record flowmod := mkFlowMod {
  fm_cmd : fcmd;
  fm_table : Z;
  fm_prio : Z;
  fm_match : fmatch;
  fm_cookie : Z;
  fm_out_port : Z;
  fm_out_group : Z;
  fm_inst : list instruction;
  fm_hard : Z;
  fm_idle : Z;
  fm_flags : Z
}.

Inductive ofmsg :=
| FlowMod (fm : flowmod)
| GroupMod (c : gcmd) (g : group)
| MeterMod (c : mcmd) (id : Z) (bands : list Z)
| PacketOut (ports : list Z) (data : Z)
| TableFeatures (body : Z)
| ConfigMsg (body : Z)      (* OFPSetConfig, OFPSetAsync, OFPDescStatsRequest *)
| OtherMsg (body : Z)
| Barrier.

Definition flowmod_eq_dec : forall a b : flowmod, {a = b} + {a <> b}.
Proof. repeat decide equality. Defined.
Definition ofmsg_eq_dec : forall a b : ofmsg, {a = b} + {a <> b}.
Proof. repeat decide equality. Defined.
Definition ofmsg_eqb (a b : ofmsg) : bool := if ofmsg_eq_dec a b then true else false.

(** ** Switch state and message effects *)

Record switch := mkSwitch {
  sw_flows : list flow;
  sw_groups : list group;
  sw_meters : list (Z * list Z)
}.

Definition empty_switch : switch := mkSwitch [] [] [].

Definition item_covers (general specific : match_item) : bool :=
  let '(f, (v, m)) := general in
  let '(f', (v', m')) := specific in
  field_eqb f f' && (Z.land m' m =? m) && (Z.land v' m =? Z.land v m).

(** [covers g s]: every field constrained by [g] is at least as tightly and
    compatibly constrained in [s] (non-strict delete/modify, 6.4). *)
Definition covers (g s : fmatch) : bool :=
  forallb (fun gi => existsb (item_covers gi) s) g.

Definition same_slot (table prio : Z) (m : fmatch) (f : flow) : bool :=
  (f_table f =? table) && (f_prio f =? prio) && fmatch_eqb (f_match f) m.

Definition inst_actions (i : instruction) : list action :=
  match i with Apply acts => acts | _ => [] end.
Definition flow_actions (f : flow) : list action := flat_map inst_actions (f_inst f).

Definition outputs_to (port : Z) (f : flow) : bool :=
  existsb (fun a => match a with Output n _ => n =? port | _ => false end) (flow_actions f).
Definition uses_group (gid : Z) (f : flow) : bool :=
  existsb (fun a => match a with GroupAct n => n =? gid | _ => false end) (flow_actions f).
Definition uses_meter (mid : Z) (f : flow) : bool :=
  existsb (fun i => match i with MeterI n => n =? mid | _ => false end) (f_inst f).

Definition table_sel (t : Z) (f : flow) : bool := (t =? OFPTT_ALL) || (f_table f =? t).
Definition out_sel (fm : flowmod) (f : flow) : bool :=
  ((fm_out_port fm =? OFPP_ANY) || outputs_to (fm_out_port fm) f) &&
  ((fm_out_group fm =? OFPG_ANY) || uses_group (fm_out_group fm) f).

(** Does delete message [fm] remove flow [f]? *)
Definition del_hits (fm : flowmod) (f : flow) : bool :=
  match fm_cmd fm with
  | FDelete => table_sel (fm_table fm) f && covers (fm_match fm) (f_match f) && out_sel fm f
  | FDeleteStrict => table_sel (fm_table fm) f && (f_prio f =? fm_prio fm)
                     && fmatch_eqb (f_match f) (fm_match fm) && out_sel fm f
  | _ => false
  end.

Definition flow_of (fm : flowmod) : flow :=
  mkFlow (fm_table fm) (fm_prio fm) (fm_match fm) (fm_cookie fm) (fm_inst fm)
         (fm_hard fm) (fm_idle fm) (fm_flags fm).

Definition with_inst (i : list instruction) (f : flow) : flow :=
  mkFlow (f_table f) (f_prio f) (f_match f) (f_cookie f) i (f_hard f) (f_idle f) (f_flags f).

Definition apply_flowmod (fm : flowmod) (fs : list flow) : list flow :=
  match fm_cmd fm with
  | FAdd => filter (fun f => negb (same_slot (fm_table fm) (fm_prio fm) (fm_match fm) f)) fs
            ++ [flow_of fm]
  | FModifyStrict =>
      map (fun f => if same_slot (fm_table fm) (fm_prio fm) (fm_match fm) f
                    then with_inst (fm_inst fm) f else f) fs
  | FModify =>
      map (fun f => if table_sel (fm_table fm) f && covers (fm_match fm) (f_match f)
                    then with_inst (fm_inst fm) f else f) fs
  | FDelete | FDeleteStrict => filter (fun f => negb (del_hits fm f)) fs
  end.

(** Deleting a group or meter also removes the flows that use it (6.5); adding
    one that exists is an error and changes nothing. *)
Definition apply_msg (m : ofmsg) (s : switch) : switch :=
  match m with
  | FlowMod fm => mkSwitch (apply_flowmod fm (sw_flows s)) (sw_groups s) (sw_meters s)
  | GroupMod GDelete g =>
      if g_id g =? OFPG_ALL then
        mkSwitch (filter (fun f => negb (existsb (fun a => match a with GroupAct _ => true | _ => false end)
                                                 (flow_actions f))) (sw_flows s))
                 [] (sw_meters s)
      else
        mkSwitch (filter (fun f => negb (uses_group (g_id g) f)) (sw_flows s))
                 (filter (fun h => negb (g_id h =? g_id g)) (sw_groups s)) (sw_meters s)
  | GroupMod GAdd g =>
      if existsb (fun h => g_id h =? g_id g) (sw_groups s) then s
      else mkSwitch (sw_flows s) (sw_groups s ++ [g]) (sw_meters s)
  | GroupMod GModify g =>
      mkSwitch (sw_flows s)
               (map (fun h => if g_id h =? g_id g then g else h) (sw_groups s)) (sw_meters s)
  | MeterMod MDelete id _ =>
      if id =? OFPM_ALL then
        mkSwitch (filter (fun f => negb (existsb (fun i => match i with MeterI _ => true | _ => false end)
                                                 (f_inst f))) (sw_flows s))
                 (sw_groups s) []
      else
        mkSwitch (filter (fun f => negb (uses_meter id f)) (sw_flows s)) (sw_groups s)
                 (filter (fun h => negb (fst h =? id)) (sw_meters s))
  | MeterMod MAdd id b =>
      if existsb (fun h => fst h =? id) (sw_meters s) then s
      else mkSwitch (sw_flows s) (sw_groups s) (sw_meters s ++ [(id, b)])
  | MeterMod MModify id b =>
      mkSwitch (sw_flows s) (sw_groups s)
               (map (fun h => if fst h =? id then (id, b) else h) (sw_meters s))
  | _ => s
  end.

Definition apply_msgs (ms : list ofmsg) (s : switch) : switch :=
  fold_left (fun s m => apply_msg m s) ms s.

(** Two switch states hold the same flows, groups and meters. *)
Definition same_switch (a b : switch) : Prop :=
  (forall f, In f (sw_flows a) <-> In f (sw_flows b)) /\
  (forall g, In g (sw_groups a) <-> In g (sw_groups b)) /\
  (forall m, In m (sw_meters a) <-> In m (sw_meters b)).

(** ** Packet processing *)

(** [hit fs t p f]: [f] is a highest-priority entry of table [t] matching [p].
    When several entries of equal priority match, the switch may use any of them
    (5.3), so this is a relation. *)
Definition hit (fs : list flow) (t : Z) (p : packet) (f : flow) : Prop :=
  In f fs /\ f_table f = t /\ matches p (f_match f) = true /\
  forall g, In g fs -> f_table g = t -> matches p (f_match g) = true -> f_prio g <= f_prio f.

Definition group_lookup (s : switch) (gid : Z) : option group :=
  find (fun g => g_id g =? gid) (sw_groups s).

(** [walk s live t p es]: processing [p] from table [t] emits [es].  A packet
    matching no entry of a table is dropped (5.4). *)
Inductive walk (s : switch) (live : Z -> bool) : Z -> packet -> list emission -> Prop :=
| walk_miss : forall t p,
    (forall f, In f (sw_flows s) -> f_table f = t -> matches p (f_match f) = false) ->
    walk s live t p []
| walk_end : forall t p f es p',
    hit (sw_flows s) t p f ->
    exec_insts (group_lookup s) live (f_inst f) p = (es, p', None) ->
    walk s live t p es
| walk_goto : forall t p f es p' t' es',
    hit (sw_flows s) t p f ->
    exec_insts (group_lookup s) live (f_inst f) p = (es, p', Some t') ->
    walk s live t' p' es' ->
    walk s live t p (es ++ es').
