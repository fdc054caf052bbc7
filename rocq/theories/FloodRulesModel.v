(** * Flood table rules: valve_switch_standalone.py 34-91, 162-180, 245-518, 529-552, 669-677,
      valve_packet.py 85-97, valve_table.py 303-356 *)

From Coq Require Import ZArith List Bool.
From Verif Require Import PyBase OpenFlow TrimModel TableModel FloodModel.
Import ListNotations.
Open Scope Z_scope.

(** valve_packet.py 87-97: number of leading ones of a MAC mask, else 0 *)
Definition mac_mask_bits (mask : Z) : Z :=
  match find (fun i => mask =? 2 ^ 48 - 2 ^ Z.of_nat i) (seq 0 49) with
  | Some i => 48 - Z.of_nat i
  | None => 0
  end.
(** valve_packet.py 136-139 *)
Definition mac_byte_mask (n : Z) : Z := 2 ^ 48 - 2 ^ (8 * (6 - n)).

(** An entry of FLOOD_DSTS: (unicast_eth_dst, eth_type, (eth_dst, mask)) *)
Record fclass := mkClass { fc_unicast : bool; fc_type : option Z; fc_dst : option (Z * Z) }.

(** valve_switch_standalone.py 34-64 *)
Definition FLOOD_DSTS : list fclass :=
  [ mkClass true None None;
    mkClass false None (Some (0x0180c2000000, mac_byte_mask 3));
    mkClass false None (Some (0x01005e000000, mac_byte_mask 3));
    mkClass false None (Some (0x333300000000, mac_byte_mask 2));
    mkClass false None (Some (0xffffffffffff, mac_byte_mask 6)) ].
(** valve_switch_standalone.py 66-91 *)
Definition RESTRICTED_FLOOD_DISTS : list fclass :=
  [ mkClass false (Some 0x806) (Some (0xffffffffffff, mac_byte_mask 6));
    mkClass false (Some 0x86dd) (Some (0x3333ff000000, mac_byte_mask 3));
    mkClass false (Some 0x86dd) (Some (0x333300000002, mac_byte_mask 6));
    mkClass false (Some 0x86dd) (Some (0x333300000001, mac_byte_mask 6)) ].
(** 142-145 *)
Definition flood_dsts (restricted : bool) : list fclass :=
  if restricted then FLOOD_DSTS ++ RESTRICTED_FLOOD_DISTS else FLOOD_DSTS.

(** 175-177, 253-258; flood_priority = _MATCH_PRIORITY *)
Definition class_prio (c : fclass) : Z :=
  0x2000 + match fc_dst c with Some (_, m) => mac_mask_bits m | None => 0 end
  + match fc_type c with Some t => t | None => 0 end.

(** Matches, with items in OXM order (in_port, eth_dst, eth_type, vlan_vid) *)
Definition class_items (c : fclass) : fmatch :=
  match fc_dst c with Some (d, m) => [masked EthDst d m] | None => [] end
  ++ match fc_type c with Some t => [exact EthType t] | None => [] end.
Definition vlan_match (vid : Z) (c : fclass) : fmatch := class_items c ++ [vlan_item vid].
(** 320-341 *)
Definition port_match (vid n : Z) (c : fclass) : fmatch := exact InPort n :: vlan_match vid c.

Definition acts_subset (a b : list action) : bool := forallb (fun x => existsb (action_eqb x) b) a.
Definition acts_set_eqb (a b : list action) : bool := acts_subset a b && acts_subset b a.

(** a.k.a. [flood_acts_for_port] with the exclusion of restricted ports: 286-318,
    eth_type is None in 448 *)
Definition class_port_acts (v : vlan) (c : fclass) (q : port) : list action :=
  flood_acts_for_port v (fc_unicast c) q false (match fc_type c with None => true | Some _ => false end).

(** 405-408: does the port rule do what the VLAN rule does? *)
Definition same_as_vlan (v : vlan) (c : fclass) (q : port) : bool :=
  let va := dedupe_acts (flood_acts_for_vlan v (fc_unicast c)) [] [] in
  let pa := class_port_acts v c q in
  set_eqb (filter (fun n => negb (n =? p_num q)) (output_ports va)) (output_ports pa)
  && acts_set_eqb (non_output_actions va) (non_output_actions pa).

Inductive mode := Multi | Combinatorial | Grouped.

Section Rules.
  Variable ft : table.   (* the flood table *)

  (** 245-251 *)
  Definition flood_rule (cmd : fcmd) (m : fmatch) (prio : Z) (acts : list action) : ofmsg :=
    FlowMod (tb_write ft cmd prio m [Apply acts] 0 0).
  (** 358-441, one port *)
  Definition port_rule (md : mode) (cmd : fcmd) (cold : bool) (v : vlan) (c : fclass) (q : port) : list ofmsg :=
    let acts := class_port_acts v c q in
    let rule := flood_rule cmd (port_match (v_vid v) (p_num q) c) (class_prio c + 1) acts in
    if nonempty acts then
      match md with
      | Combinatorial => [rule]
      | _ =>
          if same_as_vlan v c q then
            if cold then []
            else [FlowMod (tb_del ft FDelete (class_prio c + 1) (port_match (v_vid v) (p_num q) c) OFPP_ANY)]
          else [rule]
      end
    else [].
  (** 358-441 (_build_mask_flood_rules) *)
  Definition mask_flood_rules (md : mode) (cmd : fcmd) (cold : bool) (v : vlan) (c : fclass) : list ofmsg :=
    match md with
    | Multi => [flood_rule cmd (vlan_match (v_vid v) c) (class_prio c) (flood_acts_for_vlan v (fc_unicast c))]
    | _ => []
    end
    ++ flat_map (port_rule md cmd cold v c) (flood_ports (get_ports v) (fc_unicast c)).
  (** 447-448: classes of a VLAN *)
  Definition vlan_classes (restricted : bool) (v : vlan) : list fclass :=
    filter (fun c => negb (fc_unicast c && negb (v_unicast_flood v))) (flood_dsts restricted).
  (** 443-462 (_build_multiout_flood_rules) *)
  Definition multiout_flood_rules (md : mode) (restricted : bool) (cmd : fcmd) (cold : bool) (v : vlan) : list ofmsg :=
    flat_map (mask_flood_rules md cmd cold v) (vlan_classes restricted v).

  (** valve_table.py 303-356: a group entry's add() is a delete and an add
      (valve_of.py 987-997) *)
  Definition group_add (g : group) : list ofmsg := [GroupMod GDelete g; GroupMod GAdd g].
  (** 464-518 (_build_group_flood_rules) *)
  Definition group_flood_rules (restricted : bool) (cmd : fcmd) (v : vlan) : list ofmsg :=
    let acts := flood_acts_for_vlan v false in
    let g := mkGroup (v_vid v) GT_ALL (flood_buckets acts []) in
    let uacts := dedupe_acts (flood_acts_for_vlan v true) [] [] in
    let ug := if set_eqb (output_ports uacts) (output_ports (dedupe_acts acts [] [])) then g
              else mkGroup (v_vid v + 4096) GT_ALL (flood_buckets uacts []) in
    group_add g ++ group_add ug
    ++ map (fun c => FlowMod (tb_write ft cmd (class_prio c) (vlan_match (v_vid v) c)
                               [Apply [GroupAct (g_id (if fc_unicast c then ug else g))]] 0 0))
           (vlan_classes restricted v).
  (** 669-677 (_build_flood_rules) *)
  Definition flood_rules (md : mode) (restricted : bool) (cmd : fcmd) (cold : bool) (v : vlan) : list ofmsg :=
    multiout_flood_rules md restricted cmd cold v
    ++ match md with Grouped => group_flood_rules restricted cmd v | _ => [] end.

  (** The flood-table messages of add_vlan (529-540), update_vlan (550-552) and
      del_vlan (542-548), and of the delete and re-add of a changed VLAN on
      reload (valve.py 1672-1677). *)
  Inductive flood_op := OpAdd (v : vlan) | OpUpdate (v : vlan) | OpDel (v : vlan) | OpReadd (v : vlan).
  Definition op_vlan (o : flood_op) : vlan :=
    match o with OpAdd v | OpUpdate v | OpDel v | OpReadd v => v end.
  Definition del_vlan_msg (v : vlan) : ofmsg :=
    FlowMod (tb_del ft FDelete 0 [vlan_item (v_vid v)] OFPP_ANY).
  Definition op_msgs (md : mode) (restricted : bool) (o : flood_op) : list ofmsg :=
    match o with
    | OpAdd v => flood_rules md restricted FAdd false v
    | OpUpdate v => flood_rules md restricted FModifyStrict false v
    | OpDel v => [del_vlan_msg v]
    | OpReadd v => del_vlan_msg v :: flood_rules md restricted FAdd true v
    end.

  (** 162-176 (initialise_tables): destinations that are never flooded *)
  Definition filter_dsts : list (Z * Z) :=
    [ (0x01000ccccccc, mac_byte_mask 6); (0x01000ccccccd, mac_byte_mask 6);
      (0x0180c2000000, 0xfffffffffff0) ].
  Definition initialise_msgs : list ofmsg :=
    map (fun dm => FlowMod (tb_drop ft (0x2000 + mac_mask_bits (snd dm)) [masked EthDst (fst dm) (snd dm)] 0))
        filter_dsts.
  (** valve.py 395-411 for this table (it has no miss_goto) *)
  Definition miss_msg : ofmsg := FlowMod (tb_drop ft 0 [] 0).
  (** The flood-table part of a cold start (valve.py 382-393, 486-517). *)
  Definition cold_msgs (md : mode) (restricted : bool) (vs : list vlan) : list ofmsg :=
    miss_msg :: initialise_msgs ++ flat_map (flood_rules md restricted FAdd true) vs.
End Rules.
