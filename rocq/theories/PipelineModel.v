(** * The tables of the pipeline

    faucet_pipeline.py (all), dp.py 429-500 (_generate_acl_tables) and 521-658
    (_configure_tables), tfm_pipeline.py (load_tables), and every place in the code
    that sends packets from one table to another. *)

From Coq Require Import ZArith QArith List Bool.
From Verif Require Import PyBase.
Import ListNotations.
Open Scope Z_scope.

(** faucet_pipeline.py 101-210: the tables *)
Inductive tname := PortAcl | Vlan | Copro | VlanAcl | Classification | EthSrc | Fib4 | Fib6
  | Vip | Hairpin | EthDst | EgressAcl | Egress | Flood.
Scheme Equality for tname.

(** faucet_pipeline.py 217-232 (FAUCET_PIPELINE) *)
Definition pipeline : list tname :=
  [PortAcl; Vlan; Copro; VlanAcl; Classification; EthSrc; Fib4; Fib6; Vip; Hairpin; EthDst; EgressAcl; Egress; Flood].

(** faucet_pipeline.py 101-210: the table ids of hardware with fixed tables *)
Definition static_id (t : tname) : Z :=
  match t with
  | PortAcl => 0 | Vlan => 1 | Copro => 2 | VlanAcl => 2 | Classification => 3 | EthSrc => 4
  | Fib4 => 5 | Fib6 => 6 | Vip => 7 | Hairpin => 8 | EthDst => 9 | EgressAcl => 10 | Egress => 11 | Flood => 12
  end.

(** faucet_pipeline.py 83-84 *)
Definition NEXT_ETH := [Hairpin; EthDst; Flood].
Definition NEXT_VIP := Vip :: NEXT_ETH.
(** faucet_pipeline.py 87-210: next_tables *)
Definition default_next (t : tname) : list tname :=
  match t with
  | PortAcl => Vlan :: NEXT_VIP
  | Vlan => [Copro; VlanAcl; Classification; EthSrc]
  | Copro => [EthDst]
  | VlanAcl => Classification :: EthSrc :: NEXT_ETH
  | Classification => EthSrc :: Fib4 :: Fib6 :: NEXT_VIP
  | EthSrc => Fib4 :: Fib6 :: NEXT_VIP
  | Fib4 | Fib6 => NEXT_VIP
  | Vip => NEXT_ETH
  | Hairpin => []
  | EthDst => [Egress; EgressAcl]
  | EgressAcl => [Egress]
  | Egress => [Flood]
  | Flood => []
  end.
(** faucet_pipeline.py 120-205: miss_goto *)
Definition default_miss (t : tname) : option tname :=
  match t with
  | Copro => Some EthDst | Classification => Some EthSrc | EthSrc => Some EthDst
  | Hairpin => Some EthDst | EthDst => Some Flood | Egress => Some Flood
  | _ => None
  end.

(** What _configure_tables looks at (dp.py 521-561): [ft_port_acl], [ft_vlan_acl],
    [ft_egress_acl]: _generate_acl_tables (429-500) gives that table; [ft_v4], [ft_v6]:
    some VLAN has an address of that version; [ft_static]: the hardware has fixed
    table ids; [ft_egress]: egress_pipeline is configured (441: egress ACLs turn it
    on as well); [ft_copro]: there are coprocessor ports. *)
Record features := mkFeatures {
  ft_port_acl : bool; ft_vlan_acl : bool; ft_egress_acl : bool; ft_v4 : bool; ft_v6 : bool;
  ft_static : bool; ft_hairpin : bool; ft_classification : bool; ft_egress : bool; ft_copro : bool }.

Section Tables.
  Variable f : features.

  (** dp.py 441 *)
  Definition egress_pipeline : bool := ft_egress f || ft_egress_acl f.
  (** dp.py 535-554 (included_tables) *)
  Definition included (t : tname) : bool :=
    match t with
    | Vlan | EthSrc | EthDst | Flood => true           (* MINIMUM_FAUCET_PIPELINE_TABLES *)
    | PortAcl => ft_port_acl f || ft_static f
    | VlanAcl => ft_vlan_acl f
    | EgressAcl => ft_egress_acl f
    | Fib4 => ft_v4 f
    | Fib6 => ft_v6 f
    | Vip => ft_v4 f || ft_v6 f
    | Hairpin => ft_hairpin f
    | Classification => ft_classification f
    | Egress => egress_pipeline
    | Copro => ft_copro f
    end.
  (** dp.py 555-559 (canonical_configs) *)
  Definition tables : list tname := filter included pipeline.

  (** enumerate: the position of [t] in [l], counted from [i] *)
  Fixpoint position (t : tname) (l : list tname) (i : Z) : Z :=
    match l with
    | [] => i
    | x :: r => if tname_beq t x then i else position t r (i + 1)
    end.
  (** dp.py 560-571 (table_id) *)
  Definition table_id (t : tname) : Z := if ft_static f then static_id t else position t tables 0.

  (** dp.py 586-587, otherwise the default *)
  Definition miss_goto (t : tname) : option tname :=
    match t with
    | EthDst => if included EgressAcl then Some EgressAcl else default_miss EthDst
    | PortAcl | VlanAcl | EgressAcl => None
    | _ => default_miss t
    end.
  (** dp.py 642-650 (next_tables, next_table_ids) *)
  Definition next_tables (t : tname) : list tname := filter included (default_next t).

  (** dp.py 703-717 (classification_table, output_table) *)
  Definition classification_table : tname := if ft_classification f then Classification else EthSrc.
  Definition output_table : tname := if ft_hairpin f then Hairpin else EthDst.
  (** valve_pipeline.py 107-147 (output): where the egress pipeline starts *)
  Definition egress_first : list tname :=
    if egress_pipeline then [if included EgressAcl then EgressAcl else Egress] else [].

  (** Everywhere the code sends packets on to another table, besides misses: the
      table the flow is in and the table it goes to. *)
  Definition code_gotos (t : tname) : list tname :=
    match t with
    | PortAcl =>                     (* valve_acl.py 462-486, 580, 802-805; 412 with the VLAN table *)
        [Vlan; output_table]
    | Vlan =>                        (* valve_coprocessor.py 54; valve_switch_standalone.py 553-571;
                                        valve_switch_stack.py 407 *)
        (if included Copro then [Copro] else []) ++ (if included VlanAcl then [VlanAcl] else []) ++
        [classification_table]
    | Copro => []                    (* valve_coprocessor.py 64-82: output only *)
    | VlanAcl =>                     (* valve_acl.py 537-538 *)
        [classification_table; output_table]
    | Classification | EthSrc =>
        (if tname_beq t classification_table then
           (* valve_pipeline.py 216-226 (select_packets) from valve_route.py 420, 1010,
              1183, 1228 and valve_switch_stack.py 218 *)
           (if included Fib4 then [Fib4] else []) ++ (if included Fib6 then [Fib6] else []) ++
           (if included Vip then [Vip] else []) ++ [Flood]
         else []) ++
        (if tname_beq t EthSrc then
           (* valve_switch_standalone.py 536, 827; valve_switch_stack.py 492; valve_coprocessor.py 61 *)
           [output_table] else [])
    | Fib4 | Fib6 =>                 (* valve_route.py 432, 442, 1256; 529 *)
        [Vip; output_table]
    | Vip =>                         (* valve_route.py 266, 1042 *)
        [output_table]
    | Hairpin | EthDst =>            (* valve_switch_standalone.py 853-893 with valve_pipeline.py 107-147 *)
        egress_first
    | EgressAcl =>                   (* valve_acl.py 550 *)
        [Egress]
    | Egress | Flood => []           (* valve_pipeline.py 164-182; flood rules output only *)
    end.

  (** ** Sizes *)

  (** What the sizes depend on.  Python's floating point numbers are taken to be
      rational numbers.  [sz_exact]: exact_match of the ACL tables (485). *)
  Record sizing := mkSizing {
    sz_externals : bool; sz_vlans : Z; sz_ports : Z; sz_scale : Q; sz_comb : bool; sz_restricted : bool;
    sz_min : Z; sz_max : Z; sz_exact : tname -> bool; sz_override : tname -> option Z }.
  Variable s : sizing.

  (** faucet_pipeline.py 87-205: vlan_scale and vlan_port_scale.  The tables of ACLs
      made by _generate_acl_tables have neither, and nor have their defaults. *)
  Definition vlan_scale (t : tname) : option Q := match t with Vip => Some (8 # 1)%Q | _ => None end.
  Definition vlan_port_scale (t : tname) : option Q :=
    match t with
    | Vlan => Some (3 # 1)%Q | Copro | Egress => Some (15 # 10)%Q | EthSrc | Hairpin | EthDst => Some (41 # 10)%Q
    | Fib4 | Fib6 => Some (31 # 10)%Q | Flood => Some (8 # 1)%Q | _ => None
    end.
  (** faucet_pipeline.py 176, 183; dp.py 485-494 *)
  Definition exact_match (t : tname) : bool :=
    match t with Hairpin | EthDst => true | PortAcl | VlanAcl | EgressAcl => sz_exact s t | _ => false end.

  (** dp.py 606-628 (scale_factor) *)
  Definition scale_factor (t : tname) : Q :=
    let k0 := (if sz_externals s then 1 * 2 else 1)%Q in
    match vlan_scale t with
    | Some c => (k0 * (inject_Z (sz_vlans s) * c))%Q
    | None =>
        match vlan_port_scale t with
        | Some c =>
            let k1 := (k0 * (inject_Z (sz_vlans s * sz_ports s) * c) * sz_scale s)%Q in
            if tname_beq t Flood then
              let k2 := if sz_comb s then (k1 * inject_Z (sz_ports s))%Q else k1 in
              if sz_restricted s then (k2 * 2)%Q else k2
            else k1
        | None => k0
        end
    end.
  (** int(): rounds towards zero *)
  Definition py_int (q : Q) : Z := Z.quot (Qnum q) (Z.pos (Qden q)).
  (** dp.py 630-639 (size) *)
  Definition table_size (t : tname) : Z :=
    let multiple := py_int (scale_factor t / inject_Z (sz_min s)) + 1 in
    let size := multiple * sz_min s in
    let size := if exact_match t then size else Z.min (Z.max size (sz_min s)) (sz_max s) in
    match sz_override s t with Some n => n | None => size end.

  (** ** Table features *)

  (** What a table features message says of a table, as far as modelled: its id, the
      table it is for ([None]: a filler), its size, the tables it may send packets to
      and the table packets that match nothing go to. *)
  Record tfm := mkTfm { tf_id : Z; tf_table : option tname; tf_size : Z; tf_next : list Z; tf_miss : option Z }.
  (** dp.py 670-675 (table_by_id) *)
  Definition table_by_id (id : Z) : option tname := find (fun t => table_id t =? id) tables.
  (** tfm_pipeline.py 58-158 (the loop over active tables) *)
  Definition describe (min_max_flows : Z) (id : Z) : list tfm :=
    match table_by_id id with
    | Some t => [mkTfm id (Some t) (Z.max min_max_flows (table_size t)) (map table_id (next_tables t))
                       (option_map table_id (miss_goto t))]
    | None => []
    end.
  (** range(n): 0 .. n-1 *)
  Definition py_range (n : Z) : list Z := map Z.of_nat (seq 0 (Z.to_nat n)).
  (** tfm_pipeline.py 53-168 (load_tables); the fillers come in the order of ids *)
  Definition load_tables (max_table_id min_max_flows : Z) : list tfm :=
    let ids := py_sorted Z.leb (map table_id tables) in
    let described := flat_map (describe min_max_flows) ids in
    let missing := filter (fun id => negb (mem Z.eqb id (map tf_id described))) (py_range (max_table_id + 1)) in
    described ++ map (fun id => mkTfm id None min_max_flows [] None) missing.
End Tables.
