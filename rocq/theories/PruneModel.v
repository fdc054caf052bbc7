(** * Filters on stack ports

    Transcription of [_build_mask_flood_rules_filters] and the loop over stack ports of
    [_build_mask_flood_rules] (/repo/faucet/valve_switch_stack.py 174-224, 281-336), of the
    loop over destinations of [_build_multiout_flood_rules]
    (/repo/faucet/valve_switch_standalone.py 442-463), of [filter_packets],
    [select_packets] and [remove_filter] (/repo/faucet/valve_pipeline.py 202-241) and of
    [is_pruned_port] (/repo/faucet/valve_stack.py 336-353).

    Simplifications: only messages for the classification table; those for the flood table
    are in [StackModel] and [FloodRulesModel].  Messages of one refresh are applied in the
    order they are made. *)
From Coq Require Import List Bool ZArith.
From Verif Require Import PyBase OpenFlow FloodRulesModel.
Import ListNotations.
Open Scope Z_scope.

(** The stack ports, the destinations (flood_dsts), the tables, the cookie and
    _USES_REFLECTION *)
Record prconf := mkPrconf {
  pr_ports : list Z; pr_restricted : bool; pr_class : Z; pr_flood : Z; pr_cookie : Z; pr_reflection : bool }.

(** valve_stack.py 32-47: what the stack manager knows as rules are made: the ports towards
    the root and the one chosen of them, the ports away from the root and the ones of them
    that are redundant; whether the switch is the root or at the edge *)
Record prstate := mkPrstate {
  st_towards : list Z; st_chosen : option Z; st_away : list Z; st_redundant : list Z;
  st_root : bool; st_edge : bool }.

(** valve_stack.py 336-353 *)
Definition is_towards_root (st : prstate) (p : Z) : bool := mem Z.eqb p (st_towards st).
Definition is_pruned_port (st : prstate) (p : Z) : bool :=
  if is_towards_root st p then negb (match st_chosen st with Some c => p =? c | None => false end)
  else if mem Z.eqb p (st_away st) then mem Z.eqb p (st_redundant st)
  else true.

(** valve_manager_base.py 17-18, valve_pipeline.py 47-48, valve_switch_standalone.py 156 *)
Definition FILTER_PRIORITY : Z := 0x5000.
Definition SELECT_PRIORITY : Z := 0x4000.
Definition classification_offset : Z := 0x100.

Section Prune.
  Variable cfg : prconf.

  (** valve_table.py 227-283 *)
  Definition pr_mod (c : fcmd) (prio : Z) (m : fmatch) (inst : list instruction) : flowmod :=
    mkFlowMod c (pr_class cfg) prio m (pr_cookie cfg) OFPP_ANY OFPG_ANY inst 0 0 0.
  (** valve_pipeline.py 202-241 *)
  Definition filter_packets (m : fmatch) (offset : Z) : flowmod := pr_mod FAdd (FILTER_PRIORITY + offset) m [].
  Definition select_packets (target : Z) (m : fmatch) (offset : Z) : flowmod :=
    pr_mod FAdd (SELECT_PRIORITY + offset) m [Goto target].
  Definition remove_filter (m : fmatch) (offset : Z) : flowmod :=
    pr_mod FDeleteStrict (FILTER_PRIORITY + offset) m [].

  (** valve_switch_stack.py 180-182 *)
  Definition pr_match (vid p : Z) (dst : option (Z * Z)) : fmatch :=
    [exact InPort p; exact VlanVid (Z.lor vid OFPVID_PRESENT)] ++
    match dst with Some (d, m) => [masked EthDst d m] | None => [] end.

  (** valve_switch_stack.py 174-224 *)
  Definition mask_filters (st : prstate) (vid p : Z) (dst : option (Z * Z)) (prune : bool) : list flowmod :=
    let m := pr_match vid p dst in
    let replace_priority_offset := classification_offset - (FILTER_PRIORITY - SELECT_PRIORITY) in
    let priority_offset := match dst with None => replace_priority_offset - 1 | Some _ => replace_priority_offset end in
    if prune then [filter_packets m priority_offset]
    else remove_filter m priority_offset ::
         (if negb (st_root st) && match dst with Some _ => true | None => false end && pr_reflection cfg
             && (st_edge st || is_towards_root st p)
          then [select_packets (pr_flood cfg) m classification_offset] else []).

  (** valve_switch_stack.py 307-319 and valve_switch_standalone.py 445-447; [unicast]:
      unicast_flood of the VLAN *)
  Definition refresh (st : prstate) (vid : Z) (unicast : bool) : list flowmod :=
    flat_map (fun c =>
      if fc_unicast c && negb unicast then []
      else flat_map (fun p =>
             mask_filters st vid p (fc_dst c) (match fc_dst c with Some _ => is_pruned_port st p | None => false end))
             (pr_ports cfg))
      (flood_dsts (pr_restricted cfg)).

  (** The rules of VLANs are made again and again, as the stack changes. *)
  Definition pr_event : Type := Z * bool * prstate.
  Definition pr_step (s : switch) (e : pr_event) : switch :=
    apply_msgs (map FlowMod (refresh (snd e) (fst (fst e)) (snd (fst e)))) s.
  Definition pr_run (h : list pr_event) (s : switch) : switch := fold_left pr_step h s.
End Prune.
