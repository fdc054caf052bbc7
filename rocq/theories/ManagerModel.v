(** * The manager of all datapaths: valves_manager.py 296-460, faucet.py 190-350 *)

From Coq Require Import ZArith List Bool.
From Verif Require Import PyBase.
Import ListNotations.
Open Scope Z_scope.

(** ** Periodic services *)

Section Services.
  Context {M S : Type}.      (* messages; the state that handlers share *)

  (** valves_manager.py 393-398 (_other_running_valves).  Valves are known by their
      datapath id, with dp.dyn_running. *)
  Definition other_running_valves (valves : list (Z * bool)) (v : Z) : list Z :=
    map fst (filter (fun o => negb (v =? fst o) && snd o) valves).

  (** valves_manager.py 381-389: the messages of one handler, by valve, are taken
      over; those an earlier handler gave for the same valve are dropped. *)
  Definition take (acc : list (Z * list M)) (r : Z * list M) : list (Z * list M) :=
    let acc1 := match dict_get Z.eqb (fst r) acc with
                | Some _ => dict_put Z.eqb (fst r) [] acc
                | None => dict_put Z.eqb (fst r) [] acc          (* defaultdict(list) *)
                end in
    dict_put Z.eqb (fst r)
      (match dict_get Z.eqb (fst r) acc1 with Some l => l | None => [] end ++ snd r) acc1.

  (** valves_manager.py 370-391 (valve_flow_services): the handler of every valve in
      turn, told the other running valves; the state after, and what is passed to
      send_flows_to_dp_by_id (333-336), in order. *)
  Definition handler : Type := Z -> list Z -> S -> S * list (Z * list M).
  Definition service_step (h : handler) (valves : list (Z * bool)) (a : S * list (Z * list M)) (v : Z)
    : S * list (Z * list M) :=
    let '(st', res) := h v (other_running_valves valves v) (fst a) in
    (st', fold_left take res (snd a)).
  Definition valve_flow_services (h : handler) (valves : list (Z * bool)) (st : S)
    : S * list (Z * list M) :=
    fold_left (service_step h valves) (map fst valves) (st, []).
End Services.

(** ** Loading configuration *)

(** A datapath of a parsed configuration: its id, its contents (a number), whether
    its hardware is supported (valve.py 2028-2046, valve_factory). *)
Record newdp := mkNewdp { nd_id : Z; nd_conf : Z; nd_supported : bool }.
(** What is kept of a Valve: its configuration and dp.dyn_running. *)
Record valve := mkValve { v_conf : Z; v_running : bool }.
(** valves_manager.py 109-110: valves and config_applied *)
Record manager := mkManager { m_valves : list (Z * valve); m_applied : list (Z * bool) }.
Definition manager_init : manager := mkManager [] [].

(** valves_manager.py 436-451 (update_config_applied): the numerator and the
    denominator of the metric are computed from the state by [fraction]. *)
Definition dict_update (d : list (Z * bool)) (l : list (Z * bool)) : list (Z * bool) :=
  fold_left (fun d x => dict_put Z.eqb (fst x) (snd x) d) l d.
Definition is_applied (m : manager) (id : Z) : bool :=
  match dict_get Z.eqb id (m_applied m) with Some b => b | None => false end.
Definition fraction (m : manager) : nat * nat :=
  (length (filter (is_applied m) (map fst (m_valves m))), length (m_valves m)).

(** valve.py 1682-1716 (reload_config): the Valve takes the new configuration.  On a
    cold restart there are no messages but None, on which send_flows (1838-1855)
    disconnects the switch.  Which restart it is is given by [cold] (see ConfModel).
    A Valve that is running is taken to have a connected switch. *)
Definition reload_valve (cold : bool) (d : newdp) (v : valve) : valve :=
  mkValve (nd_conf d) (v_running v && negb cold).

(** valves_manager.py 302-322: one datapath of the new configuration *)
Definition apply_one (cold : Z -> bool) (a : list (Z * valve) * list (Z * bool)) (d : newdp)
  : list (Z * valve) * list (Z * bool) :=
  let '(vs, sent) := a in
  match dict_get Z.eqb (nd_id d) vs with
  | Some v => let v' := reload_valve (cold (nd_id d)) d v in
              (dict_put Z.eqb (nd_id d) v' vs, dict_put Z.eqb (nd_id d) (v_running v') sent)
  | None => if nd_supported d then (dict_put Z.eqb (nd_id d) (mkValve (nd_conf d) false) vs, sent)
            else (vs, sent)
  end.

(** valves_manager.py 296-331 (_apply_configs); [None] is a rejected configuration;
    [delete] is whether delete_dp was given (not when reloading for a new stack
    root, 127-135). *)
Definition apply_configs (cold : Z -> bool) (delete : bool) (dps : option (list newdp)) (m : manager) : manager :=
  match dps with
  | None => mkManager (m_valves m) []
  | Some dps =>
      let gone := filter (fun id => negb (existsb (Z.eqb id) (map nd_id dps))) (map fst (m_valves m)) in
      let '(vs, sent) := fold_left (apply_one cold) dps (m_valves m, []) in
      let vs' := if delete then fold_left (fun d id => dict_del Z.eqb id d) gone vs else vs in
      mkManager vs' (dict_update [] sent)
  end.

(** Events.  A datapath that is not managed is disconnected (valve_ryuapp.py
    158-182).  [MConnect]: valves_manager.py 453-457 and valve.py 804-820, dp.py
    cold_start.  [MDisconnect]: valve.py 822-829. *)
Inductive mevent :=
| MLoad (cold : Z -> bool) (dps : option (list newdp))
| MNewRoot (cold : Z -> bool) (dps : list newdp)
| MConnect (id : Z)
| MDisconnect (id : Z).

Definition set_running (b : bool) (id : Z) (vs : list (Z * valve)) : list (Z * valve) :=
  match dict_get Z.eqb id vs with
  | Some v => dict_put Z.eqb id (mkValve (v_conf v) b) vs
  | None => vs
  end.
Definition mstep (m : manager) (e : mevent) : manager :=
  match e with
  | MLoad cold dps => apply_configs cold true dps m
  | MNewRoot cold dps => apply_configs cold false (Some dps) m
  | MConnect id =>
      match dict_get Z.eqb id (m_valves m) with
      | Some _ => mkManager (set_running true id (m_valves m)) (dict_update (m_applied m) [(id, true)])
      | None => m
      end
  | MDisconnect id => mkManager (set_running false id (m_valves m)) (m_applied m)
  end.
Definition mrun (es : list mevent) : manager := fold_left mstep es manager_init.

(** faucet.py 221-243 (_get_valve, require_running): which datapath's messages are
    listened to *)
Definition listens (m : manager) (id : Z) : bool :=
  match dict_get Z.eqb id (m_valves m) with Some v => v_running v | None => false end.
