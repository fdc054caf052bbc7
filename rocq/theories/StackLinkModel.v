(** * Stack links: cabling probes, port states and the topology

    port.py 728-780 (stack_port_update), valve_lldp.py 82-230 (verify_lldp,
    update_stack_link_state), valve.py 786-799 (fast_state_expire), valve_stack.py
    142-156 (update_stack_topo), stack.py 249-327 (resolve_topology).

    Ports are named by the name of their datapath and their number.  Times and
    intervals are integers.  ADMIN_DOWN is left out: nothing sets it.  Reloading
    configuration while links are up (clone_dyn_state) is not modelled. *)
From Coq Require Import ZArith List Bool.
From Verif Require Import PyBase StackModel.
Import ListNotations.
Open Scope Z_scope.

Inductive sstate := SNone | SInit | SUp | SBad | SGone.
Definition sstate_eqb (a b : sstate) : bool :=
  match a, b with
  | SNone, SNone | SInit, SInit | SUp, SUp | SBad, SBad | SGone, SGone => true
  | _, _ => false
  end.

(** A stack port: where it is, where it is configured to lead, how many probes of
    the peer may be lost (max_lldp_lost) and how often those are sent, its state
    (dyn_stack_current_state) and of the last probe when it came and whether it was
    the expected one (dyn_stack_probe_info). *)
Record lport := mkLport {
  lp_at : endpoint; lp_to : endpoint; lp_lost : Z; lp_interval : Z;
  lp_state : sstate; lp_probe : option (Z * bool) }.
Definition set_lport (p : lport) (s : sstate) (probe : option (Z * bool)) : lport :=
  mkLport (lp_at p) (lp_to p) (lp_lost p) (lp_interval p) s probe.

(** Datapaths with their identifiers, all stack ports, and the copy of the topology
    that each datapath has. *)
Record net := mkNet { nt_switches : list (Z * Z); nt_ports : list lport; nt_graphs : list (Z * graph) }.

Definition lport_at (n : net) (a : endpoint) : option lport := find (fun p => endpoint_eqb (lp_at p) a) (nt_ports n).
Definition is_up (n : net) (a : endpoint) : bool :=
  match lport_at n a with Some p => sstate_eqb (lp_state p) SUp | None => false end.

(** port.py 728-780 (stack_port_update).  The number of probes lost is a quotient of
    floats; with a positive interval comparing it is comparing the product. *)
Definition stack_port_update (p : lport) (now : Z) : sstate :=
  match lp_probe p with
  | None => match lp_state p with SNone => SInit | s => s end
  | Some (last_seen, stack_correct) =>
    let stack_timed_out := negb (now - last_seen <? lp_lost p * lp_interval p) in
    if stack_timed_out then SGone
    else if negb stack_correct then SBad
    else SUp
  end.

(** valve_stack.py 142-156 (update_stack_topo) and stack.py 354-356 (modify_link):
    every stacked datapath changes its copy. *)
Definition update_topos (gs : list (Z * graph)) (p : lport) (up : bool) : list (Z * graph) :=
  map (fun ng => (fst ng, modify_topology (snd ng) (lp_at p) (lp_to p) up)) gs.

(** valve_lldp.py 162-191, for one port *)
Definition update_link (n : net) (now : Z) (a : endpoint) : net :=
  match lport_at n a with
  | None => n
  | Some p =>
    let before_state := lp_state p in
    let after_state := stack_port_update p now in
    let ports := map (fun q => if endpoint_eqb (lp_at q) a then set_lport q after_state (lp_probe q) else q) (nt_ports n) in
    let n' := mkNet (nt_switches n) ports (nt_graphs n) in
    if sstate_eqb before_state after_state then n'
    else
      let port_up := match after_state with
                     | SUp => true
                     | SInit => is_up n' (lp_to p)
                     | _ => false
                     end in
      mkNet (nt_switches n) ports (update_topos (nt_graphs n) p port_up)
  end.

(** valve_lldp.py 142-191 (update_stack_link_state), without the flows *)
Definition update_stack_link_state (n : net) (ports : list endpoint) (now : Z) : net :=
  fold_left (fun n a => update_link n now a) ports n.

(** valve_lldp.py 82-140 (verify_lldp); a port without stacking is not among the
    ports. *)
Definition verify_lldp (n : net) (a : endpoint) (now remote_dp_id remote_dp_name remote_port : Z) : net :=
  match lport_at n a with
  | None => n
  | Some p =>
    let stack_correct :=
      match dict_get Z.eqb (fst (lp_to p)) (nt_switches n) with
      | Some dp_id => negb (negb (remote_dp_id =? dp_id) || negb (remote_dp_name =? fst (lp_to p)) || negb (remote_port =? snd (lp_to p)))
      | None => false
      end in
    let ports := map (fun q => if endpoint_eqb (lp_at q) a then set_lport q (lp_state q) (Some (now, stack_correct)) else q) (nt_ports n) in
    update_stack_link_state (mkNet (nt_switches n) ports (nt_graphs n)) [a] now
  end.

(** A probe comes in, or the ports of a datapath are looked at (valve.py 786-799). *)
Inductive levent :=
| LProbe (at_ : endpoint) (now remote_dp_id remote_dp_name remote_port : Z)
| LTick (dp now : Z).
Definition ports_of (n : net) (dp : Z) : list endpoint :=
  filter (fun a => fst a =? dp) (map lp_at (nt_ports n)).
Definition lstep (n : net) (e : levent) : net :=
  match e with
  | LProbe a now i x y => verify_lldp n a now i x y
  | LTick dp now => update_stack_link_state n (ports_of n dp) now
  end.
Definition lrun (es : list levent) (n : net) : net := fold_left lstep es n.

(** ** Loading configuration: stack.py 299-322 *)

(** What is configured of a port. *)
Record lconf := mkLconf { lc_at : endpoint; lc_to : endpoint; lc_lost : Z; lc_interval : Z }.
Definition conf_edge (c : lconf) : edge := canonical_edge (lc_at c) (lc_to c).
Definition full_graph (switches : list (Z * Z)) (confs : list lconf) : graph :=
  fold_left (fun g sw =>
      fold_left (fun g c => modify_topology g (lc_at c) (lc_to c) true)
        (filter (fun c => fst (lc_at c) =? fst sw) confs)
        (mkGraph (add_node (fst sw) (g_nodes g)) (g_edges g)))
    switches (mkGraph [] []).
Definition edge_count (confs : list lconf) (e : edge) : nat := length (filter (fun c => edge_eqb e (conf_edge c)) confs).
(** Lines 305-319, the conditions on which configuration is rejected.  All ports are
    on one of the datapaths. *)
Definition topology_accepted (switches : list (Z * Z)) (confs : list lconf) (root : Z) : bool :=
  let g := full_graph switches confs in
  forallb (fun c => (edge_count confs (conf_edge c) =? 2)%nat) confs &&
  forallb (fun x => negb (match shortest_path g x root with [] => true | _ => false end)) (g_nodes g).

Definition linit (switches : list (Z * Z)) (confs : list lconf) : net :=
  mkNet switches
    (map (fun c => mkLport (lc_at c) (lc_to c) (lc_lost c) (lc_interval c) SNone None) confs)
    (map (fun sw => (fst sw, full_graph switches confs)) switches).

(** The stack as StackModel has it, with one root and every port that is up
    running. *)
Definition fabric_of (n : net) (root : Z) : fabric :=
  map (fun ng => mkSnode (fst ng)
         (map (fun p => mkSport (snd (lp_at p)) (fst (lp_to p)) (snd (lp_to p))
                          (sstate_eqb (lp_state p) SUp) (sstate_eqb (lp_state p) SUp))
            (filter (fun p => fst (lp_at p) =? fst ng) (nt_ports n)))
         root (snd ng)) (nt_graphs n).
