(** * Choosing the root of a stack

    stack.py 98-247 (health and the ranking of candidates), 249-292 (the root when
    the configuration is loaded), valve_stack.py 232-318 (nominate_stack_root,
    consistent_roots) and valves_manager.py 113-226 (maintain_stack_root,
    set_stack_root).

    Fractions are rational numbers instead of floats.  Datapaths without stacking
    take no part in any of this (valve_stack.py 272) and are left out. *)
From Coq Require Import ZArith QArith List Bool.
From Verif Require Import PyBase.
Import ListNotations.
Open Scope Z_scope.

(** A datapath with stacking: its identifier and name, its configuration
    (stack.py 30-42; priority 0 when there is none), whether it is running and, of
    each of its stack and LACP ports, whether it is up; and what it last noted
    (dyn_healthy_info, dyn_healthy and root_name, stack.py 80-91). *)
Record node := mkNode {
  nd_id : Z; nd_name : Z;
  nd_priority : Z; nd_multiple : Z; nd_min_stack : Q; nd_min_lacp : Q;
  nd_running : bool; nd_stack : list bool; nd_lacp : list bool;
  nd_info : bool * Q * Q; nd_healthy : bool; nd_root : Z }.

Definition set_health (n : node) (info : bool * Q * Q) (h : bool) : node :=
  mkNode (nd_id n) (nd_name n) (nd_priority n) (nd_multiple n) (nd_min_stack n) (nd_min_lacp n)
    (nd_running n) (nd_stack n) (nd_lacp n) info h (nd_root n).
Definition set_root (r : Z) (n : node) : node :=
  mkNode (nd_id n) (nd_name n) (nd_priority n) (nd_multiple n) (nd_min_stack n) (nd_min_lacp n)
    (nd_running n) (nd_stack n) (nd_lacp n) (nd_info n) (nd_healthy n) r.
Definition set_ports (running : bool) (stack lacp : list bool) (n : node) : node :=
  mkNode (nd_id n) (nd_name n) (nd_priority n) (nd_multiple n) (nd_min_stack n) (nd_min_lacp n)
    running stack lacp (nd_info n) (nd_healthy n) (nd_root n).

(** stack.py 114-133 (live_timeout_healthy), first result only. *)
Definition live_timeout_healthy (n : node) (last_live now update_time : Z) : bool :=
  let down_time := nd_multiple n * update_time in
  let health_timeout := now - down_time in
  health_timeout <=? last_live.

(** stack.py 135-152 (stack_port_healthy) and 154-171 (lacp_port_healthy), which
    differ in the ports and the threshold only. *)
Definition port_healthy (ports : list bool) (least : Q) : bool * Q :=
  let down := filter negb ports in
  if (length ports =? 0)%nat then (true, 1%Q)
  else
    let percentage := (1 - inject_Z (Z.of_nat (length down)) / inject_Z (Z.of_nat (length ports)))%Q in
    (Qle_bool least percentage, percentage).

(** stack.py 173-231 (update_health), without the reason that is logged. *)
Definition update_health (n : node) (now : Z) (last_live_times : list (Z * Z)) (update_time : Z) : node :=
  let last_live := match dict_get Z.eqb (nd_name n) last_live_times with Some t => t | None => 0 end in
  if negb (live_timeout_healthy n last_live now update_time)
  then set_health n (false, 0%Q, 0%Q) false
  else
    let '(stack_healthy, stack_percentage) := port_healthy (nd_stack n) (nd_min_stack n) in
    let '(lacp_healthy, lacp_percentage) :=
      match nd_lacp n with [] => (true, 0%Q) | _ => port_healthy (nd_lacp n) (nd_min_lacp n) end in
    set_health n (true, stack_percentage, lacp_percentage) (stack_healthy && lacp_healthy).

(** stack.py 233-247 (nominate_stack_root).  Tuples are compared at the first place
    where they differ. *)
Definition health_le (a b : node) : bool :=
  let '(_, sa, la) := nd_info a in
  let '(_, sb, lb) := nd_info b in
  let (sa, sb) := ((1 - sa)%Q, (1 - sb)%Q) in
  let (la, lb) := ((1 - la)%Q, (1 - lb)%Q) in
  if Bool.eqb (nd_healthy a) (nd_healthy b) then
    if Qeq_bool sa sb then
      if Qeq_bool la lb then
        if nd_priority a =? nd_priority b then nd_id a <=? nd_id b
        else nd_priority a <? nd_priority b
      else Qle_bool la lb
    else Qle_bool sa sb
  else nd_healthy a.
Definition nominate (stacks : list node) : option Z :=
  hd_error (map nd_name (py_sorted health_le stacks)).

(** stack.py 423-425 (is_root_candidate) with 260 and 285-287: the names ranked are
    those of the datapaths that have a priority. *)
Definition is_candidate (n : node) : bool := negb (nd_priority n =? 0).

(** valve_stack.py 254-308 (nominate_stack_root).  [nodes] is the set the datapaths
    are gathered in, [root] the name of the current root if it is among them.  The
    second result is the datapaths with the health they noted. *)
Definition named (x : Z) (n : node) : bool := nd_name n =? x.
Definition nominate_root (nodes : list node) (root : option Z) (now : Z)
    (last_live_times : list (Z * Z)) (update_time : Z) : option Z * list node :=
  let looked := map (fun n => if is_candidate n then update_health n now last_live_times update_time else n) nodes in
  let candidates := filter is_candidate looked in
  let healthy := filter nd_healthy candidates in
  let unhealthy := filter (fun n => negb (nd_healthy n) && fst (fst (nd_info n))) candidates in
  let keep l := match root with
                | Some r => if existsb (named r) l then Some r else nominate l
                | None => nominate l
                end in
  (match healthy, unhealthy with
   | [], [] => None
   | _ :: _, _ => keep healthy
   | [], _ => keep unhealthy
   end, looked).

(** stack.py 285-292 (resolve_topology): the root when the configuration is loaded.
    New Stack objects have noted no health (stack.py 88-91). *)
Definition fresh (n : node) : node := set_health n (false, 0%Q, 0%Q) false.
Definition resolve_root (nodes : list node) (current : option Z) : option Z :=
  let ranked := py_sorted health_le (map fresh (filter is_candidate nodes)) in
  match current with
  | Some r => if existsb (named r) ranked then Some r else hd_error (map nd_name ranked)
  | None => hd_error (map nd_name ranked)
  end.

(** The controller: meta_dp_state (valves_manager.py 30-38) and the datapaths. *)
Record manager := mkManager { mg_root : option Z; mg_live : list (Z * Z); mg_nodes : list node }.

(** valves_manager.py 113-122 (update_dp_live_time) *)
Definition update_live (nodes : list node) (now : Z) (live : list (Z * Z)) : list (Z * Z) :=
  fold_left (fun d n => if nd_running n then dict_put Z.eqb (nd_name n) now d else d) nodes live.

(** valves_manager.py 124-131 (reload_stack_root_config): the configuration is
    parsed again and every datapath is told the root that gives (a changed root is
    always noticed, dp.py 1722-1730).  What else reloading does to the state of
    ports is not modelled here: any such change can follow as an event. *)
Definition reload_root (nodes : list node) (current : option Z) : list node :=
  match resolve_root nodes current with Some r => map (set_root r) nodes | None => nodes end.

(** valves_manager.py 171-226 (set_stack_root) with consistent_roots, valve_stack.py
    310-318.  The result says whether stack_change was returned. *)
Definition set_stack_root (m : manager) (new_root : option Z) : manager * bool :=
  match new_root with
  | None => (m, false)
  | Some r =>
    if existsb (named r) (mg_nodes m) then
      if match mg_root m with Some p => p =? r | None => false end then
        if forallb (fun n => nd_root n =? r) (mg_nodes m) then (m, false)
        else (mkManager (mg_root m) (mg_live m) (reload_root (mg_nodes m) (mg_root m)), true)
      else (mkManager (Some r) (mg_live m) (reload_root (mg_nodes m) (Some r)),
            match mg_root m with Some _ => true | None => false end)
    else (m, false)
  end.

(** valves_manager.py 141-169 (maintain_stack_root) *)
Definition maintain (m : manager) (now update_time : Z) : manager * bool :=
  let live := update_live (mg_nodes m) now (mg_live m) in
  match mg_nodes m with
  | [] => (mkManager (mg_root m) live [], false)
  | _ =>
    let root := match mg_root m with
                | Some r => if existsb (named r) (mg_nodes m) then Some r else None
                | None => None
                end in
    let '(new_root, nodes) := nominate_root (mg_nodes m) root now live update_time in
    set_stack_root (mkManager (mg_root m) live nodes) new_root
  end.

(** What happens to the controller: datapaths and ports go up and down (a datapath
    that connects is noted as live, valves_manager.py 456), configuration is loaded,
    and the root is looked at from time to time. *)
Inductive mevent :=
| MState (name : Z) (running : bool) (stack lacp : list bool)
| MConnect (name now : Z)
| MConfig (nodes : list node)
| MMaintain (now update_time : Z).

(** Loading configuration tells every datapath the root that resolve_topology gives
    (stack.py 285-292). *)
Definition mstep (m : manager) (e : mevent) : manager :=
  match e with
  | MState x running stack lacp =>
    mkManager (mg_root m) (mg_live m)
      (map (fun n => if named x n then set_ports running stack lacp n else n) (mg_nodes m))
  | MConnect x now =>
    mkManager (mg_root m) (dict_put Z.eqb x now (mg_live m)) (mg_nodes m)
  | MConfig nodes => mkManager (mg_root m) (mg_live m) (reload_root nodes (mg_root m))
  | MMaintain now update_time => fst (maintain m now update_time)
  end.
Definition mrun (es : list mevent) (m : manager) : manager := fold_left mstep es m.
Definition minit : manager := mkManager None [] [].
