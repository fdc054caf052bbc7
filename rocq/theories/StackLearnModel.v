(** * Learning hosts in a stack

    valve_switch_stack.py 57-91, 337-383, 506-568, 603-610, 784-801,
    valve_stack.py 49-54, 203-216, valve.py 1111-1176.  One VLAN, and a topology
    that does not change; the stack is the one of StackModel.  FAUCET's own MAC
    addresses are not hosts here. *)
From Coq Require Import ZArith List Bool.
From Verif Require Import PyBase StackModel.
Import ListNotations.
Open Scope Z_scope.

(** A port of a switch: one that is not a stack port, or one that is. *)
Inductive place := Edge (no : Z) | Via (no : Z).

(** What is configured: the switches; those with the VLAN (dp.vlans); which ports
    are loop_protect_external; which of the two stack managers is used; the VLAN's
    edge_learn_stack_root (vlan.py 163-166); the stack's route_learning. *)
Record slconf := mkSlconf {
  sl_fabric : fabric; sl_vlan : list Z; sl_external : Z -> Z -> bool;
  sl_reflection : bool; sl_tree : bool; sl_route : bool }.

(** The host caches of the VLAN at all switches: for (switch, host) the port and
    the time of the entry. *)
Definition caches := list ((Z * Z) * (place * Z)).
Definition entry_of (st : caches) (h d : Z) : option (place * Z) := dict_get endpoint_eqb (d, h) st.
Definition cached (st : caches) (h d : Z) : option place := option_map fst (entry_of st h d).

(** What a packet-in finds: the time; the order in which Python's sets happen to
    list the valves; which datapaths are connected (dyn_running); which ports can
    forward (port.py 538-551, for ports that are not stack ports); the time of each
    port's last change of state (dyn_update_time); and for each switch whether
    learn_host_on_vlan_ports would otherwise have the cache updated: it does not for
    hosts learned permanently and when the entry was made a moment ago
    (valve_switch_standalone.py 901-978). *)
Record world := mkWorld {
  w_now : Z; w_order : list Z; w_running : Z -> bool; w_forwarding : Z -> Z -> bool; w_changed : Z -> Z -> option Z; w_update : Z -> bool }.

(** The other switches (valves_manager.py 259-262, valve_stack.py 49-54). *)
Definition others (c : slconf) (w : world) (d : Z) : list Z :=
  filter (fun x => negb (x =? d) && mem Z.eqb x (map sn_name (sl_fabric c))) (w_order w).

(** Lines 57-91 (_non_stack_learned): the switches whose entry for
    the host is on a forwarding port that is not a stack port, external or not. *)
Definition entries (c : slconf) (w : world) (st : caches) (h d : Z) (external : bool) : list Z :=
  filter (fun x => mem Z.eqb x (sl_vlan c) &&
    match cached st h x with
    | Some (Edge n) => w_forwarding w x n && Bool.eqb (sl_external c x n) external
    | _ => false
    end) (others c w d).
Definition non_stack_learned (c : slconf) (w : world) (st : caches) (h d : Z) : option Z :=
  match entries c w st h d false with
  | x :: _ => Some x
  | [] =>
    match entries c w st h d true with
    | x :: _ => match cached st h d with None => Some x | Some _ => None end
    | [] => None
    end
  end.

(** Lines 603-610 and 784-801 (_edge_dp_for_host), for a packet from a stack port
    configured to lead to switch [peer] *)
Definition edge_dp_for_host (c : slconf) (w : world) (st : caches) (h d peer : Z) : option Z :=
  if w_running w peer then non_stack_learned c w st h d
  else if sl_reflection c then
    match node (sl_fabric c) peer with
    | Some s => if is_edge s || is_root s then Some peer else None
    | None => None
    end
  else Some peer.

(** valve_stack.py 203-216 (edge_learn_port_towards) *)
Definition edge_learn_port_towards (c : slconf) (s : snode) (e : Z) : option sport :=
  if sl_tree c then relative_port_towards (sl_fabric c) s e else default_port_towards s e.
Definition via (p : option sport) : option place := option_map (fun q => Via (sp_no q)) p.

(** Lines 337-364 (edge_learn_port) *)
Definition edge_learn_port (c : slconf) (w : world) (st : caches) (h : Z) (s : snode) (inp : place) : option place :=
  match inp with
  | Via no =>
    match sport_of s no with
    | None => None
    | Some q =>
      match edge_dp_for_host c w st h (sn_name s) (sp_dp q) with
      | Some e => via (edge_learn_port_towards c s e)
      | None => None
      end
    end
  | Edge no =>
    if sl_external c (sn_name s) no then
      match non_stack_learned c w st h (sn_name s) with
      | Some e => via (edge_learn_port_towards c s e)
      | None => Some inp
      end
    else Some inp
  end.

(** Lines 672-714 (_learn_cache_check with reflection): what a switch has learned on
    a port that is not a stack port, less than two seconds ago, is not replaced by
    a stack port. *)
Definition discarded (c : slconf) (w : world) (st : caches) (h d : Z) (pl : place) : bool :=
  sl_reflection c &&
  match entry_of st h d, pl with
  | Some (Edge _, t), Via n => (w_now w - t <? 2) && match w_changed w d n with Some u => u <=? t | None => false end
  | _, _ => false
  end.

(** valve.py 1111-1176 (learn_host), for a switch with the VLAN *)
Definition learn_host (c : slconf) (w : world) (h : Z) (s : snode) (inp : place) (st : caches) : caches :=
  match edge_learn_port c w st h s inp with
  | Some pl =>
    if w_update w (sn_name s) && negb (discarded c w st h (sn_name s) pl) then dict_put endpoint_eqb (sn_name s, h) (pl, w_now w) st else st
  | None => st
  end.

(** Lines 529-568 (learn_host_from_pkt): with route learning the other switches are
    told first, as if each had received the packet on its port towards this one. *)
Definition tell_other (c : slconf) (w : world) (h d : Z) (st : caches) (x : Z) : caches :=
  match node (sl_fabric c) x with
  | None => st
  | Some s =>
    match relative_port_towards (sl_fabric c) s d with
    | Some q => if mem Z.eqb x (sl_vlan c) then learn_host c w h s (Via (sp_no q)) st else st
    | None => st
    end
  end.
Definition learn_host_from_pkt (c : slconf) (w : world) (h : Z) (s : snode) (inp : place) (st : caches) : caches :=
  if sl_route c then
    let from_running := match inp with
      | Via no => match sport_of s no with Some q => w_running w (sp_dp q) | None => false end
      | Edge _ => false
      end in
    if from_running then st
    else learn_host c w h s inp (fold_left (tell_other c w h (sn_name s)) (others c w (sn_name s)) st)
  else learn_host c w h s inp st.

(** A packet from host [h] is sent to the controller by switch [d], with the port it
    came in on (which packets are is not modelled; on stacks with reflection not
    broadcasts from the root: lines 206-228); a switch forgets a host (the entry expires, or its port goes
    down: vlan.py 304-314, 343-354, valve.py 703-709). *)
Inductive slevent := SHear (h d : Z) (inp : place) (w : world) | SForget (h d : Z).
Definition slstep (c : slconf) (st : caches) (ev : slevent) : caches :=
  match ev with
  | SHear h d inp w =>
    match node (sl_fabric c) d with
    | Some s => if mem Z.eqb d (sl_vlan c) then learn_host_from_pkt c w h s inp st else st
    | None => st
    end
  | SForget h d => dict_del endpoint_eqb (d, h) st
  end.
Definition slrun (c : slconf) (st : caches) (evs : list slevent) : caches := fold_left (slstep c) evs st.
