(** * Stacks of switches: topology, paths, flooding

    stack.py, valve_stack.py, valve_switch_stack.py.  Names of datapaths and of
    their ports are numbers; the order of the numbers stands for the order of the
    names. *)
From Coq Require Import ZArith List Bool.
From Verif Require Import PyBase.
Import ListNotations.
Open Scope Z_scope.

(** ** The graph *)

(** A networkx MultiGraph: nodes, and edges with a key made of the datapath and
    port at each end (stack.py 296-352). *)
Definition endpoint := (Z * Z)%type.
Definition edge := (endpoint * endpoint)%type.
Record graph := mkGraph { g_nodes : list Z; g_edges : list edge }.

Definition endpoint_eqb (a b : endpoint) : bool := (fst a =? fst b) && (snd a =? snd b).
Definition edge_eqb (a b : edge) : bool := endpoint_eqb (fst a) (fst b) && endpoint_eqb (snd a) (snd b).
Definition endpoint_le (a b : endpoint) : bool := (fst a <? fst b) || ((fst a =? fst b) && (snd a <=? snd b)).

(** Lines 300-308 (canonical_edge) *)
Definition canonical_edge (a b : endpoint) : edge := if endpoint_le a b then (a, b) else (b, a).

(** Lines 296-352 (modify_topology).  add_edge also adds the nodes it needs. *)
Definition add_node (n : Z) (l : list Z) : list Z := if mem Z.eqb n l then l else l ++ [n].
Definition modify_topology (g : graph) (a b : endpoint) (add : bool) : graph :=
  let e := canonical_edge a b in
  if add then
    mkGraph (add_node (fst (snd e)) (add_node (fst (fst e)) (g_nodes g)))
      (if mem edge_eqb e (g_edges g) then g_edges g else g_edges g ++ [e])
  else mkGraph (g_nodes g) (filter (fun x => negb (edge_eqb x e)) (g_edges g)).

Definition adjacent (g : graph) (x y : Z) : bool :=
  existsb (fun e => ((fst (fst e) =? x) && (fst (snd e) =? y)) || ((fst (fst e) =? y) && (fst (snd e) =? x))) (g_edges g).
Definition neighbours (g : graph) (x : Z) : list Z := filter (adjacent g x) (g_nodes g).

(** Walks with [k] edges. *)
Fixpoint walks (g : graph) (k : nat) (x y : Z) : list (list Z) :=
  match k with
  | O => if x =? y then [[x]] else []
  | S k => flat_map (fun z => map (cons x) (walks g k z y)) (neighbours g x)
  end.

(** networkx.all_shortest_paths: the walks of the least length there are. *)
Fixpoint first_walks (g : graph) (fuel k : nat) (x y : Z) : list (list Z) :=
  match fuel with
  | O => []
  | S f => match walks g k x y with [] => first_walks g f (S k) x y | l => l end
  end.
Definition all_shortest_paths (g : graph) (x y : Z) : list (list Z) :=
  if mem Z.eqb x (g_nodes g) then first_walks g (length (g_nodes g)) 0 x y else [].

(** Python's order on lists. *)
Fixpoint path_le (a b : list Z) : bool :=
  match a, b with
  | [], _ => true
  | _, [] => false
  | x :: a, y :: b => (x <? y) || ((x =? y) && path_le a b)
  end.

(** stack.py 392-404 (shortest_path); the empty list: no path. *)
Definition shortest_path (g : graph) (src dst : Z) : list Z := hd [] (py_sorted path_le (all_shortest_paths g src dst)).

(** ** Nodes *)

(** A stack port: its number, the datapath and port it is configured to be
    connected to, whether it is up (port.py 798-800) and, for unicast, running
    (port.py 516-518). *)
Record sport := mkSport { sp_no : Z; sp_dp : Z; sp_peer : Z; sp_up : bool; sp_running : bool }.
(** A datapath with its own copy of the graph and its idea of the root. *)
Record snode := mkSnode { sn_name : Z; sn_ports : list sport; sn_root : Z; sn_graph : graph }.
Definition fabric := list snode.

Definition node (f : fabric) (n : Z) : option snode := find (fun s => sn_name s =? n) f.
Definition sport_of (s : snode) (no : Z) : option sport := find (fun p => sp_no p =? no) (sn_ports s).

(** stack.py 406-414 *)
Definition path_to_root (s : snode) : list Z := shortest_path (sn_graph s) (sn_name s) (sn_root s).
Definition is_root (s : snode) : bool := sn_name s =? sn_root s.
(** stack.py 466-477 (is_in_path) *)
Definition is_in_path (s : snode) (src dst : Z) : bool := mem Z.eqb (sn_name s) (shortest_path (sn_graph s) src dst).

(** dp.py 886-889 *)
Definition canonical (l : list sport) : list sport := py_sorted (fun a b => sp_no a <=? sp_no b) l.
Definition up_ports (l : list sport) : list sport := filter sp_up l.

(** The port at the other end (port.stack["port"]). *)
Definition remote (f : fabric) (p : sport) : list sport :=
  match node f (sp_dp p) with
  | Some s => match sport_of s (sp_peer p) with Some q => [q] | None => [] end
  | None => []
  end.

(** ** Roles of the stack ports: valve_stack.py 57-140 (reset_peer_distances) *)
Record roles := mkRoles {
  ro_towards : list sport;          (** towards_root_ports *)
  ro_chosen : list sport;           (** chosen_towards_ports *)
  ro_chosen_port : option sport;    (** chosen_towards_port *)
  ro_away : list sport;             (** away_ports *)
  ro_inactive : list sport;         (** inactive_away_ports *)
  ro_pruned : list Z                (** numbers of pruned_away_ports *)
}.

(** Lines 74-77; a peer that is not known counts as one without a path. *)
Definition peer_distance (f : fabric) (p : sport) : Z :=
  match node f (sp_dp p) with Some s => Z.of_nat (length (path_to_root s)) | None => 0 end.
Fixpoint minimum (l : list Z) : option Z :=
  match l with
  | [] => None
  | x :: r => match minimum r with Some y => Some (Z.min x y) | None => Some x end
  end.

Definition numbers (l : list sport) : list Z := map sp_no l.
Definition port_in (p : sport) (l : list sport) : bool := mem Z.eqb (sp_no p) (numbers l).

(** Lines 124-138 *)
Definition pruned_away (f : fabric) (away : list sport) : list Z :=
  flat_map (fun p =>
    let group := filter (fun q => sp_dp q =? sp_dp p) away in
    map sp_peer (tl (canonical (up_ports (flat_map (remote f) group))))) away.

Definition reset_peer_distances (f : fabric) (me : snode) : roles :=
  let all := canonical (up_ports (sn_ports me)) in
  let finish towards chosen chosen_port away :=
    mkRoles towards chosen chosen_port away
      (filter (fun p => negb (is_in_path me (sp_dp p) (sn_root me))) away)
      (pruned_away f away) in
  if is_root me then finish [] [] None all
  else
    let shortest := minimum (map (peer_distance f) all) in
    let is_shortest p := match shortest with Some d => peer_distance f p =? d | None => false end in
    let towards := filter is_shortest all in
    let away := filter (fun p => negb (is_shortest p)) all in
    let first_peer :=
      match path_to_root me with
      | _ :: z :: _ => Some z
      | _ => match canonical towards with p :: _ => Some (sp_dp p) | [] => None end
      end in
    let chosen := filter (fun p => match first_peer with Some z => sp_dp p =? z | None => false end) towards in
    let chosen_port := hd_error (canonical (up_ports chosen)) in
    finish towards chosen chosen_port away.

(** valve_stack.py 330-356 *)
Definition is_away (r : roles) (p : sport) : bool := port_in p (ro_away r).
Definition is_towards (r : roles) (p : sport) : bool := port_in p (ro_towards r).
Definition is_selected (r : roles) (p : sport) : bool :=
  match ro_chosen_port r with Some q => sp_no p =? sp_no q | None => false end.
Definition is_pruned (r : roles) (p : sport) : bool :=
  if is_towards r p then negb (is_selected r p)
  else if is_away r p then mem Z.eqb (sp_no p) (ro_pruned r)
  else true.

(** ** Flooding *)

(** Where a flooded packet goes: to the ports of the VLAN on this switch, out of
    a stack port, back out of the port it came in on. *)
Inductive out := Local | Out (no : Z) | Back.

(** valve_of.py 1281-1304 (flood_tagged_port_outputs), without mirrors and
    hairpins. *)
Definition flood_to (ports : list sport) (inp : option sport) (exclude : list sport) : list out :=
  map (fun p => Out (sp_no p))
    (filter (fun p => negb (match inp with Some q => sp_no p =? sp_no q | None => false end) && negb (port_in p exclude)) ports).

(** valve_switch_stack.py 126-172 (_build_flood_rule_actions), 555-581
    (_flood_actions without reflection), 722-784 (with reflection).  Without ports
    to external networks, so without the flags for them. *)
Definition flood_actions (reflection : bool) (me : snode) (r : roles) (inp : option sport) : list out :=
  let exclude := ro_inactive r ++
    match inp with Some q => filter (fun p => sp_dp p =? sp_dp q) (sn_ports me) | None => [] end in
  let away := flood_to (ro_away r) inp exclude in
  let toward := flood_to (ro_chosen r) inp [] in
  if reflection then
    if is_root me then
      match inp with
      | Some q => if is_away r q then away ++ [Back] ++ [Local] else away ++ [Local]
      | None => away ++ [Local]
      end
    else
      match inp with
      | Some q => if is_away r q then toward else if is_towards r q then away ++ [Local] else toward
      | None => toward
      end
  else toward ++ away ++ [Local].

(** valve_switch_stack.py 273-318 (_build_mask_flood_rules): a packet with a group
    address (broadcast or multicast) that comes in on a pruned port is dropped; a
    unicast packet never is. *)
Definition dropped (group : bool) (r : roles) (inp : option sport) : bool :=
  match inp with Some q => group && is_pruned r q | None => false end.

(** ** Next hops for unicast *)

(** stack.py 426-446 (shortest_path_port, peer_up_ports) *)
Definition peer_up_ports (me : snode) (peer : Z) : list sport :=
  canonical (filter (fun p => sp_running p && (sp_dp p =? peer)) (sn_ports me)).
Definition default_port_towards (me : snode) (dst : Z) : option sport :=
  match shortest_path (sn_graph me) (sn_name me) dst with
  | _ :: peer :: _ => hd_error (peer_up_ports me peer)
  | _ => None
  end.

(** The element before the first occurrence of [x]; Python's index -1 of the first
    one is the last. *)
Fixpoint before (x : Z) (prev : Z) (l : list Z) : option Z :=
  match l with
  | [] => None
  | y :: r => if y =? x then Some prev else before x y r
  end.
(** valve_stack.py 173-202 (relative_port_towards) *)
Definition relative_port_towards (f : fabric) (me : snode) (dst : Z) : option sport :=
  let r := reset_peer_distances f me in
  match path_to_root me with
  | [] => default_port_towards me dst
  | _ =>
    if sn_name me =? dst then default_port_towards me dst
    else
      let p := shortest_path (sn_graph me) dst (sn_root me) in
      match before (sn_name me) (last p 0) p with
      | Some away_dp => find (fun q => (sp_dp q =? away_dp) && negb (is_pruned r q)) (ro_away r)
      | None => ro_chosen_port r
      end
  end.

(** stack.py 448-464 (longest_path_to_root_len), 420-424 (is_edge) *)
Definition longest_path_to_root (s : snode) : nat :=
  fold_right Nat.max O (map (fun d => length (shortest_path (sn_graph s) d (sn_root s))) (g_nodes (sn_graph s))).
Definition is_edge (s : snode) : bool := negb (is_root s) && (Nat.eqb (longest_path_to_root s) (length (path_to_root s))).

(** ** A flooded packet on its way *)

(** Somewhere in a switch, received on a stack port or, with [None], from a host. *)
Definition flying := (Z * option Z)%type.

(** What a switch does with it: the switches whose hosts get it (this one or
    none), and the packets that are then in flight.  A link takes a packet to the
    datapath and port the link is configured with. *)
Definition forwarded (me : snode) (inp : option sport) (o : out) : list flying :=
  match o with
  | Local => []
  | Out no => match sport_of me no with Some p => [(sp_dp p, Some (sp_peer p))] | None => [] end
  | Back => match inp with Some q => [(sp_dp q, Some (sp_peer q))] | None => [] end
  end.
Definition local (me : snode) (o : out) : list Z := match o with Local => [sn_name me] | _ => [] end.
Definition handle (reflection group : bool) (f : fabric) (pk : flying) : list Z * list flying :=
  match node f (fst pk) with
  | None => ([], [])
  | Some me =>
    let flood inp :=
      let r := reset_peer_distances f me in
      if dropped group r inp then ([], [])
      else let acts := flood_actions reflection me r inp in (flat_map (local me) acts, flat_map (forwarded me inp) acts) in
    match snd pk with
    | None => flood None
    | Some no => match sport_of me no with Some q => flood (Some q) | None => ([], []) end
    end
  end.
