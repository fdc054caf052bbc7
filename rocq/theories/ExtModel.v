(** * External networks and stacks

    Ports with loop_protect_external lead to networks of other switches, which may
    have several connections to the stack.  FAUCET marks frames on their way through
    the stack with a flag in the VLAN PCP field: whether they may still be sent out
    of an external port.  valve_switch_stack.py 33-55, 93-172, 214-283, 555-600,
    722-784; valve_switch_standalone.py 192-219, 282-318, 344-420, 555-580. *)
From Coq Require Import ZArith List Bool.
From Verif Require Import PyBase StackModel.
Import ListNotations.
Open Scope Z_scope.

(** A port of the VLAN: its number, loop_protect_external, dyn_phys_up.  LAGs,
    mirrors, hairpins, 802.1X and restricted_bcast_arpnd are left out (FloodModel has
    them), and ports that floods do not go to. *)
Record member := mkMember { m_no : Z; m_ext : bool; m_up : bool }.
(** A switch: its ports in the VLAN, whether it is a candidate for root (stack.py
    423-425), combinatorial_port_flood. *)
Record xswitch := mkXswitch { x_members : list member; x_candidate : bool; x_combinatorial : bool }.

(** Actions: set the flag, output to a stack port, output to a port of the VLAN. *)
Inductive xact := XFlag (external : bool) | XStack (o : out) | XPort (no : Z).
(** What a rule is for: a port of the VLAN, a stack port, the whole VLAN. *)
Inductive xinp := FromHost (m : member) | FromStack (q : sport) | FromAny.
Definition stack_inp (i : xinp) : option sport := match i with FromStack q => Some q | _ => None end.

(** vlan.py 517-527; dp.py 886-889 *)
Definition has_external (ms : list member) : bool := existsb m_ext ms.
Definition externals_up (ms : list member) : list member :=
  py_sorted (fun a b => m_no a <=? m_no b) (filter m_up (filter m_ext ms)).

(** valve_switch_standalone.py 192-219 (_build_flood_local_rule_actions).  Stack ports
    are not taken to be marked as external. *)
Definition xlocal (ms : list member) (i : xinp) (exclude_all_external : bool) : list xact :=
  let excluded :=
    if exclude_all_external || match i with FromHost m => m_ext m | _ => false end
    then externals_up ms else tl (externals_up ms) in
  map (fun m => XPort (m_no m))
    (filter (fun m => negb (match i with FromHost h => m_no m =? m_no h | _ => false end) &&
                      negb (mem Z.eqb (m_no m) (map m_no excluded))) ms).

(** valve_switch_stack.py 126-172 (_build_flood_rule_actions), 570-596 (_flood_actions
    without reflection), 722-784 (with reflection), in a stack with at least one
    external port (dp.py 849-855; without, StackModel). *)
Definition xflood_actions (reflection : bool) (me : snode) (r : roles) (ms : list member) (i : xinp)
    (exclude_all_external : bool) : list xact :=
  let inp := stack_inp i in
  let exclude := ro_inactive r ++
    match inp with Some q => filter (fun p => sp_dp p =? sp_dp q) (sn_ports me) | None => [] end in
  let away := map XStack (flood_to (ro_away r) inp exclude) in
  let toward := map XStack (flood_to (ro_chosen r) inp []) in
  let here := xlocal ms i exclude_all_external in
  let external := has_external ms in
  if reflection then
    if is_root me then
      [XFlag (negb external)] ++ away ++
      match i with FromStack q => if is_away r q then [XStack Back] else [] | _ => [] end ++ here
    else
      match i with
      | FromAny => [XFlag (negb external)] ++ toward
      | FromStack q =>
        if is_away r q then toward
        else if is_towards r q then
          if external then [XFlag false] ++ away ++ here else away ++ [XFlag false] ++ here
        else [XFlag true] ++ toward
      | FromHost m => [XFlag (negb (m_ext m))] ++ toward
      end
  else
    match i with FromHost _ => [XFlag (negb external)] | _ => [] end ++ toward ++ away ++ here.

(** valve_switch_stack.py 41-55, 102-124: candidates for root that are not the root
    do not flood to external ports. *)
Definition xacts_for (reflection : bool) (me : snode) (r : roles) (x : xswitch) (i : xinp) (exclude_all_external : bool) : list xact :=
  xflood_actions reflection me r (x_members x) i (exclude_all_external || (negb (is_root me) && x_candidate x)).

(** ** A frame on its way *)

(** In a switch, from a port of the VLAN or from a stack port, there with the flag. *)
Inductive source := Host (no : Z) | Link (no : Z) (external : bool).
Definition xflying := (Z * source)%type.
Definition tag (external : bool) (pk : flying) : xflying :=
  (fst pk, match snd pk with Some no => Link no external | None => Host 0 end).

Definition member_of (x : xswitch) (no : Z) : option member := find (fun m => m_no m =? no) (x_members x).
(** The ports that are given the frame (by switch and number) and the frames then in
    flight.  A switch never sends a frame back to the port it came from unless told to,
    and nothing leaves through a port that is down. *)
Fixpoint xrun (me : snode) (x : xswitch) (i : xinp) (flag : bool) (acts : list xact) : list (Z * Z) * list xflying :=
  match acts with
  | [] => ([], [])
  | XFlag e :: r => xrun me x i e r
  | XStack o :: r => let '(d, s) := xrun me x i flag r in (d, map (tag flag) (forwarded me (stack_inp i) o) ++ s)
  | XPort no :: r =>
    let '(d, s) := xrun me x i flag r in
    ((if match i with FromHost h => no =? m_no h | _ => false end then []
      else match member_of x no with Some m => if m_up m then [(sn_name me, no)] else [] | None => [] end) ++ d, s)
  end.
Definition outputs (acts : list xact) : bool := existsb (fun a => match a with XFlag _ => false | _ => true end) acts.

(** The VLAN table sets the flag of frames from ports of the VLAN
    (valve_switch_standalone.py 555-580).  The flood table has a rule for the port
    unless it would output nothing (282-318, 344-420; nor does it have one if the
    VLAN's rule does the same, which makes no difference), and a rule for the VLAN
    unless combinatorial_port_flood is set.  It has two rules for a stack port, one
    for each value of the flag (valve_switch_stack.py 214-283), unless the stack port
    is pruned (StackModel.dropped). *)
Definition xhandle (reflection group : bool) (f : fabric) (xs : Z -> xswitch) (pk : xflying) : list (Z * Z) * list xflying :=
  match node f (fst pk) with
  | None => ([], [])
  | Some me =>
    let r := reset_peer_distances f me in
    let x := xs (sn_name me) in
    match snd pk with
    | Host no =>
      match member_of x no with
      | None => ([], [])
      | Some m =>
        let acts := xacts_for reflection me r x (FromHost m) false in
        xrun me x (FromHost m) (negb (m_ext m))
          (if m_up m && outputs acts then acts
           else if x_combinatorial x then []
           else xflood_actions reflection me r (x_members x) FromAny false)
      end
    | Link no external =>
      match sport_of me no with
      | None => ([], [])
      | Some q =>
        if dropped group r (Some q) then ([], [])
        else xrun me x (FromStack q) external (xacts_for reflection me r x (FromStack q) (negb external))
      end
    end
  end.
