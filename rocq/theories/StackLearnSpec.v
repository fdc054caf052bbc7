(** * Where the switches of a stack should have a host *)
From Coq Require Import ZArith List Bool.
From Verif Require Import PyBase StackModel StackSpec StackLearnModel.
Import ListNotations.
Open Scope Z_scope.

(** All switches are connected to the controller. *)
Definition managed (c : slconf) (ev : slevent) : Prop :=
  match ev with SHear _ _ _ w => forall s, In s (sl_fabric c) -> w_running w (sn_name s) = true | SForget _ _ => True end.
(** Stack ports are configured to lead to switches of the stack. *)
Definition wired_within (f : fabric) : Prop := forall s p, In s f -> In p (sn_ports s) -> In (sp_dp p) (names f).
(** Host [h] is at port [p] of switch [e]: its packets come in nowhere else, except
    at stack ports. *)
Definition stays (h e p : Z) (ev : slevent) : Prop :=
  match ev with SHear g d (Edge q) _ => g = h -> d = e /\ q = p | _ => True end.

(** The port of switch [s] that packets for a host at switch [e] should leave by:
    along the tree, or the shortest way. *)
Definition towards (c : slconf) (s : snode) (e : Z) : option sport :=
  if sl_tree c then relative_port_towards (sl_fabric c) s e else default_port_towards s e.

(** What switch [s] should have for a host at port [p] of switch [e]. *)
Definition right (c : slconf) (e p : Z) (s : snode) (pl : place) : Prop :=
  (sn_name s = e /\ pl = Edge p) \/ (sn_name s <> e /\ exists q, towards c s e = Some q /\ pl = Via (sp_no q)).

(** Where a switch sends a frame for a host it has learned on a stack port. *)
Definition sends (st : caches) (h : Z) (s : snode) : option sport :=
  match cached st h (sn_name s) with Some (Via n) => sport_of s n | _ => None end.

(** Frames can follow [towards]. *)
Definition usable (c : slconf) (root x e : Z) : Prop :=
  if sl_tree c then joined (sl_fabric c) x root /\ joined (sl_fabric c) e root
  else joined (sl_fabric c) x e /\ forall s p, In s (sl_fabric c) -> In p (sn_ports s) -> sp_running p = sp_up p.

(** A packet from host [h] that switch [d] gets from another switch and may learn
    from, while port [p] of switch [e] can forward. *)
Definition heard (c : slconf) (h e p d : Z) (ev : slevent) : Prop :=
  exists no w s, ev = SHear h d (Via no) w /\ In s (sl_fabric c) /\ sn_name s = d /\ In no (map sp_no (sn_ports s)) /\
    In d (sl_vlan c) /\ In e (w_order w) /\ w_forwarding w e p = true /\ w_update w d = true.
(** The same when switch [e] gets it from the host, with route learning. *)
Definition spoke (c : slconf) (h e p d : Z) (ev : slevent) : Prop :=
  exists w, ev = SHear h e (Edge p) w /\ In d (sl_vlan c) /\ In d (w_order w) /\ In e (w_order w) /\
    w_forwarding w e p = true /\ w_update w d = true.
(** When switch [d] gets the packet, what it has learned on a port that is not a
    stack port is at least two seconds old (in a stack with reflection). *)
Definition settled (c : slconf) (st : caches) (h d : Z) (ev : slevent) : Prop := sl_reflection c = true ->
  forall inp w n t, ev = SHear h d inp w -> entry_of st h d = Some (Edge n, t) -> 2 <= w_now w - t.
(** Switch [e] has heard the host at time [t0]; packets that come back to it through
    the stack do so in a stack with reflection and within two seconds, and its ports
    have not changed. *)
Definition quick (c : slconf) (h e t0 : Z) (ev : slevent) : Prop :=
  match ev with
  | SHear g d inp w => g = h -> d = e -> t0 <= w_now w /\
    match inp with
    | Via _ => sl_reflection c = true /\ w_now w < t0 + 2 /\ forall n, exists u, w_changed w e n = Some u /\ u <= t0
    | Edge _ => True
    end
  | SForget _ _ => True
  end.
(** The switch the host was at forgets it, or gets it from the stack. *)
Definition corrected (c : slconf) (h e1 e2 p2 : Z) (ev : slevent) : Prop :=
  ev = SForget h e1 \/ (heard c h e2 p2 e1 ev /\ forall s, In s (sl_fabric c) -> sn_name s = e1 -> towards c s e2 <> None).
