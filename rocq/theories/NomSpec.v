(** * Which switch of a stack a LAG should use *)

From Coq Require Import ZArith List Bool.
From Verif Require Import L2Model NomModel.
Import ListNotations.
Open Scope Z_scope.

(** Switches have their own dp_ids, the ports of a switch their own numbers. *)
Definition nwf (cfg : nconf) : Prop :=
  NoDup (map ns_dpid cfg) /\ Forall (fun s => NoDup (map np_num (ns_ports s))) cfg.

(** The partner's LACP is up on the port. *)
Definition lacp_is_up (st : nstate) (s : nswitch) (p : nport) : Prop := st_actor st (ns_dpid s) (np_num p) = AUp.
(** The port forwards: LACP is up, and the port is selected. *)
Definition forwards (st : nstate) (s : nswitch) (p : nport) : Prop :=
  lacp_is_up st s p /\ st_role st (ns_dpid s) (np_num p) = RSelected.
(** Nothing is said about the port in the configuration. *)
Definition unforced (p : nport) : Prop := np_force_sel p = false /\ np_force_unsel p = false.

(** How many ports of the LAG are up on a switch *)
Definition up_count (st : nstate) (lag : Z) (s : nswitch) : nat :=
  length (filter (fun p => (np_lag p =? lag)
                           && match st_actor st (ns_dpid s) (np_num p) with AUp => true | _ => false end) (ns_ports s)).

(** A switch that is connected and is in the stack *)
Definition stack_member (cfg : nconf) (st : nstate) (s : nswitch) : Prop :=
  In s cfg /\ st_running st (ns_dpid s) = true /\ ns_stacked s = true.
(** The switch has more ports of the LAG up than all others, or is the root and none has more. *)
Definition chosen (cfg : nconf) (st : nstate) (lag : Z) (s : nswitch) : Prop :=
  stack_member cfg st s /\ (0 < up_count st lag s)%nat
  /\ forall t, stack_member cfg st t -> t <> s ->
       (up_count st lag t < up_count st lag s)%nat
       \/ (up_count st lag t = up_count st lag s /\ st_root st = Some (ns_dpid s)).
(** Another switch is connected. *)
Definition in_company (cfg : nconf) (st : nstate) (s : nswitch) : Prop :=
  exists t, In t cfg /\ t <> s /\ st_running st (ns_dpid t) = true.

(** Nothing happens to the LAG: the same switches stay connected, the root stays, and the
    LACP of the LAG's ports. *)
Definition same_lag (cfg : nconf) (lag : Z) (st st' : nstate) : Prop :=
  st_root st' = st_root st /\ (forall s, In s cfg -> st_running st' (ns_dpid s) = st_running st (ns_dpid s))
  /\ forall s p, In s cfg -> In p (ns_ports s) -> np_lag p = lag ->
       st_actor st' (ns_dpid s) (np_num p) = st_actor st (ns_dpid s) (np_num p).
Fixpoint quiet (cfg : nconf) (lag : Z) (st : nstate) (es : list nevent) : Prop :=
  match es with
  | [] => True
  | e :: r => same_lag cfg lag st (nstep cfg st e) /\ quiet cfg lag (nstep cfg st e) r
  end.
(** Every port of the LAG that is up hears of its partner. *)
Definition all_heard (cfg : nconf) (lag : Z) (st : nstate) (es : list nevent) : Prop :=
  forall s p, In s cfg -> In p (ns_ports s) -> np_lag p = lag -> lacp_is_up st s p ->
    exists now, In (NLacp (ns_dpid s) (np_num p) true now) es.

(** When the port last heard its partner in sync, if it still counts: the port has not gone down
    since, its switch has stayed connected, no packet said that the partner is not in sync, and
    the time allowed had not passed when the switch last looked. *)
Definition heard (s : nswitch) (p : nport) (t : option Z) (e : nevent) : option Z :=
  match e with
  | NLacp d n sync now => if (d =? ns_dpid s) && (n =? np_num p) then (if sync then Some now else None) else t
  | NPortDown d n => if (d =? ns_dpid s) && (n =? np_num p) then None else t
  | NDisconnect d => if d =? ns_dpid s then None else t
  | NExpire d now => if d =? ns_dpid s then
                       match t with Some t0 => if ns_timeout s <? now - t0 then None else Some t0 | None => None end
                     else t
  | _ => t
  end.
Definition last_heard (s : nswitch) (p : nport) (es : list nevent) : option Z := fold_left (heard s p) es None.

(** Whether the switch is connected and the port said to be up, by what came before: the
    switch connecting and saying which ports are up, its ports going up and down, and
    its going away. *)
Definition linked (s : nswitch) (p : nport) (c : bool * bool) (e : nevent) : bool * bool :=
  match e with
  | NConnect d up => if d =? ns_dpid s then (true, existsb (Z.eqb (np_num p)) up || snd c) else c
  | NDisconnect d => if d =? ns_dpid s then (false, false) else c
  | NPortUp d n => if (d =? ns_dpid s) && (n =? np_num p) && fst c then (true, true) else c
  | NPortDown d n => if (d =? ns_dpid s) && (n =? np_num p) && fst c then (true, false) else c
  | _ => c
  end.
Definition link (s : nswitch) (p : nport) (es : list nevent) : bool * bool := fold_left (linked s p) es (false, false).
