(** * What the manager of all datapaths is expected to do

    Histories are lists of events, the latest first. *)

From Coq Require Import ZArith List Bool.
From Verif Require Import PyBase ManagerModel.
Import ListNotations.
Open Scope Z_scope.

(** ** Services *)

(** the results of the handlers, in the order they are called: each is a list of
    messages by switch *)
Fixpoint results {M S} (h : @handler M S) (valves : list (Z * bool)) (vs : list Z) (st : S)
  : S * list (list (Z * list M)) :=
  match vs with
  | [] => (st, [])
  | v :: rest =>
      let '(st1, r) := h v (other_running_valves valves v) st in
      let '(st2, rs) := results h valves rest st1 in (st2, r :: rs)
  end.

(** [last_for v rs ms]: [ms] is what the last handler gave for [v] *)
Inductive last_for {M} (v : Z) : list (list (Z * list M)) -> list M -> Prop :=
| last_here : forall r rs ms, In (v, ms) r -> (forall r' m, In r' rs -> ~ In (v, m) r') -> last_for v (r :: rs) ms
| last_later : forall r rs ms, last_for v rs ms -> last_for v (r :: rs) ms.

(** ** Configuration *)

(** the configuration accepted last *)
Fixpoint config_now (evs : list mevent) : list newdp :=
  match evs with
  | [] => []
  | MLoad _ (Some d) :: _ | MNewRoot _ d :: _ => d
  | _ :: r => config_now r
  end.
Definition configured (evs : list mevent) (id : Z) : bool := existsb (Z.eqb id) (map nd_id (config_now evs)).

(** is the datapath connected, as far as the manager knows?  Only configured
    datapaths can be, and a cold restart disconnects them. *)
Fixpoint up (evs : list mevent) (id : Z) : bool :=
  match evs with
  | [] => false
  | MConnect i :: r => if i =? id then configured r id else up r id
  | MDisconnect i :: r => if i =? id then false else up r id
  | MLoad _ None :: r => up r id
  | MLoad cold (Some d) :: r | MNewRoot cold d :: r =>
      up r id && negb (cold id) && existsb (Z.eqb id) (map nd_id d)
  end.

(** has the datapath got the configuration of the last attempt to load one?  Not if
    the attempt failed; if it succeeded, a connected datapath that was not restarted
    got it then, and another gets it when it connects. *)
Fixpoint told (evs : list mevent) (id : Z) : bool :=
  match evs with
  | [] => false
  | MConnect i :: r => if (i =? id) && configured r id then true else told r id
  | MDisconnect _ :: r => told r id
  | MLoad _ None :: _ => false
  | MLoad cold (Some d) :: r | MNewRoot cold d :: r =>
      up r id && negb (cold id) && existsb (Z.eqb id) (map nd_id d)
  end.

(** Configurations name every datapath once, with supported hardware; for a new stack
    root the configuration accepted last is parsed again (meta_dp_state.top_conf, which
    a rejected configuration does not change), so it has the same datapaths. *)
Definition config_good (d : list newdp) : Prop :=
  NoDup (map nd_id d) /\ Forall (fun x => nd_supported x = true) d.
Fixpoint events_ok (evs : list mevent) : Prop :=
  match evs with
  | [] => True
  | e :: r => events_ok r /\
      match e with
      | MLoad _ (Some d) => config_good d
      | MNewRoot _ d => config_good d /\ map nd_id d = map nd_id (config_now r)
      | _ => True
      end
  end.
