(** * What a host table is

    An operator's view of the hosts learned on one VLAN: a partial map from a
    MAC address to the port it was last learned on and the time that happened.
    Independent of how the code stores it. *)

From Coq Require Import List Bool ZArith.
Import ListNotations.
Open Scope Z_scope.

(** What can happen to a VLAN's host table. *)
Inductive hop :=
| Learn (mac port time : Z)      (** a host is learned, or moves, or is refreshed *)
| Forget (mac : Z)               (** one host is dropped *)
| PortGone (port : Z)            (** every host on a port is dropped *)
| Expiry (now timeout : Z)       (** a periodic expiry pass *)
| Reset.                         (** the whole table is dropped *)

Definition table := Z -> option (Z * Z).

Definition no_hosts : table := fun _ => None.

(** [perm p]: hosts learned on port [p] are permanent. *)
Definition stale_at (perm : Z -> bool) (now timeout : Z) (x : Z * Z) : bool :=
  (snd x <? now - timeout) && negb (perm (fst x)).

Definition table_step (perm : Z -> bool) (h : table) (o : hop) : table :=
  match o with
  | Learn mac p t => fun m => if m =? mac then Some (p, t) else h m
  | Forget mac => fun m => if m =? mac then None else h m
  | PortGone p => fun m => match h m with
                           | Some (q, t) => if q =? p then None else Some (q, t)
                           | None => None
                           end
  | Expiry now timeout => fun m => match h m with
                                   | Some x => if stale_at perm now timeout x then None else Some x
                                   | None => None
                                   end
  | Reset => no_hosts
  end.

Definition table_after (perm : Z -> bool) (ops : list hop) : table :=
  fold_left (table_step perm) ops no_hosts.

(** The clock does not go backwards: every time stamp used is at least the one
    before, and no timeout is negative. *)
Fixpoint clock_from (t0 : Z) (ops : list hop) : Prop :=
  match ops with
  | [] => True
  | Learn _ _ t :: r => t0 <= t /\ clock_from t r
  | Expiry now timeout :: r => t0 <= now /\ 0 <= timeout /\ clock_from now r
  | _ :: r => clock_from t0 r
  end.

Definition clock_ok (ops : list hop) : Prop := exists t0, clock_from t0 ops.
