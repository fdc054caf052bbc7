(** * What external networks are about *)
From Coq Require Import ZArith List Bool.
From Verif Require Import PyBase StackModel StackSpec ExtModel.
Import ListNotations.
Open Scope Z_scope.

(** Ports of the VLAN on switch [y] that are up, inside the network and to the outside. *)
Definition inside (xs : Z -> xswitch) (y p : Z) : Prop := In (mkMember p false true) (x_members (xs y)).
Definition outside (xs : Z -> xswitch) (y p : Z) : Prop := In (mkMember p true true) (x_members (xs y)).
(** The switch has an external port in the VLAN, up or not. *)
Definition has_outside (xs : Z -> xswitch) (y : Z) : Prop := exists p up, In (mkMember p true up) (x_members (xs y)).
(** The one of its external ports that are up with the lowest number. *)
Definition first_outside (xs : Z -> xswitch) (y p : Z) : Prop := outside xs y p /\ forall q, outside xs y q -> p <= q.
(** No two ports of a switch have the same number. *)
Definition numbered (xs : Z -> xswitch) : Prop := forall y, NoDup (map m_no (x_members (xs y))).

(** Frames in flight, and the ports that have been given the frame: any frame in
    flight may be the next to be handled. *)
Definition xstate := (list xflying * list (Z * Z))%type.
Inductive xhop (reflection group : bool) (f : fabric) (xs : Z -> xswitch) : xstate -> xstate -> Prop :=
| xhop_one : forall a pk b d given sent, xhandle reflection group f xs pk = (given, sent) ->
    xhop reflection group f xs (a ++ pk :: b, d) (a ++ sent ++ b, d ++ given).
Inductive xhops (reflection group : bool) (f : fabric) (xs : Z -> xswitch) : nat -> xstate -> xstate -> Prop :=
| xhops_none : forall s, xhops reflection group f xs 0 s s
| xhops_more : forall n s t u, xhop reflection group f xs s t -> xhops reflection group f xs n t u -> xhops reflection group f xs (S n) s u.
(** From port [p] of switch [x]. *)
Definition came_in (x p : Z) : xstate := ([(x, Host p)], []).

(** Whatever the order in which the copies travel, the flood ends, no port is given
    the frame twice, and in the end exactly the ports in [W] have been given it. *)
Definition reaches (reflection group : bool) (f : fabric) (xs : Z -> xswitch) (x p : Z) (W : Z -> Z -> Prop) : Prop :=
  exists most, forall n s, xhops reflection group f xs n (came_in x p) s ->
    (n <= most)%nat /\
    (fst s <> [] -> exists s', xhop reflection group f xs s s') /\
    NoDup (snd s) /\ (forall y q, In (y, q) (snd s) -> W y q) /\
    (fst s = [] -> forall y q, W y q -> In (y, q) (snd s)).

(** The switch is still connected to another one. *)
Definition not_alone (f : fabric) (x : Z) : Prop := exists y, y <> x /\ joined f x y.
(** [z] is on the way from [y] to the root, and not [y] itself. *)
Definition on_way (f : fabric) (y z : Z) : Prop :=
  exists n, follows (fun s => ro_chosen_port (reset_peer_distances f s)) f (S n) y z.
