(** * What clients of the event socket should see *)

From Coq Require Import ZArith List Sorted.
From Verif Require Import EventModel.
Import ListNotations.
Open Scope Z_scope.

Section Events.
Variable E : Type.

(** The state after events, latest first, and all that clients saw, oldest first. *)
Inductive ereach : list (eevent E) -> estate E -> list (eout E) -> Prop :=
| er_start : ereach [] (event_start E) []
| er_step : forall evs s out ev, ereach evs s out -> ereach (ev :: evs) (fst (estep E s ev)) (out ++ snd (estep E s ev)).

(** The events that happened, oldest first, numbered from 1. *)
Fixpoint happened (evs : list (eevent E)) : list E :=
  match evs with
  | [] => []
  | ENotify _ e :: r => happened r ++ [e]
  | _ :: r => happened r
  end.
Definition numbered (evs : list (eevent E)) (id : Z) (e : E) : Prop :=
  0 < id /\ nth_error (happened evs) (Z.to_nat (id - 1)) = Some e.
(** The ids that clients received, in time order. *)
Fixpoint ids (out : list (eout E)) : list Z :=
  match out with
  | [] => []
  | Received _ _ id _ :: r => id :: ids r
  | Refused _ _ :: r => ids r
  end.
(** The event was being written to a client that was gone. *)
Inductive cut_off : list (eevent E) -> Z -> Prop :=
| co_now : forall evs s out id e, ereach evs s out -> ev_sending E s = Some (id, e) -> ev_here E s = false -> cut_off (EWrite E :: evs) id
| co_before : forall evs ev id, cut_off evs id -> cut_off (ev :: evs) id.
(** It waits in the queue, or is being written. *)
Definition waiting (s : estate E) (id : Z) : Prop :=
  (exists e, In (id, e) (ev_q E s)) \/ (exists e, ev_sending E s = Some (id, e)).
(** 120 or more events happened after it. *)
Definition overtaken (evs : list (eevent E)) (id : Z) : Prop := id + 120 <= Z.of_nat (length (happened evs)).
End Events.
