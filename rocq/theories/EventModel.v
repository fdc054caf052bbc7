(** * Event notification: the queue and the server of the event socket

    faucet_event.py.  Events are opaque ([E]).  Green threads switch only where they wait:
    for the queue to have an event, and while an event is written to the socket; nothing
    else in notify or _loop does. *)

From Coq Require Import ZArith List Bool.
Import ListNotations.
Open Scope Z_scope.

Section Events.
Variable E : Type.

(** lines 54-61.  [ev_sending]: the event that is being written; [ev_client]: who holds
    the lock (lines 32-48); [ev_here]: that client still has its end of the socket open
    (not known to the server). *)
Record estate := mkEstate {
  ev_id : Z;
  ev_q : list (Z * E);
  ev_client : option Z;
  ev_here : bool;
  ev_sending : option (Z * E) }.
Definition event_start : estate := mkEstate 0 [] None false None.
(** line 61 *)
Definition capacity : nat := 120.

(** lines 99-116 (notify) *)
Definition notify (e : E) (s : estate) : estate :=
  let id := ev_id s + 1 in
  let q := if Nat.leb capacity (length (ev_q s)) then tl (ev_q s) else ev_q s in
  mkEstate id (q ++ [(id, e)]) (ev_client s) (ev_here s) (ev_sending s).

(** What a client sees *)
Inductive eout :=
| Refused (client : Z)
| Received (client : Z) (id : Z) (e : E).

(** lines 73-93 (_loop): a client connects, or closes its end of the socket; the thread
    that serves a client takes the next event; it writes that event, which fails if the
    client is gone.  Not modelled: a part of the event that a client received before it
    closed the socket. *)
Inductive eevent :=
| ENotify (e : E)
| EConnect (client : Z)
| ELeave (client : Z)
| ETake
| EWrite.
Definition estep (s : estate) (ev : eevent) : estate * list eout :=
  match ev with
  | ENotify e => (notify e s, [])
  | EConnect c =>
    match ev_client s with
    | Some _ => (s, [Refused c])
    | None => (mkEstate (ev_id s) (ev_q s) (Some c) true None, [])
    end
  | ELeave c =>
    match ev_client s with
    | Some c' => (mkEstate (ev_id s) (ev_q s) (ev_client s) (ev_here s && negb (c =? c')) (ev_sending s), [])
    | None => (s, [])
    end
  | ETake =>
    match ev_client s, ev_sending s, ev_q s with
    | Some c, None, e :: q => (mkEstate (ev_id s) q (Some c) (ev_here s) (Some e), [])
    | _, _, _ => (s, [])
    end
  | EWrite =>
    match ev_client s, ev_sending s with
    | Some c, Some e =>
      if ev_here s then (mkEstate (ev_id s) (ev_q s) (Some c) true None, [Received c (fst e) (snd e)])
      else (mkEstate (ev_id s) (ev_q s) None false None, [])
    | _, _ => (s, [])
    end
  end.
End Events.
