(** * What the switch said last of its ports *)

From Coq Require Import ZArith List Bool.
From Verif Require Import OpenFlow L2Model L2PortSpec PortDescModel.
Import ListNotations.
Open Scope Z_scope.

(** Whether the switch is connected, as far as the controller knows *)
Fixpoint pconnected (evs : list pevent) : bool :=
  match evs with
  | PHandshake _ _ :: _ => true
  | PEv (CDisconnect _) :: _ => false
  | _ :: r => pconnected r
  | [] => false
  end.
(** The last report about a port: a description of it, none in a reply, or a status message *)
Fixpoint said (evs : list pevent) (n : Z) : word :=
  match evs with
  | [] => WNone
  | PHandshake _ descs :: _ => if existsb (fun d => (fst d =? n) && negb (snd d)) descs then WUp else WDown
  | PEv (CDisconnect _) :: _ => WNone
  | PEv (CPortStatus _ m PDelete _ _) :: r => if m =? n then WDown else said r n
  | PEv (CPortStatus _ m PAdd down _) :: r | PEv (CPortStatus _ m PModify down _) :: r =>
      if m =? n then (if down then WDown else WUp) else said r n
  | _ :: r => said r n
  end.
(** An added port is up, a port is reported blocked only when its link is down, and there are only
    OpenFlow's three kinds of report. *)
Definition plain_words (evs : list pevent) (n : Z) : Prop :=
  Forall (fun e => match e with
                   | PEv (CPortStatus _ m POther _ _) => m <> n
                   | PEv ev => plain_report n ev
                   | PHandshake _ _ => True
                   end) evs.
