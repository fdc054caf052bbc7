(** * Port description replies

    valve.py 555-639 (port_desc_stats_reply_handler), faucet.py 325-346, 376-389: each time a
    switch connects it describes its ports, and the controller makes up port status messages for
    those that changed, before it configures the switch (L2Model.datapath_connect).

    Simplified: nothing is handled between the reply and the connection. *)

From Coq Require Import ZArith List Bool Permutation.
From Verif Require Import OpenFlow L2Model L2PortSpec.
Import ListNotations.
Open Scope Z_scope.

(** A port's number, and whether OFPPS_LINK_DOWN is set in its state *)
Definition desc : Type := Z * bool.
(** valve.py 593-599 *)
Definition desc_up (descs : list desc) : list Z := map fst (filter (fun d => negb (snd d)) descs).
(** valve.py 588-590 *)
Definition desc_ports (descs : list desc) : list Z :=
  filter (fun n => negb (n =? OFPP_LOCAL)) (nodup Z.eq_dec (map fst descs)).

(** valve.py 572-586, 613-636: the port, the reason and whether it is down, of the messages made
    up.  The code goes through sets. *)
Definition fabricated (cfg : dconf) (prev : list Z) (descs : list desc) : list (Z * (preason * bool)) :=
  let conf := map pc_num (d_ports cfg) in
  flat_map (fun n => if eqb (memZ n prev) (memZ n (desc_up descs)) then []
                     else [(n, (PModify, negb (memZ n (desc_up descs))))])
           (filter (fun n => negb (memZ n conf)) (desc_ports descs))
  ++ flat_map (fun n => if eqb (memZ n prev) (memZ n (desc_up descs)) then []
                        else if memZ n (desc_ports descs) then
                          if negb (memZ n prev) then [(n, (PAdd, false))]
                          else [(n, (PModify, negb (memZ n (desc_up descs))))]
                        else [(n, (PDelete, true))])
              conf.
(** valve.py 572-586: one after another *)
Fixpoint handle_all (cfg : dconf) (st : dstate) (now : Z) (l : list (Z * (preason * bool)))
  : option (dstate * list ofmsg) :=
  match l with
  | [] => Some (st, [])
  | (n, (r, down)) :: rest =>
      match port_status_handler cfg st now n r down false with
      | None => None
      | Some (st1, ms1) =>
          match handle_all cfg st1 now rest with
          | None => None
          | Some (st2, ms2) => Some (st2, ms1 ++ ms2)
          end
      end
  end.

(** valve_of.py 258-271 (ignore_port) *)
Definition ignore_port (n : Z) : bool :=
  negb ((n =? OFPP_LOCAL) || (n =? OFPP_IN_PORT)) && (n >? 0xF0000000).

(** What happens: everything but connecting is as before. *)
Inductive pevent :=
| PEv (ev : cevent)
| PHandshake (now : Z) (descs : list desc).

(** The controller's histories, newest first; the messages made up are handled in any order. *)
Inductive preach (cfg : dconf) : list pevent -> dstate -> Prop :=
| pr_start : preach cfg [] dstate_init
| pr_ev : forall evs st ev st' ms, preach cfg evs st ->
    (forall now ups, ev <> CConnect now ups) -> cstep cfg st ev = Some (st', ms) -> preach cfg (PEv ev :: evs) st'
| pr_handshake : forall evs st now descs order st1 ms1, preach cfg evs st ->
    Permutation order (fabricated cfg (ds_up st) descs) ->
    handle_all cfg st now order = Some (st1, ms1) ->
    preach cfg (PHandshake now descs :: evs)
           (fst (datapath_connect cfg st1 now (filter (fun n => negb (ignore_port n)) (desc_up descs)))).
