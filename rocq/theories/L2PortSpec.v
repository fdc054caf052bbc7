(** * What the history says about a port *)
From Coq Require Import ZArith List Bool.
From Verif Require Import OpenFlow TableModel L2Model L2Spec.
Import ListNotations.
Open Scope Z_scope.

(** The switch is connected (histories list the latest event first). *)
Fixpoint connected (evs : list cevent) : bool :=
  match evs with
  | CConnect _ _ :: _ => true
  | CDisconnect _ :: _ => false
  | _ :: r => connected r
  | [] => false
  end.

(** The last report about port [n] since the switch connected. *)
Inductive word := WNone | WUp | WDown.
Fixpoint last_word (evs : list cevent) (n : Z) : word :=
  match evs with
  | [] => WNone
  | CConnect _ ups :: _ => if memZ n ups then WUp else WDown
  | CDisconnect _ :: _ => WNone
  | CPortStatus _ m PDelete _ _ :: r => if m =? n then WDown else last_word r n
  | CPortStatus _ m POther _ _ :: r => last_word r n
  | CPortStatus _ m _ down blocked :: r =>
      if m =? n then (if down || blocked then WDown else WUp) else last_word r n
  | _ :: r => last_word r n
  end.

(** Reports about port [n] are unambiguous: an added port is up, and a port is
    reported blocked only when its link is also down. *)
Definition plain_report (n : Z) (ev : cevent) : Prop :=
  match ev with
  | CPortStatus _ m PAdd down blocked => m = n -> down = false /\ blocked = false
  | CPortStatus _ m PModify down blocked => m = n -> blocked = true -> down = true
  | _ => True
  end.
Definition plain_reports (evs : list cevent) (n : Z) : Prop := Forall (plain_report n) evs.

(** The controller saw every disconnection: no connection replaces a live one. *)
Fixpoint clean (evs : list cevent) : Prop :=
  match evs with
  | CConnect _ _ :: r => connected r = false /\ clean r
  | _ :: r => clean r
  | [] => True
  end.

(** ** Links and LACP *)

(** The link of port [p] is up: the switch is connected and the last report about
    the port was up (ports with operational status tracking off are taken to be
    up while connected). *)
Definition link_up (p : pconf) (evs : list cevent) : Prop :=
  connected evs = true /\ (pc_opstatus p = true -> last_word evs (pc_num p) = WUp).
(** [ev] takes the link of [p] down. *)
Definition link_lost (p : pconf) (ev : cevent) : Prop :=
  match ev with
  | CConnect _ _ | CDisconnect _ => True
  | CPortStatus _ m r down _ =>
      pc_opstatus p = true /\ m = pc_num p /\ (r = PDelete \/ (r = PModify /\ down = true))
  | _ => False
  end.
(** [ev] is an LACPDU from port [n]. *)
Definition lacpdu (n : Z) (ev : cevent) : Prop := match ev with CLacp _ m _ => m = n | _ => False end.
(** [ev] is an expiry run that finds an LACPDU of time [t] too old. *)
Definition too_old (cfg : dconf) (t : Z) (ev : cevent) : Prop :=
  match ev with CExpire now => d_lacp_timeout cfg < now - t | _ => False end.
(** The last LACPDU from [p] since its link came up arrived at [t], and said [sync]. *)
Definition last_lacpdu (p : pconf) (evs : list cevent) (later : list cevent) (t : Z) (sync : bool) : Prop :=
  exists before, evs = later ++ CLacp t (pc_num p) sync :: before /\ link_up p before /\
    Forall (fun ev => ~ link_lost p ev /\ ~ lacpdu (pc_num p) ev) later.
(** The partner of [p] is in sync: the last LACPDU said so, and no expiry run since
    found it too old. *)
Definition in_sync (cfg : dconf) (p : pconf) (evs : list cevent) : Prop :=
  exists later t, last_lacpdu p evs later t true /\ Forall (fun ev => ~ too_old cfg t ev) later.
(** The last LACPDU said the partner is out of sync. *)
Definition out_of_sync (p : pconf) (evs : list cevent) : Prop :=
  exists later t, last_lacpdu p evs later t false.

(** The switch lets frame [pk] in: some rule of its VLAN table applies, and every
    rule that may apply passes the frame on to the table that learns source
    addresses. *)
Definition accepted (cfg : dconf) (s : switch) (pk : packet) : Prop :=
  (exists f, hit (sw_flows s) (tb_id (d_tvlan cfg)) pk f) /\
  forall f, hit (sw_flows s) (tb_id (d_tvlan cfg)) pk f ->
    forall live, exists es pk', exec_insts (group_lookup s) live (f_inst f) pk = (es, pk', Some (tb_id (d_tsrc cfg))).
(** LACP frames, and frames to the addresses LLDP uses with the LLDP type *)
Definition control_frame (pk : packet) : Prop :=
  pk_hdr pk EthType = Some ETH_TYPE_SLOW \/ pk_hdr pk EthType = Some ETH_TYPE_LLDP.
