(** * Vocabulary for learning with idle timeouts *)
From Coq Require Import List Bool ZArith.
From Verif Require Import HostCacheModel LearnModel IdleModel.
Import ListNotations.
Open Scope Z_scope.

(** The controller knows host [mac] of VLAN [v] to be on port [p]. *)
Definition known (st : istate) (v mac p : Z) : Prop :=
  exists e, cached_host (s_cache (is_l st) v) mac = Some e /\ e_port e = p.
(** The switch lets frames of host [mac] of VLAN [v] pass from port [p]. *)
Definition passes (st : istate) (v mac p : Z) : Prop := exists idle, In (RSrc v p mac idle) (is_rules st).
(** The switch has a rule that sends frames for host [mac] of VLAN [v] to port [p]. *)
Definition sends (st : istate) (v mac p : Z) : Prop := exists pcp idle, In (RDst v mac pcp p idle) (is_rules st).

(** VLANs have VIDs, ports numbers, ports are in configured VLANs, and the tables are
    three. *)
Definition iconf_ok (ic : iconf) : Prop :=
  Forall (fun v => 0 < v < 4096) (i_vids ic) /\ Forall (fun p => 0 < p) (i_ports ic) /\
  (forall p, incl (c_pvlans (i_cfg ic) p) (i_vids ic)) /\
  i_tsrc ic <> i_tdst ic /\ i_thp ic <> i_tsrc ic /\ i_thp ic <> i_tdst ic.
(** Frames come from configured ports, in VLANs of theirs. *)
Definition frame_ok (ic : iconf) (ev : ievent) : Prop :=
  match ev with IPacket _ v p _ => In p (i_ports ic) /\ In v (c_pvlans (i_cfg ic) p) | _ => True end.
Definition no_loop (ic : iconf) : Prop := forall p, c_loop (i_cfg ic) p = false.
Definition no_lag (ic : iconf) : Prop := forall p, c_lacp (i_cfg ic) p = 0.
(** With external ports, every port may be sent frames that come from one. *)
Definition plain_externals (ic : iconf) : Prop :=
  c_externals (i_cfg ic) = true -> forall p, c_loop_ext (i_cfg ic) p = false.

(** The host keeps where it is, and keeps sending: its source rule is not dropped, its
    port does not go up or down, it is not heard on another port, and the switch does
    not start anew.  The clock reads at least [u]. *)
Definition stays_put (v mac p u : Z) (ev : ievent) : Prop :=
  match ev with
  | IPacket now v' p' mac' => u <= now /\ (v' = v -> mac' = mac -> p' = p)
  | IIdle _ (RSrc v' p' mac' _) => ~ (v' = v /\ p' = p /\ mac' = mac)
  | IIdle _ _ => True
  | IPortUp _ q | IPortDown _ q => q <> p
  | ICold _ => False
  end.
