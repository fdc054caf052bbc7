(** * Vocabulary for the learning properties *)

From Coq Require Import List Bool ZArith.
From Verif Require Import HostCacheModel LearnModel.
Import ListNotations.
Open Scope Z_scope.

(** MAC [mac] is learned on port [p] of VLAN [vid], last refreshed at [t]. *)
Definition learned (s : lstate) (vid mac p t : Z) : Prop :=
  cached_host (s_cache s vid) mac = Some {| e_mac := mac; e_port := p; e_time := t |}.

Definition unknown (s : lstate) (vid mac : Z) : Prop :=
  cached_host (s_cache s vid) mac = None.

(** The operator (or the link) flushed the port or the VLAN. *)
Definition flushes (p vid : Z) (ev : levent) : Prop :=
  match ev with
  | LPortDown _ q => q = p
  | LVlanReset v => v = vid
  | LColdStart _ => True
  | _ => False
  end.

(** The event comes from this datapath itself, not from a stacked neighbour. *)
Definition local_event (ev : levent) : Prop :=
  match ev with LStackLearn _ _ _ _ => False | _ => True end.

(** In the history [evs] from [s], every packet arriving on port [p] comes from
    a host that is unknown or already on [p]: no host moves onto [p]. *)
Fixpoint no_moves_onto (cfg : lcfg) (p : Z) (s : lstate) (evs : list levent) : Prop :=
  match evs with
  | [] => True
  | ev :: r =>
      (match ev with
       | LPacket _ vid q mac => q = p -> forall e, cached_host (s_cache s vid) mac = Some e -> e_port e = p
       | LStackLearn _ _ q _ => q <> p
       | _ => True
       end) /\
      (match lstep cfg s ev with
       | Some (s', _) => no_moves_onto cfg p s' r
       | None => True
       end)
  end.

(** The messages that let a host's frames through the learning table, or that
    direct frames to a host. *)
Definition installs_host (m : host_msg) : bool :=
  match m with
  | MSrc _ _ _ _ _ | MDst _ _ _ _ | MDstNonExt _ _ _ _ | MHairpin _ _ _ _ => true
  | _ => false
  end.

(** Configuration check of /repo/faucet/dp.py:372-373, and the defaults of
    391-396, which leave the guard time and the jitter non-zero. *)
Definition timing_ok (cfg : lcfg) : Prop :=
  15 <= c_timeout cfg <= 65535 /\ 0 < c_guard cfg /\ c_jitter cfg <> 0.

(** OpenFlow timeouts: 0 means never.  [src_first g hard idle]: a rule with hard
    timeout [hard] is gone at least [g] seconds before a rule installed with it
    with idle timeout [idle] can go. *)
Definition src_first (g hard idle : Z) : Prop := 0 < hard /\ (idle = 0 \/ hard + g <= idle).

(** All the messages produced along a history. *)
Fixpoint lmessages (cfg : lcfg) (s : lstate) (evs : list levent) : list host_msg :=
  match evs with
  | [] => []
  | ev :: r =>
      match lstep cfg s ev with
      | Some (s', ms) => ms ++ lmessages cfg s' r
      | None => []
      end
  end.

(** A message that installs a rule for a host seen on port [p]. *)
Definition installs_on (p : Z) (m : host_msg) : bool :=
  match m with
  | MSrc _ q _ _ _ | MDst _ q _ _ | MDstNonExt _ q _ _ | MHairpin _ q _ _ => q =? p
  | _ => false
  end.

(** A message that installs a rule directing frames to a host. *)
Definition installs_dst (m : host_msg) : bool :=
  match m with
  | MDst _ _ _ _ | MDstNonExt _ _ _ _ | MHairpin _ _ _ _ => true
  | _ => false
  end.

(** Every packet of [evs] received on [p] is received in [[t, t + d)]. *)
Definition within (p t d : Z) (ev : levent) : Prop :=
  match ev with
  | LPacket now _ q _ | LStackLearn now _ q _ => q = p -> t <= now < t + d
  | _ => True
  end.

(** Host [mac] on port [p] sends again every [d] seconds after time [t], [n]
    times, and an expiry pass runs just before each. *)
Fixpoint talk (vid p mac t d : Z) (n : nat) : list levent :=
  match n with
  | O => []
  | S k => LExpire (t + d) vid :: LPacket (t + d) vid p mac :: talk vid p mac (t + d) d k
  end.
