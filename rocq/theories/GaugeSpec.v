(** * What Gauge should poll *)

From Coq Require Import ZArith List.
From Verif Require Import GaugeModel.
Import ListNotations.
Open Scope Z_scope.

(** The state after events, latest first. *)
Inductive greach : list gevent -> gstate -> Prop :=
| gr_start : greach [] gauge_start
| gr_step : forall evs s ev, greach evs s -> greach (ev :: evs) (fst (gstep s ev)).

(** The watchers of the last valid configuration. *)
Inductive configured_with : list gevent -> list wconf -> Prop :=
| cw_none : configured_with [] []
| cw_now : forall evs cs, configured_with (GReload (Some cs) :: evs) cs
| cw_before : forall evs ev cs, configured_with evs cs -> (forall cs', ev <> GReload (Some cs')) -> configured_with (ev :: evs) cs.
(** The datapath's connection, if it has one. *)
Inductive connected : Z -> list gevent -> option Z -> Prop :=
| cn_start : forall dp, connected dp [] None
| cn_now : forall dp evs c, connected dp (GConnect dp c :: evs) (Some c)
| cn_lost : forall dp evs c, connected dp evs (Some c) -> connected dp (GLost dp c :: evs) None
| cn_before : forall dp evs ev c, connected dp evs c -> (forall c', ev <> GConnect dp c') ->
    (forall c', ev = GLost dp c' -> c <> Some c') -> connected dp (ev :: evs) c.

(** Thread [th] is running, and sends requests for statistics [t] on connection [c]. *)
Definition polls (s : gstate) (th c : Z) (t : wtype) : Prop := snd (gstep s (GPoll th)) = [ORequest c t].
(** A connection belongs to one datapath. *)
Definition own (evs : list gevent) : Prop :=
  forall dp dp' c, In (GConnect dp c) evs -> In (GConnect dp' c) evs -> dp = dp'.
(** Gauge has handled all that it was notified of. *)
Definition settled (s : gstate) : Prop := g_queue s = [].
(** The watchers for a statistic of a datapath, in the order of the configuration. *)
Definition watchers_for (cs : list wconf) (dp : Z) (t : wtype) (l : list wconf) : Prop :=
  exists f, l = filter f cs /\ forall c, f c = true <-> wc_dp c = dp /\ wc_type c = t.
