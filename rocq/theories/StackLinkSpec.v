(** * What stack links should do *)
From Coq Require Import ZArith List Bool.
From Verif Require Import PyBase StackModel StackLinkModel.
Import ListNotations.
Open Scope Z_scope.

(** Names and identifiers of datapaths differ, as do the ports, and every port
    is on one of the datapaths. *)
Definition proper (switches : list (Z * Z)) (confs : list lconf) : Prop :=
  NoDup (map fst switches) /\ NoDup (map lc_at confs) /\
  forall c, In c confs -> In (fst (lc_at c)) (map fst switches).

(** The event is a probe received at the port of [c]; [ok]: it comes from the
    neighbour that is configured there. *)
Definition probe_at (switches : list (Z * Z)) (c : lconf) (e : levent) (now : Z) (ok : Prop) : Prop :=
  exists i x y, e = LProbe (lc_at c) now i x y /\
    (ok <-> In (fst (lc_to c), i) switches /\ x = fst (lc_to c) /\ y = snd (lc_to c)).

(** The last probe received at the port. *)
Definition last_probe (switches : list (Z * Z)) (c : lconf) (es : list levent) (now : Z) (ok : Prop) : Prop :=
  exists es1 e es2, es = es1 ++ e :: es2 /\ probe_at switches c e now ok /\
    forall e' t o, In e' es2 -> ~ probe_at switches c e' t o.
Definition no_probe (c : lconf) (es : list levent) : Prop :=
  forall e, In e es -> forall now i x y, e <> LProbe (lc_at c) now i x y.

(** The port is looked at, at time [now]. *)
Definition looked_at (c : lconf) (e : levent) (now : Z) : Prop :=
  e = LTick (fst (lc_at c)) now \/ exists i x y, e = LProbe (lc_at c) now i x y.

(** A probe from the configured neighbour came less than the tolerated time ago. *)
Definition recent (c : lconf) (seen now : Z) : Prop := now - seen < lc_lost c * lc_interval c.

(** The state of a port. *)
Definition in_state (n : net) (a : endpoint) (s : sstate) : Prop :=
  exists p, In p (nt_ports n) /\ lp_at p = a /\ lp_state p = s.

(** A topology has the link between two ports, whichever way round. *)
Definition has_link (g : graph) (a b : endpoint) : Prop := In (a, b) (g_edges g) \/ In (b, a) (g_edges g).

(** Links are configured from both ends. *)
Definition both_ends (confs : list lconf) : Prop :=
  forall c, In c confs -> lc_at c <> lc_to c /\ exists d, In d confs /\ lc_at d = lc_to c /\ lc_to d = lc_at c.

(** Every link has been looked at, and is up at both ends or neither. *)
Definition settled (n : net) (confs : list lconf) : Prop :=
  forall c, In c confs ->
    (in_state n (lc_at c) SUp <-> in_state n (lc_to c) SUp) /\ ~ in_state n (lc_at c) SNone.

(** Configuration that is accepted. *)
Definition accepted (switches : list (Z * Z)) (confs : list lconf) (root : Z) : Prop :=
  proper switches confs /\ topology_accepted switches confs root = true.
