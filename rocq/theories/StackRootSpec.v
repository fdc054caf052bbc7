(** * What choosing the root of a stack should mean

    Independent of the ranking and the bookkeeping of the model. *)
From Coq Require Import ZArith QArith List Bool.
From Verif Require Import StackRootModel.
Import ListNotations.
Open Scope Z_scope.

(** ** Health *)

Definition ups (ports : list bool) : Z := Z.of_nat (count_occ bool_dec ports true).
Definition total (ports : list bool) : Z := Z.of_nat (length ports).

(** The part of the ports that is up reaches [least]; a switch without such ports
    is never held back by them. *)
Definition enough (ports : list bool) (least : Q) : Prop :=
  ports = [] \/ (least * inject_Z (total ports) <= inject_Z (ups ports))%Q.

(** When the switch was last known to be running (0 if never). *)
Definition last_seen (live : list (Z * Z)) (x t : Z) : Prop :=
  In (x, t) live \/ (~ In x (map fst live) /\ t = 0).

Section AtOnce.
Variables (live : list (Z * Z)) (now update_time : Z).

Definition in_contact (n : node) : Prop :=
  forall t, last_seen live (nd_name n) t -> now - t <= nd_multiple n * update_time.
Definition well (n : node) : Prop :=
  in_contact n /\ enough (nd_stack n) (nd_min_stack n) /\ enough (nd_lacp n) (nd_min_lacp n).

(** ** Ranking *)

(** The parts of the ports that are up, as they count in the ranking: without stack
    ports all of them, without LACP ports none. *)
Definition stack_part (n : node) (q : Q) : Prop :=
  (nd_stack n = [] /\ (q == 1)%Q) \/
  (nd_stack n <> [] /\ (q * inject_Z (total (nd_stack n)) == inject_Z (ups (nd_stack n)))%Q).
Definition lacp_part (n : node) (q : Q) : Prop :=
  (nd_lacp n = [] /\ (q == 0)%Q) \/
  (nd_lacp n <> [] /\ (q * inject_Z (total (nd_lacp n)) == inject_Z (ups (nd_lacp n)))%Q).

(** [a] goes before [b]: more of its stack ports are up; or as many, and more of its
    LACP ports; or as many, and its priority is lower; or the same, and its
    identifier is lower. *)
Definition before (a b : node) : Prop :=
  exists sa sb la lb, stack_part a sa /\ stack_part b sb /\ lacp_part a la /\ lacp_part b lb /\
    ((sb < sa)%Q \/ ((sa == sb)%Q /\
      ((lb < la)%Q \/ ((la == lb)%Q /\
        (nd_priority a < nd_priority b \/ (nd_priority a = nd_priority b /\ nd_id a < nd_id b)))))).

(** [r] is the first of the switches that satisfy [P]. *)
Definition first_of (nodes : list node) (P : node -> Prop) (r : Z) : Prop :=
  exists n, In n nodes /\ nd_name n = r /\ P n /\
    forall o, In o nodes -> P o -> nd_name o <> r -> before n o.

End AtOnce.

(** Switches that can become root. *)
Definition can_be_root (n : node) : Prop := nd_priority n <> 0.

(** Identifiers and names differ from switch to switch. *)
Definition distinct (nodes : list node) : Prop :=
  NoDup (map nd_id nodes) /\ NoDup (map nd_name nodes).

(** Among switches nothing is known about: the lower priority, then the lower
    identifier. *)
Definition configured_before (a b : node) : Prop :=
  nd_priority a < nd_priority b \/ (nd_priority a = nd_priority b /\ nd_id a < nd_id b).

(** The right choice of a root at a time: a current root that is well stays; else
    the first of those that are well; if none is, a current root that is in contact
    stays; else the first of those in contact; and nothing if none is. *)
Inductive right_choice (nodes : list node) (live : list (Z * Z)) (now update_time : Z)
    (current : option Z) : option Z -> Prop :=
| keep_well : forall n,
    In n nodes -> can_be_root n -> well live now update_time n -> current = Some (nd_name n) ->
    right_choice nodes live now update_time current (Some (nd_name n))
| pick_well : forall r,
    (forall n, In n nodes -> can_be_root n -> well live now update_time n -> current <> Some (nd_name n)) ->
    first_of nodes (fun n => can_be_root n /\ well live now update_time n) r ->
    right_choice nodes live now update_time current (Some r)
| keep_reachable : forall n,
    (forall n, In n nodes -> can_be_root n -> ~ well live now update_time n) ->
    In n nodes -> can_be_root n -> in_contact live now update_time n -> current = Some (nd_name n) ->
    right_choice nodes live now update_time current (Some (nd_name n))
| pick_reachable : forall r,
    (forall n, In n nodes -> can_be_root n -> ~ well live now update_time n) ->
    (forall n, In n nodes -> can_be_root n -> in_contact live now update_time n -> current <> Some (nd_name n)) ->
    first_of nodes (fun n => can_be_root n /\ in_contact live now update_time n) r ->
    right_choice nodes live now update_time current (Some r)
| nobody :
    (forall n, In n nodes -> can_be_root n -> ~ in_contact live now update_time n) ->
    right_choice nodes live now update_time current None.

(** ** Histories *)

(** The current root, if it is still among the switches. *)
Definition current_root (m : manager) (c : option Z) : Prop :=
  forall r, c = Some r <-> mg_root m = Some r /\ In r (map nd_name (mg_nodes m)).

(** At this event the controller sees that switch [x] is there: it connects, or it
    is running when the root is looked at. *)
Definition contact (m : manager) (e : mevent) (x t : Z) : Prop :=
  e = MConnect x t \/
  (exists update_time n, e = MMaintain t update_time /\ In n (mg_nodes m) /\ nd_name n = x /\ nd_running n = true).

(** The last time that happened was [t]. *)
Definition last_contact (es : list mevent) (x t : Z) : Prop :=
  exists es1 e es2, es = es1 ++ e :: es2 /\ contact (mrun es1 minit) e x t /\
    forall es3 e' es4 t', es2 = es3 ++ e' :: es4 -> ~ contact (mrun (es1 ++ e :: es3) minit) e' x t'.

(** Every configuration that is loaded has distinct names and identifiers. *)
Definition well_configured (es : list mevent) : Prop :=
  forall nodes, In (MConfig nodes) es -> distinct nodes.
