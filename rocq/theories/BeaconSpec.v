(** * What is expected of LLDP beacons *)

From Coq Require Import ZArith List Bool Permutation.
From Verif Require Import BeaconModel.
Import ListNotations.
Open Scope Z_scope.

(** The shuffles only reorder and time does not go back. *)
Fixpoint calls_ok (t : Z) (calls : list call) : Prop :=
  match calls with
  | [] => True
  | k :: r => t <= ca_now k /\ (forall l, Permutation l (ca_shuffle k l)) /\ calls_ok (ca_now k) r
  end.
(** Ports are told apart by their numbers; the interval is at least a second. *)
Definition config_ok (c : config) : Prop :=
  NoDup (map p_num (c_ports c)) /\ forall i m, c_beacon c = Some (i, m) -> 1 <= i /\ 0 <= m.

Definition is_stack (c : config) (n : Z) : Prop := exists p, In p (c_ports c) /\ p_num p = n /\ p_stack p = true /\ p_beacon p = true.
Definition is_other (c : config) (n : Z) : Prop := exists p, In p (c_ports c) /\ p_num p = n /\ p_stack p = false /\ p_beacon p = true.

(** When a beacon was last sent on a port. *)
Fixpoint last_sent (h : list (call * list Z)) (n : Z) : option Z :=
  match h with
  | [] => None
  | (k, out) :: r => match last_sent r n with Some t => Some t | None => if existsb (Z.eqb n) out then Some (ca_now k) else None end
  end.
(** The port has waited for more than the interval, or never had a beacon. *)
Definition waiting (i : Z) (h : list (call * list Z)) (now n : Z) : Prop :=
  match last_sent h n with None => True | Some t => t + i < now end.
