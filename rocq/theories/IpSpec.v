(** * IP networks, independently of [ipaddress] *)

From Coq Require Import ZArith List.
From Verif Require Import IpModel.
Import ListNotations.
Open Scope Z_scope.

(** A well-formed address: version 4 or 6 and a value that fits. *)
Definition good_ip (a : ip) : Prop :=
  (ip_ver a = 4 /\ 0 <= ip_val a < 2 ^ 32) \/ (ip_ver a = 6 /\ 0 <= ip_val a < 2 ^ 128).

(** The number of address bits. *)
Definition bits (ver : Z) : Z := if ver =? 4 then 32 else 128.

(** A network is the set of addresses of its version in an aligned block. *)
Definition good_net (n : net) : Prop :=
  (n_ver n = 4 \/ n_ver n = 6) /\ 0 <= n_len n <= bits (n_ver n) /\
  0 <= n_addr n /\ n_addr n + 2 ^ (bits (n_ver n) - n_len n) <= 2 ^ bits (n_ver n) /\
  (exists k, n_addr n = k * 2 ^ (bits (n_ver n) - n_len n)).

Definition belongs (a : ip) (n : net) : Prop :=
  ip_ver a = n_ver n /\ n_addr n <= ip_val a < n_addr n + 2 ^ (bits (n_ver n) - n_len n).

Definition good_vip (v : vip) : Prop := good_ip (v_ip v) /\ 0 <= v_len v <= bits (ip_ver (v_ip v)).

(** [n] is the longest of the networks [ns] that contain [a]. *)
Definition longest (a : ip) (n : net) (ns : list net) : Prop :=
  In n ns /\ belongs a n /\ forall m, In m ns -> belongs a m -> n_len m <= n_len n.

(** No address belongs to both. *)
Definition disjoint (m n : net) : Prop := forall a, ~ (belongs a m /\ belongs a n).
