(** * IP addresses, networks and interfaces (Python's [ipaddress])

    The parts of the standard library's [ipaddress] FAUCET relies on, plus the
    longest-prefix dictionary [pytricia].  An address is its version (4 or 6)
    and its value. *)

From Coq Require Import ZArith List Bool.
From Verif Require Import PyBase.
Import ListNotations.
Open Scope Z_scope.

Record ip := mkIp { ip_ver : Z; ip_val : Z }.

(** [ip_network]: the address has no host bits set. *)
Record net := mkNet { n_ver : Z; n_addr : Z; n_len : Z }.

(** [ip_interface]: an address with a prefix length. *)
Record vip := mkVip { v_ip : ip; v_len : Z }.

(** [max_prefixlen] *)
Definition width (ver : Z) : Z := if ver =? 4 then 32 else 128.

(** [netmask] *)
Definition netmask (ver len : Z) : Z := 2 ^ width ver - 2 ^ (width ver - len).

(** [interface.network] *)
Definition vip_net (v : vip) : net :=
  mkNet (ip_ver (v_ip v)) (Z.land (ip_val (v_ip v)) (netmask (ip_ver (v_ip v)) (v_len v))) (v_len v).

(** [ip_network(ip)] : the host network of an address. *)
Definition host_net (a : ip) : net := mkNet (ip_ver a) (ip_val a) (width (ip_ver a)).

(** [ip in network] *)
Definition ip_in_net (a : ip) (n : net) : bool :=
  (ip_ver a =? n_ver n) && (Z.land (ip_val a) (netmask (n_ver n) (n_len n)) =? n_addr n).

(** [network.broadcast_address] *)
Definition broadcast (n : net) : ip := mkIp (n_ver n) (n_addr n + 2 ^ (width (n_ver n) - n_len n) - 1).

(** [ip.is_link_local]: 169.254.0.0/16 or fe80::/10 *)
Definition is_link_local (a : ip) : bool :=
  if ip_ver a =? 4 then ip_in_net a (mkNet 4 0xA9FE0000 16)
  else ip_in_net a (mkNet 6 0xFE800000000000000000000000000000 10).

Definition ip_eqb (a b : ip) : bool := (ip_ver a =? ip_ver b) && (ip_val a =? ip_val b).
Definition net_eqb (a b : net) : bool :=
  (n_ver a =? n_ver b) && (n_addr a =? n_addr b) && (n_len a =? n_len b).
Definition vip_eqb (a b : vip) : bool := ip_eqb (v_ip a) (v_ip b) && (v_len a =? v_len b).

(** [pytricia]: a dictionary from networks to values whose lookup by address
    returns the value of the longest matching network. *)
Section Trie.
  Context {V : Type}.
  Definition trie : Type := list (net * V).
  Definition trie_put (n : net) (v : V) (t : trie) : trie := dict_put net_eqb n v t.
  Fixpoint trie_get (a : ip) (t : trie) : option (net * V) :=
    match t with
    | [] => None
    | (n, v) :: r =>
        match trie_get a r with
        | None => if ip_in_net a n then Some (n, v) else None
        | Some (n', v') =>
            if ip_in_net a n && (n_len n' <? n_len n) then Some (n, v) else Some (n', v')
        end
    end.
End Trie.
Arguments trie V : clear implicits.
