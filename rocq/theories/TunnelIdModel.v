(** * VLANs of tunnels

    dp.py 944-962 (first_unused_vlan_id, create_vlan), 971-982 (resolve_vlan),
    1039-1180 (resolve_acl, get_tunnel_vlan, resolve_tunnel_objects), 1202-1262
    (resolve_acls); acl.py 512-563 (resolve_ports, get_num_tunnels).

    One datapath.  ACLs are given as the tunnels in their rules, in order; names of
    ACLs and VLANs are numbers.  Destinations are given resolved. *)

From Coq Require Import ZArith List Bool.
From Verif Require Import PyBase.
Import ListNotations.
Open Scope Z_scope.

(** "tunnel_id" of a tunnel: missing (or 0 or empty), a VLAN ID or a VLAN's name *)
Inductive tref := NoId | Vid (v : Z) | Name (s : Z).
(** destination: name of the datapath and port, if any *)
Definition dst := (Z * option Z)%type.
Definition dst_eqb (a b : dst) : bool :=
  (fst a =? fst b) && match snd a, snd b with Some x, Some y => x =? y | None, None => true | _, _ => false end.
Record tunnel := mkTunnel { tn_dst : dst; tn_id : tref }.

(** VLANs of the datapath by VID: is it "reserved_internal_vlan"? *)
Definition vlans := list (Z * bool).
Record config := mkConfig {
  cf_acls : list (Z * list tunnel); (* the ACLs, by name *)
  cf_names : list (Z * Z)           (* vlan_by_name, filled in before ACLs are resolved *)
}.

(** valve_of.py 47-48, vlan.py 288-291 (vid_valid) *)
Definition vid_valid (v : Z) : bool := (1 <=? v) && (v <=? 4095).

(** dp.py 947-952 (first_unused_vlan_id): the loop ends before it has seen every VLAN
    twice, [fuel] is one more than their number *)
Fixpoint first_unused_from (fuel : nat) (used : list Z) (v : Z) : Z :=
  match fuel with
  | O => v
  | S k => if mem Z.eqb v used then first_unused_from k used (v + 1) else v
  end.
Definition first_unused_vlan_id (vs : vlans) (v : Z) : Z := first_unused_from (S (length vs)) (map fst vs) v.

(** dp.py 954-962 (create_vlan), with reserved_internal_vlan set as its callers do;
    [None] is an invalid configuration *)
Definition create_vlan (vs : vlans) (v : Z) : option vlans :=
  if mem Z.eqb v (map fst vs) then None else if vid_valid v then Some (vs ++ [(v, true)]) else None.

(** dp.py 971-982 (resolve_vlan) *)
Definition resolve_vlan (c : config) (vs : vlans) (r : tref) : option (Z * bool) :=
  match r with
  | NoId => None
  | Vid v => option_map (fun b => (v, b)) (dict_get Z.eqb v vs)
  | Name s => match dict_get Z.eqb s (cf_names c) with
              | Some v => option_map (fun b => (v, b)) (dict_get Z.eqb v vs)
              | None => None
              end
  end.

(** dp.py 1082-1088: the highest VLAN that is not reserved; max() of nothing raises *)
Definition vlan_offset (vs : vlans) : option Z :=
  match map fst (filter (fun v => negb (snd v)) vs) with
  | [] => None
  | x :: r => Some (fold_left Z.max r x)
  end.
(** acl.py 549-563 (get_num_tunnels) *)
Definition num_tunnels (c : config) (name : Z) : Z :=
  match dict_get Z.eqb name (cf_acls c) with Some ts => Z.of_nat (length ts) | None => 0 end.
(** dp.py 1089-1095: tunnels of the ACLs, in order of their names, up to this one *)
Fixpoint sum_upto (c : config) (name : Z) (ordered : list Z) : Z :=
  match ordered with
  | [] => 0
  | n :: r => num_tunnels c n + (if n =? name then 0 else sum_upto c name r)
  end.
Definition tunnel_offset (c : config) (name : Z) : Z := sum_upto c name (py_sorted Z.leb (map fst (cf_acls c))).

(** dp.py 1064-1133 (get_tunnel_vlan): [dsts] is tunnel_dsts_to_vlan of this ACL.
    The comparison at 1127 is of a VLAN with a number and never true. *)
Definition get_tunnel_vlan (c : config) (name : Z) (vs : vlans) (dsts : list (dst * Z)) (t : tunnel) : option (vlans * Z) :=
  match tn_id t with
  | NoId =>
      match dict_get dst_eqb (tn_dst t) dsts with
      | Some v => Some (vs, v)
      | None =>
          match vlan_offset vs with
          | None => None
          | Some m =>
              let v := first_unused_vlan_id vs (m + tunnel_offset c name) in
              option_map (fun vs' => (vs', v)) (create_vlan vs v)
          end
      end
  | r =>
      match resolve_vlan c vs r with
      | Some (v, reserved) => if reserved then Some (vs, v) else None
      | None => match r with
                | Vid v => option_map (fun vs' => (vs', v)) (create_vlan vs v)
                | _ => None
                end
      end
  end.

(** What has been resolved: ACL, tunnel and its VLAN, in order. *)
Definition log := list (Z * tunnel * Z).
(** acl.py 512-543 (resolve_ports), the tunnels of an ACL not resolved yet *)
Fixpoint resolve_tunnels (c : config) (name : Z) (ts : list tunnel) (vs : vlans) (dsts : list (dst * Z)) (l : log) : option (vlans * log) :=
  match ts with
  | [] => Some (vs, l)
  | t :: r =>
      match get_tunnel_vlan c name vs dsts t with
      | None => None
      | Some (vs', v) => resolve_tunnels c name r vs' (dict_put dst_eqb (tn_dst t) v dsts) (l ++ [(name, t, v)])
      end
  end.
(** dp.py 1202-1262 (resolve_acls): ACLs are resolved in the order of the VLANs, ports
    and so on that use them, then those that are not used; [order] is that order, in
    which an ACL may come again.  An ACL is resolved once. *)
Fixpoint resolve_acls (c : config) (order seen : list Z) (vs : vlans) (l : log) : option (vlans * log) :=
  match order with
  | [] => Some (vs, l)
  | n :: r =>
      match dict_get Z.eqb n (cf_acls c) with
      | None => None
      | Some ts =>
          if mem Z.eqb n seen then resolve_acls c r seen vs l
          else match resolve_tunnels c n ts vs [] l with
               | None => None
               | Some (vs', l') => resolve_acls c r (n :: seen) vs' l'
               end
      end
  end.
