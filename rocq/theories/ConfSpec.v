(** * What configuration comparison is about

    Stated on configuration values, not on their hashes. *)
From Coq Require Import ZArith List Bool Permutation String.
From Verif Require Import PyBase ConfModel.
Import ListNotations.
Open Scope Z_scope.

(** Two values that configure the same thing: equal, except that the items of a
    dictionary may be written in any order, and an address is its text. *)
Definition text_of (v : cval) : option Z := match v with CStr s | CAddr s => Some s | _ => None end.
Inductive alike : cval -> cval -> Prop :=
| alike_none : alike CNone CNone
| alike_bool : forall b, alike (CBool b) (CBool b)
| alike_int : forall z, alike (CInt z) (CInt z)
| alike_text : forall v w s, text_of v = Some s -> text_of w = Some s -> alike v w
| alike_list : forall l m, Forall2 alike l m -> alike (CList l) (CList m)
| alike_dict : forall l m m', Permutation m m' ->
    Forall2 (fun x y => fst x = fst y /\ alike (snd x) (snd y)) l m' -> alike (CDict l) (CDict m).

(** Values made of booleans, integers, texts, addresses, lists and
    dictionaries. *)
Inductive solid : cval -> Prop :=
| solid_bool : forall b, solid (CBool b)
| solid_int : forall z, solid (CInt z)
| solid_str : forall s, solid (CStr s)
| solid_addr : forall s, solid (CAddr s)
| solid_list : forall l, Forall solid l -> solid (CList l)
| solid_dict : forall l, NoDup (map fst l) -> Forall (fun kv => solid (snd kv)) l -> solid (CDict l).

(** The value of an option of an object; objects whose options have such values,
    or none. *)
Definition option_of (c : conf) (k : Z) : option cval := dict_get Z.eqb k (cf_conf c).
Definition plain (c : conf) : Prop :=
  NoDup (map fst (cf_conf c)) /\ forall k v, option_of c k = Some v -> v = CNone \/ solid v.

(** The options of two objects are the same, but for some. *)
Definition conf_alike (ignore : list Z) (a b : conf) : Prop :=
  forall k, ~ In k ignore ->
    match option_of a k, option_of b k with
    | Some v, Some w => alike v w
    | None, None => True
    | _, _ => False
    end.

(** Dynamic state. *)
Definition state_of (c : conf) (k : Z) : option Z := dict_get Z.eqb k (cf_dyn c).

(** Two sets of objects with the same names, whose objects are alike. *)
Definition all_alike (ignore : list Z) (old new : list (Z * conf)) : Prop :=
  (forall k, In k (map fst old) <-> In k (map fst new)) /\
  forall k a b, In (k, a) old -> In (k, b) new -> conf_alike ignore a b.

(** The ports and VLANs of a datapath refer to each other. *)
Record consistent (d : dp_conf) : Prop := {
  cs_ports : NoDup (map fst (df_ports d));
  cs_vlans : NoDup (map fst (df_vlans d));
  cs_port_vids : forall p c, In (p, c) (df_ports d) -> forall v, In v (pf_vids c) -> In v (map fst (df_vlans d));
  cs_vlan_ports : forall v c, In (v, c) (df_vlans d) -> forall p, In p (vf_ports c) -> In p (map fst (df_ports d))
}.

(** Ports and VLANs that a restart starts over. *)
Definition restarts_port (r : restart) (p : Z) : Prop :=
  match r with
  | Nothing => False
  | Cold => True
  | Warm d => In p (dc_deleted_ports d) \/ In p (dc_changed_ports d) \/ In p (dc_added_ports d)
  end.
Definition restarts_acls (r : restart) (p : Z) : Prop :=
  restarts_port r p \/ match r with Warm d => In p (dc_acl_ports d) | _ => False end.
Definition restarts_vlan (r : restart) (v : Z) : Prop :=
  match r with
  | Nothing => False
  | Cold => True
  | Warm d => In v (dc_deleted_vlans d) \/ In v (dc_changed_vlans d)
  end.

(** Nothing of effect differs between two configurations of a datapath. *)
Record unchanged (old new : dp_conf) : Prop := {
  un_conf : conf_alike [interfaces; interface_ranges; routers_key] (df_conf old) (df_conf new);
  un_routers : all_alike [] (df_routers old) (df_routers new);
  un_stack : match df_stack old, df_stack new with
             | Some a, Some b => sf_root a = sf_root b /\ Permutation (sf_degrees a) (sf_degrees b)
             | None, None => True
             | _, _ => False
             end;
  un_acls : all_alike [description] (df_acls old) (df_acls new);
  un_vlans : all_alike [description; acls_in] (plain_vlans (df_vlans old)) (plain_vlans (df_vlans new));
  un_vlan_acls : forall v a b, In (v, a) (df_vlans old) -> In (v, b) (df_vlans new) -> vf_acls a = vf_acls b;
  un_ports : all_alike [description; acls_in] (plain_ports (df_ports old)) (plain_ports (df_ports new));
  un_port_refs : forall p a b, In (p, a) (df_ports old) -> In (p, b) (df_ports new) ->
    pf_acls a = pf_acls b /\ pf_mirror a = pf_mirror b;
  un_meters : all_alike [description] (df_meters old) (df_meters new)
}.

(** All objects of a datapath are made of plain values, under different names. *)
Definition plain_all (l : list (Z * conf)) : Prop := NoDup (map fst l) /\ forall k c, In (k, c) l -> plain c.
Record plain_dp (d : dp_conf) : Prop := {
  pd_conf : plain (df_conf d);
  pd_routers : plain_all (df_routers d);
  pd_acls : plain_all (df_acls d);
  pd_vlans : plain_all (plain_vlans (df_vlans d));
  pd_ports : plain_all (plain_ports (df_ports d));
  pd_meters : plain_all (df_meters d);
  pd_degrees : forall s, df_stack d = Some s -> NoDup (map fst (sf_degrees s))
}.

(** An ACL whose content differs from before, or that is new. *)
Definition acl_differs (old new : dp_conf) (a : Z) : Prop :=
  exists n, In (a, n) (df_acls new) /\ forall o, In (a, o) (df_acls old) -> ~ conf_alike [description] o n.

(** Exactly one of four. *)
Definition exactly_one (p q r s : Prop) : Prop :=
  (p /\ ~ q /\ ~ r /\ ~ s) \/ (~ p /\ q /\ ~ r /\ ~ s) \/ (~ p /\ ~ q /\ r /\ ~ s) \/ (~ p /\ ~ q /\ ~ r /\ s).

(** Assignments, merges and further finalizations that do not take the mark of a
    finalized object away: no assignment to the mark, and merges only from objects
    that are finalized themselves. *)
Definition frozen_ops (ops : list aop) : Prop :=
  (forall v, ~ In (ASet dyn_finalized v) ops) /\
  (forall o, In (AMerge o) ops -> NoDup (map fst o) /\ finalized o = true).

(** Options with references to ACLs beside acls_in. *)
Definition acls_out : Z := 5.

(** The name of an attribute that holds run time state: "dyn", then anything. *)
Definition runtime_attr (n : string) : Prop := exists rest, n = ("dyn" ++ rest)%string.
