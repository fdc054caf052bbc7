(** * Configuration objects and what a reload sees as changed

    conf.py (class Conf) and dp.py 1399-1776.  Strings (names, keys, texts) are
    represented by numbers; only their equality and the existence of a total
    order on them matter, except in attribute names (section Attributes). *)
From Coq Require Import ZArith List Bool String.
From Verif Require Import PyBase PacketModel.
Import ListNotations.
Open Scope Z_scope.

(** ** Values *)

(** The values found in a configuration object: scalars, IP addresses and
    networks by their text, lists and tuples, sets, dictionaries with text keys,
    and other configuration objects by their name. *)
Inductive cval :=
| CNone
| CBool (b : bool)
| CInt (z : Z)
| CStr (s : Z)
| CAddr (s : Z)
| CFloat (f : Z)
| CList (l : list cval)
| CSet (l : list cval)
| CDict (l : list (Z * cval))
| CConf (name : Z).

(** What conf.py turns them into to compare them (and prints with str, which
    keeps different values apart). *)
Inductive sval :=
| SNone
| SBool (b : bool)
| SInt (z : Z)
| SStr (s : Z)
| STuple (l : list sval)
| SDict (l : list (Z * sval)).

Definition is_none (v : cval) : bool := match v with CNone => true | _ => false end.

(** conf.py 238-248 (_finalize_val): lists become tuples and sets frozen sets
    (here the same), dictionaries are sorted (by the text of their items, which
    starts with the key; here by the key). *)
Definition by_key {V} (a b : Z * V) : bool := fst a <=? fst b.
Fixpoint finalize_val (v : cval) : cval :=
  match v with
  | CList l => CList (map finalize_val l)
  | CSet l => CSet (map finalize_val l)
  | CDict l => CDict (py_sorted by_key (map (fun kv => (fst kv, finalize_val (snd kv))) l))
  | _ => v
  end.

(** conf.py 181-208 (_str_conf); a frozen set is listed in the order it was made
    in.  Floats become None. *)
Fixpoint str_conf (v : cval) : sval :=
  match v with
  | CBool b => SBool b
  | CInt z => SInt z
  | CStr s => SStr s
  | CAddr s => SStr s
  | CDict l => SDict (flat_map (fun kv => if is_none (snd kv) then [] else [(fst kv, str_conf (snd kv))]) l)
  | CList l => STuple (flat_map (fun v => if is_none v then [] else [str_conf v]) l)
  | CSet l => STuple (flat_map (fun v => if is_none v then [] else [str_conf v]) l)
  | CConf n => SStr n
  | CNone => SNone
  | CFloat _ => SNone
  end.

Fixpoint sval_eqb (a b : sval) : bool :=
  let fix list_eqb (l m : list sval) : bool :=
    match l, m with
    | [], [] => true
    | x :: l, y :: m => sval_eqb x y && list_eqb l m
    | _, _ => false
    end in
  let fix dict_eqb (l m : list (Z * sval)) : bool :=
    match l, m with
    | [], [] => true
    | (k, x) :: l, (k', y) :: m => (k =? k') && sval_eqb x y && dict_eqb l m
    | _, _ => false
    end in
  match a, b with
  | SNone, SNone => true
  | SBool x, SBool y => Bool.eqb x y
  | SInt x, SInt y => x =? y
  | SStr x, SStr y => x =? y
  | STuple l, STuple m => list_eqb l m
  | SDict l, SDict m => dict_eqb l m
  | _, _ => false
  end.

(** ** Objects *)

(** A finalized object: orig_conf (lines 67-70; finalized with the rest, 250-259)
    and its dynamic state. *)
Record conf := mkConf { cf_conf : list (Z * cval); cf_dyn : list (Z * Z) }.

(** Lines 151-168 (_conf_keys): [subconf] false leaves out configuration objects
    and lists that start with one. *)
Definition is_subconf (v : cval) : bool :=
  match v with CConf _ => true | CList (CConf _ :: _) => true | _ => false end.
Definition conf_keys (subconf : bool) (ignore : list Z) (c : conf) : list (Z * sval) :=
  map (fun kv => (fst kv, str_conf (finalize_val (snd kv))))
    (filter (fun kv => negb (mem Z.eqb (fst kv) ignore) && (subconf || negb (is_subconf (snd kv)))) (cf_conf c)).

(** Lines 224-230, 260-265 (conf_hash, ignore_subconf): the frozen sets of the
    texts are the same (hashes without collisions). *)
Definition item_eqb (a b : Z * sval) : bool := (fst a =? fst b) && sval_eqb (snd a) (snd b).
Definition same_keys (a b : list (Z * sval)) : bool :=
  forallb (fun x => existsb (item_eqb x) b) a && forallb (fun y => existsb (item_eqb y) a) b.
Definition ignore_subconf (ignore : list Z) (a b : conf) : bool :=
  same_keys (conf_keys false ignore a) (conf_keys false ignore b).
(** Lines 232-237, 267-271 (hash, equality) *)
Definition conf_eqb (a b : conf) : bool := same_keys (conf_keys true [] a) (conf_keys true [] b).

(** Lines 170-179 (merge_dyn) *)
Definition merge_dyn (c other : conf) : conf :=
  mkConf (cf_conf c) (fold_left (fun d kv => dict_put Z.eqb (fst kv) (snd kv) d) (cf_dyn other) (cf_dyn c)).

(** ** Comparing the objects of two configurations: dp.py 1399-1461 *)

Definition description : Z := 0.
Definition acls_in : Z := 1.

Record changes_of := mkChanges {
  co_deleted : list Z;
  co_added : list Z;
  co_changed : list Z;
  co_same : list Z;
  co_description : list Z
}.

(** The class of each item of the new configuration. *)
Inductive class := Added | Changed | Same | SameButDescription.
Definition classify (ignore : list Z) (old : list (Z * conf)) (kv : Z * conf) : class :=
  match dict_get Z.eqb (fst kv) old with
  | None => Added
  | Some o => if ignore_subconf ignore o (snd kv) then Same
              else if ignore_subconf (description :: ignore) o (snd kv) then SameButDescription
              else Changed
  end.
Definition of_class (ok : class -> bool) (ignore : list Z) (old new : list (Z * conf)) : list Z :=
  map fst (filter (fun kv => ok (classify ignore old kv)) new).

(** dp.py 1400-1461 (_get_conf_changes): the sets, and the new objects with the
    dynamic state of the unchanged ones. *)
Definition get_conf_changes (ignore : list Z) (old new : list (Z * conf)) : changes_of * list (Z * conf) :=
  let is c k := match c, k with
                | Added, Added | Changed, Changed | Same, Same | SameButDescription, SameButDescription => true
                | _, _ => false
                end in
  let same := of_class (fun k => is Same k || is SameButDescription k) ignore old new in
  (mkChanges
     (map fst (filter (fun kv => negb (mem Z.eqb (fst kv) (map fst new))) old))
     (of_class (is Added) ignore old new)
     (of_class (is Changed) ignore old new)
     same
     (of_class (is SameButDescription) ignore old new),
   map (fun kv => (fst kv, if mem Z.eqb (fst kv) same
                           then match dict_get Z.eqb (fst kv) old with Some o => merge_dyn (snd kv) o | None => snd kv end
                           else snd kv)) new).

(** ** Comparing two datapath configurations *)

(** A VLAN: its ACLs by name, its ports, whether it has VIPs. *)
Record vlan_conf := mkVlanConf { vf_conf : conf; vf_acls : list Z; vf_ports : list Z; vf_vips : bool }.
(** A port: its ACLs, ports to mirror to, its VLANs (port.py 497-509), whether it
    is a stack port. *)
Record port_conf := mkPortConf { pf_conf : conf; pf_acls : list Z; pf_mirror : option (list Z); pf_vids : list Z; pf_stack : bool }.
(** Stack: the root, and for every switch the number of its links (stack.py
    363-365, hash). *)
Record stack_conf := mkStackConf { sf_root : Z; sf_degrees : list (Z * Z) }.
Record dp_conf := mkDpConf {
  df_conf : conf;
  df_routers : list (Z * conf);
  df_stack : option stack_conf;
  df_acls : list (Z * conf);
  df_vlans : list (Z * vlan_conf);
  df_ports : list (Z * port_conf);
  df_meters : list (Z * conf)
}.

Record dp_changes := mkDpChanges {
  dc_deleted_ports : list Z;
  dc_changed_ports : list Z;
  dc_added_ports : list Z;
  dc_acl_ports : list Z;
  dc_deleted_vlans : list Z;
  dc_changed_vlans : list Z;
  dc_all_ports : bool;
  dc_all_meters : bool;
  dc_deleted_meters : list Z;
  dc_added_meters : list Z;
  dc_changed_meters : list Z
}.

Definition subset (a b : list Z) : bool := forallb (fun x => mem Z.eqb x b) a.
Definition diff (a b : list Z) : list Z := filter (fun x => negb (mem Z.eqb x b)) a.
Definition nonempty {A} (l : list A) : bool := match l with [] => false | _ => true end.

(** dp.py 1515-1536 (_acl_ref_changes) *)
Definition acl_ref_changes (changed_acls old new : list Z) : bool :=
  existsb (fun a => mem Z.eqb a changed_acls) new || negb (if list_eq_dec Z.eq_dec old new then true else false).

(** dp.py 1463-1475 (_get_acl_config_changes) *)
Definition acl_changes (old new : dp_conf) : list Z :=
  let c := fst (get_conf_changes [] (df_acls old) (df_acls new)) in co_added c ++ co_changed c.

(** dp.py 1477-1513 (_get_vlan_config_changes): deleted, and changed or added *)
Definition plain_vlans (l : list (Z * vlan_conf)) : list (Z * conf) := map (fun kv => (fst kv, vf_conf (snd kv))) l.
Definition vlan_changes (old new : dp_conf) (changed_acls : list Z) : list Z * list Z :=
  let c := fst (get_conf_changes [acls_in] (plain_vlans (df_vlans old)) (plain_vlans (df_vlans new))) in
  (co_deleted c,
   co_added c ++ co_changed c
   ++ filter (fun v => match dict_get Z.eqb v (df_vlans old), dict_get Z.eqb v (df_vlans new) with
                       | Some o, Some n => acl_ref_changes changed_acls (vf_acls o) (vf_acls n)
                       | _, _ => false
                       end) (co_same c)).

(** dp.py 1576-1589: the ports restarted because the topology changed; None: the
    new configuration has no stack any more, which raises AttributeError. *)
Fixpoint pairs_eqb (a b : list (Z * Z)) : bool :=
  match a, b with
  | [], [] => true
  | p :: a, q :: b => (fst p =? fst q) && (snd p =? snd q) && pairs_eqb a b
  | _, _ => false
  end.
Definition degrees_eqb (a b : list (Z * Z)) : bool := pairs_eqb (py_sorted by_key a) (py_sorted by_key b).
Definition stack_ports (d : dp_conf) : list Z := map fst (filter (fun kv => pf_stack (snd kv)) (df_ports d)).
Definition topology_ports (old new : dp_conf) (deleted added : list Z) : pyres (list Z) :=
  match df_stack old, df_stack new with
  | None, _ => PyVal []
  | Some _, None => PyRaise
  | Some a, Some b =>
      PyVal (if degrees_eqb (sf_degrees a) (sf_degrees b) then [] else diff (diff (stack_ports new) deleted) added)
  end.

(** dp.py 1603-1642: the VLANs that port changes touch.  For changed ports the
    VLANs the port left or joined; the comparison of the VLAN objects (line 1620)
    makes no difference, as equal VLANs have equal ids. *)
Definition all_vids (d : dp_conf) : list Z := map fst (df_vlans d).
Definition port_vlan_changes (old new : dp_conf) (deleted added changed : list Z) : list Z :=
  flat_map (fun p => match dict_get Z.eqb p (df_ports old), dict_get Z.eqb p (df_ports new) with
                     | Some o, Some n => diff (pf_vids o) (pf_vids n) ++ diff (pf_vids n) (pf_vids o)
                         ++ (if Bool.eqb (pf_stack o) (pf_stack n) then [] else all_vids new)
                     | _, _ => []
                     end) changed
  ++ flat_map (fun p => match dict_get Z.eqb p (df_ports old) with
                        | Some o => pf_vids o ++ (if pf_stack o then all_vids old else [])
                        | None => []
                        end) deleted
  ++ flat_map (fun p => match dict_get Z.eqb p (df_ports new) with
                        | Some n => pf_vids n ++ (if pf_stack n then all_vids new else [])
                        | None => []
                        end) added.

Definition mirror_eqb (a b : option (list Z)) : bool :=
  match a, b with
  | None, None => true
  | Some l, Some m => if list_eq_dec Z.eq_dec l m then true else false
  | _, _ => false
  end.

(** dp.py 1538-1680 (_get_port_config_changes) *)
Definition plain_ports (l : list (Z * port_conf)) : list (Z * conf) := map (fun kv => (fst kv, pf_conf (snd kv))) l.
Definition port_changes (old new : dp_conf) (deleted_vlans changed_vlans0 changed_acls : list Z)
  : pyres (bool * list Z * list Z * list Z * list Z * list Z) :=
  let c := fst (get_conf_changes [acls_in] (plain_ports (df_ports old)) (plain_ports (df_ports new))) in
  match topology_ports old new (co_deleted c) (co_added c) with
  | PyRaise => PyRaise
  | PyVal topo =>
      let changed1 := co_changed c ++ topo in
      let same := match topo with [] => co_same c | _ => diff (co_same c) changed1 end in
      let all_ports := map fst (df_ports new) in
      let vlan_ports := flat_map (fun kv => if mem Z.eqb (fst kv) changed_vlans0 then vf_ports (snd kv) else []) (df_vlans new) in
      let changed2 := if nonempty same && nonempty changed_vlans0 then changed1 ++ vlan_ports else changed1 in
      let all_changed :=
        if nonempty same then
          if nonempty changed_vlans0 then subset changed2 all_ports && subset all_ports changed2 else false
        else true in
      let pair p := (dict_get Z.eqb p (df_ports old), dict_get Z.eqb p (df_ports new)) in
      let mirrored := filter (fun p => match pair p with
                                       | (Some o, Some n) => negb (mirror_eqb (pf_mirror o) (pf_mirror n))
                                       | _ => false end) same in
      let acl_ports := filter (fun p => match pair p with
                                        | (Some o, Some n) => acl_ref_changes changed_acls (pf_acls o) (pf_acls n)
                                        | _ => false end) same in
      let changed3 := if all_changed then changed2 else changed2 ++ mirrored in
      let changed_vlans1 :=
        if all_changed then changed_vlans0
        else changed_vlans0 ++ port_vlan_changes old new (co_deleted c) (co_added c) changed2 in
      let changed_vlans := diff changed_vlans1 deleted_vlans in
      if forallb (fun v => mem Z.eqb v (all_vids new)) changed_vlans then
        let vips := existsb (fun v => match dict_get Z.eqb v (df_vlans new) with Some n => vf_vips n | None => false end)
                      changed_vlans in
        PyVal (all_changed || vips, co_deleted c, changed3, co_added c, if all_changed then [] else acl_ports, changed_vlans)
      else PyRaise
  end.

(** dp.py 1704-1776 (get_config_changes).  Keys: see dp.py 60-160. *)
Definition interfaces : Z := 2.
Definition interface_ranges : Z := 3.
Definition routers_key : Z := 4.
Definition cold_changes : dp_changes := mkDpChanges [] [] [] [] [] [] true true [] [] [].

Fixpoint routers_eqb (a b : list (Z * conf)) : bool :=
  match a with
  | [] => true
  | (k, c) :: r => match dict_get Z.eqb k b with Some c' => conf_eqb c c' | None => false end && routers_eqb r b
  end.
Definition same_routers (a b : list (Z * conf)) : bool :=
  (Z.of_nat (List.length a) =? Z.of_nat (List.length b)) && routers_eqb a b.

Definition get_config_changes (old new : dp_conf) : pyres dp_changes :=
  if match df_stack new, df_stack old with Some n, Some o => negb (sf_root n =? sf_root o) | _, _ => false end
  then PyVal cold_changes
  else if negb (same_routers (df_routers new) (df_routers old)) then PyVal cold_changes
  else if negb (ignore_subconf [interfaces; interface_ranges; routers_key] (df_conf old) (df_conf new)) then PyVal cold_changes
  else
    let acls := acl_changes old new in
    let '(deleted_vlans, changed_vlans) := vlan_changes old new acls in
    let m := fst (get_conf_changes [] (df_meters old) (df_meters new)) in
    match port_changes old new deleted_vlans changed_vlans acls with
    | PyRaise => PyRaise
    | PyVal (all, deleted, changed, added, acl_ports, changed_vlans') =>
        PyVal (mkDpChanges deleted changed added acl_ports deleted_vlans changed_vlans' all
                 (nonempty (co_deleted m ++ co_added m ++ co_changed m))
                 (co_deleted m) (co_added m) (co_changed m))
    end.

(** ** valve.py 1572-1625, 1682-1715 (_apply_config_changes, reload_config) *)

(** What a reload does: nothing, a cold start (the switch is disconnected and
    starts over), or a warm one that restarts some ports and VLANs. *)
Inductive restart := Nothing | Cold | Warm (d : dp_changes).
Definition reload (pipeline_change : bool) (d : dp_changes) : restart :=
  if pipeline_change then Cold
  else if dc_all_ports d then Cold
  else if nonempty (dc_deleted_ports d) || nonempty (dc_changed_ports d) || nonempty (dc_added_ports d)
          || nonempty (dc_acl_ports d) || nonempty (dc_deleted_vlans d) || nonempty (dc_changed_vlans d)
          || dc_all_meters d || nonempty (dc_deleted_meters d) || nonempty (dc_added_meters d)
          || nonempty (dc_changed_meters d)
  then Warm d
  else Nothing.

(** ** Attributes: conf.py 72-80, 170-179, 250-258 *)

(** An object as its dictionary of attributes. *)
Definition attrs := list (string * cval).
Definition attr (a : attrs) (n : string) : option cval := dict_get String.eqb n a.
Definition dyn_finalized : string := "dyn_finalized".
Definition is_dyn (n : string) : bool := String.prefix "dyn" n.
(** The class attribute is False until the object has its own. *)
Definition finalized (a : attrs) : bool :=
  match attr a dyn_finalized with Some (CBool b) => b | Some CNone => false | Some _ => true | None => false end.

(** Lines 72-80 (__setattr__); raises ValueError *)
Definition set_attr (mutable_attrs : list string) (n : string) (v : cval) (a : attrs) : pyres attrs :=
  if negb (finalized a) || is_dyn n || existsb (String.eqb n) mutable_attrs then PyVal (dict_put String.eqb n v a)
  else PyRaise.

(** Lines 250-258 (finalize) *)
Definition finalize (a : attrs) : attrs :=
  dict_put String.eqb dyn_finalized (CBool true)
    (map (fun nv => (fst nv, if is_dyn (fst nv) then snd nv else finalize_val (snd nv))) a).

(** Lines 170-179 (merge_dyn) and 138-142 (update, without its checks) *)
Definition update_attrs (a new : attrs) : attrs :=
  fold_left (fun d nv => dict_put String.eqb (fst nv) (snd nv) d) new a.
Definition merge_dyn_attrs (a other : attrs) : attrs := update_attrs a (filter (fun nv => is_dyn (fst nv)) other).

Inductive aop := ASet (n : string) (v : cval) | AFinalize | AMerge (other : attrs).
(** An assignment that raises leaves the object as it is. *)
Definition aop_step (mutable_attrs : list string) (a : attrs) (o : aop) : attrs :=
  match o with
  | ASet n v => match set_attr mutable_attrs n v a with PyVal a' => a' | PyRaise => a end
  | AFinalize => finalize a
  | AMerge other => merge_dyn_attrs a other
  end.
