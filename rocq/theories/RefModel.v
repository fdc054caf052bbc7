(** * What names and numbers in the configuration refer to

    Transcription of the references to ports, ACLs, meters, datapaths and VLANs in
    /repo/faucet/config_parser.py (58-104, 192-272), dp.py (927-938, 964-1038,
    1041-1053, 1056-1062, 1134-1190, 1200-1265, 1267-1280) and acl.py (312-523).

    Simplifications: texts are numbers, 0 being the empty text; of a port, an ACL or a
    router only what is used here is kept; matches and actions without references are
    numbers.  Which VLAN a tunnel gets is TunnelIdModel; the configured id is only
    carried along here.  Stack links are StackLinkModel.  That ACLs used together agree
    on exact_match (dp.py 1192-1198) and that an ACL can be built (acl.py 238-310) are
    left out. *)

From Coq Require Import List Bool ZArith.
From Verif Require Import PyBase.
Import ListNotations.
Open Scope Z_scope.

(** A reference: a number or a text *)
Inductive key := KInt (n : Z) | KStr (s : Z).
Definition key_eqb (a b : key) : bool :=
  match a, b with
  | KInt m, KInt n => m =? n
  | KStr s, KStr t => s =? t
  | _, _ => false
  end.
(** Python's truth of a reference *)
Definition truthy (k : key) : bool := match k with KInt n => negb (n =? 0) | KStr s => negb (s =? 0) end.

(** map, failing when the function does *)
Fixpoint map_all {A B} (f : A -> option B) (l : list A) : option (list B) :=
  match l with
  | [] => Some []
  | x :: r => match f x, map_all f r with Some y, Some ys => Some (y :: ys) | _, _ => None end
  end.

(** ** Ports *)

Record rport := mkRport {
  rp_num : Z;
  rp_name : Z;
  rp_mirror : option (list key);  (** mirror: the ports to mirror from *)
  rp_copro : bool;                (** coprocessor *)
  rp_stack : bool                 (** stack *)
}.

(** dp.py 927-938 (resolve_port), the number of the port *)
Definition resolve_port (ports : list rport) (k : key) : option Z :=
  match k with
  | KInt n => if existsb (fun p => rp_num p =? n) ports then Some n else None
  | KStr s => match filter (fun p => s =? rp_name p) ports with p :: _ => Some (rp_num p) | [] => None end
  end.
(** dp.py 964-971 (resolve_ports) *)
Fixpoint resolve_ports (ports : list rport) (ks : list key) : list Z :=
  match ks with
  | [] => []
  | k :: r => match resolve_port ports k with Some n => n :: resolve_ports ports r | None => resolve_ports ports r end
  end.

(** dp.py 1018-1031: by mirrored port, the ports it is mirrored to *)
Definition add_mirror (m : Z) (d : list (Z * list Z)) (q : Z) : list (Z * list Z) :=
  dict_put Z.eqb q (match dict_get Z.eqb q d with Some l => l ++ [m] | None => [m] end) d.
Fixpoint mirror_from (ports todo : list rport) (d : list (Z * list Z)) : option (list (Z * list Z)) :=
  match todo with
  | [] => Some d
  | p :: r =>
    match rp_mirror p with
    | None => mirror_from ports r d
    | Some ks =>
      let qs := resolve_ports ports ks in
      if Nat.eqb (length qs) (length ks) then mirror_from ports r (fold_left (add_mirror (rp_num p)) qs d) else None
    end
  end.
(** dp.py 1016-1038 (resolve_mirror_destinations): what ports are mirrored to, and the
    ports that become output only *)
Definition resolve_mirrors (ports : list rport) : option (list (Z * list Z) * list Z) :=
  match mirror_from ports ports [] with
  | None => None
  | Some d =>
    Some (d, flat_map (fun x => filter (fun m => negb (existsb (fun p => (rp_num p =? m) && rp_copro p) ports)) (snd x)) d)
  end.

(** ** ACLs *)

(** an action of "output" *)
Inductive oact :=
| OPort (k : key)
| OPorts (ks : list key)
| OFailover (ks : list key)
| OTunnel (dp : option Z) (port : option key) (id : Z) (bi_directional rev : bool)
| OVid (v : Z)
| OVids (vs : list Z)
| OOther (x : Z).
(** the same with references resolved *)
Inductive ract :=
| RPort (n : Z)
| RPorts (ns : list Z)
| RFailover (ns : list Z)
| RTunnel (dp : Z) (port : option Z) (id : Z) (bi_directional rev : bool)
| RVid (v : Z)
| RVids (vs : list Z)
| ROther (x : Z).
(** "output" is a list of actions in order, or a dictionary *)
Record rule (A K : Type) := mkRule {
  ru_match : Z;
  ru_mirror : option K;
  ru_meter : option Z;
  ru_output : option (bool * list A)  (** in order?, the actions *)
}.
Arguments mkRule {A K}. Arguments ru_match {A K}. Arguments ru_mirror {A K}. Arguments ru_meter {A K}. Arguments ru_output {A K}.

(** dp.py 1134-1179 (resolve_tunnel_objects); [vid is not None] is [in_vlan].  The
    attribute compared with None is never None (port.py 261), so that a stack port
    is not rejected. *)
Definition resolve_tunnel (dps : list (Z * list rport)) (in_vlan : bool) (dp : Z) (port : option key) : option (Z * option Z) :=
  if in_vlan then None
  else match dict_get Z.eqb dp dps with
  | None => None
  | Some ports =>
    match port with
    | Some k => if truthy k then match resolve_port ports k with Some n => Some (dp, Some n) | None => None end else Some (dp, None)
    | None => Some (dp, None)
    end
  end.

(** acl.py 326-410 and 424-510: one output action *)
Definition resolve_act (dps : list (Z * list rport)) (ports : list rport) (in_vlan : bool) (a : oact) : option ract :=
  match a with
  | OPort k => option_map RPort (resolve_port ports k)
  | OPorts ks => option_map RPorts (map_all (resolve_port ports) ks)
  | OFailover ks => option_map RFailover (map_all (resolve_port ports) ks)
  | OTunnel dp port id bi rev =>
    match dp with
    | None => None
    | Some d =>
      if rev && bi then None
      else match resolve_tunnel dps in_vlan d port with Some (x, n) => Some (RTunnel x n id bi rev) | None => None end
    end
  | OVid v => Some (RVid v)
  | OVids vs => Some (RVids vs)
  | OOther x => Some (ROther x)
  end.
Definition is_port (a : oact) : bool := match a with OPort _ => true | _ => false end.
Definition is_ports (a : oact) : bool := match a with OPorts _ => true | _ => false end.
Definition is_vid (a : oact) : bool := match a with OVid _ => true | _ => false end.
Definition is_vids (a : oact) : bool := match a with OVids _ => true | _ => false end.
(** acl.py 412-510 (_resolve_output_ports) and 326-410 *)
Definition resolve_output (dps : list (Z * list rport)) (ports : list rport) (in_vlan : bool) (o : bool * list oact) : option (bool * list ract) :=
  let '(ordered, l) := o in
  if negb ordered && ((existsb is_vid l && existsb is_vids l) || (existsb is_port l && existsb is_ports l)) then None
  else option_map (pair ordered) (map_all (resolve_act dps ports in_vlan) l).
(** acl.py 512-544 (resolve_ports), one rule *)
Definition resolve_rule (dps : list (Z * list rport)) (ports : list rport) (in_vlan : bool) (r : rule oact key) : option (rule ract Z) :=
  let mirror := match ru_mirror r with
    | None => Some None
    | Some k => match resolve_port ports k with Some n => Some (Some n) | None => None end
    end in
  let output := match ru_output r with
    | None => Some None
    | Some o => match resolve_output dps ports in_vlan o with Some x => Some (Some x) | None => None end
    end in
  match mirror, output with
  | Some m, Some o => Some (mkRule (ru_match r) m (ru_meter r) o)
  | _, _ => None
  end.

(** The parts of a datapath's configuration with references; ACLs by VLANs, ports and
    the datapath.  ACLs named for 802.1X are left out (they are used if they exist, dp.py
    1226-1246). *)
Record dpconf := mkDpconf {
  dc_ports : list rport;
  dc_acls : list (Z * list (rule oact key));
  dc_meters : list Z;
  dc_vlan_acls : list Z;
  dc_port_acls : list Z;
  dc_dp_acls : list Z
}.
(** acl.py 579-605 (is_tunnel_acl) *)
Definition is_tunnel (a : oact) : bool := match a with OTunnel _ _ _ _ _ => true | _ => false end.
Definition is_tunnel_acl (rules : list (rule oact key)) : bool :=
  existsb (fun r => match ru_output r with Some o => existsb is_tunnel (snd o) | None => false end) rules.
(** dp.py 1200-1259: the ACLs in use, in order, with true for those of VLANs *)
Definition uses (c : dpconf) : list (bool * Z) :=
  map (pair true) (dc_vlan_acls c) ++ map (pair false) (dc_port_acls c) ++ map (pair false) (dc_dp_acls c)
  ++ map (fun x => (false, fst x)) (filter (fun x => is_tunnel_acl (snd x)) (dc_acls c)).
(** what is known of ACLs while they are resolved: those done, the meters used, and
    the ports that become output only *)
Record resolved := mkResolved {
  rs_acls : list (Z * list (rule ract Z));
  rs_meters : list Z;
  rs_output_only : list Z
}.
(** acl.py 312-324 *)
Definition get_meters {A K} (rs : list (rule A K)) : list Z := flat_map (fun r => match ru_meter r with Some m => [m] | None => [] end) rs.
Definition get_mirrors {A} (rs : list (rule A Z)) : list Z := flat_map (fun r => match ru_mirror r with Some n => [n] | None => [] end) rs.
(** dp.py 1041-1190 (resolve_acl).  An ACL is resolved once (acl.py 514-515). *)
Definition resolve_acl (dps : list (Z * list rport)) (c : dpconf) (st : resolved) (u : bool * Z) : option resolved :=
  match dict_get Z.eqb (snd u) (dc_acls c) with
  | None => None
  | Some rules =>
    match (match dict_get Z.eqb (snd u) (rs_acls st) with Some x => Some x | None => map_all (resolve_rule dps (dc_ports c) (fst u)) rules end) with
    | None => None
    | Some out =>
      if forallb (fun m => mem Z.eqb m (dc_meters c)) (get_meters out) then
        Some (mkResolved (dict_put Z.eqb (snd u) out (rs_acls st)) (rs_meters st ++ get_meters out) (rs_output_only st ++ get_mirrors out))
      else None
    end
  end.
Fixpoint resolve_uses (dps : list (Z * list rport)) (c : dpconf) (st : resolved) (us : list (bool * Z)) : option resolved :=
  match us with
  | [] => Some st
  | u :: r => match resolve_acl dps c st u with Some st' => resolve_uses dps c st' r | None => None end
  end.
(** dp.py 1200-1265 (resolve_acls): with the meters that are kept *)
Definition resolve_acls (dps : list (Z * list rport)) (c : dpconf) : option (resolved * list Z) :=
  if negb (Nat.eqb (length (dc_port_acls c)) 0) && negb (Nat.eqb (length (dc_dp_acls c)) 0) then None else
  match resolve_uses dps c (mkResolved [] [] []) (uses c) with
  | None => None
  | Some st => Some (st, filter (fun m => mem Z.eqb m (rs_meters st)) (dc_meters c))
  end.

(** ** VLANs *)

(** the VLANs of a datapath while it is parsed: key, VID and name *)
Definition vlans := list (key * (Z * Z)).
(** vlan.py 42-60 *)
Definition vid_valid (v : Z) : bool := (1 <=? v) && (v <=? 4095).
Section Text.
  (** str() of a number *)
  Variable str : Z -> Z.

  (** config_parser.py 58-75 (_get_vlan_by_key), the VID *)
  Definition get_vlan_by_key (vs : vlans) (k : key) : option (Z * vlans) :=
    match dict_get key_eqb k vs with
    | Some (v, _) => Some (v, vs)
    | None =>
      match k with
      | KInt n =>
        match find (fun x => n =? fst (snd x)) vs with
        | Some (_, (v, _)) => Some (v, vs)
        | None => if vid_valid n then Some (n, dict_put key_eqb k (n, str n) vs) else None
        end
      | KStr _ => None
      end
    end.
  (** config_parser.py 78-100 (_dp_parse_port): the references of a port are those of
      its native VLAN and its tagged VLANs *)
  Fixpoint parse_port_vlans (vs : vlans) (ks : list key) : option (list Z * vlans) :=
    match ks with
    | [] => Some ([], vs)
    | k :: r =>
      match get_vlan_by_key vs k with
      | None => None
      | Some (v, vs1) => match parse_port_vlans vs1 r with Some (l, vs2) => Some (v :: l, vs2) | None => None end
      end
    end.
  Fixpoint parse_vlans (vs : vlans) (ports : list (Z * list key)) : option (list (Z * list Z) * vlans) :=
    match ports with
    | [] => Some ([], vs)
    | (p, ks) :: r =>
      match parse_port_vlans vs ks with
      | None => None
      | Some (l, vs1) => match parse_vlans vs1 r with Some (d, vs2) => Some ((p, l) :: d, vs2) | None => None end
      end
    end.
  (** config_parser.py 198-213: the VLANs of the configuration file; the key is the
      VID or the name, and no VID occurs twice *)
  Definition key_text (k : key) : Z := match k with KInt n => str n | KStr s => s end.
  Fixpoint vlans_ok (vs : vlans) (vids : list Z) : bool :=
    match vs with
    | [] => true
    | (k, (v, name)) :: r =>
      ((key_text k =? str v) || (key_text k =? name)) && negb (mem Z.eqb v vids) && vid_valid v && vlans_ok r (v :: vids)
    end.
End Text.

(** dp.py 973-983 (resolve_vlan) over the VLANs of the datapath, VID and name; 1354:
    of two with one name, the last *)
Definition resolve_vlan (vs : list (Z * Z)) (k : key) : option Z :=
  match k with
  | KStr s => match filter (fun x => snd x =? s) (rev vs) with x :: _ => Some (fst x) | [] => None end
  | KInt n => if existsb (fun x => fst x =? n) vs then Some n else None
  end.
(** dp.py 985-992 (resolve_vlans) *)
Fixpoint resolve_vlans (vs : list (Z * Z)) (ks : list key) : list Z :=
  match ks with
  | [] => []
  | k :: r => match resolve_vlan vs k with Some v => v :: resolve_vlans vs r | None => resolve_vlans vs r end
  end.
(** dp.py 1267-1280 (resolve_routers): the routers of this datapath, without BGP *)
Definition resolve_routers (vs : list (Z * Z)) (routers : list (Z * list key)) : list (Z * list Z) :=
  filter (fun r => negb (Nat.eqb (length (snd r)) 0)) (map (fun r => (fst r, resolve_vlans vs (snd r))) routers).
(** config_parser.py 262-270: every router is used by some datapath *)
Definition routers_used (dps : list (list (Z * Z))) (routers : list (Z * list key)) : bool :=
  forallb (fun r => existsb (fun vs => existsb (fun x => fst x =? fst r) (resolve_routers vs routers)) dps) routers.
