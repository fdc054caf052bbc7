(** * What access control lists mean

    Written from the documentation of ACLs (docs/configuration.rst): only the
    configuration records of AclModel and the packets and walks of OpenFlow are
    used, none of the functions that build flow entries. *)

From Coq Require Import ZArith List Bool Permutation.
From Verif Require Import OpenFlow ReorderModel TableModel AclModel.
Import ListNotations.
Open Scope Z_scope.

(** ** What one rule does *)

Definition popped (n : nat) (p : packet) : packet := mkPacket (pk_in p) (skipn n (pk_tags p)) (pk_hdr p).
(** a new outer tag; it copies the priority of the tag below it, if any *)
Definition pushed (vid : Z) (p : packet) : packet :=
  mkPacket (pk_in p) ((vid, match pk_tags p with (_, pcp) :: _ => pcp | [] => 0 end) :: pk_tags p) (pk_hdr p).
Definition swapped (vid : Z) (p : packet) : packet :=
  mkPacket (pk_in p) (match pk_tags p with (_, pcp) :: r => (vid, pcp) :: r | [] => [] end) (pk_hdr p).
Definition with_fields (l : list (field * Z)) (p : packet) : packet :=
  fold_left (fun p fv => set_field (fst fv) (snd fv) p) l p.
(** failover: the first of the ports that is up *)
Definition first_live (live : Z -> bool) (ns : list Z) (p : packet) : list emission :=
  match find live ns with Some n => [(n, p)] | None => [] end.

(** An ordered output list is carried out from left to right: what is sent, and the
    packet in the end. *)
Fixpoint perform (live : Z -> bool) (l : list out_item) (p : packet) : list emission * packet :=
  match l with
  | [] => ([], p)
  | i :: rest =>
      let '(now, p') :=
        match i with
        | OPop n => ([], popped n p)
        | OVid v => ([], pushed v p)
        | OSwap v => ([], swapped v p)
        | OVids vs => ([], fold_left (fun p v => pushed v p) vs p)
        | OSet sets => ([], with_fields sets p)
        | OPort n => ([(n, p)], p)
        | OPorts ns => (map (fun n => (n, p)) ns, p)
        | OFailover _ ns => (first_live live ns p, p)
        | OTunnel _ | OGoto _ => ([], p)
        end in
      let '(later, p'') := perform live rest p' in (now ++ later, p'')
  end.

(** An unordered output: first all rewrites (tags off; then at most one of vlan_vid,
    swap_vid and vlan_vids; then the fields), then all ports. *)
Definition rewritten (u : unordered) (p : packet) : packet :=
  let p1 := match u_pop u with Some n => popped n p | None => p end in
  let p2 := match u_vid u, u_swap u, u_vids u with
            | Some v, _, _ => pushed v p1
            | None, Some v, _ => swapped v p1
            | None, None, Some vs => fold_left (fun p v => pushed v p) vs p1
            | None, None, None => p1
            end in
  match u_sets u with Some l => with_fields l p2 | None => p2 end.
Definition sent (live : Z -> bool) (u : unordered) (p : packet) : list emission :=
  match u_port u with Some n => [(n, p)] | None => [] end
  ++ match u_ports u with Some ns => map (fun n => (n, p)) ns | None => [] end
  ++ match u_failover u with Some (_, ns) => first_live live ns p | None => [] end.

(** The effect of a rule: what is sent at once, and, if the packet goes on, whether
    to L2 switching directly (force_port_vlan) and as which packet.  A mirror gets
    the packet as it came.  The packet goes on if "allow" says so, or if there is a
    mirror and no "allow". *)
Definition effect (live : Z -> bool) (r : rule) (p : packet) : list emission * option (bool * packet) :=
  match ru_actions r with
  | None => ([], None)
  | Some a =>
      let '(es, q) := match ac_output a with
                      | None => ([], p)
                      | Some (Ordered l) => perform live l p
                      | Some (Unordered u) => (sent live u (rewritten u p), rewritten u p)
                      end in
      (match ac_mirror a with Some n => (n, p) :: es | None => es end,
       if match ac_allow a, ac_mirror a with
          | Some x, _ => x =? 1
          | None, Some _ => true
          | None, None => false
          end
       then Some (match ac_force a with Some x => x =? 1 | None => false end, q)
       else None)
  end.

(** ** Which rule decides *)

(** the rule's value and mask agree with the packet *)
Definition agrees (p : packet) (f : field) (v m : Z) : Prop :=
  exists x, pk_get p f = Some x /\ Z.land x m = Z.land v m.
(** every field the rule names agrees, leaving out [f0], the one that the port or
    VLAN the ACL is attached to stands for *)
Definition rule_covers (f0 : option field) (p : packet) (r : rule) : Prop :=
  forall o f v m, In ((o, f), (v, m)) (ru_attrs r) -> f0 <> Some f -> agrees p f v m.

(** the first rule with a property *)
Inductive decides (P : rule -> Prop) : list rule -> rule -> Prop :=
| decides_now : forall r rest, P r -> decides P (r :: rest) r
| decides_later : forall r rest r', ~ P r -> decides P rest r' -> decides P (r :: rest) r'.
Definition undecided (P : rule -> Prop) (rs : list rule) : Prop := forall r, In r rs -> ~ P r.

(** [acl_outcome on live P rs p es]: with rules [rs], whose applicability is [P],
    the packet [p] leads to the emissions [es]; [on force q es'] tells what becomes
    of a packet that is handed on. *)
Definition acl_outcome (on : bool -> packet -> list emission -> Prop) (live : Z -> bool)
           (P : rule -> Prop) (rs : list rule) (p : packet) (es : list emission) : Prop :=
  (exists r, decides P rs r /\
     match effect live r p with
     | (out, None) => es = out
     | (out, Some (force, q)) => exists es', on force q es' /\ es = out ++ es'
     end)
  \/ (undecided P rs /\ es = []).

(** The ports a rule names: where it mirrors and outputs to. *)
Definition item_ports (i : out_item) : list Z :=
  match i with OPort n => [n] | OPorts ns | OFailover _ ns => ns | _ => [] end.
Definition rule_ports (r : rule) : list Z :=
  match ru_actions r with
  | None => []
  | Some a =>
      match ac_mirror a with Some n => [n] | None => [] end
      ++ match ac_output a with
         | None => []
         | Some (Ordered l) => flat_map item_ports l
         | Some (Unordered u) =>
             match u_port u with Some n => [n] | None => [] end
             ++ match u_ports u with Some ns => ns | None => [] end
             ++ match u_failover u with Some (_, ns) => ns | None => [] end
         end
  end.
(** The header fields a rule sets, and whether it touches the tags. *)
Definition rule_sets (r : rule) : list field :=
  match ru_actions r with
  | Some (mkActions _ _ _ _ (Some (Ordered l)) _) =>
      flat_map (fun i => match i with OSet s => map fst s | _ => [] end) l
  | Some (mkActions _ _ _ _ (Some (Unordered u)) _) => match u_sets u with Some s => map fst s | None => [] end
  | _ => []
  end.
Definition rule_retags (r : rule) : bool :=
  existsb (fun f => match f with VlanVid | VlanPcp => true | _ => false end) (rule_sets r) ||
  match ru_actions r with
  | Some (mkActions _ _ _ _ (Some (Ordered l)) _) =>
      existsb (fun i => match i with OPop _ | OVid _ | OSwap _ | OVids _ => true | _ => false end) l
  | Some (mkActions _ _ _ _ (Some (Unordered u)) _) =>
      match u_pop u, u_vid u, u_swap u, u_vids u with None, None, None, None => false | _, _, _, _ => true end
  | _ => false
  end.
(** Does the packet go on, and directly to L2 switching?  Only "allow: 1" or, without
    "allow", a mirror lets it. *)
Definition rule_lets_on (r : rule) : Prop :=
  exists a, ru_actions r = Some a /\ (ac_allow a = Some 1 \/ (ac_allow a = None /\ ac_mirror a <> None)).
Definition rule_forces (r : rule) : Prop := exists a, ru_actions r = Some a /\ ac_force a = Some 1.

(** [verdict on live P rs p outcome]: [outcome], the possible emissions for the packet
    [p], are what the rules [rs] say.
    - What the deciding rule sends at once goes to ports it names.
    - If it does not let the packet on, nothing else is sent.
    - If it does, everything else is what becomes of the packet in the next table,
      and the packet arrives there unchanged but for what the rule rewrites.
    - Without a deciding rule nothing is sent. *)
Definition verdict (on : bool -> packet -> list emission -> Prop) (live : Z -> bool)
           (P : rule -> Prop) (rs : list rule) (p : packet) (outcome : list emission -> Prop) : Prop :=
  (forall r, decides P rs r -> exists out,
     (forall n q, In (n, q) out -> In n (rule_ports r)) /\
     (~ rule_lets_on r -> forall es, outcome es <-> es = out) /\
     (rule_lets_on r -> exists force q,
        (force = true <-> rule_forces r) /\
        pk_in q = pk_in p /\
        (forall f, ~ In f (rule_sets r) -> pk_hdr q f = pk_hdr p f) /\
        (rule_retags r = false -> pk_tags q = pk_tags p) /\
        forall es, outcome es <-> exists es', on force q es' /\ es = out ++ es')) /\
  (undecided P rs -> forall es, outcome es <-> es = []).

(** ** Which ACLs are attached at present *)

(** Histories are lists of events, the latest first. *)
Fixpoint port_now (evs : list aevent) (n : Z) : option aport :=
  match evs with
  | [] => None
  | AConnect _ ps :: _ => find (fun p => ap_num p =? n) ps
  | APortUp p _ :: r | APortAcl p :: r => if ap_num p =? n then Some p else port_now r n
  | APortDown p :: r => if ap_num p =? n then None else port_now r n
  | AVlans _ _ :: r => port_now r n
  end.
Fixpoint vlan_now (evs : list aevent) (vid : Z) : option avlan :=
  match evs with
  | [] => None
  | AConnect vs _ :: _ => find (fun v => av_vid v =? vid) vs
  | AVlans gone new_ :: r =>
      match find (fun v => av_vid v =? vid) new_ with
      | Some v => Some v
      | None => if existsb (Z.eqb vid) gone then None else vlan_now r vid
      end
  | _ :: r => vlan_now r vid
  end.

Inductive spot := SPort (n : Z) | SVlanIn (vid : Z) | SVlanOut (vid : Z) | SDp.

Definition rules_of (acls : list acl) : list rule := flat_map al_rules acls.

(** the ACLs in force at a spot: a datapath with dp_acls uses no port ACLs, and
    output-only ports have none *)
Definition acls_at (am : amanager) (evs : list aevent) (sp : spot) : list acl :=
  match sp with
  | SPort n => match am_dp_acls am, port_now evs n with
               | [], Some p => if ap_output_only p then [] else ap_acls p
               | _, _ => []
               end
  | SVlanIn v => match vlan_now evs v with Some x => av_in x | None => [] end
  | SVlanOut v => match vlan_now evs v with Some x => av_out x | None => [] end
  | SDp => am_dp_acls am
  end.

(** ** The configurations considered *)

Definition vid_ok (v : Z) : Prop := 0 <= v < 4096.
(** no tunnel, and VLAN ids of 12 bits *)
Definition item_ok (i : out_item) : Prop :=
  match i with
  | OVid v | OSwap v => vid_ok v
  | OVids vs => Forall vid_ok vs
  | OTunnel _ | OGoto _ => False
  | OFailover g _ => g <> OFPG_ALL
  | _ => True
  end.
Definition unordered_ok (u : unordered) : Prop :=
  (forall v, u_vid u = Some v -> vid_ok v) /\ (forall v, u_swap u = Some v -> vid_ok v) /\
  (forall vs, u_vids u = Some vs -> Forall vid_ok vs) /\ u_tunnel u = None /\ u_goto u = None /\
  (forall g, u_failover u = Some g -> fst g <> OFPG_ALL).
(** a rule without connection tracking and tunnels, that names every field once *)
Definition rule_ok (r : rule) : Prop :=
  NoDup (map (fun a => snd (fst a)) (ru_attrs r)) /\
  forall a, ru_actions r = Some a ->
    ac_ct a = None /\
    match ac_output a with
    | None => True
    | Some (Ordered l) => Forall item_ok l
    | Some (Unordered u) => unordered_ok u
    end.
(** the failover groups of a rule *)
Definition failovers (r : rule) : list (Z * list Z) :=
  match ru_actions r with
  | None => []
  | Some a => match ac_output a with
              | None => []
              | Some (Ordered l) => flat_map (fun i => match i with OFailover g ns => [(g, ns)] | _ => [] end) l
              | Some (Unordered u) => match u_failover u with Some g => [g] | None => [] end
              end
  end.

(** The ACLs attached after a history: not exact-match, fewer rules than there are
    priorities above the default drop; no group id is used at two spots, or with two
    lists of ports. *)
Definition config_ok (am : amanager) (lowest : Z) (evs : list aevent) : Prop :=
  (forall sp, Forall (fun a => al_exact a = false) (acls_at am evs sp) /\
     Forall rule_ok (rules_of (acls_at am evs sp)) /\
     Z.of_nat (length (rules_of (acls_at am evs sp))) <= FILTER_PRIORITY - lowest) /\
  (forall sp1 sp2 r1 r2 g ns1 ns2,
     In r1 (rules_of (acls_at am evs sp1)) -> In r2 (rules_of (acls_at am evs sp2)) ->
     In (g, ns1) (failovers r1) -> In (g, ns2) (failovers r2) -> sp1 = sp2 /\ ns1 = ns2).

(** Which events happen: ports and VLANs are listed once; a port comes up with the
    configuration it has, if it is still there, and so do its VLANs; a changed VLAN
    is deleted before it is added; only a port that has ACLs, the first rule of
    which looks at more than the port, has its ACLs changed without a restart. *)
Definition vlan_id (v : Z) : Prop := 1 <= v < 4096.
Definition event_ok (evs : list aevent) (e : aevent) : Prop :=
  match e with
  | AConnect vs ps => NoDup (map av_vid vs) /\ NoDup (map ap_num ps) /\ Forall vlan_id (map av_vid vs)
  | APortUp p vs =>
      (forall q, port_now evs (ap_num p) = Some q -> q = p) /\
      (forall v, In v vs -> vlan_now evs (av_vid v) = Some v)
  | APortDown p => forall q, port_now evs (ap_num p) = Some q -> q = p
  | APortAcl p =>
      (forall q, port_now evs (ap_num p) = Some q -> ap_output_only q = ap_output_only p) /\
      ap_acls p <> [] /\
      (forall r rest, rules_of (ap_acls p) = r :: rest ->
         exists a, In a (ru_attrs r) /\ snd (fst a) <> InPort)
  | AVlans gone new_ =>
      NoDup (map av_vid new_) /\ Forall vlan_id gone /\ forall v, In v new_ -> In (av_vid v) gone
  end.

(** the ACL tables are different tables, and lie below OFPTT_ALL; the default
    drop has a priority below the rules' *)
Definition manager_ok (am : amanager) (lowest : Z) : Prop :=
  NoDup (map tb_id (opt_tables am)) /\ ~ In OFPTT_ALL (map tb_id (opt_tables am)) /\ 0 <= lowest < FILTER_PRIORITY.

(** the outermost tag of the packet *)
Definition in_vlan (v : Z) (p : packet) : Prop := exists pcp rest, pk_tags p = (v, pcp) :: rest.
Definition packet_ok (p : packet) : Prop := Forall (fun t => vid_ok (fst t)) (pk_tags p).

(** ** Histories of a switch

    [history am lowest evs s]: the switch is in state [s] after the events [evs].
    Whatever it held before it connected does not matter.  Each event's messages
    are reordered (for any order of the sets involved) and reach the switch as one
    batch. *)
Inductive history (am : amanager) (lowest : Z) : list aevent -> switch -> Prop :=
| hi_connect : forall s vs ps sh ub out,
    (forall l, Permutation (sh l) l) ->
    event_ok [] (AConnect vs ps) -> config_ok am lowest [AConnect vs ps] ->
    valve_flowreorder sh ub (abatch am lowest (AConnect vs ps)) = Some out ->
    history am lowest [AConnect vs ps] (apply_msgs out s)
| hi_event : forall evs s e sh ub out,
    history am lowest evs s ->
    (forall l, Permutation (sh l) l) ->
    (forall vs ps, e <> AConnect vs ps) ->
    event_ok evs e -> config_ok am lowest (e :: evs) ->
    valve_flowreorder sh ub (abatch am lowest e) = Some out ->
    history am lowest (e :: evs) (apply_msgs out s).
