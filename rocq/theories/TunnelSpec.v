(** * What a tunnel is, and the networks considered *)
From Coq Require Import ZArith List Bool Permutation.
From Verif Require Import PyBase OpenFlow ReorderModel ReorderSpec TableModel AclModel AclSpec StackModel StackSpec TunnelModel.
Import ListNotations.
Open Scope Z_scope.

(** ** Frames on their way *)

(** A frame at the other end of a link, entering on port [n]. *)
Definition entering (n : Z) (p : packet) : packet := mkPacket n (pk_tags p) (pk_hdr p).
(** A frame with one more tag. *)
Definition tagged (vid pcp : Z) (p : packet) : packet := mkPacket (pk_in p) ((vid, pcp) :: pk_tags p) (pk_hdr p).

(** A frame that enters switch [x] as [pk] crosses [n] links and enters switch [y]
    as [pk'].  All that a switch on the way does with it is to send it, as it is,
    out of one port, which has a link that is up. *)
Inductive transits (f : fabric) (sw : Z -> switch) (live : Z -> Z -> bool) (first : Z -> Z)
  : nat -> Z -> packet -> Z -> packet -> Prop :=
| transits_here : forall x pk, transits f sw live first 0 x pk x pk
| transits_on : forall n x pk p y q z pk', link_up f x p y q ->
    (forall es, walk (sw x) (live x) (first x) pk es <-> es = [(sp_no p, pk)]) ->
    transmit (pk_in pk) (sp_no p, pk) = Some (sp_no p, pk) ->
    transits f sw live first n y (entering (sp_no q) pk) z pk' ->
    transits f sw live first (S n) x pk z pk'.

(** ** The states of a switch *)

(** The ACLs with tunnels, with the rules remembered for them, and the flows. *)
Record tworld := mkTworld { tw_acls : list (tacl * dyn); tw_sw : switch }.

Section Run.
  (** A switch, its settings, the numbers of its stack ports, the ACLs. *)
  Variables (c : tconf) (stack_ports : list Z) (ls : list tacl) (name : Z).
  Let t := tb_id (tc_table c).

  (** Whatever else is sent to the switch: in the table of the port ACLs it adds
      only rules of ordinary priority, or rules for a port that is not a stack port
      (802.1X). *)
  Definition ordinary (ms : list ofmsg) : Prop :=
    forall w, In (FlowMod w) ms -> fm_cmd w <> FModify /\
      (fm_cmd w = FAdd -> fm_table w = t ->
       fm_prio w < OVERRIDE_PRIORITY \/ exists n, In (exact InPort n) (fm_match w) /\ ~ In n stack_ports).

  Inductive tother : tworld -> tworld -> Prop :=
  | tother_batch : forall w ms sh ub out, ordinary ms -> (forall l, Permutation (sh l) l) ->
      valve_flowreorder sh ub ms = Some out ->
      tother w (mkTworld (tw_acls w) (apply_msgs out (tw_sw w))).
  (** The tunnels are updated with the view [me] of the stack.  Other messages can
      come first in the batch: those of a port that goes up. *)
  Inductive tupdate (me : snode) : tworld -> tworld -> Prop :=
  | tupdate_batch : forall w acls' pre ms sh ub out, add_tunnel_acls c me (tw_acls w) = (acls', Some ms) ->
      ordinary pre -> (forall l, Permutation (sh l) l) ->
      (forall a b, In (FlowMod a) (pre ++ ms) -> In (FlowMod b) ms -> is_flow_write (FlowMod a) = true -> is_flow_write (FlowMod b) = true ->
         same_flow_slot a b -> fm_cookie a = fm_cookie b) ->
      valve_flowreorder sh ub (pre ++ ms) = Some out ->
      tupdate me w (mkTworld acls' (apply_msgs out (tw_sw w))).

  Inductive treach : tworld -> Prop :=
  | treach_start : treach (mkTworld (map (fun l => (l, [])) ls) empty_switch)
  | treach_other : forall w w', treach w -> tother w w' -> treach w'
  | treach_update : forall me w w', treach w -> sn_name me = name -> tupdate me w w' -> treach w'.

  (** Messages that leave the tunnels alone: in the table of the port ACLs they are
      about ports that are neither stack ports nor sources of tunnels. *)
  Definition source_ports : list Z :=
    flat_map (fun l => flat_map (fun s => if ts_dp s =? name then match ts_port s with Some n => [n] | None => [] end else [])
                         (tl_sources l)) ls.
  Definition quiet (ms : list ofmsg) : Prop :=
    (forall w, In (FlowMod w) ms -> fm_cmd w <> FModify /\ fm_table w <> OFPTT_ALL /\
      (fm_table w = t -> exists n, In (exact InPort n) (fm_match w) /\ ~ In n stack_ports /\ ~ In n source_ports)) /\
    (forall id b, ~ In (MeterMod MDelete id b) ms).

  (** The switch, after any history, has updated its tunnels with the view [me], and
      has been left alone since. *)
  Inductive up_to_date (me : snode) : tworld -> Prop :=
  | up_to_date_now : forall w w', treach w -> tupdate me w w' -> up_to_date me w'
  | up_to_date_still : forall w ms sh ub out, up_to_date me w -> quiet ms -> (forall l, Permutation (sh l) l) ->
      valve_flowreorder sh ub ms = Some out ->
      up_to_date me (mkTworld (tw_acls w) (apply_msgs out (tw_sw w))).
End Run.

(** ** Networks *)

(** The switches agree about the stack, and every one is up to date; they are
    configured with the same tunnels, and a tunnel id means one tunnel. *)
Record tunnel_net (f : fabric) (root : Z) (ls : list tacl) (cf : Z -> tconf) (sw : Z -> switch) : Prop := {
  tn_agreed : agreed f root;
  tn_running : forall s p, In s f -> In p (sn_ports s) -> sp_running p = sp_up p;
  tn_numbers : forall s p, In s f -> In p (sn_ports s) -> 0 < sp_no p <= OFPP_MAX;
  tn_tables : forall x, tb_id (tc_table (cf x)) <> OFPTT_ALL;
  tn_state : forall s, In s f -> exists w,
    up_to_date (cf (sn_name s)) (map sp_no (sn_ports s)) ls (sn_name s) s w /\ tw_sw w = sw (sn_name s);
  tn_ids : forall l d, In l ls -> In d (tl_dests l) -> 0 <= td_id d < 4096;
  tn_meaning : forall l d l' d', In l ls -> In d (tl_dests l) -> In l' ls -> In d' (tl_dests l') -> td_id d = td_id d' -> d = d';
  tn_one_way : forall l d, In l ls -> In d (tl_dests l) -> td_reverse d = true -> td_bidir d = false;
  (** Every rule names a field once. *)
  tn_once : forall l r, In l ls -> In r (al_rules (tl_acl l)) -> NoDup (map (fun a => snd (fst a)) (ru_attrs r))
}.

(** ** Sources *)

(** The rules that are in force where the source [s] of the tunnels of [l] is. *)
Definition rules_at (c : tconf) (l : tacl) (s : tsource) : list rule :=
  match ts_port s with Some _ => al_rules (tl_acl l) | None => rules_of (am_dp_acls (tc_am c)) end.
(** The rule [r] is at position [i], and at none before. *)
Definition first_at (r : rule) (i : nat) (rs : list rule) : Prop :=
  nth_error rs i = Some r /\ forall j, (j < i)%nat -> nth_error rs j <> Some r.
(** The ACL [l] of the source is the only one with tunnels that start there: at the
    port [n], or, for dp_acls, at the datapath. *)
Definition alone (c : tconf) (ls : list tacl) (l : tacl) (s : tsource) : Prop :=
  match ts_port s with
  | Some n => am_dp_acls (tc_am c) = [] /\ al_exact (tl_acl l) = false /\
      forall l' s', In l' ls -> In s' (tl_sources l') -> ts_dp s' = ts_dp s -> ts_port s' <> None /\ (ts_port s' = ts_port s -> l' = l)
  | None => In (tl_acl l) (am_dp_acls (tc_am c)) /\
      forall l' s', In l' ls -> In s' (tl_sources l') -> ts_dp s' = ts_dp s -> s' = s /\ l' = l
  end.
(** Every field is named once. *)
Definition fields_once (r : rule) : Prop := NoDup (map (fun a => snd (fst a)) (ru_attrs r)).
(** The rule says nothing about the input port itself. *)
Definition any_port (r : rule) : Prop := forall o x, ~ In ((o, InPort), x) (ru_attrs r).

(** The entry of a rule: its match is that of the rule (for the port of the source),
    its priority goes down with the position of the rule.  [decides_at]: the frame
    matches it, and matches no other entry of that priority or above. *)
Definition entry_match (s : tsource) (r : rule) : fmatch := match_from_dict (place_match (ts_port s) None (ru_attrs r)).
Definition decides_at (w : switch) (t : Z) (s : tsource) (r : rule) (i : nat) (pk : packet) : Prop :=
  match ts_port s with Some n => pk_in pk = n /\ rule_covers (Some InPort) pk r | None => rule_covers None pk r end /\
  forall e, In e (sw_flows w) -> f_table e = t -> matches pk (f_match e) = true -> FILTER_PRIORITY - Z.of_nat i <= f_prio e ->
    f_prio e = FILTER_PRIORITY - Z.of_nat i /\ f_match e = entry_match s r.

(** The rule's output is a tunnel and nothing else; the packet may also be allowed
    or metered. *)
Definition only_tunnel (r : rule) (tid : Z) : Prop :=
  exists a, ru_actions r = Some a /\ ac_mirror a = None /\ ac_ct a = None /\
    (ac_output a = Some (Ordered [OTunnel tid]) \/
     ac_output a = Some (Unordered (mkUnordered None None None None None None None None (Some tid) None))).
(** Where an allowed packet goes on. *)
Definition goes_on (c : tconf) (r : rule) : option Z :=
  match ru_actions r with
  | None => None
  | Some a => match ac_allow a with
              | Some 1 => Some (match ac_force a with Some 1 => am_to_l2 (tc_am c) | _ => am_to_vlan (tc_am c) end)
              | _ => None
              end
  end.
(** What is sent for a frame that goes on in table [o] (or nowhere) as [pk]. *)
Definition then_ (s : switch) (live : Z -> bool) (o : option Z) (pk : packet) (es : list emission) : Prop :=
  match o with Some t => walk s live t pk es | None => es = [] end.

(** Exit instructions without failover groups, tunnels and large VLAN ids. *)
Definition exit_ok (d : tdest) : Prop :=
  Forall (fun i => item_ok i /\ match i with OFailover _ _ => False | _ => True end) (td_exit d).

(** The end of a tunnel: the exit instructions are carried out; then the frame leaves
    through the port of the destination or, if that is a datapath, is switched as
    usual, from the output table on. *)
Definition handed_over (s : switch) (live : Z -> bool) (c : tconf) (d : tdest) (pk : packet) (es : list emission) : Prop :=
  match td_port d with
  | Some n => es = fst (perform live (td_exit d ++ [OPort n]) pk)
  | None => exists es', walk s live (tc_output c) (snd (perform live (td_exit d) pk)) es' /\
                        es = fst (perform live (td_exit d) pk) ++ es'
  end.
(** The frame after the tunnel, before the exit instructions. *)
Definition emerging (d : tdest) (pk : packet) : packet :=
  if td_maintain d then tagged (td_id d) (pcp_of d) pk else pk.

(** The end of the way back, at the source. *)
Definition handed_back (w : switch) (live : Z -> bool) (c : tconf) (s : tsource) (pk : packet) (es : list emission) : Prop :=
  match ts_port s with Some n => es = [(n, pk)] | None => walk w live (tc_output c) pk es end.

(** No rule of the switch for the port of the frame takes precedence over tunnels
    (as rules of 802.1X do). *)
Definition not_overridden (w : switch) (t : Z) (pk : packet) : Prop :=
  forall e, In e (sw_flows w) -> f_table e = t -> In (exact InPort (pk_in pk)) (f_match e) -> f_prio e < OVERRIDE_PRIORITY.
