(** * The LACP frames sent to partners

    Transcription of [lacp_req_reply], [lacp_handler] and [lacp_advertise]
    (/repo/faucet/valve_switch_standalone.py 1189-1252, 1307-1375, 586-591), of
    [lacp_reqreply] (/repo/faucet/valve_packet.py 405-491), of [get_lacp_flags] and
    [lacp_actor_update] (/repo/faucet/port.py 567-598, 630-642), and of the choice of
    port IDs (/repo/faucet/dp.py 1355-1359).

    Simplifications: how roles are chosen is in [NomModel]: here every event may leave
    any roles behind.  Frames are kept as records of the fields of ryu's [slow.lacp];
    two packets print alike ([str]) when all fields agree.  Times and the answering
    interval are whole numbers of one unit.  No configuration is loaded meanwhile.  *)
From Coq Require Import List Bool ZArith.
From Verif Require Import PyBase L2Model.
Import ListNotations.
Open Scope Z_scope.

(** What a [slow.lacp] packet says of one of the two ends (valve_packet.py 460-488). *)
Record side := mkSide {
  sd_system : Z; sd_system_priority : Z; sd_key : Z; sd_port : Z; sd_port_priority : Z;
  sd_activity : Z; sd_timeout : Z; sd_aggregation : Z; sd_synchronization : Z;
  sd_collecting : Z; sd_distributing : Z; sd_defaulted : Z; sd_expired : Z }.
Record pdu := mkPdu { pd_version : Z; pd_actor : side; pd_partner : side }.
(** A frame carrying such a packet; [fr_vid]: its VLAN tag, if any. *)
Record lframe := mkLframe { fr_src : Z; fr_dst : Z; fr_vid : option Z; fr_type : Z; fr_pdu : pdu }.

Definition pdu_eq_dec : forall a b : pdu, {a = b} + {a <> b}.
Proof. repeat decide equality. Defined.
(** valve_switch_standalone.py 1337-1339: [str(a) != str(b)] *)
Definition pdu_eqb (a b : pdu) : bool := if pdu_eq_dec a b then true else false.

(** ryu's slow.SLOW_PROTOCOL_MULTICAST (01:80:c2:00:00:02) and ETH_TYPE_SLOW *)
Definition slow_multicast : Z := 1652522221570.
Definition eth_type_slow : Z := 34825.

(** valve_packet.py 405-491, arguments in the order of the code *)
Definition lacp_reqreply (eth_src actor_system actor_key actor_port actor_port_priority
    actor_state_synchronization actor_state_activity actor_state_collecting actor_state_distributing
    partner_system partner_key partner_port partner_system_priority partner_port_priority
    partner_state_defaulted partner_state_expired partner_state_timeout partner_state_collecting
    partner_state_distributing partner_state_aggregation partner_state_synchronization
    partner_state_activity : Z) : lframe :=
  {| fr_src := eth_src; fr_dst := slow_multicast; fr_vid := None; fr_type := eth_type_slow;
     fr_pdu :=
       {| pd_version := 1;
          pd_actor :=
            {| sd_system := actor_system; sd_system_priority := 65535; sd_key := actor_key;
               sd_port := actor_port; sd_port_priority := actor_port_priority;
               sd_activity := actor_state_activity; sd_timeout := 1; sd_aggregation := 1;
               sd_synchronization := actor_state_synchronization;
               sd_collecting := actor_state_collecting; sd_distributing := actor_state_distributing;
               sd_defaulted := 0; sd_expired := 0 |};
          pd_partner :=
            {| sd_system := partner_system; sd_system_priority := partner_system_priority;
               sd_key := partner_key; sd_port := partner_port;
               sd_port_priority := partner_port_priority; sd_activity := partner_state_activity;
               sd_timeout := partner_state_timeout; sd_aggregation := partner_state_aggregation;
               sd_synchronization := partner_state_synchronization;
               sd_collecting := partner_state_collecting;
               sd_distributing := partner_state_distributing;
               sd_defaulted := partner_state_defaulted; sd_expired := partner_state_expired |} |} |}.

(** The LACP options of a port (port.py 108-127); [lp_id] as [port_ids] leaves it. *)
Record lport := mkLport { lp_num : Z; lp_lag : Z; lp_active : bool; lp_collect : bool; lp_id : Z;
  lp_priority : Z; lp_interval : Z; lp_passthrough : list Z }.
(** The switch: its MAC address and its ports. *)
Record lconf := mkLconf { lc_mac : Z; lc_ports : list lport }.

(** port.py 265-281: [running()], [dyn_lacp_up], [dyn_last_lacp_pkt],
    [dyn_lacp_last_resp_time] and [dyn_lacp_port_selected] of every port *)
Record pstate := mkPstate { ls_running : Z -> bool; ls_up : Z -> bool; ls_last : Z -> option pdu;
  ls_resp : Z -> option Z; ls_role : Z -> port_role }.
Definition pstate_init : pstate :=
  {| ls_running := fun _ => false; ls_up := fun _ => false; ls_last := fun _ => None;
     ls_resp := fun _ => None; ls_role := fun _ => RNotConfigured |}.
Definition putf {A} (f : Z -> A) (n : Z) (v : A) : Z -> A := fun m => if m =? n then v else f m.

(** port.py 630-642 *)
Definition get_lacp_flags (p : lport) (role : port_role) : Z * Z * Z :=
  if lp_collect p then (1, 1, 1) else
  match role with
  | RStandby => (1, 0, 0)
  | RSelected => (1, 1, 1)
  | _ => (0, 0, 0)
  end.

(** What handling an event comes to: frames sent, each with the port it is sent to, or
    an AttributeError. *)
Inductive outcome := Sent (frames : list (Z * lframe)) | Crashed.

Definition find_port (cfg : lconf) (n : Z) : option lport :=
  find (fun p => lp_num p =? n) (lc_ports cfg).

(** valve_switch_standalone.py 1201-1209: [None]: all peers are up; [Some Crashed]: a
    peer is not a port of this switch, and has no [dyn_lacp_up] *)
Fixpoint suppressed (cfg : lconf) (st : pstate) (peers : list Z) : option outcome :=
  match peers with
  | [] => None
  | m :: rest =>
      match find_port cfg m with
      | None => Some Crashed
      | Some _ => if ls_up st m then suppressed cfg st rest else Some (Sent [])
      end
  end.

(** valve_switch_standalone.py 1189-1252 *)
Definition lacp_req_reply (cfg : lconf) (st : pstate) (lacp_pkt : option pdu) (p : lport) : outcome :=
  match suppressed cfg st (lp_passthrough p) with
  | Some o => o
  | None =>
      let activity := if lp_active p then 1 else 0 in
      let '(sync, col, dist) := get_lacp_flags p (ls_role st (lp_num p)) in
      let pkt :=
        match lacp_pkt with
        | Some k =>
            let a := pd_actor k in
            lacp_reqreply (lc_mac cfg) (lc_mac cfg) (lp_lag p) (lp_id p) (lp_priority p)
              sync activity col dist
              (sd_system a) (sd_key a) (sd_port a) (sd_system_priority a) (sd_port_priority a)
              (sd_defaulted a) (sd_expired a) (sd_timeout a) (sd_collecting a) (sd_distributing a)
              (sd_aggregation a) (sd_synchronization a) (sd_activity a)
        | None =>
            lacp_reqreply (lc_mac cfg) (lc_mac cfg) (lp_lag p) (lp_id p) (lp_priority p)
              sync activity col dist 0 0 0 0 0 0 0 0 0 0 0 0 0
        end in
      Sent [(lp_num p, pkt)]
  end.

(** port.py 567-598 and the role chosen after it (valve.py 958-1004): [roles] are those
    left behind *)
Definition lacp_update (st : pstate) (n : Z) (up : bool) (pkt : option pdu) (roles : Z -> port_role) : pstate :=
  {| ls_running := ls_running st; ls_up := putf (ls_up st) n up; ls_last := putf (ls_last st) n pkt;
     ls_resp := ls_resp st; ls_role := roles |}.
Definition set_resp (st : pstate) (n now : Z) : pstate :=
  {| ls_running := ls_running st; ls_up := ls_up st; ls_last := ls_last st;
     ls_resp := putf (ls_resp st) n (Some now); ls_role := ls_role st |}.

(** valve_switch_standalone.py 1332-1341: whether a packet is to be answered *)
Definition due (st : pstate) (p : lport) (now : Z) (k : pdu) : bool :=
  let age :=
    match ls_resp st (lp_num p) with
    | Some t => if t =? 0 then None else Some (now - t)
    | None => None
    end in
  let change := match ls_last st (lp_num p) with None => true | Some q => negb (pdu_eqb k q) end in
  change || match age with Some a => a >? lp_interval p | None => false end.

(** valve_switch_standalone.py 1307-1356 (what follows only logs); the frame's contents
    were parsed as LACP *)
Definition lacp_handler (cfg : lconf) (st : pstate) (now n : Z) (f : lframe) (roles : Z -> port_role)
  : pstate * outcome :=
  match find_port cfg n with
  | None => (st, Sent [])
  | Some p =>
      if (fr_dst f =? slow_multicast) && (fr_type f =? eth_type_slow) && negb (lp_lag p =? 0) then
        let k := fr_pdu f in
        let up := negb (sd_synchronization (pd_actor k) =? 0) in
        if due st p now k then
          match lacp_req_reply cfg st (Some k) p with
          | Crashed => (st, Crashed)
          | Sent l => (lacp_update (set_resp st n now) n up (Some k) roles, Sent l)
          end
        else (lacp_update st n up (Some k) roles, Sent [])
      else (st, Sent [])
  end.

(** valve_switch_standalone.py 586-591 *)
Definition lacp_advertise (cfg : lconf) (st : pstate) (p : lport) : outcome :=
  if ls_running st (lp_num p) && lp_active p
  then lacp_req_reply cfg st (ls_last st (lp_num p)) p else Sent [].

(** What can happen to the ports of a switch: an LACP frame; LACP started afresh on a
    port as it comes up, goes down or hears nothing for too long (valve.py 866-868,
    915-917, 1493-1504); the time to advertise on a port (valve.py 772-773,
    valve_switch_standalone.py 627); and other events that change roles or which ports
    run. *)
Inductive levent :=
| LFrame (now n : Z) (f : lframe) (roles : Z -> port_role)
| LReset (n : Z) (roles : Z -> port_role)
| LAdvertise (n : Z)
| LChange (running : Z -> bool) (roles : Z -> port_role).

Definition pstep (cfg : lconf) (st : pstate) (e : levent) : pstate * outcome :=
  match e with
  | LFrame now n f roles => lacp_handler cfg st now n f roles
  | LReset n roles => (lacp_update st n false None roles, Sent [])
  | LAdvertise n =>
      match find_port cfg n with
      | Some p => (st, if negb (lp_lag p =? 0) then lacp_advertise cfg st p else Sent [])
      | None => (st, Sent [])
      end
  | LChange running roles =>
      ({| ls_running := running; ls_up := ls_up st; ls_last := ls_last st; ls_resp := ls_resp st;
          ls_role := roles |}, Sent [])
  end.

(** The history: each event with what it led to. *)
Definition entry : Type := levent * outcome.
Fixpoint ptrace (cfg : lconf) (st : pstate) (es : list levent) : list entry * pstate :=
  match es with
  | [] => ([], st)
  | e :: rest =>
      let '(st1, o) := pstep cfg st e in
      let '(l, st2) := ptrace cfg st1 rest in
      ((e, o) :: l, st2)
  end.

(** dp.py 1355-1359: the IDs of the ports of the switch at place [index] of the
    configuration, [-1] meaning none was configured *)
Definition port_id (index : Z) (p : lport) : Z :=
  if negb (lp_lag p =? 0) && (lp_id p =? -1) then index * 100 + lp_num p else lp_id p.
