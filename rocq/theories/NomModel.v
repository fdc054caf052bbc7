(** * LAGs over several switches of a stack

    valve_switch_stack.py 420-471 (get_lacp_dpid_nomination), valve_switch_standalone.py
    1257-1300 (get_lacp_dpid_nomination, lacp_update_port_selection_state), port.py 566-628
    (lacp_actor_update, lacp_port_update), dp.py 754-793 (lacp_ports, lags), valve.py 845-1004
    (ports_add, ports_delete, lacp_update), 1483-1505 (_lacp_state_expire),
    valves_manager.py 392-397 (_other_running_valves): which switch of a stack the ports of a
    LAG forward on.

    Left out: the rules sent (those of one switch are in L2Model.v), the LACP packets sent
    in reply, ports whose status the switch does not report (opstatus_reconf), reloads. *)

From Coq Require Import ZArith List Bool.
From Verif Require Import PyBase L2Model.
Import ListNotations.
Open Scope Z_scope.

(** ** Configurations *)

(** port.py: number, enabled, lacp (0: none), lacp_selected, lacp_unselected, lacp_standby *)
Record nport := mkNport { np_num : Z; np_enabled : bool; np_lag : Z;
                          np_force_sel : bool; np_force_unsel : bool; np_standby : bool }.
(** dp.py: dp_id, whether it has a stack, ports, lacp_timeout *)
Record nswitch := mkNswitch { ns_dpid : Z; ns_stacked : bool; ns_ports : list nport; ns_timeout : Z }.
Definition nconf := list nswitch.

(** ** States *)

(** dyn_running, the dp_id of the root of the stack, and of each port of each switch
    dyn_phys_up, the states of the actor and of the port, and dyn_lacp_updated_time *)
Record nstate := mkNstate {
  st_running : Z -> bool;
  st_root : option Z;
  st_phys : Z -> Z -> bool;
  st_actor : Z -> Z -> actor_state;
  st_role : Z -> Z -> port_role;
  st_time : Z -> Z -> option Z }.

(** dp.py 260, port.py 250-310 (initial values) *)
Definition nstate_init (root : option Z) : nstate :=
  mkNstate (fun _ => false) root (fun _ _ => false) (fun _ _ => ANotConfigured) (fun _ _ => RNotConfigured)
           (fun _ _ => None).

Definition put2 {A} (f : Z -> Z -> A) (d p : Z) (v : A) : Z -> Z -> A :=
  fun d' p' => if (d' =? d) && (p' =? p) then v else f d' p'.

Definition set_running (st : nstate) (d : Z) (b : bool) : nstate :=
  mkNstate (fun d' => if d' =? d then b else st_running st d') (st_root st) (st_phys st) (st_actor st) (st_role st)
           (st_time st).
Definition set_phys (st : nstate) (d p : Z) (b : bool) : nstate :=
  mkNstate (st_running st) (st_root st) (put2 (st_phys st) d p b) (st_actor st) (st_role st) (st_time st).
Definition set_actor (st : nstate) (d p : Z) (a : actor_state) (now : option Z) : nstate :=
  mkNstate (st_running st) (st_root st) (st_phys st) (put2 (st_actor st) d p a) (st_role st)
           (put2 (st_time st) d p now).
Definition set_role (st : nstate) (d p : Z) (r : port_role) : nstate :=
  mkNstate (st_running st) (st_root st) (st_phys st) (st_actor st) (put2 (st_role st) d p r) (st_time st).
Definition set_root (st : nstate) (r : option Z) : nstate :=
  mkNstate (st_running st) r (st_phys st) (st_actor st) (st_role st) (st_time st).

(** ** LAGs *)

(** dp.py 754-793: the ports that have LACP and are up, and not in sync, by LAG *)
Definition lags (ports : list nport) : list (Z * list nport) :=
  fold_left (fun d p => dict_put Z.eqb (np_lag p)
                          (match dict_get Z.eqb (np_lag p) d with Some l => l ++ [p] | None => [p] end) d) ports [].
Definition lacp_ports (s : nswitch) : list nport := filter (fun p => negb (np_lag p =? 0)) (ns_ports s).
Definition is_actor_up (st : nstate) (s : nswitch) (p : nport) : bool :=
  match st_actor st (ns_dpid s) (np_num p) with AUp => true | _ => false end.
Definition is_actor_nosync (st : nstate) (s : nswitch) (p : nport) : bool :=
  match st_actor st (ns_dpid s) (np_num p) with ANoSync => true | _ => false end.
Definition lags_up (st : nstate) (s : nswitch) : list (Z * list nport) :=
  lags (filter (is_actor_up st s) (lacp_ports s)).
Definition lags_nosync (st : nstate) (s : nswitch) : list (Z * list nport) :=
  lags (filter (is_actor_nosync st s) (lacp_ports s)).

(** ** Nomination *)

(** What is nominated: nothing, a dp_id, or a list of them, which is like no dp_id. *)
Inductive nomination := NoOne | One (dpid : Z) | Several (dpids : list Z).

(** valve_switch_stack.py 437-451: how many ports are up, and not in sync, by dp_id.
    [setdefault] keeps what there is. *)
Definition count_ports (st : nstate) (lag : Z) (d : list (Z * Z)) (s : nswitch) : list (Z * Z) :=
  let d1 := match dict_get Z.eqb lag (lags_up st s) with
            | Some l => dict_put Z.eqb (ns_dpid s) (Z.of_nat (length l)) d
            | None => d
            end in
  fold_left (fun d' _ => match dict_get Z.eqb (ns_dpid s) d' with
                         | Some _ => d'
                         | None => dict_put Z.eqb (ns_dpid s) 0 d'
                         end) (lags_nosync st s) d1.
Definition count_nosync (st : nstate) (d : list (Z * Z)) (s : nswitch) : list (Z * Z) :=
  fold_left (fun d' l => dict_put Z.eqb (ns_dpid s) (Z.of_nat (length (snd l))) d') (lags_nosync st s) d.
Definition is_root (st : nstate) (s : nswitch) : bool :=
  match st_root st with Some r => r =? ns_dpid s | None => false end.
Definition root_dpid (st : nstate) (all : list nswitch) : option Z :=
  fold_left (fun r s => if is_root st s then Some (ns_dpid s) else r) all None.

Definition get0 (k : Z) (d : list (Z * Z)) : Z := match dict_get Z.eqb k d with Some n => n | None => 0 end.
(** the order of pairs of numbers *)
Definition pair_le (a b : Z * Z) : bool := (fst a <? fst b) || ((fst a =? fst b) && (snd a <=? snd b)).

(** valve_switch_stack.py 452-471.  The code goes through a set; [all] is its members in the
    order it happens to have. *)
Definition nominate_of (st : nstate) (lag : Z) (all : list nswitch) : nomination :=
  let ports := fold_left (count_ports st lag) all [] in
  let no_sync := fold_left (count_nosync st) all [] in
  let key := fun k => (get0 k ports, get0 k no_sync) in
  match py_sorted (fun a b => pair_le (key b) (key a)) (map fst ports) with
  | [] => NoOne
  | most :: _ =>
      let mosts := map fst (filter (fun kv => snd kv =? get0 most ports) ports) in
      if Nat.ltb 1 (length mosts) then
        match root_dpid st all with
        | Some r => if mem Z.eqb r mosts then One r else Several (py_sorted Z.leb mosts)
        | None => Several (py_sorted Z.leb mosts)
        end
      else One most
  end.

(** valve_switch_stack.py 420-436 on switches of the stack, valve_switch_standalone.py
    1257-1273 on others *)
Definition nominate (st : nstate) (lag : Z) (v : nswitch) (others : list nswitch) : nomination :=
  if ns_stacked v then
    match others with
    | [] => NoOne
    | _ => nominate_of st lag (v :: filter ns_stacked others)
    end
  else One (ns_dpid v).

(** valves_manager.py 392-397 *)
Definition others (cfg : nconf) (st : nstate) (d : Z) : list nswitch :=
  filter (fun s => negb (ns_dpid s =? d) && st_running st (ns_dpid s)) cfg.

(** ** Ports *)

(** port.py 493-495 *)
Definition port_running (st : nstate) (s : nswitch) (p : nport) : bool :=
  np_enabled p && st_phys st (ns_dpid s) (np_num p).
(** port.py 566-598, not cold starting *)
Definition next_actor (st : nstate) (s : nswitch) (p : nport) (lacp_up has_pkt : bool) : actor_state :=
  if negb (port_running st s p) then ANone
  else if negb has_pkt then AInit
  else if lacp_up then AUp else ANoSync.
(** port.py 600-628, not cold starting *)
Definition next_role (p : nport) (selected : bool) : port_role :=
  if np_force_sel p then RSelected
  else if np_force_unsel p then RUnselected
  else if selected then RSelected
  else if np_standby p then RStandby
  else RUnselected.
(** valve_switch_standalone.py 1275-1300 *)
Definition selected (st : nstate) (s : nswitch) (p : nport) (os : list nswitch) : bool :=
  match nominate st (np_lag p) s os with One d => ns_dpid s =? d | _ => false end.
(** valve.py 958-1004.  What cold starting sets is set again at once. *)
Definition lacp_update (st : nstate) (s : nswitch) (p : nport) (lacp_up has_pkt : bool) (now : option Z)
    (os : list nswitch) : nstate :=
  let st1 := set_actor st (ns_dpid s) (np_num p) (next_actor st s p lacp_up has_pkt) now in
  set_role st1 (ns_dpid s) (np_num p) (next_role p (selected st1 s p os)).

(** valve.py 857-874: no other switches are given *)
Definition port_add (s : nswitch) (st : nstate) (n : Z) : nstate :=
  match find (fun p => np_num p =? n) (ns_ports s) with
  | None => st
  | Some p =>
      let st1 := set_phys st (ns_dpid s) n true in
      if port_running st1 s p && negb (np_lag p =? 0) then lacp_update st1 s p false false None [] else st1
  end.
(** valve.py 904-924 *)
Definition port_delete (s : nswitch) (os : list nswitch) (st : nstate) (n : Z) : nstate :=
  match find (fun p => np_num p =? n) (ns_ports s) with
  | None => st
  | Some p =>
      let st1 := set_phys st (ns_dpid s) n false in
      if negb (np_lag p =? 0) then lacp_update st1 s p false false None os else st1
  end.
(** valve.py 1493-1504; the ports are those up at first *)
Definition expire_port (s : nswitch) (os : list nswitch) (now : Z) (st : nstate) (p : nport) : nstate :=
  match st_time st (ns_dpid s) (np_num p) with
  | Some t => if now - t >? ns_timeout s then lacp_update st s p false false (Some now) os else st
  | None => st
  end.
Definition lacp_expire (s : nswitch) (os : list nswitch) (now : Z) (st : nstate) : nstate :=
  fold_left (expire_port s os now) (flat_map snd (lags_up st s)) st.

(** ** Events *)

Inductive nevent :=
| NConnect (d : Z) (up : list Z)             (* valve.py 804-820, with the ports that are up *)
| NDisconnect (d : Z)                        (* valve.py 822-829 *)
| NPortUp (d n : Z)                          (* valve.py 641-708 *)
| NPortDown (d n : Z)
| NLacp (d n : Z) (sync : bool) (now : Z)    (* valve_switch_standalone.py 1302-1356 *)
| NExpire (d : Z) (now : Z)                  (* valve.py 1507-1518 *)
| NRoot (r : option Z).                      (* a root is elected *)

(** packets and port status are taken from running switches only (faucet.py 227-250, 289,
    401, 416) *)
Definition nstep (cfg : nconf) (st : nstate) (e : nevent) : nstate :=
  match e with
  | NRoot r => set_root st r
  | NConnect d _ | NDisconnect d | NPortUp d _ | NPortDown d _ | NLacp d _ _ _ | NExpire d _ =>
      match find (fun s => ns_dpid s =? d) cfg with
      | None => st
      | Some s =>
          match e with
          | NConnect _ up => set_running (fold_left (port_add s) up st) d true
          | NDisconnect _ => fold_left (port_delete s []) (map np_num (ns_ports s)) (set_running st d false)
          | NPortUp _ n => if st_running st d && negb (st_phys st d n) then port_add s st n else st
          | NPortDown _ n => if st_running st d && st_phys st d n then port_delete s (others cfg st d) st n else st
          | NLacp _ n sync now =>
              if st_running st d then
                match find (fun p => np_num p =? n) (ns_ports s) with
                | Some p => if np_lag p =? 0 then st else lacp_update st s p sync true (Some now) (others cfg st d)
                | None => st
                end
              else st
          | NExpire _ now => if st_running st d then lacp_expire s (others cfg st d) now st else st
          | NRoot _ => st
          end
      end
  end.
Definition nrun (cfg : nconf) (st : nstate) (es : list nevent) : nstate := fold_left (nstep cfg) es st.
